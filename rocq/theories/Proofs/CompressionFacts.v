From Coq Require Import String ZArith List Bool Lia.
From Verif.Model Require Import Base Compression.
From Verif.Spec Require Import ZlibContract.
From Verif.Proofs Require Import BaseFacts.
Import ListNotations.
Open Scope Z_scope.

Lemma prefix_refl : forall {A} (a : list A), prefix a a.
Proof. intros; exists []; now rewrite app_nil_r. Qed.

Lemma prefix_nil : forall {A} (a : list A), prefix [] a.
Proof. intros A a; now exists a. Qed.

Lemma prefix_app : forall {A} (a b : list A), prefix a (a ++ b).
Proof. intros A a b; now exists b. Qed.

Lemma prefix_len : forall {A} (a b : list A), prefix a b -> zlen a <= zlen b.
Proof. intros A a b [c ->]. rewrite zlen_app. pose proof (zlen_nonneg c). lia. Qed.

Lemma prefix_ztake : forall {A} n (a : list A), prefix (ztake n a) a.
Proof. intros A n a. exists (zdrop n a). symmetry. apply ztake_zdrop. Qed.

Lemma BUFFER_pos : 0 < BUFFER_SIZE.
Proof. reflexivity. Qed.

Section Facts.
Variable z : zlib.
Variable ZS : list Z -> list Z -> Prop.
Hypothesis Hz : zlib_ok z ZS.

(** The compression loop, from any legal state, ends and completes the stream. *)
Lemma compress_loop_deflated : forall level fuel st inp0 acc chunk,
  (d_run z level st inp0 acc None \/ d_run z level st inp0 acc (Some chunk)) ->
  bytes_ok chunk -> bytes_ok acc ->
  (d_measure z st chunk < fuel)%nat ->
  exists out, compress_loop z fuel st chunk acc = Ret out
    /\ deflated z level (inp0 ++ chunk) out /\ bytes_ok out.
Proof.
  induction fuel as [|fuel IH]; intros st inp0 acc chunk Hrun Hok Hacc Hfuel; [lia|].
  cbn [compress_loop]. destruct (deflate z st chunk Z_FINISH BUFFER_SIZE) as [[st' rest] o] eqn:E.
  destruct (zk_deflate z ZS Hz _ _ _ _ _ _ _ BUFFER_pos E) as (Hle & Hob & (used & Hused) & Hrest & Hmeas).
  destruct (BUFFER_SIZE - zlen o =? 0) eqn:Ea.
  - apply Z.eqb_eq in Ea. assert (Ho : zlen o = BUFFER_SIZE) by lia. specialize (Hmeas Ho).
    assert (Hrun' : d_run z level st' (inp0 ++ used) (acc ++ o) (Some rest)).
    { destruct Hrun as [Hr|Hr].
      - eapply dr_finish with (chunk := chunk) (n := BUFFER_SIZE); eauto using BUFFER_pos.
      - eapply dr_more with (chunk := chunk) (n := BUFFER_SIZE); eauto using BUFFER_pos. }
    subst chunk. apply Forall_app in Hok as [Hok1 Hok2].
    destruct (IH st' (inp0 ++ used) (acc ++ o) rest (or_intror Hrun') Hok2
                 (proj2 (Forall_app _ _ _) (conj Hacc Hob)) ltac:(lia)) as (out & E1 & Hd & Hbo).
    exists out. rewrite E1. rewrite <- app_assoc in Hd. auto.
  - apply Z.eqb_neq in Ea. assert (Ho : zlen o < BUFFER_SIZE) by lia. specialize (Hrest Ho). subst rest.
    exists (acc ++ o). split; [reflexivity|]. split.
    + unfold deflated. exists st, inp0, acc, chunk, BUFFER_SIZE, st', o.
      repeat split; auto. 
    + apply Forall_app; auto.
Qed.

(** [compress]: any input below 4 GiB becomes a zlib stream of that input. *)
Lemma compress_ptr_stream : forall p level,
  -1 <= level <= 9 -> bytes_ok p ->
  exists out, compress_ptr z p (zlen p) level = Ret out
    /\ ZS out (ztake (zlen p mod two32) p) /\ bytes_ok out /\ out <> []
    /\ zlen out <= 2 * zlen p + 64.
Proof.
  intros p level Hl Hok. unfold compress_ptr, avail_in, to_u32.
  destruct (proj2 (zk_level z ZS Hz level) Hl) as [st Hst]. rewrite Hst.
  set (inp := ztake (zlen p mod two32) p).
  destruct (compress_loop_deflated level (S (d_measure z st inp)) st [] [] inp) as (out & E & Hd & Hb).
  - left. now apply dr_init.
  - now apply Forall_ztake.
  - constructor.
  - lia.
  - exists out. cbn [app] in Hd. pose proof (zk_stream z ZS Hz _ _ _ Hd) as HS.
    repeat split; auto.
    + eapply zk_nonempty; eauto.
    + pose proof (zk_bound z ZS Hz _ _ _ Hd). subst inp. rewrite zlen_ztake in H.
      pose proof (zlen_nonneg p). lia.
Qed.

(** [decompress] on a complete stream *)
Lemma decompress_loop_valid : forall strm data, ZS strm data ->
  forall fuel st c p c', i_run z st c p -> strm = c ++ c' -> prefix p data ->
  (i_measure z st c' < fuel)%nat ->
  decompress_loop z fuel st c' p = Ret data.
Proof.
  intros strm data HS. induction fuel as [|fuel IH]; intros st c p c' Hrun Hstrm Hp Hfuel; [lia|].
  cbn [decompress_loop].
  destruct (inflate z st c' BUFFER_SIZE) as [[[st' rest] o] ret] eqn:E.
  destruct (zk_inflate z ZS Hz _ _ _ _ _ _ _ BUFFER_pos E) as (Hle & Hob & _ & Hmeas).
  destruct (zk_valid z ZS Hz strm data HS st c p c' Hrun Hstrm c' BUFFER_SIZE st' rest o ret BUFFER_pos
              (or_introl (prefix_refl c')) Hp E) as (used & Hused & Hpre & Hpo & Hret & Hsmall & Hend).
  assert (Hnt : zlib_throws ret = None).
  { destruct Hret as [->|[->|[-> _]]]; reflexivity. }
  rewrite Hnt.
  destruct (BUFFER_SIZE - zlen o =? 0) eqn:Ea.
  - apply Z.eqb_eq in Ea. apply (IH st' (c ++ used) (p ++ o) rest).
    + eapply ir_step with (n := BUFFER_SIZE); eauto using BUFFER_pos.
    + rewrite Hstrm, Hused, app_assoc. reflexivity.
    + exact Hpo.
    + specialize (Hmeas ltac:(lia)). lia.
  - apply Z.eqb_neq in Ea. assert (Ho : zlen o < BUFFER_SIZE) by lia.
    specialize (Hend Ho (prefix_refl c')). subst ret.
    destruct Hret as [H|[H|(_ & _ & H)]]; try discriminate. now rewrite H.
Qed.

Lemma decompress_valid : forall strm data, ZS strm data -> zlen strm < two32 ->
  decompress z strm = Ret data.
Proof.
  intros strm data HS Hlen. unfold decompress.
  pose proof (zk_nonempty z ZS Hz _ _ HS) as Hne. destruct strm as [|b strm]; [congruence|].
  unfold avail_in, to_u32. rewrite Z.mod_small.
  2:{ pose proof (zlen_nonneg (b :: strm)). lia. }
  rewrite ztake_all by lia.
  eapply (decompress_loop_valid (b :: strm) data HS _ _ [] []).
  - apply ir_init.
  - reflexivity.
  - apply prefix_nil.
  - lia.
Qed.

(** [decompress] on arbitrary bytes: a result or an exception, no hang. *)
Lemma decompress_loop_total : forall fuel st inp acc,
  bytes_ok acc -> (i_measure z st inp < fuel)%nat ->
  (exists out, decompress_loop z fuel st inp acc = Ret out /\ bytes_ok out)
  \/ (exists e, decompress_loop z fuel st inp acc = Throw e).
Proof.
  induction fuel as [|fuel IH]; intros st inp acc Hacc Hf; [lia|].
  cbn [decompress_loop].
  destruct (inflate z st inp BUFFER_SIZE) as [[[st' rest] o] ret] eqn:E.
  destruct (zk_inflate z ZS Hz _ _ _ _ _ _ _ BUFFER_pos E) as (Hle & Hob & _ & Hmeas).
  destruct (zlib_throws ret) as [e|]; [right; eauto|].
  assert (Hao : bytes_ok (acc ++ o)) by (apply Forall_app; auto).
  destruct (BUFFER_SIZE - zlen o =? 0) eqn:Ea.
  - apply Z.eqb_eq in Ea. apply IH; auto. specialize (Hmeas ltac:(lia)). lia.
  - left. eauto.
Qed.

Lemma decompress_total : forall inp, inp <> [] ->
  (exists out, decompress z inp = Ret out /\ bytes_ok out) \/ (exists e, decompress z inp = Throw e).
Proof.
  intros [|b t] H; [congruence|]. unfold decompress.
  apply decompress_loop_total; [constructor|lia].
Qed.

(** Truncated input: no error, a prefix of the data. *)
Lemma decompress_loop_truncated : forall strm data, ZS strm data ->
  forall fuel st c p c', i_run z st c p -> prefix (c ++ c') strm -> prefix p data ->
  (i_measure z st c' < fuel)%nat ->
  exists out, decompress_loop z fuel st c' p = Ret out /\ prefix out data.
Proof.
  intros strm data HS. induction fuel as [|fuel IH]; intros st c p c' Hrun Hstrm Hp Hfuel; [lia|].
  cbn [decompress_loop].
  destruct (inflate z st c' BUFFER_SIZE) as [[[st' rest] o] ret] eqn:E.
  destruct (zk_inflate z ZS Hz _ _ _ _ _ _ _ BUFFER_pos E) as (Hle & Hob & _ & Hmeas).
  destruct Hstrm as [t Ht]. rewrite <- app_assoc in Ht.
  destruct (zk_valid z ZS Hz strm data HS st c p (c' ++ t) Hrun Ht c' BUFFER_SIZE st' rest o ret BUFFER_pos
              (or_introl (prefix_app c' t)) Hp E) as (used & Hused & Hpre & Hpo & Hret & Hsmall & Hend).
  assert (Hnt : zlib_throws ret = None).
  { destruct Hret as [->|[->|[-> _]]]; reflexivity. }
  rewrite Hnt.
  destruct (BUFFER_SIZE - zlen o =? 0) eqn:Ea.
  - apply Z.eqb_eq in Ea. apply (IH st' (c ++ used) (p ++ o) rest).
    + eapply ir_step with (n := BUFFER_SIZE); eauto using BUFFER_pos.
    + exists t. rewrite Ht, Hused, <- !app_assoc. reflexivity.
    + exact Hpo.
    + specialize (Hmeas ltac:(lia)). lia.
  - eauto.
Qed.

Lemma decompress_truncated : forall strm data inp, ZS strm data -> zlen strm < two32 ->
  prefix inp strm -> inp <> [] ->
  exists out, decompress z inp = Ret out /\ prefix out data.
Proof.
  intros strm data inp HS Hlen Hpre Hne. unfold decompress.
  destruct inp as [|b inp]; [congruence|].
  pose proof (prefix_len _ _ Hpre). unfold avail_in, to_u32. rewrite Z.mod_small.
  2:{ pose proof (zlen_nonneg (b :: inp)). lia. }
  rewrite ztake_all by lia.
  eapply (decompress_loop_truncated strm data HS _ _ [] []).
  - apply ir_init.
  - exact Hpre.
  - apply prefix_nil.
  - lia.
Qed.

End Facts.
