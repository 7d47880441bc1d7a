(** Stream to stream compression and decompression. *)
From Coq Require Import String ZArith List Bool Lia.
From Verif.Model Require Import Base Compression.
From Verif.Spec Require Import ZlibContract.
From Verif.Proofs Require Import BaseFacts CompressionFacts.
Import ListNotations.
Open Scope Z_scope.

(** [w] writes [bs] to a healthy stream and returns [a]. *)
Definition gemits {A} (w : writer A) (bs : list Z) (a : A) : Prop :=
  forall s, o_good s -> exists s', w s = (s', Ret a) /\ o_good s' /\ o_bytes s' = o_bytes s ++ bs.

Lemma gemits_ret : forall {A} (a : A), gemits (w_ret a) [] a.
Proof. intros A a s H. exists s. rewrite app_nil_r. auto. Qed.

Lemma gemits_bind : forall {A B} (m : writer A) (k : A -> writer B) bs cs a b,
  gemits m bs a -> gemits (k a) cs b -> gemits (w_bind m k) (bs ++ cs) b.
Proof.
  intros A B m k bs cs a b Hm Hk s Hs. unfold w_bind.
  destruct (Hm s Hs) as (s1 & E1 & Hs1 & Hb1). rewrite E1.
  destruct (Hk s1 Hs1) as (s2 & E2 & Hs2 & Hb2). rewrite E2.
  exists s2. rewrite Hb2, Hb1, app_assoc. auto.
Qed.

Lemma gemits_put_check : forall {A} bs (k : ostream -> ostream * outcome A) (e : exn) cs a,
  gemits k cs a ->
  gemits (w_seq (w_put bs) (fun os => if o_bad os then (os, Throw e) else k os)) (bs ++ cs) a.
Proof.
  intros A bs k e cs a Hk [b r bad] [Hr Hb]. cbn in Hr, Hb. subst.
  unfold w_seq, w_bind, w_put, os_write. cbn [o_bad o_room o_bytes].
  destruct (Hk (mk_ostream (b ++ bs) None false)) as (s' & E & Hg & Hbytes); [split; reflexivity|].
  exists s'. rewrite E. cbn in Hbytes. rewrite Hbytes, app_assoc. auto.
Qed.

Lemma gemits_put_last : forall {A} bs (e : exn) (a : A),
  gemits (w_seq (w_put bs) (fun os => if o_bad os then (os, Throw e) else w_ret a os)) bs a.
Proof.
  intros A bs e a. pose proof (gemits_put_check bs (w_ret a) e [] a (gemits_ret a)) as H.
  now rewrite app_nil_r in H.
Qed.

Lemma gemits_then : forall {A B} (m : writer A) (k : A -> writer B) bs a b,
  gemits m bs a -> gemits (k a) [] b -> gemits (w_bind m k) bs b.
Proof.
  intros A B m k bs a b Hm Hk. pose proof (gemits_bind m k bs [] a b Hm Hk) as H.
  now rewrite app_nil_r in H.
Qed.

Lemma match_nonempty : forall {A B} (l : list A) (x y : B), l <> [] ->
  match l with [] => x | _ :: _ => y end = y.
Proof. intros A B [|a l] x y H; congruence. Qed.

Lemma is_read_eof : forall n bs, 0 <= n -> zlen bs < n ->
  is_read n (i_open bs) = (bs, mk_istream [] true true).
Proof.
  intros n bs Hn H. unfold is_read. cbn [i_open i_good i_eof i_fail negb andb i_rest].
  rewrite ztake_all by lia. now rewrite (proj2 (Z.ltb_lt _ _)).
Qed.

Lemma is_read_more : forall n bs, 0 <= n -> n <= zlen bs ->
  is_read n (i_open bs) = (ztake n bs, i_open (zdrop n bs)).
Proof.
  intros n bs Hn H. unfold is_read. cbn [i_open i_good i_eof i_fail negb andb i_rest].
  rewrite zlen_ztake. rewrite (proj2 (Z.ltb_ge _ _)) by lia. reflexivity.
Qed.

Section Facts.
Variable z : zlib.
Variable ZS : list Z -> list Z -> Prop.
Hypothesis Hz : zlib_ok z ZS.

Lemma bytes_ok_app_r : forall a b : list Z, bytes_ok (a ++ b) -> bytes_ok b.
Proof. intros a b H. now apply Forall_app in H. Qed.

(** Feeding a chunk without flushing. *)
Lemma inner_feed : forall level fuel st inp out chunk,
  d_run z level st inp out None -> bytes_ok chunk -> (d_measure z st chunk < fuel)%nat ->
  exists st' o, gemits (compress_stream_inner z fuel Z_NO_FLUSH st chunk) o st'
    /\ d_run z level st' (inp ++ chunk) (out ++ o) None /\ bytes_ok o.
Proof.
  intros level. induction fuel as [|fuel IH]; intros st inp out chunk Hrun Hok Hf; [lia|].
  cbn [compress_stream_inner].
  destruct (deflate z st chunk Z_NO_FLUSH BUFFER_SIZE) as [[st1 rest] o] eqn:E.
  destruct (zk_deflate z ZS Hz _ _ _ _ _ _ _ BUFFER_pos E) as (Hle & Hob & [used Hu] & Hlt & Hfull).
  assert (Hrun1 : d_run z level st1 (inp ++ used) (out ++ o) None).
  { eapply dr_feed with (chunk := chunk) (n := BUFFER_SIZE); eauto using BUFFER_pos. }
  destruct (BUFFER_SIZE - zlen o =? 0) eqn:Ea.
  - apply Z.eqb_eq in Ea. specialize (Hfull ltac:(lia)).
    destruct (IH st1 (inp ++ used) (out ++ o) rest Hrun1) as (st' & o' & Hg & Hr & Hb).
    { rewrite Hu in Hok. now apply bytes_ok_app_r in Hok. }
    { lia. }
    exists st', (o ++ o'). split; [|split].
    + apply gemits_put_check. exact Hg.
    + rewrite Hu, app_assoc, (app_assoc out). exact Hr.
    + apply Forall_app; auto.
  - apply Z.eqb_neq in Ea. assert (rest = []) by (apply Hlt; lia). subst rest.
    rewrite app_nil_r in Hu. subst used. exists st1, o. split; [|split; assumption].
    apply gemits_put_last.
Qed.

(** The last chunk. *)
Lemma inner_finish : forall level fuel st inp out chunk,
  (d_run z level st inp out None \/ d_run z level st inp out (Some chunk)) ->
  bytes_ok chunk -> (d_measure z st chunk < fuel)%nat ->
  exists st' o, gemits (compress_stream_inner z fuel Z_FINISH st chunk) o st'
    /\ deflated z level (inp ++ chunk) (out ++ o) /\ bytes_ok o.
Proof.
  intros level. induction fuel as [|fuel IH]; intros st inp out chunk Hrun Hok Hf; [lia|].
  cbn [compress_stream_inner].
  destruct (deflate z st chunk Z_FINISH BUFFER_SIZE) as [[st1 rest] o] eqn:E.
  destruct (zk_deflate z ZS Hz _ _ _ _ _ _ _ BUFFER_pos E) as (Hle & Hob & [used Hu] & Hlt & Hfull).
  destruct (BUFFER_SIZE - zlen o =? 0) eqn:Ea.
  - apply Z.eqb_eq in Ea. specialize (Hfull ltac:(lia)).
    assert (Hrun1 : d_run z level st1 (inp ++ used) (out ++ o) (Some rest)).
    { destruct Hrun as [Hr|Hr].
      - eapply dr_finish with (chunk := chunk) (n := BUFFER_SIZE); eauto using BUFFER_pos.
      - eapply dr_more with (chunk := chunk) (n := BUFFER_SIZE); eauto using BUFFER_pos. }
    destruct (IH st1 (inp ++ used) (out ++ o) rest (or_intror Hrun1)) as (st' & o' & Hg & Hr & Hb).
    { rewrite Hu in Hok. now apply bytes_ok_app_r in Hok. }
    { lia. }
    exists st', (o ++ o'). split; [|split].
    + apply gemits_put_check. exact Hg.
    + rewrite Hu, app_assoc, (app_assoc out). exact Hr.
    + apply Forall_app; auto.
  - apply Z.eqb_neq in Ea. assert (rest = []) by (apply Hlt; lia). subst rest.
    exists st1, o. split; [|split; [|assumption]].
    + apply gemits_put_last.
    + exists st, inp, out, chunk, BUFFER_SIZE, st1, o. repeat split; auto using BUFFER_pos. lia.
Qed.

Lemma outer_compress : forall level fuel bs st inp out,
  d_run z level st inp out None -> bytes_ok bs -> (Z.to_nat (zlen bs / BUFFER_SIZE) < fuel)%nat ->
  exists o, gemits (compress_stream_outer z fuel (i_open bs) st) o tt
    /\ deflated z level (inp ++ bs) (out ++ o) /\ bytes_ok o.
Proof.
  intros level. induction fuel as [|fuel IH]; intros bs st inp out Hrun Hok Hf; [lia|].
  cbn [compress_stream_outer]. pose proof BUFFER_pos as HB. pose proof (zlen_nonneg bs) as Hn.
  destruct (Z_lt_ge_dec (zlen bs) BUFFER_SIZE) as [Hlt|Hge].
  - rewrite is_read_eof by lia. cbn [i_eof negb].
    destruct (inner_finish level (S (d_measure z st bs)) st inp out bs (or_introl Hrun) Hok)
      as (st' & o & Hg & Hd & Hb); [lia|].
    exists o. split; [|split; assumption].
    eapply gemits_then; [exact Hg|]. apply gemits_ret.
  - rewrite is_read_more by lia. cbn [i_open i_eof negb].
    assert (Hok1 : bytes_ok (ztake BUFFER_SIZE bs)) by (apply Forall_ztake, Hok).
    destruct (inner_feed level (S (d_measure z st (ztake BUFFER_SIZE bs))) st inp out
                (ztake BUFFER_SIZE bs) Hrun Hok1) as (st' & o & Hg & Hr & Hb); [lia|].
    destruct (IH (zdrop BUFFER_SIZE bs) st' _ _ Hr) as (o' & Hg' & Hd' & Hb').
    { apply Forall_zdrop, Hok. }
    { rewrite zlen_zdrop. replace (Z.max 0 (zlen bs - Z.max 0 BUFFER_SIZE)) with (zlen bs + (-1) * BUFFER_SIZE) by lia.
      rewrite Z.div_add by lia.
      assert (1 <= zlen bs / BUFFER_SIZE) by (apply Z.div_le_lower_bound; lia). lia. }
    exists (o ++ o'). split; [|split].
    + eapply gemits_bind; [exact Hg|]. exact Hg'.
    + rewrite <- !app_assoc, ztake_zdrop in Hd'. exact Hd'.
    + apply Forall_app; auto.
Qed.

Lemma compress_stream_ok : forall bs level, bytes_ok bs -> -1 <= level <= 9 ->
  exists out, gemits (compress_stream z (i_open bs) level) out tt /\ ZS out bs /\ bytes_ok out
    /\ zlen out <= 2 * zlen bs + 64.
Proof.
  intros bs level Hok Hl. unfold compress_stream.
  destruct (proj2 (zk_level z ZS Hz level) Hl) as [st Hst]. rewrite Hst.
  destruct (outer_compress level (S (Z.to_nat (zlen bs / BUFFER_SIZE))) bs st [] []) as (o & Hg & Hd & Hb).
  - now constructor.
  - assumption.
  - lia.
  - exists o. cbn [app] in Hd. repeat split; auto.
    + eapply zk_stream; eauto.
    + eapply zk_bound; eauto.
Qed.

(** A stream that has failed but is not at its end is never left. *)
Lemma compress_stream_failed : forall fuel r st level, (exists inp out, d_run z level st inp out None) ->
  forall os, o_good os ->
  exists os', compress_stream_outer z fuel (mk_istream r false true) st os = (os', Hang).
Proof.
  induction fuel as [|fuel IH]; intros r st level (inp & out & Hrun) os Hos; cbn [compress_stream_outer].
  - exists os. reflexivity.
  - rewrite is_read_bad by reflexivity. cbn [i_eof i_rest negb].
    destruct (inner_feed level (S (d_measure z st [])) st inp out [] Hrun) as (st' & o & Hg & Hr & _);
      [constructor|lia|].
    unfold w_bind. destruct (Hg os Hos) as (s1 & E1 & Hs1 & _). rewrite E1.
    eapply IH; eauto.
Qed.

(** ** Decompression *)

Lemma prefix_len_eq : forall {A} (a b : list A), prefix a b -> prefix b a -> a = b.
Proof.
  intros A a b [c Hc] [d Hd]. subst b. rewrite <- app_assoc in Hd.
  rewrite <- (app_nil_r a) in Hd at 1. apply app_inv_head in Hd.
  symmetry in Hd. apply app_eq_nil in Hd as [-> _]. now rewrite app_nil_r.
Qed.

Section Valid.
Variables (strm data : list Z).
Hypothesis HS : ZS strm data.

Lemma inner_decompress : forall fuel st c p c' chunk done,
  i_run z st c p -> strm = c ++ c' -> prefix p data ->
  prefix chunk c' \/ prefix c' chunk ->
  (done = true -> p = data /\ c' = []) ->
  (i_measure z st chunk < fuel)%nat ->
  exists o st' done', gemits (decompress_stream_inner z fuel st chunk done) o (st', done')
    /\ ((done' = true /\ p ++ o = data)
        \/ (done' = false /\ i_run z st' (c ++ chunk) (p ++ o) /\ prefix (p ++ o) data
            /\ exists c'', c' = chunk ++ c'' /\ c'' <> [])).
Proof.
  induction fuel as [|fuel IH]; intros st c p c' chunk done Hrun Hstrm Hp Hch Hdone Hf; [lia|].
  cbn [decompress_stream_inner].
  destruct (inflate z st chunk BUFFER_SIZE) as [[[st1 rest] o] ret] eqn:E.
  destruct (zk_inflate z ZS Hz _ _ _ _ _ _ _ BUFFER_pos E) as (Hle & Hob & _ & Hfull).
  destruct (zk_valid z ZS Hz strm data HS st c p c' Hrun Hstrm chunk BUFFER_SIZE st1 rest o ret
              BUFFER_pos Hch Hp E) as (used & Hu & Hpre & Hpo & Hret & Hstop & Hend).
  assert (Hno : zlib_throws ret = None) by (destruct Hret as [-> | [-> | [-> _]]]; reflexivity).
  rewrite Hno.
  assert (Hrun1 : i_run z st1 (c ++ used) (p ++ o)).
  { eapply ir_step with (chunk := chunk) (n := BUFFER_SIZE); eauto using BUFFER_pos. }
  set (done1 := match ret with Z_STREAM_END => true | _ => done end).
  assert (Hdone1 : done1 = true -> p ++ o = data /\ c ++ used = strm).
  { unfold done1. intros Hd. destruct Hret as [-> | [-> | (-> & Hc & Hdat)]]; [| |auto];
      destruct (Hdone Hd) as [-> ->]; rewrite app_nil_r in Hstrm; subst strm.
    - split.
      + symmetry. apply prefix_len_eq; [apply prefix_app|assumption].
      + symmetry. apply prefix_len_eq; [apply prefix_app|assumption].
    - split.
      + symmetry. apply prefix_len_eq; [apply prefix_app|assumption].
      + symmetry. apply prefix_len_eq; [apply prefix_app|assumption]. }
  destruct (BUFFER_SIZE - zlen o =? 0) eqn:Ea.
  - apply Z.eqb_eq in Ea. specialize (Hfull ltac:(lia)).
    destruct Hpre as [c1 Hc1]. rewrite <- app_assoc in Hc1. rewrite Hstrm in Hc1.
    apply app_inv_head in Hc1.
    assert (Hch1 : prefix rest c1 \/ prefix c1 rest).
    { destruct Hch as [[t Ht]|[t Ht]].
      - left. exists t. rewrite Hc1, Hu, <- app_assoc in Ht. now apply app_inv_head in Ht.
      - right. exists t. rewrite Hc1, Hu, <- app_assoc in Ht. now apply app_inv_head in Ht. }
    destruct (IH st1 (c ++ used) (p ++ o) c1 rest done1 Hrun1) as (o' & st' & done' & Hg & Hcase); auto.
    { rewrite Hstrm, Hc1. now rewrite app_assoc. }
    { intros Hd. destruct (Hdone1 Hd) as [Hdat Hcs]. split; [assumption|].
      rewrite Hstrm, Hc1, app_assoc in Hcs. rewrite <- (app_nil_r (c ++ used)) in Hcs at 1.
      apply app_inv_head in Hcs. auto. }
    { lia. }
    exists (o ++ o'), st', done'. split.
    + apply gemits_put_check. exact Hg.
    + rewrite app_assoc. destruct Hcase as [[Hd Hdat]|(Hd & Hr & Hpp & c2 & Hc2 & Hne)]; [left; auto|].
      right. rewrite Hu at 1. rewrite (app_assoc c). repeat split; auto.
      exists c2. split; [|assumption]. rewrite Hc1, Hc2, Hu. now rewrite app_assoc.
  - apply Z.eqb_neq in Ea. exists o, st1, done1. split.
    + apply gemits_put_last.
    + destruct done1 eqn:Ed; [left; split; [reflexivity|now apply Hdone1]|].
      right. split; [reflexivity|].
      assert (Hne : ret <> Z_STREAM_END).
      { intros ->. unfold done1 in Ed. discriminate. }
      destruct (Hstop ltac:(lia)) as [Hr|Hr]; [|contradiction]. subst rest.
      rewrite app_nil_r in Hu. subst used.
      split; [assumption|]. split; [assumption|].
      destruct Hch as [[c'' Hc'']|Hpc].
      * exists c''. split; [assumption|]. intros ->. rewrite app_nil_r in Hc''. subst c'.
        apply Hne, Hend; [lia|apply prefix_refl].
      * exfalso. apply Hne, Hend; [lia|assumption].
Qed.

Lemma chunk_cases : forall n (a t : list Z), prefix (ztake n (a ++ t)) a \/ prefix a (ztake n (a ++ t)).
Proof.
  intros n a t. destruct (Z_le_gt_dec n (zlen a)).
  - left. rewrite ztake_app_l by lia. apply prefix_ztake.
  - right. rewrite ztake_app_r by lia. apply prefix_app.
Qed.

Lemma outer_decompress : forall fuel st c p c' t,
  i_run z st c p -> strm = c ++ c' -> prefix p data -> c' <> [] ->
  (Z.to_nat (zlen (c' ++ t) / BUFFER_SIZE) < fuel)%nat ->
  exists o, gemits (decompress_stream_outer z fuel (i_open (c' ++ t)) st) o tt /\ p ++ o = data.
Proof.
  induction fuel as [|fuel IH]; intros st c p c' t Hrun Hstrm Hp Hne Hf; [lia|].
  cbn [decompress_stream_outer]. pose proof BUFFER_pos as HB.
  pose proof (zlen_nonneg (c' ++ t)) as Hn0.
  set (got := ztake BUFFER_SIZE (c' ++ t)).
  assert (Hgot : got <> []).
  { unfold got. destruct c' as [|b c']; [congruence|]. discriminate. }
  assert (Hread : exists s', is_read BUFFER_SIZE (i_open (c' ++ t)) = (got, s')
            /\ (BUFFER_SIZE <= zlen (c' ++ t) -> s' = i_open (zdrop BUFFER_SIZE (c' ++ t)))).
  { destruct (Z_lt_ge_dec (zlen (c' ++ t)) BUFFER_SIZE) as [Hlt|Hge].
    - rewrite is_read_eof by lia. eexists. split; [|intros; lia]. f_equal. unfold got. now rewrite ztake_all by lia.
    - rewrite is_read_more by lia. eexists. split; [reflexivity|]. reflexivity. }
  destruct Hread as (s' & Er & Hs'). rewrite Er.
  destruct (inner_decompress (S (i_measure z st got)) st c p c' got false Hrun Hstrm Hp (chunk_cases _ _ _))
    as (o & st' & done' & Hg & Hcase); [discriminate|lia|].
  rewrite (match_nonempty got) by exact Hgot.
  destruct Hcase as [[-> Hdat]|(-> & Hr & Hpp & c2 & Hc2 & Hne2)].
  - exists o. split; [|assumption].
    eapply gemits_then; [exact Hg|]. apply gemits_ret.
  - assert (Hlen : BUFFER_SIZE <= zlen (c' ++ t)).
    { destruct (Z_lt_ge_dec (zlen (c' ++ t)) BUFFER_SIZE) as [Hlt|Hge]; [|lia].
      exfalso. assert (Hgall : got = c' ++ t) by (unfold got; apply ztake_all; lia).
      apply Hne2. rewrite Hc2 in Hgall at 1. apply (f_equal zlen) in Hgall. rewrite !zlen_app in Hgall.
      pose proof (zlen_nonneg c2). pose proof (zlen_nonneg t). apply zlen_zero_nil. lia. }
    rewrite (Hs' Hlen). 
    assert (Hdrop : zdrop BUFFER_SIZE (c' ++ t) = c2 ++ t).
    { assert (Hsplit : got ++ zdrop BUFFER_SIZE (c' ++ t) = c' ++ t).
      { apply ztake_zdrop. }
      rewrite Hc2 in Hsplit at 2. rewrite <- app_assoc in Hsplit. now apply app_inv_head in Hsplit. }
    destruct (IH st' (c ++ got) (p ++ o) c2 t Hr) as (o' & Hg' & Hdat); auto.
    { rewrite Hstrm, Hc2. now rewrite app_assoc. }
    { rewrite <- Hdrop, zlen_zdrop.
      replace (Z.max 0 (zlen (c' ++ t) - Z.max 0 BUFFER_SIZE)) with (zlen (c' ++ t) + (-1) * BUFFER_SIZE) by lia.
      rewrite Z.div_add by lia.
      assert (1 <= zlen (c' ++ t) / BUFFER_SIZE) by (apply Z.div_le_lower_bound; lia). lia. }
    exists (o ++ o'). split; [|now rewrite app_assoc].
    eapply gemits_bind; [exact Hg|]. cbn [negb]. rewrite Hdrop. exact Hg'.
Qed.

Lemma decompress_stream_ok : forall t,
  gemits (decompress_stream z (i_open (strm ++ t))) data tt.
Proof.
  intros t. unfold decompress_stream. cbn [i_open i_rest].
  destruct (outer_decompress (S (S (Z.to_nat (zlen (strm ++ t) / BUFFER_SIZE)))) (inflateInit z) [] [] strm t)
    as (o & Hg & Ho); auto.
  - constructor.
  - apply prefix_nil.
  - eapply zk_nonempty; eauto.
  - cbn in Ho. subst o. exact Hg.
Qed.

(** Truncated input: no error, a prefix of the data. *)
Lemma inner_truncated : forall fuel st c p c' chunk done,
  i_run z st c p -> strm = c ++ c' -> prefix p data -> prefix chunk c' ->
  (i_measure z st chunk < fuel)%nat ->
  exists o st' done', gemits (decompress_stream_inner z fuel st chunk done) o (st', done')
    /\ prefix (p ++ o) data
    /\ (done' = false -> exists used c1, i_run z st' (c ++ used) (p ++ o) /\ c' = used ++ c1 /\ chunk = used).
Proof.
  induction fuel as [|fuel IH]; intros st c p c' chunk done Hrun Hstrm Hp Hch Hf; [lia|].
  cbn [decompress_stream_inner].
  destruct (inflate z st chunk BUFFER_SIZE) as [[[st1 rest] o] ret] eqn:E.
  destruct (zk_inflate z ZS Hz _ _ _ _ _ _ _ BUFFER_pos E) as (Hle & Hob & _ & Hfull).
  destruct (zk_valid z ZS Hz strm data HS st c p c' Hrun Hstrm chunk BUFFER_SIZE st1 rest o ret
              BUFFER_pos (or_introl Hch) Hp E) as (used & Hu & Hpre & Hpo & Hret & Hstop & Hend).
  assert (Hno : zlib_throws ret = None) by (destruct Hret as [-> | [-> | [-> _]]]; reflexivity).
  rewrite Hno.
  assert (Hrun1 : i_run z st1 (c ++ used) (p ++ o)).
  { eapply ir_step with (chunk := chunk) (n := BUFFER_SIZE); eauto using BUFFER_pos. }
  destruct Hch as [t Ht].
  assert (Hc1 : c' = used ++ (rest ++ t)) by (rewrite Ht, Hu; now rewrite app_assoc).
  destruct (BUFFER_SIZE - zlen o =? 0) eqn:Ea.
  - apply Z.eqb_eq in Ea. specialize (Hfull ltac:(lia)).
    destruct (IH st1 (c ++ used) (p ++ o) (rest ++ t) rest
               (match ret with Z_STREAM_END => true | _ => done end) Hrun1)
      as (o' & st' & done' & Hg & Hpp & Hnd); auto.
    { rewrite Hstrm, Hc1. now rewrite app_assoc. }
    { apply prefix_app. }
    { lia. }
    exists (o ++ o'), st', done'. split; [|split].
    + apply gemits_put_check. exact Hg.
    + now rewrite app_assoc.
    + intros Hd. destruct (Hnd Hd) as (u2 & c2 & Hr & Hc2 & Hu2). subst u2.
      exists (used ++ rest), c2. rewrite !app_assoc in *. repeat split; auto.
      rewrite Hc1. rewrite <- !app_assoc. f_equal. rewrite Hc2. reflexivity.
  - apply Z.eqb_neq in Ea. eexists o, st1, _. split; [|split; [assumption|]].
    + apply gemits_put_last.
    + intros Hd. destruct (Hstop ltac:(lia)) as [Hr|Hr].
      * subst rest. rewrite app_nil_r in Hu. exists used, t. repeat split; auto.
      * rewrite Hr in Hd. discriminate.
Qed.

Lemma outer_truncated : forall fuel st c p c' t,
  i_run z st c p -> strm = c ++ c' ++ t -> prefix p data ->
  (Z.to_nat (zlen c' / BUFFER_SIZE) + 1 < fuel)%nat ->
  exists o, gemits (decompress_stream_outer z fuel (i_open c') st) o tt /\ prefix (p ++ o) data.
Proof.
  induction fuel as [|fuel IH]; intros st c p c' t Hrun Hstrm Hp Hf; [lia|].
  cbn [decompress_stream_outer]. pose proof BUFFER_pos as HB.
  pose proof (zlen_nonneg c') as Hn0.
  destruct (Z_lt_ge_dec (zlen c') BUFFER_SIZE) as [Hlt|Hge].
  - rewrite is_read_eof by lia. destruct c' as [|b c'].
    + exists []. split; [apply gemits_ret|now rewrite app_nil_r].
    + set (got := b :: c') in *.
      destruct (inner_truncated (S (i_measure z st got)) st c p (got ++ t) got false Hrun Hstrm Hp (prefix_app _ _))
        as (o & st' & done' & Hg & Hpp & Hnd); [lia|].
      exists o. split; [|assumption]. eapply gemits_then; [exact Hg|].
      cbn [negb]. destruct done'; [apply gemits_ret|]. cbn [negb].
      destruct fuel as [|fuel]; [cbn in Hf; lia|]. cbn [decompress_stream_outer].
      rewrite is_read_bad by reflexivity. apply gemits_ret.
  - rewrite is_read_more by lia. set (got := ztake BUFFER_SIZE c').
    assert (Hgot : got <> []).
    { intros H. apply (f_equal zlen) in H. unfold got in H. rewrite zlen_ztake in H.
      change (zlen (@nil Z)) with 0 in H. lia. }
    assert (Hsplit : got ++ zdrop BUFFER_SIZE c' = c') by apply ztake_zdrop.
    destruct (inner_truncated (S (i_measure z st got)) st c p (c' ++ t) got false Hrun Hstrm Hp)
      as (o & st' & done' & Hg & Hpp & Hnd); [|lia|].
    { rewrite <- Hsplit, <- app_assoc. apply prefix_app. }
    rewrite (match_nonempty got) by exact Hgot.
    destruct done'.
    + exists o. split; [|assumption]. eapply gemits_then; [exact Hg|]. apply gemits_ret.
    + destruct (Hnd eq_refl) as (used & c1 & Hr & Hc1 & Hused). subst used.
      destruct (IH st' (c ++ got) (p ++ o) (zdrop BUFFER_SIZE c') t Hr) as (o' & Hg' & Hpp'); auto.
      * rewrite Hstrm, <- Hsplit at 1. now rewrite <- !app_assoc.
      * rewrite zlen_zdrop.
        replace (Z.max 0 (zlen c' - Z.max 0 BUFFER_SIZE)) with (zlen c' + (-1) * BUFFER_SIZE) by lia.
        rewrite Z.div_add by lia.
        assert (1 <= zlen c' / BUFFER_SIZE) by (apply Z.div_le_lower_bound; lia). lia.
      * exists (o ++ o'). split; [|now rewrite app_assoc].
        eapply gemits_bind; [exact Hg|]. cbn [negb]. exact Hg'.
Qed.

Lemma decompress_stream_truncated : forall inp, prefix inp strm ->
  exists o, gemits (decompress_stream z (i_open inp)) o tt /\ prefix o data.
Proof.
  intros inp [t Ht]. unfold decompress_stream. cbn [i_open i_rest].
  apply (outer_truncated (S (S (Z.to_nat (zlen inp / BUFFER_SIZE)))) (inflateInit z) [] [] inp t).
  - constructor.
  - exact Ht.
  - apply prefix_nil.
  - lia.
Qed.

End Valid.

(** Arbitrary input, arbitrary output device: an answer or an exception. *)
Definition ends {A} (m : ostream * outcome A) : Prop :=
  exists os, (exists a, m = (os, Ret a)) \/ (exists e, m = (os, Throw e)).

Lemma inner_decompress_ends : forall fuel st inp done os, (i_measure z st inp < fuel)%nat ->
  ends (decompress_stream_inner z fuel st inp done os).
Proof.
  induction fuel as [|fuel IH]; intros st inp done os Hf; [lia|].
  cbn [decompress_stream_inner].
  destruct (inflate z st inp BUFFER_SIZE) as [[[st1 rest] o] ret] eqn:E.
  destruct (zk_inflate z ZS Hz _ _ _ _ _ _ _ BUFFER_pos E) as (Hle & Hob & _ & Hfull).
  destruct (zlib_throws ret).
  - exists os. right. eexists. reflexivity.
  - unfold w_seq, w_bind, w_put. set (os1 := os_write o os).
    destruct (o_bad os1).
    + exists os1. right. eexists. reflexivity.
    + destruct (BUFFER_SIZE - zlen o =? 0) eqn:Ea.
      * apply Z.eqb_eq in Ea. apply IH. specialize (Hfull ltac:(lia)). lia.
      * exists os1. left. eexists. reflexivity.
Qed.

Lemma outer_decompress_ends : forall fuel is st os,
  ((i_good is = false /\ (0 < fuel)%nat)
   \/ (i_good is = true /\ (Z.to_nat (zlen (i_rest is) / BUFFER_SIZE) + 1 < fuel)%nat)) ->
  ends (decompress_stream_outer z fuel is st os).
Proof.
  induction fuel as [|fuel IH]; intros is st os Hf; [destruct Hf as [[_ H]|[_ H]]; lia|].
  cbn [decompress_stream_outer]. destruct Hf as [[Hb _]|[Hg Hf]].
  - rewrite is_read_bad by assumption. exists os. left. eexists. reflexivity.
  - destruct (is_read BUFFER_SIZE is) as [got is'] eqn:Er.
    destruct got as [|b got'] eqn:Eg; [exists os; left; eexists; reflexivity|]. rewrite <- Eg in *.
    unfold w_bind.
    destruct (inner_decompress_ends (S (i_measure z st got)) st got false os (Nat.lt_succ_diag_r _))
      as (os1 & [[[st' done'] E1]|[e E1]]); rewrite E1; [|exists os1; right; eexists; reflexivity].
    destruct done'; cbn [negb]; [exists os1; left; eexists; reflexivity|].
    apply IH. unfold is_read in Er. rewrite Hg in Er. pose proof BUFFER_pos.
    destruct (zlen (ztake BUFFER_SIZE (i_rest is)) <? BUFFER_SIZE) eqn:El; injection Er as <- <-.
    + left. split; [reflexivity|lia].
    + right. split; [reflexivity|]. apply Z.ltb_ge in El. rewrite zlen_ztake in El.
      pose proof (zlen_nonneg (i_rest is)).
      cbn [i_rest]. rewrite zlen_zdrop.
      replace (Z.max 0 (zlen (i_rest is) - Z.max 0 BUFFER_SIZE)) with (zlen (i_rest is) + (-1) * BUFFER_SIZE) by lia.
      rewrite Z.div_add by lia.
      assert (1 <= zlen (i_rest is) / BUFFER_SIZE) by (apply Z.div_le_lower_bound; lia). lia.
Qed.

Lemma decompress_stream_ends : forall is os, ends (decompress_stream z is os).
Proof.
  intros is os. unfold decompress_stream. apply outer_decompress_ends.
  destruct (i_good is); [right|left]; split; auto; lia.
Qed.

(** *** Output devices that fail are reported *)
Lemma inner_compress_bad : forall fuel fl st inp os os' r, o_bad os = true \/ o_bad os = false ->
  compress_stream_inner z fuel fl st inp os = (os', Ret r) -> o_bad os' = false.
Proof.
  induction fuel as [|fuel IH]; intros fl st inp os os' r Hos H; cbn [compress_stream_inner] in H; [discriminate|].
  destruct (deflate z st inp fl BUFFER_SIZE) as [[st1 rest] o].
  unfold w_seq, w_bind, w_put in H. destruct (o_bad (os_write o os)) eqn:Eb; [discriminate|].
  destruct (BUFFER_SIZE - zlen o =? 0).
  - eapply IH; [|exact H]. auto.
  - injection H as <- <-. exact Eb.
Qed.

Lemma outer_compress_bad : forall fuel is st os os', compress_stream_outer z fuel is st os = (os', Ret tt) ->
  o_bad os' = false.
Proof.
  induction fuel as [|fuel IH]; intros is st os os' H; cbn [compress_stream_outer] in H; [discriminate|].
  destruct (is_read BUFFER_SIZE is) as [got is'].
  unfold w_bind in H.
  destruct (compress_stream_inner z _ _ st got os) as [os1 [st'| | |]] eqn:E; try discriminate.
  destruct (negb (i_eof is')).
  - eapply IH; exact H.
  - injection H as <-. eapply inner_compress_bad; [|exact E]. destruct (o_bad os); auto.
Qed.

Lemma compress_stream_bad : forall is level os os', compress_stream z is level os = (os', Ret tt) ->
  o_bad os' = false.
Proof.
  intros is level os os' H. unfold compress_stream in H. destruct (deflateInit z level).
  - eapply outer_compress_bad; exact H.
  - discriminate.
Qed.

Lemma inner_decompress_bad : forall fuel st inp done os os' r,
  decompress_stream_inner z fuel st inp done os = (os', Ret r) -> o_bad os' = false.
Proof.
  induction fuel as [|fuel IH]; intros st inp done os os' r H; cbn [decompress_stream_inner] in H; [discriminate|].
  destruct (inflate z st inp BUFFER_SIZE) as [[[st1 rest] o] ret].
  destruct (zlib_throws ret); [discriminate|].
  unfold w_seq, w_bind, w_put in H. destruct (o_bad (os_write o os)) eqn:Eb; [discriminate|].
  destruct (BUFFER_SIZE - zlen o =? 0).
  - eapply IH; exact H.
  - injection H as <- <-. exact Eb.
Qed.

Lemma outer_decompress_bad : forall fuel is st os os', decompress_stream_outer z fuel is st os = (os', Ret tt) ->
  o_bad os' = false \/ os' = os.
Proof.
  induction fuel as [|fuel IH]; intros is st os os' H; cbn [decompress_stream_outer] in H; [discriminate|].
  destruct (is_read BUFFER_SIZE is) as [[|b got] is'].
  - injection H as <-. now right.
  - unfold w_bind in H.
    destruct (decompress_stream_inner z _ st (b :: got) false os) as [os1 [[st' d]| | |]] eqn:E; try discriminate.
    apply inner_decompress_bad in E. destruct (negb d).
    + apply IH in H as [H| ->]; auto.
    + injection H as <-. auto.
Qed.
End Facts.
