(** Properties C28 - C31: compression. *)
From Coq Require Import String ZArith List Bool Lia Wf_nat.
From Verif.Model Require Import Base Compression.
From Verif.Spec Require Import Format Streams ZlibContract.
From Verif.Proofs Require Import BaseFacts CompressionFacts ToyZlib StreamFacts.
Import ListNotations.
Open Scope Z_scope.

(** ** C28: in memory *)

(** Every non-empty byte vector of fewer than 2^31 - 32 bytes survives, at every
    compression level. *)
Theorem C28_memory_lossless : forall z ZS v level, zlib_ok z ZS -> is_bytes v -> v <> [] ->
  Z.of_nat (length v) < 2 ^ 31 - 32 -> -1 <= level <= 9 ->
  exists c, compress_vec z v level = Ret c /\ is_bytes c /\ decompress z c = Ret v.
Proof.
  intros z ZS v level Hz Hv Hne Hlen Hl. fold (zlen v) in Hlen.
  destruct (compress_ptr_stream z ZS Hz v level Hl Hv) as (c & E & HS & Hb & Hcn & Hcl).
  pose proof (zlen_nonneg v).
  rewrite Z.mod_small in HS by (unfold two32; lia). rewrite ztake_all in HS by lia.
  exists c. split; [|split; [exact Hb|]].
  - unfold compress_vec. destruct v; [congruence|exact E].
  - eapply decompress_valid; eauto. unfold two32. lia.
Qed.

(** A level zlib does not know is refused. *)
Theorem C28_bad_level : forall z ZS v level, zlib_ok z ZS -> v <> [] -> ~ (-1 <= level <= 9) ->
  exists e, compress_vec z v level = Throw e.
Proof.
  intros z ZS v level Hz Hne Hl. unfold compress_vec. destruct v as [|b v]; [congruence|].
  unfold compress_ptr. destruct (deflateInit z level) eqn:E; [|eauto].
  exfalso. apply Hl, (zk_level z ZS Hz). eauto.
Qed.

Example C28_example : exists c, compress_vec toy [0; 1; 255; 7] 9 = Ret c /\ is_bytes c
  /\ decompress toy c = Ret [0; 1; 255; 7].
Proof.
  apply (C28_memory_lossless toy toy_stream); auto using toy_ok; try lia.
  - repeat constructor; lia.
  - discriminate.
  - cbn. lia.
Qed.

(** ** C29: 4 GiB and more *)

(** Only the first [length mod 2^32] bytes are compressed. *)
Theorem C29_large_input_truncated : forall z ZS v level, zlib_ok z ZS -> is_bytes v -> v <> [] ->
  -1 <= level <= 9 ->
  exists c, compress_vec z v level = Ret c
    /\ ZS c (firstn (Z.to_nat (Z.of_nat (length v) mod 2 ^ 32)) v).
Proof.
  intros z ZS v level Hz Hv Hne Hl.
  destruct (compress_ptr_stream z ZS Hz v level Hl Hv) as (c & E & HS & _).
  exists c. split; [unfold compress_vec; destruct v; [congruence|exact E]|].
  rewrite <- ztake_firstn. exact HS.
Qed.

(** So from 4 GiB on the compressed data is a stream of a strictly shorter text. *)
Theorem C29_large_input_lost : forall z ZS v level, zlib_ok z ZS -> is_bytes v ->
  -1 <= level <= 9 -> 2 ^ 32 <= Z.of_nat (length v) ->
  exists c w, compress_vec z v level = Ret c /\ ZS c w /\ w <> v /\ Z.of_nat (length w) < 2 ^ 32
    /\ (Z.of_nat (length c) < 2 ^ 32 -> decompress z c = Ret w).
Proof.
  intros z ZS v level Hz Hv Hl Hlen.
  assert (Hne : v <> []) by (intros ->; cbn in Hlen; lia).
  destruct (C29_large_input_truncated z ZS v level Hz Hv Hne Hl) as (c & E & HS).
  assert (Hm : 0 <= Z.of_nat (length v) mod 2 ^ 32 < 2 ^ 32) by (apply Z.mod_pos_bound; lia).
  exists c, (firstn (Z.to_nat (Z.of_nat (length v) mod 2 ^ 32)) v).
  split; [exact E|]. split; [exact HS|].
  assert (Hw : Z.of_nat (length (firstn (Z.to_nat (Z.of_nat (length v) mod 2 ^ 32)) v)) < 2 ^ 32).
  { rewrite firstn_length. lia. }
  split; [|split; [exact Hw|]].
  - intros Heq. rewrite Heq in Hw. lia.
  - intros Hc. eapply decompress_valid; eauto.
Qed.

Lemma C29_nonvacuous : exists v, is_bytes v /\ 2 ^ 32 <= Z.of_nat (length v).
Proof.
  exists (repeat 0 (Z.to_nat (2 ^ 32))). split.
  - apply Forall_forall. intros b Hb. apply repeat_spec in Hb. lia.
  - rewrite repeat_length. rewrite Z2Nat.id; lia.
Qed.

(** ** C30: from stream to stream *)

(** Compressing any readable stream and decompressing the result, followed by
    anything, gives the bytes back, at every level and for every length. *)
Theorem C30_stream_lossless : forall z ZS v level, zlib_ok z ZS -> is_bytes v -> -1 <= level <= 9 ->
  exists c, appends (compress_stream z (i_open v) level) c /\ is_bytes c
    /\ forall t, appends (decompress_stream z (i_open (c ++ t))) v.
Proof.
  intros z ZS v level Hz Hv Hl.
  destruct (compress_stream_ok z ZS Hz v level Hv Hl) as (c & Hg & HS & Hb & _).
  exists c. split; [exact Hg|]. split; [exact Hb|].
  intros t. exact (decompress_stream_ok z ZS Hz c v HS t).
Qed.

Example C30_example : exists c, appends (compress_stream toy (i_open (repeat 7 100)) (-1)) c
  /\ is_bytes c /\ forall t, appends (decompress_stream toy (i_open (c ++ t))) (repeat 7 100).
Proof.
  apply (C30_stream_lossless toy toy_stream); auto using toy_ok; [|lia].
  apply Forall_forall. intros b Hb. apply repeat_spec in Hb. lia.
Qed.

(** The two ways agree: what one compresses the other decompresses. *)
Theorem C30_stream_and_memory_agree : forall z ZS v level, zlib_ok z ZS -> is_bytes v -> v <> [] ->
  Z.of_nat (length v) < 2 ^ 31 - 32 -> -1 <= level <= 9 ->
  (exists c, appends (compress_stream z (i_open v) level) c /\ decompress z c = Ret v)
  /\ (exists c, compress_vec z v level = Ret c /\ appends (decompress_stream z (i_open c)) v).
Proof.
  intros z ZS v level Hz Hv Hne Hlen Hl. split.
  - destruct (compress_stream_ok z ZS Hz v level Hv Hl) as (c & Hg & HS & Hb & Hc).
    exists c. split; [exact Hg|]. eapply decompress_valid; eauto. unfold two32. unfold zlen in *. lia.
  - fold (zlen v) in Hlen.
    destruct (compress_ptr_stream z ZS Hz v level Hl Hv) as (c & E & HS & Hb & Hcn & Hcl).
    pose proof (zlen_nonneg v).
    rewrite Z.mod_small in HS by (unfold two32; lia). rewrite ztake_all in HS by lia.
    exists c. split; [unfold compress_vec; destruct v; [congruence|exact E]|].
    pose proof (decompress_stream_ok z ZS Hz c v HS []) as H0. rewrite app_nil_r in H0. exact H0.
Qed.

(** A stream that has failed without reaching its end is never left, however
    long one waits. *)
Theorem C30_failed_stream_hangs : forall z ZS r level fuel os st, zlib_ok z ZS -> healthy os ->
  deflateInit z level = Some st ->
  exists os', compress_stream_outer z fuel (mk_istream r false true) st os = (os', Hang).
Proof.
  intros z ZS r level fuel os st Hz Hos Hst. apply (compress_stream_failed z ZS Hz fuel r st level); [|exact Hos].
  exists [], []. now apply dr_init.
Qed.

(** A failing output device is reported: a normal return leaves a good stream. *)
Theorem C30_output_errors_reported : forall z is level os os',
  (compress_stream z is level os = (os', Ret tt) -> o_bad os' = false)
  /\ (decompress_stream z is os = (os', Ret tt) -> o_bad os' = false \/ os' = os).
Proof.
  intros z is level os os'. split.
  - apply compress_stream_bad.
  - apply outer_decompress_bad.
Qed.

(** ** C31: damaged data *)

(** With a known size: exactly that many bytes, or an exception.  Nothing else
    can happen, whatever the bytes. *)
Theorem C31_sized_decompress : forall z ZS c n, zlib_ok z ZS -> c <> [] -> 0 < n ->
  (exists d, decompress_to z c n = Ret d /\ Z.of_nat (length d) = n)
  \/ (exists e, decompress_to z c n = Throw e).
Proof.
  intros z ZS c n Hz Hc Hn. unfold decompress_to.
  destruct (decompress_total z ZS Hz c Hc) as [(d & E & _)|[e E]]; rewrite E; cbn [bind]; [|eauto].
  destruct (zlen d =? n) eqn:El; cbn [negb]; [|eauto].
  apply Z.eqb_eq in El. destruct d as [|b d]; [change (zlen (@nil Z)) with 0 in El; lia|].
  left. exists (b :: d). auto.
Qed.

(** Without a size, a truncated stream is accepted and gives a prefix of the
    data, in memory and from stream to stream. *)
Theorem C31_truncated_accepted : forall z ZS c v k, zlib_ok z ZS -> ZS c v ->
  Z.of_nat (length c) < 2 ^ 32 -> (0 < k)%nat ->
  (exists d, decompress z (firstn k c) = Ret d /\ prefix d v)
  /\ (exists d, appends (decompress_stream z (i_open (firstn k c))) d /\ prefix d v).
Proof.
  intros z ZS c v k Hz HS Hc Hk.
  assert (Hpre : prefix (firstn k c) c) by (exists (skipn k c); symmetry; apply firstn_skipn).
  split.
  - eapply decompress_truncated; eauto. destruct c as [|b c]; [|destruct k; [lia|discriminate]].
    exfalso. now apply (zk_nonempty z ZS Hz [] v HS).
  - destruct (decompress_stream_truncated z ZS Hz c v HS (firstn k c) Hpre) as (d & Hg & Hp).
    exists d. split; [exact Hg|exact Hp].
Qed.

(** The sized variant notices every truncation that loses data. *)
Theorem C31_truncation_detected_with_size : forall z ZS c v k, zlib_ok z ZS -> ZS c v ->
  Z.of_nat (length c) < 2 ^ 32 -> (0 < k)%nat -> v <> [] ->
  decompress_to z (firstn k c) (Z.of_nat (length v)) = Ret v
  \/ exists e, decompress_to z (firstn k c) (Z.of_nat (length v)) = Throw e.
Proof.
  intros z ZS c v k Hz HS Hc Hk Hv.
  destruct (C31_truncated_accepted z ZS c v k Hz HS Hc Hk) as [(d & E & [w Hw]) _].
  unfold decompress_to. rewrite E. cbn [bind].
  destruct (zlen d =? Z.of_nat (length v)) eqn:El; cbn [negb]; [left|right; eauto].
  apply Z.eqb_eq in El. assert (Hwn : w = []).
  { apply (f_equal (@length Z)) in Hw. rewrite app_length in Hw. unfold zlen in El.
    destruct w; [reflexivity|cbn in Hw; lia]. }
  subst w. rewrite app_nil_r in Hw. subst d. destruct v; [congruence|reflexivity].
Qed.

(** Arbitrary bytes, arbitrary device: the stream version ends. *)
Theorem C31_stream_ends : forall z ZS is os, zlib_ok z ZS ->
  exists os', (exists a, decompress_stream z is os = (os', Ret a))
    \/ (exists e, decompress_stream z is os = (os', Throw e)).
Proof. intros z ZS is os Hz. exact (decompress_stream_ends z ZS Hz is os). Qed.

Lemma throws_error : forall r, (inflate_error r -> exists what, zlib_throws r = Some (runtime_error what))
  /\ (~ inflate_error r -> zlib_throws r = None).
Proof.
  intros r. unfold inflate_error. split.
  - intros [->|[->| ->]]; eexists; reflexivity.
  - destruct r; cbn; intros H; try reflexivity; exfalso; auto.
Qed.

Lemma decompress_loop_calls : forall z ZS, zlib_ok z ZS -> forall st inp out st' seen ok,
  inflate_calls z BUFFER_SIZE st inp out st' seen ok -> forall fuel acc, (i_measure z st inp < fuel)%nat ->
  if ok then decompress_loop z fuel st inp acc = Ret (acc ++ out)
  else exists what, decompress_loop z fuel st inp acc = Throw (runtime_error what).
Proof.
  intros z ZS Hz. induction 1 as [st inp st' rest o r E Er|st inp st' rest o r E Er L seen Hs|st inp st1 rest o r out st' seen seen' ok E Er L C IH Hs];
    intros fuel acc F; (destruct fuel as [|fuel]; [lia|]); cbn [decompress_loop]; rewrite E.
  - destruct (throws_error r) as [T _]. destruct (T Er) as (what & ->). eauto.
  - destruct (throws_error r) as [_ T]. rewrite (T Er).
    destruct (Z.eqb_spec (BUFFER_SIZE - zlen o) 0); [lia|reflexivity].
  - destruct (throws_error r) as [_ T]. rewrite (T Er).
    destruct (Z.eqb_spec (BUFFER_SIZE - zlen o) 0); [|lia].
    destruct (zk_inflate z ZS Hz _ _ _ _ _ _ _ BUFFER_pos E) as (_ & _ & _ & M).
    rewrite app_assoc. apply IH. specialize (M L). lia.
Qed.

Lemma inflate_calls_total : forall z ZS, zlib_ok z ZS -> forall k st inp, (i_measure z st inp < k)%nat ->
  exists out st' seen ok, inflate_calls z BUFFER_SIZE st inp out st' seen ok.
Proof.
  intros z ZS Hz. induction k as [|k IH]; intros st inp F; [lia|].
  destruct (inflate z st inp BUFFER_SIZE) as [[[st1 rest] o] r] eqn:E.
  destruct (zk_inflate z ZS Hz _ _ _ _ _ _ _ BUFFER_pos E) as (L & _ & _ & M).
  assert (D : inflate_error r \/ ~ inflate_error r).
  { unfold inflate_error. destruct r; [right|right|right|left|left|left]; intuition discriminate. }
  destruct D as [D|D]; [exists [], st1, false, false; eapply ic_error; eassumption|].
  destruct (Z_lt_le_dec (zlen o) BUFFER_SIZE) as [Lt|Le].
  - exists o, st1, (match r with Z_STREAM_END => true | _ => false end), true.
    eapply ic_last; [exact E|exact D|exact Lt|]. destruct r; split; congruence.
  - assert (Eo : zlen o = BUFFER_SIZE) by lia. specialize (M Eo).
    destruct (IH st1 rest ltac:(lia)) as (out & st' & seen & ok & C).
    exists (o ++ out), st', (match r with Z_STREAM_END => true | _ => seen end), ok.
    eapply ic_more; [exact E|exact D|exact Eo|exact C|]. destruct r; intuition congruence.
Qed.

(** What decompressing any bytes in memory gives: the output of the [inflate] calls, unless
    one of them reports an error; then an exception. *)
Theorem C31_memory_exact : forall z ZS c, zlib_ok z ZS -> c <> [] -> Z.of_nat (length c) < 2 ^ 32 ->
  exists out st' seen ok, inflate_calls z (2 ^ 20) (inflateInit z) c out st' seen ok
  /\ if ok then decompress z c = Ret out else exists what, decompress z c = Throw (runtime_error what).
Proof.
  intros z ZS c Hz Hc Hl.
  destruct (inflate_calls_total z ZS Hz (S (i_measure z (inflateInit z) c)) (inflateInit z) c (Nat.lt_succ_diag_r _))
    as (out & st' & seen & ok & C).
  exists out, st', seen, ok. split; [exact C|].
  pose proof (decompress_loop_calls z ZS Hz _ _ _ _ _ _ C (S (i_measure z (inflateInit z) c)) [] (Nat.lt_succ_diag_r _)) as D.
  assert (E : decompress z c = decompress_loop z (S (i_measure z (inflateInit z) c)) (inflateInit z) c []).
  { unfold decompress. destruct c as [|b t]; [congruence|].
    unfold avail_in, to_u32. rewrite Z.mod_small by (unfold two32, zlen; lia). rewrite ztake_all by lia. reflexivity. }
  rewrite E. exact D.
Qed.

Lemma os_write_good : forall o os, healthy os -> healthy (os_write o os) /\ o_bytes (os_write o os) = o_bytes os ++ o.
Proof. intros o os [R B]. unfold os_write, healthy. rewrite B, R. cbn. auto. Qed.

Lemma inner_calls : forall z ZS, zlib_ok z ZS -> forall st inp out st' seen ok,
  inflate_calls z BUFFER_SIZE st inp out st' seen ok -> forall fuel done os, (i_measure z st inp < fuel)%nat -> healthy os ->
  exists os', healthy os' /\
  if ok then decompress_stream_inner z fuel st inp done os = (os', Ret (st', done || seen)) /\ o_bytes os' = o_bytes os ++ out
  else exists what, decompress_stream_inner z fuel st inp done os = (os', Throw (runtime_error what)).
Proof.
  intros z ZS Hz. induction 1 as [st inp st' rest o r E Er|st inp st' rest o r E Er L seen Hs|st inp st1 rest o r out st' seen seen' ok E Er L C IH Hs];
    intros fuel done os F H; (destruct fuel as [|fuel]; [lia|]); cbn [decompress_stream_inner]; rewrite E.
  - destruct (throws_error r) as [T _]. destruct (T Er) as (what & ->). exists os. split; [exact H|]. exists what. reflexivity.
  - destruct (throws_error r) as [_ T]. rewrite (T Er). unfold w_seq, w_bind, w_put.
    destruct (os_write_good o os H) as [H' B']. pose proof H' as [_ Hb]. rewrite Hb.
    destruct (Z.eqb_spec (BUFFER_SIZE - zlen o) 0); [lia|]. exists (os_write o os). split; [exact H'|]. split; [|exact B'].
    do 2 f_equal. f_equal. destruct Hs as [H1 H2].
    destruct r; destruct seen; cbn; rewrite ?orb_true_r, ?orb_false_r; try reflexivity;
      try (specialize (H1 eq_refl); discriminate H1); specialize (H2 eq_refl); discriminate H2.
  - destruct (throws_error r) as [_ T]. rewrite (T Er). unfold w_seq, w_bind, w_put.
    destruct (os_write_good o os H) as [H' B']. pose proof H' as [_ Hb]. rewrite Hb.
    destruct (Z.eqb_spec (BUFFER_SIZE - zlen o) 0); [|lia].
    destruct (zk_inflate z ZS Hz _ _ _ _ _ _ _ BUFFER_pos E) as (_ & _ & _ & M). specialize (M L).
    destruct (IH fuel (match r with Z_STREAM_END => true | _ => done end) (os_write o os) ltac:(lia) H') as (os' & Ho & R).
    exists os'. split; [exact Ho|]. destruct ok; [|exact R]. destruct R as [R B]. split.
    + rewrite R. do 2 f_equal. f_equal. destruct Hs as [H1 H2].
      destruct r; destruct seen, seen', done; cbn; try reflexivity;
        try (destruct (H1 eq_refl) as [X|X]; discriminate X); try (specialize (H2 (or_intror eq_refl)); discriminate H2);
        try (specialize (H2 (or_introl eq_refl)); discriminate H2).
    + rewrite B, B'. now rewrite app_assoc.
Qed.

Lemma outer_calls : forall z ZS, zlib_ok z ZS -> forall st input out ok,
  inflate_stream z BUFFER_SIZE st input out ok ->
  forall fuel is os, (i_good is = true /\ i_rest is = input \/ i_good is = false /\ input = []) ->
  (Z.to_nat (zlen input / BUFFER_SIZE) + 1 < fuel \/ i_good is = false /\ 0 < fuel)%nat -> healthy os ->
  exists os', healthy os' /\
  if ok then decompress_stream_outer z fuel is st os = (os', Ret tt) /\ o_bytes os' = o_bytes os ++ out
  else exists what, decompress_stream_outer z fuel is st os = (os', Throw (runtime_error what)).
Proof.
  intros z ZS Hz.
  assert (Rd : forall input is, input <> [] -> (i_good is = true /\ i_rest is = input \/ i_good is = false /\ input = []) ->
     i_good is = true /\ exists b t is', is_read BUFFER_SIZE is = (b :: t, is') /\ firstn (Z.to_nat BUFFER_SIZE) input = b :: t
     /\ (i_good is' = true /\ i_rest is' = skipn (Z.to_nat BUFFER_SIZE) input
           /\ (Z.to_nat (zlen (skipn (Z.to_nat BUFFER_SIZE) input) / BUFFER_SIZE) < Z.to_nat (zlen input / BUFFER_SIZE))%nat
         \/ i_good is' = false /\ skipn (Z.to_nat BUFFER_SIZE) input = [])).
  { intros input is N [[G R]|[_ ->]]; [|congruence]. split; [exact G|].
    pose proof BUFFER_pos as BP. pose proof (zlen_nonneg input) as LP.
    unfold is_read. rewrite G, R. cbv zeta. rewrite ztake_firstn, zdrop_skipn.
    destruct input as [|b input']; [congruence|]. set (inp := b :: input') in *.
    assert (F : exists t, firstn (Z.to_nat BUFFER_SIZE) inp = b :: t).
    { destruct (Z.to_nat BUFFER_SIZE) as [|m] eqn:Em; [lia|]. eexists. reflexivity. }
    destruct F as (t & F). exists b, t.
    assert (Lf : zlen (firstn (Z.to_nat BUFFER_SIZE) inp) = Z.min BUFFER_SIZE (zlen inp)).
    { unfold zlen in *. rewrite firstn_length. lia. }
    assert (Ls : zlen (skipn (Z.to_nat BUFFER_SIZE) inp) = Z.max 0 (zlen inp - BUFFER_SIZE)).
    { unfold zlen in *. rewrite skipn_length. lia. }
    destruct (Z.ltb_spec (zlen (firstn (Z.to_nat BUFFER_SIZE) inp)) BUFFER_SIZE) as [S|S]; eexists; rewrite F.
    - split; [reflexivity|]. split; [reflexivity|]. right. split; [reflexivity|]. apply zlen_zero_nil. lia.
    - split; [reflexivity|]. split; [reflexivity|]. left. split; [reflexivity|]. split; [reflexivity|].
      rewrite Ls. assert (Hge : BUFFER_SIZE <= zlen inp) by lia.
      replace (Z.max 0 (zlen inp - BUFFER_SIZE)) with (zlen inp + (-1) * BUFFER_SIZE) by lia. rewrite Z.div_add by lia.
      assert (1 <= zlen inp / BUFFER_SIZE) by (apply Z.div_le_lower_bound; lia). lia. }
  induction 1 as [st|st input out st' seen N C|st input out st' N C|st input out st' out' ok N C I IH];
    intros fuel is os Hi Hf Ho; (destruct fuel as [|fuel]; [exfalso; destruct Hf as [Hf|[_ Hf]]; lia|]); cbn [decompress_stream_outer].
  - assert (E : fst (is_read BUFFER_SIZE is) = []).
    { destruct Hi as [[G R]|[G _]]; unfold is_read; rewrite G; [rewrite R|reflexivity]. rewrite (@ztake_all Z BUFFER_SIZE []) by (pose proof BUFFER_pos; change (zlen (@nil Z)) with 0; lia). now destruct (zlen (@nil Z) <? BUFFER_SIZE). }
    destruct (is_read BUFFER_SIZE is) as [got is']. cbn [fst] in E. subst got.
    exists os. split; [exact Ho|]. split; [reflexivity|now rewrite app_nil_r].
  - destruct (Rd input is N Hi) as (_ & b & t & is' & -> & Fi & _). rewrite <- Fi.
    destruct (inner_calls z ZS Hz _ _ _ _ _ _ C (S (i_measure z st (firstn (Z.to_nat BUFFER_SIZE) input))) false os (Nat.lt_succ_diag_r _) Ho)
      as (os' & Ho' & what & E).
    exists os'. split; [exact Ho'|]. exists what. unfold w_bind. now rewrite E.
  - destruct (Rd input is N Hi) as (_ & b & t & is' & -> & Fi & _). rewrite <- Fi.
    destruct (inner_calls z ZS Hz _ _ _ _ _ _ C (S (i_measure z st (firstn (Z.to_nat BUFFER_SIZE) input))) false os (Nat.lt_succ_diag_r _) Ho)
      as (os' & Ho' & E & B).
    exists os'. split; [exact Ho'|]. unfold w_bind. rewrite E. cbn [orb negb]. split; [reflexivity|exact B].
  - destruct (Rd input is N Hi) as (G & b & t & is' & -> & Fi & Nx). rewrite <- Fi.
    destruct (inner_calls z ZS Hz _ _ _ _ _ _ C (S (i_measure z st (firstn (Z.to_nat BUFFER_SIZE) input))) false os (Nat.lt_succ_diag_r _) Ho)
      as (os1 & Ho1 & E & B).
    destruct (IH fuel is' os1) as (os' & Ho' & R).
    + destruct Nx as [(G' & R' & _)|(G' & R')]; [left|right]; now split.
    + destruct Hf as [Hf|[Hf _]]; [|congruence]. destruct Nx as [(_ & _ & L)|(G' & _)]; [left; lia|right; split; [exact G'|lia]].
    + exact Ho1.
    + exists os'. split; [exact Ho'|]. unfold w_bind. rewrite E. cbn [orb negb].
      destruct ok; [|exact R]. destruct R as [R B']. split; [exact R|]. rewrite B', B. now rewrite app_assoc.
Qed.

(** The same for the stream version, which reads the input a megabyte at a time and ends
    when some call reports the end of the compressed stream. *)
Theorem C31_stream_exact : forall z ZS input out ok os, zlib_ok z ZS -> healthy os ->
  inflate_stream z (2 ^ 20) (inflateInit z) input out ok ->
  exists os', if ok then decompress_stream z (i_open input) os = (os', Ret tt) /\ o_bytes os' = o_bytes os ++ out
              else exists what, decompress_stream z (i_open input) os = (os', Throw (runtime_error what)).
Proof.
  intros z ZS input out ok os Hz Ho H. unfold decompress_stream. cbn [i_open i_rest].
  destruct (outer_calls z ZS Hz _ _ _ _ H (S (S (Z.to_nat (zlen input / BUFFER_SIZE)))) (i_open input) os) as (os' & _ & R).
  - left. now split.
  - left. lia.
  - exact Ho.
  - exists os'. exact R.
Qed.

(** There always is such a sequence of calls. *)
Theorem C31_stream_total : forall z ZS input st, zlib_ok z ZS -> exists out ok, inflate_stream z (2 ^ 20) st input out ok.
Proof.
  intros z ZS input st Hz. remember (length input) as n eqn:En. revert input st En.
  induction n as [n IH] using lt_wf_ind. intros input st ->.
  destruct input as [|b t]; [exists [], true; constructor|]. set (input := b :: t) in *.
  assert (N : input <> []) by discriminate.
  destruct (inflate_calls_total z ZS Hz (S (i_measure z st (firstn (Z.to_nat BUFFER_SIZE) input))) st
              (firstn (Z.to_nat BUFFER_SIZE) input) (Nat.lt_succ_diag_r _)) as (out & st' & seen & ok & C).
  destruct ok; [|exists out, false; eapply is_error; eassumption].
  destruct seen; [exists out, true; eapply is_end; eassumption|].
  destruct (IH (length (skipn (Z.to_nat BUFFER_SIZE) input))) with (input := skipn (Z.to_nat BUFFER_SIZE) input) (st := st')
    as (out' & ok & I).
  - rewrite skipn_length. pose proof BUFFER_pos. cbn [length input]. lia.
  - reflexivity.
  - exists (out ++ out'), ok. eapply is_next; eassumption.
Qed.

(** Data the toy decompressor rejects, and data with something behind the end. *)
Example C31_exact_example : (exists st', inflate_calls toy (2 ^ 20) (inflateInit toy) [7; 7] [] st' false false)
  /\ inflate_stream toy (2 ^ 20) (inflateInit toy) [1; 5; 0; 9] [5] true.
Proof.
  split.
  - eexists. eapply ic_error; [vm_compute; reflexivity|]. right. left. reflexivity.
  - eapply is_end; [discriminate|]. eapply ic_last; [vm_compute; reflexivity| | |split; reflexivity].
    + intros [H|[H|H]]; discriminate H.
    + vm_compute. reflexivity.
Qed.

Example C31_example : toy_stream [1; 5; 1; 6; 0] [5; 6]
  /\ decompress toy (firstn 2 [1; 5; 1; 6; 0]) = Ret [5]
  /\ exists e, decompress_to toy (firstn 2 [1; 5; 1; 6; 0]) 2 = Throw e.
Proof.
  split; [split; [repeat constructor; lia|reflexivity]|]. split; [reflexivity|]. eexists. reflexivity.
Qed.

Print Assumptions C28_memory_lossless.
Print Assumptions C28_bad_level.
Print Assumptions C29_large_input_truncated.
Print Assumptions C29_large_input_lost.
Print Assumptions C30_stream_lossless.
Print Assumptions C30_stream_and_memory_agree.
Print Assumptions C30_failed_stream_hangs.
Print Assumptions C30_output_errors_reported.
Print Assumptions C31_sized_decompress.
Print Assumptions C31_truncated_accepted.
Print Assumptions C31_truncation_detected_with_size.
Print Assumptions C31_stream_ends.
Print Assumptions C31_memory_exact.
Print Assumptions C31_stream_exact.
Print Assumptions C31_stream_total.
