From Coq Require Import String ZArith List Bool Lia.
From Verif.Model Require Import Base Header PointRecord.
From Verif.Spec Require Import Format.
From Verif.Proofs Require Import BaseFacts.
Import ListNotations.
Open Scope Z_scope.

(** ** positional *)

Lemma positional_cons : forall b bs, positional (b :: bs) = b + 256 * positional bs.
Proof.
  intros b bs. unfold positional. cbn [length seq map fold_right nth].
  replace (256 ^ Z.of_nat 0) with 1 by reflexivity. rewrite Z.mul_1_r. f_equal.
  rewrite <- seq_shift, map_map.
  generalize (seq 0 (length bs)) as l. induction l as [|a l IH]; cbn [map fold_right]; [lia|].
  rewrite IH. cbn [nth]. rewrite Nat2Z.inj_succ, Z.pow_succ_r by lia. lia.
Qed.

Lemma positional_le_val : forall bs, positional bs = le_val bs.
Proof.
  induction bs as [|b bs IH]; [reflexivity|]. rewrite positional_cons, IH. reflexivity.
Qed.

Lemma is_le_le_bytes : forall w v, 0 <= v < 256 ^ Z.of_nat w -> is_le w v (le_bytes w v).
Proof.
  intros w v H. split; [apply length_le_bytes|]. split; [apply le_bytes_ok|].
  rewrite positional_le_val. now apply le_val_bytes.
Qed.

Lemma le_bytes1 : forall v, 0 <= v < 256 -> le_bytes 1 v = [v].
Proof. intros; cbn. now rewrite Z.mod_small by lia. Qed.

(** ** write_header *)

Definition header_bytes (h : header) : list Z :=
  h_sig h ++ le_bytes 1 (h_major h) ++ le_bytes 1 (h_minor h)
  ++ le_bytes 2 (to_u16 (zlen (h_wkt h))) ++ h_wkt h ++ le_bytes 1 (h_extra h)
  ++ le_bytes 8 (h_total h) ++ le_bytes 1 (h_compressed h).

Lemma write_header_emits : forall h, h_sig h = SPOC -> emits (write_header h) (header_bytes h) tt.
Proof.
  intros h Hs. unfold write_header, header_bytes, check_signature. rewrite Hs, beq_bytes_refl.
  cbn [negb]. repeat (apply emits_seq; [apply emits_put|]). apply emits_put.
Qed.

Lemma header_bytes_layout : forall h, good_header h -> header_layout h (header_bytes h).
Proof.
  intros h [Hs Hma Hmi Hw Hl He Ht Hc].
  unfold header_layout, header_bytes.
  exists (le_bytes 2 (to_u16 (zlen (h_wkt h)))), (le_bytes 8 (h_total h)).
  assert (E : to_u16 (zlen (h_wkt h)) = Z.of_nat (length (h_wkt h))).
  { unfold to_u16, zlen; zs. rewrite Z.mod_small; lia. }
  split; [rewrite Hs, !le_bytes1 by lia; reflexivity|]. split.
  - rewrite <- E. apply is_le_le_bytes. rewrite E. cbn; lia.
  - apply is_le_le_bytes. cbn in *; lia.
Qed.

Lemma header_bytes_len : forall h, good_header h -> zlen (header_bytes h) = header_size h.
Proof.
  intros h [Hs _ _ _ _ _ _ _]. unfold header_bytes, header_size.
  rewrite !zlen_app, !zlen_le_bytes, Hs. unfold zlen. cbn [length]. lia.
Qed.

Lemma header_bytes_ok : forall h, good_header h -> bytes_ok (header_bytes h).
Proof.
  intros h [Hs _ _ Hw _ _ _ _]. unfold header_bytes, bytes_ok.
  repeat (apply Forall_app; split); try apply le_bytes_ok; auto.
  rewrite Hs. repeat constructor; lia.
Qed.

(** ** read_header *)

Lemma read_uint_full : forall k v old t, 0 <= v < 256 ^ Z.of_nat k ->
  read_uint k old (i_open (le_bytes k v ++ t)) = (v, i_open t).
Proof.
  intros k v old t H. unfold read_uint. rewrite is_read_open by apply zlen_le_bytes.
  rewrite overwrite_full by now rewrite !zlen_le_bytes. now rewrite le_val_bytes.
Qed.

Lemma read_header_round_trip : forall h t, good_header h ->
  read_header (i_open (header_bytes h ++ t)) = Ret (h, i_open t).
Proof.
  intros h t [Hs Hma Hmi Hw Hl He Ht Hc].
  unfold read_header, header_bytes. rewrite <- !app_assoc.
  rewrite is_read_open by (rewrite Hs; reflexivity).
  rewrite overwrite_full by (rewrite Hs; reflexivity).
  rewrite Hs. change (beq_bytes [83; 80; 79; 67] SPOC) with true. cbn [negb].
  rewrite read_uint_full by (cbn; lia). rewrite Hma. change (0 =? MAJOR_VERSION) with true. cbn [negb].
  rewrite read_uint_full by (cbn; lia). rewrite Hmi. change (1 =? MINOR_VERSION) with true. cbn [negb].
  assert (E : to_u16 (zlen (h_wkt h)) = zlen (h_wkt h)).
  { unfold to_u16, zlen; zs. rewrite Z.mod_small; lia. }
  rewrite E. rewrite read_uint_full by (unfold zlen; cbn; lia).
  rewrite is_read_open by reflexivity.
  rewrite overwrite_full by (rewrite zlen_zrepeat; pose proof (zlen_nonneg (h_wkt h)); lia).
  rewrite read_uint_full by (cbn; lia).
  rewrite read_uint_full by (cbn in *; lia).
  rewrite read_uint_full by (cbn; lia).
  destruct h; cbn in *; subst. reflexivity.
Qed.

(** ** Values produced by read_uint on any stream *)

Lemma read_uint_range : forall k old s v s', bytes_ok (i_rest s) -> read_uint k old s = (v, s') ->
  0 <= v < 256 ^ Z.of_nat k /\ bytes_ok (i_rest s').
Proof.
  intros k old s v s' Hok H. unfold read_uint in H.
  destruct (is_read (Z.of_nat k) s) as [got s1] eqn:E. injection H as <- <-.
  pose proof (is_read_ok _ _ _ _ Hok E) as [Hg Hr]. split; [|assumption].
  pose proof (is_read_zlen (Z.of_nat k) s got s1 ltac:(lia) E) as Hlen.
  assert (Hl : zlen (overwrite got (le_bytes k old)) = Z.of_nat k).
  { rewrite zlen_overwrite; rewrite zlen_le_bytes; lia. }
  pose proof (le_val_range (overwrite got (le_bytes k old))) as Hv.
  rewrite Hl in Hv. apply Hv. apply Forall_overwrite; [assumption|apply le_bytes_ok].
Qed.

(** read_header never fails except on signature and versions, whatever the
    stream. *)
Lemma read_header_total : forall s,
  (exists h s', read_header s = Ret (h, s')) \/ (exists e, read_header s = Throw e).
Proof.
  intros s. unfold read_header.
  destruct (is_read 4 s) as [g0 s0].
  destruct (beq_bytes _ SPOC); cbn [negb]; [|right; eauto].
  destruct (read_uint 1 _ s0) as [ma s1]. destruct (ma =? MAJOR_VERSION); cbn [negb]; [|right; eauto].
  destruct (read_uint 1 _ s1) as [mi s2]. destruct (mi =? MINOR_VERSION); cbn [negb]; [|right; eauto].
  destruct (read_uint 2 0 s2) as [len s3]. destruct (is_read len s3) as [g4 s4].
  destruct (read_uint 1 _ s4) as [e s5]. destruct (read_uint 8 _ s5) as [t s6].
  destruct (read_uint 1 _ s6) as [c s7]. left. eauto.
Qed.

(** What a successfully read header looks like, for any stream of bytes. *)
Lemma read_header_good : forall s h s', bytes_ok (i_rest s) -> read_header s = Ret (h, s') ->
  good_header h /\ bytes_ok (i_rest s').
Proof.
  intros s h s' Hok H. unfold read_header in H.
  destruct (is_read 4 s) as [g0 s0] eqn:E0.
  destruct (is_read_ok _ _ _ _ Hok E0) as [_ Hok0].
  destruct (beq_bytes (overwrite g0 (h_sig header_default)) SPOC) eqn:Es; cbn [negb] in H; [|discriminate].
  apply beq_bytes_eq in Es.
  destruct (read_uint 1 _ s0) as [ma s1] eqn:E1.
  destruct (read_uint_range _ _ _ _ _ Hok0 E1) as [_ Hok1].
  destruct (ma =? MAJOR_VERSION) eqn:Ema; cbn [negb] in H; [|discriminate].
  destruct (read_uint 1 _ s1) as [mi s2] eqn:E2.
  destruct (read_uint_range _ _ _ _ _ Hok1 E2) as [_ Hok2].
  destruct (mi =? MINOR_VERSION) eqn:Emi; cbn [negb] in H; [|discriminate].
  destruct (read_uint 2 0 s2) as [len s3] eqn:E3.
  destruct (read_uint_range _ _ _ _ _ Hok2 E3) as [Rlen Hok3].
  destruct (is_read len s3) as [g4 s4] eqn:E4.
  destruct (is_read_ok _ _ _ _ Hok3 E4) as [Hg4 Hok4].
  destruct (read_uint 1 _ s4) as [e s5] eqn:E5.
  destruct (read_uint_range _ _ _ _ _ Hok4 E5) as [Re Hok5].
  destruct (read_uint 8 _ s5) as [t s6] eqn:E6.
  destruct (read_uint_range _ _ _ _ _ Hok5 E6) as [Rt Hok6].
  destruct (read_uint 1 _ s6) as [c s7] eqn:E7.
  destruct (read_uint_range _ _ _ _ _ Hok6 E7) as [Rc Hok7].
  injection H as <- <-. split; [|assumption].
  apply Z.eqb_eq in Ema, Emi. cbn in Rlen, Re, Rt, Rc.
  pose proof (is_read_zlen len s3 g4 s4 ltac:(lia) E4) as Hg4l.
  constructor; cbn [h_sig h_major h_minor h_wkt h_extra h_total h_compressed].
  - exact Es.
  - exact Ema.
  - exact Emi.
  - apply Forall_overwrite; [assumption|]. apply Forall_zrepeat. lia.
  - change (zlen (overwrite g4 (zrepeat 0 len)) <= 65535).
    rewrite zlen_overwrite; rewrite zlen_zrepeat; lia.
  - lia.
  - change (2 ^ 64) with 18446744073709551616. lia.
  - lia.
Qed.

(** ** The exact acceptance condition *)

Definition magic : list Z := [83; 80; 79; 67; 0; 1].

Lemma overwrite_ztake : forall {A} n (l d : list A), zlen d = n ->
  overwrite (ztake n l) d = ztake n (l ++ zdrop (zlen l) d).
Proof.
  intros A n l d Hn. unfold overwrite. rewrite zlen_ztake.
  pose proof (zlen_nonneg l). pose proof (zlen_nonneg d).
  destruct (Z_le_gt_dec (zlen l) n).
  - rewrite ztake_all by lia. rewrite ztake_app_r by lia.
    rewrite Z.max_r by lia. rewrite Z.min_r by lia.
    rewrite (ztake_all (n - zlen l)); [reflexivity|]. rewrite zlen_zdrop. lia.
  - rewrite ztake_app_l by lia. rewrite zdrop_all by lia. rewrite app_nil_r. reflexivity.
Qed.

(** Does the beginning of a byte string agree with the magic number as far as
    it goes? *)
Fixpoint agrees (m bs : list Z) : bool :=
  match m, bs with
  | x :: m', y :: bs' => (x =? y) && agrees m' bs'
  | _, _ => true
  end.

Lemma agrees_spec : forall m bs,
  agrees m bs = false <-> exists k b, nth_error bs k = Some b /\ exists x, nth_error m k = Some x /\ x <> b.
Proof.
  induction m as [|x m IH]; intros [|y bs]; cbn [agrees].
  - split; [discriminate|]. intros (k & b & H & _). now destruct k.
  - split; [discriminate|]. intros (k & b & _ & x & H & _). now destruct k.
  - split; [discriminate|]. intros (k & b & H & _). now destruct k.
  - destruct (x =? y) eqn:E; cbn [andb].
    + apply Z.eqb_eq in E. subst y. rewrite IH. split.
      * intros (k & b & H1 & z & H2 & H3). exists (S k), b. cbn. eauto.
      * intros ([|k] & b & H1 & z & H2 & H3); cbn in *.
        -- injection H1 as <-. injection H2 as <-. congruence.
        -- exists k, b. split; [assumption|]. exists z. auto.
    + apply Z.eqb_neq in E. split; [|reflexivity]. intros _. exists O, y. cbn. eauto.
Qed.

Lemma read_uint1_nil : forall old, 0 <= old < 256 ->
  read_uint 1 old (i_open []) = (old, mk_istream [] true true).
Proof.
  intros old H. unfold read_uint. cbn. rewrite Z.mod_small by lia. f_equal. lia.
Qed.

Lemma read_uint1_cons : forall old b t, read_uint 1 old (i_open (b :: t)) = (b, i_open t).
Proof.
  intros old b t. unfold read_uint. change (b :: t) with ([b] ++ t).
  rewrite is_read_open by reflexivity. cbn. f_equal. lia.
Qed.

Lemma read_header_accepts : forall bs,
  if agrees magic bs
  then exists h s', read_header (i_open bs) = Ret (h, s')
  else exists e, read_header (i_open bs) = Throw e.
Proof.
  intros bs.
  destruct bs as [|b0 [|b1 [|b2 [|b3 [|b4 [|b5 t]]]]]];
    cbn [agrees magic andb]; unfold read_header.
  - change (is_read 4 (i_open [])) with (@nil Z, mk_istream [] true true).
    cbn -[read_uint is_read]. 
    unfold read_uint at 1. rewrite is_read_bad by reflexivity. cbn -[read_uint is_read].
    unfold read_uint at 1. rewrite is_read_bad by reflexivity. cbn -[read_uint is_read].
    repeat (match goal with |- context [let '(_, _) := ?x in _] => destruct x end). eauto.
  - change (is_read 4 (i_open [b0])) with ([b0], mk_istream [] true true).
    cbn -[read_uint is_read Z.eqb]. rewrite (Z.eqb_sym b0 83).
    destruct (83 =? b0); cbn -[read_uint is_read]; [|eauto].
    unfold read_uint at 1. rewrite is_read_bad by reflexivity. cbn -[read_uint is_read].
    unfold read_uint at 1. rewrite is_read_bad by reflexivity. cbn -[read_uint is_read].
    repeat (match goal with |- context [let '(_, _) := ?x in _] => destruct x end). eauto.
  - change (is_read 4 (i_open [b0; b1])) with ([b0; b1], mk_istream [] true true).
    cbn -[read_uint is_read Z.eqb]. rewrite (Z.eqb_sym b0 83), (Z.eqb_sym b1 80).
    destruct (83 =? b0); cbn -[read_uint is_read Z.eqb]; [|eauto].
    destruct (80 =? b1); cbn -[read_uint is_read Z.eqb]; [|eauto].
    unfold read_uint at 1. rewrite is_read_bad by reflexivity. cbn -[read_uint is_read].
    unfold read_uint at 1. rewrite is_read_bad by reflexivity. cbn -[read_uint is_read].
    repeat (match goal with |- context [let '(_, _) := ?x in _] => destruct x end). eauto.
  - change (is_read 4 (i_open [b0; b1; b2])) with ([b0; b1; b2], mk_istream [] true true).
    cbn -[read_uint is_read Z.eqb]. rewrite (Z.eqb_sym b0 83), (Z.eqb_sym b1 80), (Z.eqb_sym b2 79).
    destruct (83 =? b0); cbn -[read_uint is_read Z.eqb]; [|eauto].
    destruct (80 =? b1); cbn -[read_uint is_read Z.eqb]; [|eauto].
    destruct (79 =? b2); cbn -[read_uint is_read Z.eqb]; [|eauto].
    unfold read_uint at 1. rewrite is_read_bad by reflexivity. cbn -[read_uint is_read].
    unfold read_uint at 1. rewrite is_read_bad by reflexivity. cbn -[read_uint is_read].
    repeat (match goal with |- context [let '(_, _) := ?x in _] => destruct x end). eauto.
  - change (is_read 4 (i_open [b0; b1; b2; b3])) with ([b0; b1; b2; b3], i_open []).
    cbn -[read_uint is_read Z.eqb].
    rewrite (Z.eqb_sym b0 83), (Z.eqb_sym b1 80), (Z.eqb_sym b2 79), (Z.eqb_sym b3 67).
    destruct (83 =? b0); cbn -[read_uint is_read Z.eqb]; [|eauto].
    destruct (80 =? b1); cbn -[read_uint is_read Z.eqb]; [|eauto].
    destruct (79 =? b2); cbn -[read_uint is_read Z.eqb]; [|eauto].
    destruct (67 =? b3); cbn -[read_uint is_read Z.eqb]; [|eauto].
    rewrite read_uint1_nil by (unfold MAJOR_VERSION, MINOR_VERSION; lia).
    cbn -[read_uint is_read].
    unfold read_uint at 1. rewrite is_read_bad by reflexivity. cbn -[read_uint is_read].
    repeat (match goal with |- context [let '(_, _) := ?x in _] => destruct x end). eauto.
  - change (is_read 4 (i_open [b0; b1; b2; b3; b4])) with ([b0; b1; b2; b3], i_open [b4]).
    cbn -[read_uint is_read Z.eqb].
    rewrite (Z.eqb_sym b0 83), (Z.eqb_sym b1 80), (Z.eqb_sym b2 79), (Z.eqb_sym b3 67).
    destruct (83 =? b0); cbn -[read_uint is_read Z.eqb]; [|eauto].
    destruct (80 =? b1); cbn -[read_uint is_read Z.eqb]; [|eauto].
    destruct (79 =? b2); cbn -[read_uint is_read Z.eqb]; [|eauto].
    destruct (67 =? b3); cbn -[read_uint is_read Z.eqb]; [|eauto].
    rewrite read_uint1_cons. unfold MAJOR_VERSION. rewrite (Z.eqb_sym b4 0).
    destruct (0 =? b4); cbn -[read_uint is_read Z.eqb]; [|eauto].
    rewrite read_uint1_nil by (unfold MAJOR_VERSION, MINOR_VERSION; lia).
    cbn -[read_uint is_read].
    repeat (match goal with |- context [let '(_, _) := ?x in _] => destruct x end). eauto.
  - change (b0 :: b1 :: b2 :: b3 :: b4 :: b5 :: t) with ([b0; b1; b2; b3] ++ [b4] ++ [b5] ++ t).
    rewrite is_read_open by reflexivity.
    rewrite overwrite_full by reflexivity. cbn -[read_uint is_read Z.eqb app].
    rewrite (Z.eqb_sym b0 83), (Z.eqb_sym b1 80), (Z.eqb_sym b2 79), (Z.eqb_sym b3 67).
    destruct (83 =? b0); cbn -[read_uint is_read Z.eqb app]; [|eauto].
    destruct (80 =? b1); cbn -[read_uint is_read Z.eqb app]; [|eauto].
    destruct (79 =? b2); cbn -[read_uint is_read Z.eqb app]; [|eauto].
    destruct (67 =? b3); cbn -[read_uint is_read Z.eqb app]; [|eauto].
    cbn [app]. rewrite read_uint1_cons. unfold MAJOR_VERSION. rewrite (Z.eqb_sym b4 0).
    destruct (0 =? b4); cbn -[read_uint is_read Z.eqb app]; [|eauto].
    rewrite read_uint1_cons. unfold MINOR_VERSION. rewrite (Z.eqb_sym b5 1).
    destruct (1 =? b5); cbn -[read_uint is_read Z.eqb app]; [|eauto].
    repeat (match goal with |- context [let '(_, _) := ?x in _] => destruct x end). eauto.
Qed.

(** ** operator== and operator!= *)

Lemma header_eqb_eq : forall a b, header_eqb a b = true <-> a = b.
Proof.
  intros [s1 a1 b1 w1 e1 t1 c1] [s2 a2 b2 w2 e2 t2 c2]. unfold header_eqb. cbn.
  repeat match goal with
  | |- context [negb ?x] => let E := fresh in destruct x eqn:E; cbn [negb];
      [first [apply beq_bytes_eq in E | apply Z.eqb_eq in E]; subst |
       split; [discriminate|]; intros Heq; injection Heq as; subst;
       first [rewrite beq_bytes_refl in E | rewrite Z.eqb_refl in E]; discriminate]
  end.
  tauto.
Qed.

Lemma header_neb_negb : forall a b, header_neb a b = negb (header_eqb a b).
Proof.
  intros a b. unfold header_neb, header_eqb.
  repeat match goal with |- context [negb ?x] => destruct x; cbn [negb]; try reflexivity end.
Qed.
