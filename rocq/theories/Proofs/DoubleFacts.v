(** Bit patterns, the integers and reals they denote, and comparisons. *)
From Coq Require Import ZArith Bool Reals Lia Lra.
From Flocq Require Import Core IEEE754.BinarySingleNaN IEEE754.Binary IEEE754.Bits.
From Verif.Model Require Import Base Double Arith.
From Verif.Spec Require Export Rounding.
Open Scope Z_scope.

(** The value of a finite pattern in units of 2^-1074. *)
Definition mag_int (m : Z) : Z :=
  if m / 2 ^ 52 =? 0 then m mod 2 ^ 52 else (m mod 2 ^ 52 + 2 ^ 52) * 2 ^ (m / 2 ^ 52 - 1).
Definition d_int (d : double) : Z :=
  if d <? two63 then mag_int d else - mag_int (d - two63).

Lemma mag_int_nonneg : forall m, 0 <= m -> 0 <= mag_int m.
Proof.
  intros m Hm. unfold mag_int. pose proof (Z.mod_pos_bound m (2 ^ 52) ltac:(lia)) as B.
  destruct (_ =? 0); [lia|]. apply Z.mul_nonneg_nonneg; [lia|]. apply Z.pow_nonneg. lia.
Qed.

Lemma mag_int_lt : forall a b, 0 <= a -> a < b -> mag_int a < mag_int b.
Proof.
  intros a b Ha Hab. unfold mag_int.
  pose proof (Z.mod_pos_bound a (2 ^ 52) ltac:(lia)) as Ba.
  pose proof (Z.mod_pos_bound b (2 ^ 52) ltac:(lia)) as Bb.
  pose proof (Z.div_mod a (2 ^ 52) ltac:(lia)) as Ea. pose proof (Z.div_mod b (2 ^ 52) ltac:(lia)) as Eb.
  set (ma := a mod 2 ^ 52) in *. set (mb := b mod 2 ^ 52) in *.
  set (ea := a / 2 ^ 52) in *. set (eb := b / 2 ^ 52) in *.
  assert (Hea : 0 <= ea) by (unfold ea; apply Z.div_pos; lia).
  assert (Heb : ea <= eb) by nia.
  destruct (Z.eqb_spec ea 0) as [Za|Za]; destruct (Z.eqb_spec eb 0) as [Zb|Zb].
  - nia.
  - assert (P : 1 <= 2 ^ (eb - 1)) by (pose proof (Z.pow_pos_nonneg 2 (eb - 1)); lia). nia.
  - lia.
  - destruct (Z.eq_dec ea eb) as [E|E].
    + rewrite E. assert (P : 0 < 2 ^ (eb - 1)) by (apply Z.pow_pos_nonneg; lia).
      apply Z.mul_lt_mono_pos_r; nia.
    + assert (P : 0 < 2 ^ (ea - 1)) by (apply Z.pow_pos_nonneg; lia).
      assert (Q : 2 ^ (eb - 1) = 2 ^ (eb - ea - 1) * (2 * 2 ^ (ea - 1))).
      { replace (2 * 2 ^ (ea - 1)) with (2 ^ ea) by (rewrite <- Z.pow_succ_r by lia; f_equal; lia).
        rewrite <- Z.pow_add_r by lia. f_equal. lia. }
      assert (S : 1 <= 2 ^ (eb - ea - 1)) by (pose proof (Z.pow_pos_nonneg 2 (eb - ea - 1)); lia).
      rewrite Q. nia.
Qed.

Lemma mag_int_le : forall a b, 0 <= a -> a <= b -> mag_int a <= mag_int b.
Proof.
  intros a b Ha H. destruct (Z.eq_dec a b) as [->|N]; [lia|].
  pose proof (mag_int_lt a b Ha). lia.
Qed.

Lemma mag_int_0 : mag_int 0 = 0. Proof. reflexivity. Qed.

Lemma d_key_int : forall a b, d_ok a -> d_ok b -> (d_key a < d_key b <-> d_int a < d_int b).
Proof.
  assert (W : forall a b, d_ok a -> d_ok b -> d_key a < d_key b -> d_int a < d_int b).
  { intros a b [Ha _] [Hb _]. unfold d_key, d_int.
    destruct (Z.ltb_spec a two63); destruct (Z.ltb_spec b two63); intros L.
    - now apply mag_int_lt.
    - pose proof (mag_int_nonneg a Ha). pose proof (mag_int_nonneg (b - two63)). lia.
    - pose proof (mag_int_nonneg b Hb). pose proof (mag_int_nonneg (a - two63)).
      destruct (Z.eq_dec a two63) as [->|N].
      + replace (two63 - two63) with 0 in * by lia. rewrite mag_int_0 in *.
        pose proof (mag_int_lt 0 b). rewrite mag_int_0 in *. lia.
      + pose proof (mag_int_lt 0 (a - two63)). rewrite mag_int_0 in *. lia.
    - pose proof (mag_int_lt (b - two63) (a - two63)). lia. }
  intros a b Ha Hb. split; [now apply W|]. intros L.
  destruct (Z.lt_trichotomy (d_key a) (d_key b)) as [G|[G|G]]; [exact G| |apply W in G; auto; lia].
  exfalso. revert G L. unfold d_key, d_int. destruct Ha as [Ha _], Hb as [Hb _].
  destruct (Z.ltb_spec a two63); destruct (Z.ltb_spec b two63); intros G L.
  - subst. lia.
  - assert (a = 0) by lia. assert (b = two63) by lia. subst. vm_compute in L. discriminate.
  - assert (b = 0) by lia. assert (a = two63) by lia. subst. vm_compute in L. discriminate.
  - replace a with b in L by lia. lia.
Qed.

Lemma d_key_int_eq : forall a b, d_ok a -> d_ok b -> (d_key a = d_key b <-> d_int a = d_int b).
Proof.
  intros a b Ha Hb. pose proof (d_key_int a b Ha Hb). pose proof (d_key_int b a Hb Ha). lia.
Qed.

(** ** Agreement with Flocq *)

Lemma d_parts : forall d, d_ok d ->
  (2 ^ 52 * 2 ^ 11 <=? d) = negb (d <? two63)
  /\ 0 <= d_mag d < two63 /\ d = (if d <? two63 then d_mag d else d_mag d + two63)
  /\ d mod 2 ^ 52 = d_mag d mod 2 ^ 52 /\ (d / 2 ^ 52) mod 2 ^ 11 = d_mag d / 2 ^ 52
  /\ 0 <= d_mag d / 2 ^ 52 < 2 ^ 11.
Proof.
  intros d [H0 H1]. change (2 ^ 52 * 2 ^ 11) with two63.
  split; [destruct (Z.ltb_spec d two63); destruct (Z.leb_spec two63 d); cbn; lia|].
  unfold d_mag. pose proof (Z.mod_pos_bound d two63 eq_refl) as B. split; [exact B|].
  assert (E : d = (if d <? two63 then d mod two63 else d mod two63 + two63)).
  { destruct (Z.ltb_spec d two63); [now rewrite Z.mod_small|].
    replace d with ((d - two63) + 1 * two63) at 2 by lia. rewrite Z.mod_add by (unfold two63; lia).
    rewrite Z.mod_small; [lia|]. unfold two63, two64 in *. lia. }
  split; [exact E|].
  assert (Q : d mod two63 / 2 ^ 52 < 2 ^ 11).
  { apply Z.div_lt_upper_bound; [lia|]. change (2 ^ 52 * 2 ^ 11) with two63. lia. }
  assert (Q0 : 0 <= d mod two63 / 2 ^ 52) by (apply Z.div_pos; lia).
  assert (T : two63 = 2 ^ 11 * 2 ^ 52) by reflexivity.
  split; [|split; [|lia]].
  - rewrite E at 1. destruct (d <? two63); [reflexivity|]. rewrite T at 2. now rewrite Z.mod_add by lia.
  - rewrite E at 1. destruct (d <? two63).
    + now rewrite Z.mod_small by lia.
    + rewrite T at 2. rewrite Z.div_add by lia.
      rewrite <- Z.add_mod_idemp_r by lia. rewrite Z.mod_same by lia.
      rewrite Z.add_0_r. now rewrite Z.mod_small by lia.
Qed.

Lemma b64_FF : forall d, Binary.B2FF 53 1024 (b64_of_bits d) = binary_float_of_bits_aux 52 11 d.
Proof. intros d. unfold b64_of_bits, binary_float_of_bits. apply B2FF_FF2B. Qed.

(** Which kind of value a pattern is. *)
Lemma b64_kind : forall d, d_ok d ->
  let s := negb (d <? two63) in
  let m := d_mag d in
  binary_float_of_bits_aux 52 11 d =
    if m =? 0 then F754_zero s
    else if m =? d_inf then F754_infinity s
    else if d_inf <? m then F754_nan s (Z.to_pos (m - d_inf))
    else if m <? 2 ^ 52 then F754_finite s (Z.to_pos m) (-1074)
    else F754_finite s (Z.to_pos (m mod 2 ^ 52 + 2 ^ 52)) (m / 2 ^ 52 - 1075).
Proof.
  intros d Hd s m. destruct (d_parts d Hd) as (P1 & P2 & P3 & P4 & P5 & P6).
  unfold binary_float_of_bits_aux, split_bits. rewrite P1, P4, P5. fold s. fold m. fold m in P2, P6.
  pose proof (Z.div_mod m (2 ^ 52) ltac:(lia)) as E. pose proof (Z.mod_pos_bound m (2 ^ 52) ltac:(lia)) as B.
  set (q := m / 2 ^ 52) in *. set (r := m mod 2 ^ 52) in *.
  assert (DI : d_inf = 2 ^ 52 * 2047) by reflexivity.
  destruct (Zeq_bool q 0) eqn:Q0.
  - apply Zeq_bool_eq in Q0. assert (m = r) by lia.
    replace (m =? d_inf) with false by (symmetry; apply Z.eqb_neq; lia).
    replace (d_inf <? m) with false by (symmetry; apply Z.ltb_ge; lia).
    replace (m <? 2 ^ 52) with true by (symmetry; apply Z.ltb_lt; lia).
    rewrite H. destruct r as [|p|p]; cbn; try reflexivity. lia.
  - apply Zeq_bool_neq in Q0.
    replace (m =? 0) with false by (symmetry; apply Z.eqb_neq; lia).
    destruct (Zeq_bool q (2 ^ 11 - 1)) eqn:Q1.
    + apply Zeq_bool_eq in Q1. assert (M : m - d_inf = r) by lia.
      destruct r as [|p|p] eqn:Er.
      * replace (m =? d_inf) with true by (symmetry; apply Z.eqb_eq; lia). reflexivity.
      * replace (m =? d_inf) with false by (symmetry; apply Z.eqb_neq; lia).
        replace (d_inf <? m) with true by (symmetry; apply Z.ltb_lt; lia).
        rewrite M. reflexivity.
      * lia.
    + apply Zeq_bool_neq in Q1.
      replace (m =? d_inf) with false by (symmetry; apply Z.eqb_neq; lia).
      replace (d_inf <? m) with false by (symmetry; apply Z.ltb_ge; lia).
      replace (m <? 2 ^ 52) with false by (symmetry; apply Z.ltb_ge; lia).
      destruct (r + 2 ^ 52) as [|p|p] eqn:Ep; try lia.
      cbn [Z.to_pos]. f_equal. change (SpecFloat.emin (52 + 1) (2 ^ (11 - 1))) with (-1074). lia.
Qed.

Lemma d_is_finite_B : forall d, d_ok d -> d_is_finite d = Binary.is_finite 53 1024 (b64_of_bits d).
Proof.
  intros d Hd. rewrite <- Binary.is_finite_B2FF. rewrite b64_FF, b64_kind by assumption.
  unfold d_is_finite. destruct (d_parts d Hd) as (_ & P2 & _). set (m := d_mag d) in *.
  destruct (Z.eqb_spec m 0) as [->|]; [reflexivity|].
  destruct (Z.eqb_spec m d_inf) as [->|]; [reflexivity|].
  destruct (Z.ltb_spec d_inf m); [cbn; lia|].
  destruct (Z.ltb_spec m (2 ^ 52)); cbn; lia.
Qed.

Lemma d_is_nan_B : forall d, d_ok d -> d_is_nan d = Binary.is_nan 53 1024 (b64_of_bits d).
Proof.
  intros d Hd. rewrite <- Binary.is_nan_B2FF. rewrite b64_FF, b64_kind by assumption.
  unfold d_is_nan. destruct (d_parts d Hd) as (_ & P2 & _). set (m := d_mag d) in *.
  destruct (Z.eqb_spec m 0) as [->|]; [reflexivity|].
  destruct (Z.eqb_spec m d_inf) as [->|]; [reflexivity|].
  destruct (Z.ltb_spec d_inf m); [cbn; lia|].
  destruct (Z.ltb_spec m (2 ^ 52)); cbn; lia.
Qed.

(** The real number a finite pattern denotes. *)
Lemma d_val_int : forall d, d_ok d -> d_is_finite d = true ->
  d_val d = (IZR (d_int d) * bpow radix2 (-1074))%R.
Proof.
  intros d Hd Hf. unfold d_val. rewrite <- Binary.FF2R_B2FF, b64_FF, b64_kind by assumption.
  destruct (d_parts d Hd) as (_ & P2 & P3 & _ & _ & P6).
  assert (I : d_int d = if d <? two63 then mag_int (d_mag d) else - mag_int (d_mag d)).
  { unfold d_int. destruct (d <? two63); rewrite P3 at 1; [reflexivity|]. do 2 f_equal. lia. }
  rewrite I. unfold d_is_finite in Hf. apply Z.ltb_lt in Hf.
  set (m := d_mag d) in *. set (s := d <? two63).
  destruct (Z.eqb_spec m 0) as [->|N0].
  { cbn. destruct s; cbn; lra. }
  destruct (Z.eqb_spec m d_inf) as [->|N1]; [lia|].
  destruct (Z.ltb_spec d_inf m); [lia|].
  assert (C : forall v e, 0 < v -> FF2R radix2 (F754_finite (negb s) (Z.to_pos v) e)
             = ((if s then IZR v else - IZR v) * bpow radix2 e)%R).
  { intros v e Hv. unfold FF2R, F2R. cbn [Fnum Fexp]. f_equal.
    destruct s; cbn [negb cond_Zopp]; rewrite Z2Pos.id by assumption; [reflexivity|apply opp_IZR]. }
  destruct (Z.ltb_spec m (2 ^ 52)).
  - rewrite C by lia. f_equal. unfold mag_int.
    replace (m / 2 ^ 52) with 0 by (symmetry; apply Z.div_small; lia). cbn [Z.eqb].
    rewrite Z.mod_small by lia. destruct s; [reflexivity|now rewrite opp_IZR].
  - pose proof (Z.mod_pos_bound m (2 ^ 52) ltac:(lia)). rewrite C by lia. unfold mag_int.
    assert (Q : 1 <= m / 2 ^ 52) by (apply Z.div_le_lower_bound; lia).
    replace (m / 2 ^ 52 =? 0) with false by (symmetry; apply Z.eqb_neq; lia).
    replace (bpow radix2 (m / 2 ^ 52 - 1075)) with (bpow radix2 (m / 2 ^ 52 - 1) * bpow radix2 (-1074))%R.
    2: { rewrite <- bpow_plus. f_equal. lia. }
    rewrite <- Rmult_assoc. f_equal.
    rewrite <- (IZR_Zpower radix2) by lia. change (radix_val radix2) with 2.
    destruct s; [now rewrite mult_IZR|]. rewrite opp_IZR, mult_IZR. lra.
Qed.

Lemma d_val_lt : forall a b, d_ok a -> d_ok b -> d_is_finite a = true -> d_is_finite b = true ->
  (d_key a < d_key b <-> (d_val a < d_val b)%R).
Proof.
  intros a b Ha Hb Fa Fb. rewrite !d_val_int by assumption. rewrite d_key_int by assumption.
  pose proof (bpow_gt_0 radix2 (-1074)) as P. split; intros H.
  - apply Rmult_lt_compat_r; [exact P|now apply IZR_lt].
  - apply Rmult_lt_reg_r in H; [|exact P]. now apply lt_IZR.
Qed.

Lemma d_finite_not_nan : forall d, d_is_finite d = true -> d_is_nan d = false.
Proof. intros d. unfold d_is_finite, d_is_nan. rewrite Z.ltb_lt, Z.ltb_ge. lia. Qed.

Lemma d_ltb_val : forall a b, d_ok a -> d_ok b -> d_is_finite a = true -> d_is_finite b = true ->
  (d_ltb a b = true <-> (d_val a < d_val b)%R).
Proof.
  intros a b Ha Hb Fa Fb. unfold d_ltb. rewrite !d_finite_not_nan by assumption. cbn.
  rewrite Z.ltb_lt. now apply d_val_lt.
Qed.

Lemma d_leb_val : forall a b, d_ok a -> d_ok b -> d_is_finite a = true -> d_is_finite b = true ->
  (d_leb a b = true <-> (d_val a <= d_val b)%R).
Proof.
  intros a b Ha Hb Fa Fb. unfold d_leb. rewrite !d_finite_not_nan by assumption. cbn.
  rewrite Z.leb_le. pose proof (d_val_lt b a Hb Ha Fb Fa) as H. split; intros L.
  - apply Rnot_lt_le. intros G. apply H in G. lia.
  - apply Z.nlt_ge. intros G. apply H in G. lra.
Qed.

Lemma d_eqb_val : forall a b, d_ok a -> d_ok b -> d_is_finite a = true -> d_is_finite b = true ->
  (d_eqb a b = true <-> d_val a = d_val b).
Proof.
  intros a b Ha Hb Fa Fb. unfold d_eqb. rewrite !d_finite_not_nan by assumption. cbn.
  rewrite Z.eqb_eq. pose proof (d_val_lt b a Hb Ha Fb Fa) as H. pose proof (d_val_lt a b Ha Hb Fa Fb) as H'.
  split; intros L.
  - destruct (Rtotal_order (d_val a) (d_val b)) as [G|[G|G]]; [|exact G|].
    + apply H' in G. lia.
    + apply H in G. lia.
  - destruct (Z.lt_trichotomy (d_key a) (d_key b)) as [G|[G|G]]; [|exact G|].
    + apply H' in G. lra.
    + apply H in G. lra.
Qed.
