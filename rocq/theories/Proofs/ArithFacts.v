(** What double arithmetic computes: the real result, rounded, unless it overflows. *)
From Coq Require Import Reals ZArith Bool Lia Lra.
From Flocq Require Import Core Plus_error IEEE754.BinarySingleNaN IEEE754.Binary IEEE754.Bits.
From Verif.Model Require Import Base Double Arith.
From Verif.Proofs Require Import DoubleFacts.
Open Scope Z_scope.

Lemma fexp64_FLT : forall e, fexp64 e = FLT_exp (-1074) 53 e.
Proof. reflexivity. Qed.
Global Instance fexp64_valid : Valid_exp fexp64.
Proof. apply (@BinarySingleNaN.fexp_correct 53 1024). reflexivity. Qed.

Lemma rnd_le : forall x y, (x <= y)%R -> (rnd x <= rnd y)%R.
Proof. intros x y H. unfold rnd. now apply round_le; [apply fexp64_valid|apply valid_rnd_N|]. Qed.
Lemma rnd_0 : rnd 0 = 0%R.
Proof. unfold rnd. apply round_0. apply valid_rnd_N. Qed.
Lemma rnd_opp : forall x, rnd (- x) = (- rnd x)%R.
Proof. intros x. unfold rnd. apply round_NE_opp. Qed.
Lemma rnd_abs : forall x, Rabs (rnd x) = rnd (Rabs x).
Proof.
  intros x. unfold Rabs. destruct (Rcase_abs x) as [H|H]; destruct (Rcase_abs (rnd x)) as [G|G].
  - now rewrite rnd_opp.
  - pose proof (rnd_le x 0 ltac:(lra)) as L. rewrite rnd_0 in L. rewrite rnd_opp. lra.
  - pose proof (rnd_le 0 x ltac:(lra)) as L. rewrite rnd_0 in L. lra.
  - reflexivity.
Qed.
Lemma rnd_pos : forall x, (0 <= x)%R -> (0 <= rnd x)%R.
Proof. intros x H. rewrite <- rnd_0. now apply rnd_le. Qed.
Lemma rnd_neg : forall x, (x <= 0)%R -> (rnd x <= 0)%R.
Proof. intros x H. rewrite <- rnd_0. now apply rnd_le. Qed.

Lemma d_val_format : forall d, generic_format radix2 fexp64 (d_val d).
Proof. intros d. apply (Binary.generic_format_B2R 53 1024). Qed.
Lemma rnd_val : forall d, rnd (d_val d) = d_val d.
Proof. intros d. unfold rnd. apply round_generic; [apply valid_rnd_N|apply d_val_format]. Qed.
Lemma rnd_rnd : forall x, rnd (rnd x) = rnd x.
Proof.
  intros x. unfold rnd at 1. apply round_generic; [apply valid_rnd_N|].
  unfold rnd. apply generic_format_round; [apply fexp64_valid|apply valid_rnd_N].
Qed.

Lemma bpow_format : forall e, -1074 <= e -> generic_format radix2 fexp64 (bpow radix2 e).
Proof.
  intros e H. apply generic_format_bpow. rewrite fexp64_FLT. unfold FLT_exp. lia.
Qed.
Lemma rnd_bpow : forall e, -1074 <= e -> rnd (bpow radix2 e) = bpow radix2 e.
Proof. intros e H. unfold rnd. apply round_generic; [apply valid_rnd_N|now apply bpow_format]. Qed.

Lemma int_format : forall z, Z.abs z <= 2 ^ 53 -> generic_format radix2 fexp64 (IZR z).
Proof.
  intros z H. destruct (Z.eq_dec (Z.abs z) (2 ^ 53)) as [E|E].
  - assert (B : generic_format radix2 fexp64 (IZR (2 ^ 53))).
    { change 2 with (radix_val radix2). rewrite IZR_Zpower by lia. now apply bpow_format. }
    destruct (Z.abs_eq_or_opp z) as [A|A].
    + rewrite A in E. now rewrite E.
    + replace z with (- 2 ^ 53) by lia. rewrite opp_IZR. now apply generic_format_opp.
  - apply (generic_format_FLT radix2 (-1074) 53). exists (Float radix2 z 0).
    + unfold F2R. cbn. ring.
    + cbn [Fnum]. change (Zpower radix2 53) with (2 ^ 53). lia.
    + cbn. lia.
Qed.
Lemma rnd_int : forall z, Z.abs z <= 2 ^ 53 -> rnd (IZR z) = IZR z.
Proof. intros z H. unfold rnd. apply round_generic; [apply valid_rnd_N|now apply int_format]. Qed.

Lemma fits_le : forall x y, (Rabs x <= Rabs y)%R -> fits y -> fits x.
Proof.
  intros x y H. unfold fits. rewrite !rnd_abs. intros F. eapply Rle_lt_trans; [apply rnd_le, H|exact F].
Qed.
Lemma fits_bpow : forall x e, (Rabs x <= bpow radix2 e)%R -> e < 1024 -> fits x.
Proof.
  intros x e H He. unfold fits. rewrite rnd_abs.
  destruct (Z_lt_le_dec e (-1074)) as [L|L].
  - eapply Rle_lt_trans; [apply rnd_le; eapply Rle_trans; [exact H|apply (bpow_le radix2 e (-1074)); lia]|].
    rewrite rnd_bpow by lia. apply bpow_lt. lia.
  - eapply Rle_lt_trans; [apply rnd_le, H|]. rewrite rnd_bpow by lia. apply bpow_lt. lia.
Qed.
Lemma fits_val : forall d, fits (d_val d).
Proof. intros d. unfold fits. rewrite rnd_val. apply (Binary.abs_B2R_lt_emax 53 1024). Qed.
Lemma fits_0 : fits 0.
Proof. apply (fits_bpow 0 0); [|lia]. rewrite Rabs_R0. apply bpow_ge_0. Qed.

(** ** Results of operations are patterns *)

Lemma bits_ok : forall b, d_ok (bits_of_b64 b).
Proof.
  intros b. unfold d_ok, bits_of_b64. pose proof (bits_of_binary_float_range 52 11 eq_refl eq_refl b) as H.
  change (2 ^ (52 + 11 + 1)) with two64 in H. exact H.
Qed.
Lemma b64_bits : forall b, b64_of_bits (bits_of_b64 b) = b.
Proof. intros b. unfold b64_of_bits, bits_of_b64. exact (binary_float_of_bits_of_binary_float 52 11 eq_refl eq_refl eq_refl b). Qed.
Lemma val_bits : forall b, d_val (bits_of_b64 b) = Binary.B2R 53 1024 b.
Proof. intros b. unfold d_val. now rewrite b64_bits. Qed.
Lemma finite_bits : forall b, d_is_finite (bits_of_b64 b) = Binary.is_finite 53 1024 b.
Proof. intros b. rewrite d_is_finite_B by apply bits_ok. now rewrite b64_bits. Qed.
Lemma nan_bits : forall b, d_is_nan (bits_of_b64 b) = Binary.is_nan 53 1024 b.
Proof. intros b. rewrite d_is_nan_B by apply bits_ok. now rewrite b64_bits. Qed.

Lemma d_add_ok : forall a b, d_ok (d_add a b). Proof. intros; apply bits_ok. Qed.
Lemma d_sub_ok : forall a b, d_ok (d_sub a b). Proof. intros; apply bits_ok. Qed.
Lemma d_mul_ok : forall a b, d_ok (d_mul a b). Proof. intros; apply bits_ok. Qed.
Lemma d_div_ok : forall a b, d_ok (d_div a b). Proof. intros; apply bits_ok. Qed.
Lemma d_sqrt_ok : forall a, d_ok (d_sqrt a). Proof. intros; apply bits_ok. Qed.
Lemma d_of_z_ok : forall z, d_ok (d_of_z z). Proof. intros; apply bits_ok. Qed.

Lemma overflow_not_finite : forall b s,
  Binary.B2FF 53 1024 b = binary_overflow 53 1024 mode_NE s -> Binary.is_finite 53 1024 b = false.
Proof.
  intros b s H. rewrite <- Binary.is_finite_B2FF, H. reflexivity.
Qed.

Local Ltac by_cases C :=
  unfold fits, rnd, fexp64;
  destruct (Rlt_bool_spec (Rabs (round radix2 (SpecFloat.fexp 53 1024) ZnearestE C)) (bpow radix2 1024)) as [L|L].

(** An operation on finite operands gives the rounded real result, or is not
    finite when that does not fit. *)
Lemma d_add_val : forall a b, d_ok a -> d_ok b -> d_is_finite a = true -> d_is_finite b = true ->
  (d_is_finite (d_add a b) = true <-> fits (d_val a + d_val b))
  /\ (fits (d_val a + d_val b) -> d_val (d_add a b) = rnd (d_val a + d_val b)).
Proof.
  intros a b Ha Hb Fa Fb. rewrite d_is_finite_B in Fa, Fb by assumption.
  unfold d_add. rewrite finite_bits, val_bits.
  pose proof (Binary.Bplus_correct 53 1024 eq_refl eq_refl binop_nan_pl64 mode_NE (b64_of_bits a) (b64_of_bits b) Fa Fb) as H.
  cbn [round_mode] in H. unfold b64_plus. fold (d_val a) (d_val b) in H. revert H.
  by_cases (d_val a + d_val b)%R.
  - intros (H1 & H2 & _). split; [split; auto|]. intros _. exact H1.
  - intros (H1 & _). apply overflow_not_finite in H1. split; [|lra].
    split; [rewrite H1; discriminate|lra].
Qed.

Lemma d_sub_val : forall a b, d_ok a -> d_ok b -> d_is_finite a = true -> d_is_finite b = true ->
  (d_is_finite (d_sub a b) = true <-> fits (d_val a - d_val b))
  /\ (fits (d_val a - d_val b) -> d_val (d_sub a b) = rnd (d_val a - d_val b)).
Proof.
  intros a b Ha Hb Fa Fb. rewrite d_is_finite_B in Fa, Fb by assumption.
  unfold d_sub. rewrite finite_bits, val_bits.
  pose proof (Binary.Bminus_correct 53 1024 eq_refl eq_refl binop_nan_pl64 mode_NE (b64_of_bits a) (b64_of_bits b) Fa Fb) as H.
  cbn [round_mode] in H. unfold b64_minus. fold (d_val a) (d_val b) in H. revert H.
  by_cases (d_val a - d_val b)%R.
  - intros (H1 & H2 & _). split; [split; auto|]. intros _. exact H1.
  - intros (H1 & _). apply overflow_not_finite in H1. split; [|lra].
    split; [rewrite H1; discriminate|lra].
Qed.

Lemma d_mul_val : forall a b, d_ok a -> d_ok b -> d_is_finite a = true -> d_is_finite b = true ->
  (d_is_finite (d_mul a b) = true <-> fits (d_val a * d_val b))
  /\ (fits (d_val a * d_val b) -> d_val (d_mul a b) = rnd (d_val a * d_val b)).
Proof.
  intros a b Ha Hb Fa Fb. rewrite d_is_finite_B in Fa, Fb by assumption.
  unfold d_mul. rewrite finite_bits, val_bits.
  pose proof (Binary.Bmult_correct 53 1024 eq_refl eq_refl binop_nan_pl64 mode_NE (b64_of_bits a) (b64_of_bits b)) as H.
  cbn [round_mode] in H. unfold b64_mult. fold (d_val a) (d_val b) in H. revert H.
  by_cases (d_val a * d_val b)%R.
  - intros (H1 & H2 & _). rewrite Fa, Fb in H2. split; [split; auto|]. intros _. exact H1.
  - intros H1. apply overflow_not_finite in H1. split; [|lra].
    split; [rewrite H1; discriminate|lra].
Qed.

Lemma d_div_val : forall a b, d_ok a -> d_ok b -> d_is_finite a = true -> d_val b <> 0%R ->
  (d_is_finite (d_div a b) = true <-> fits (d_val a / d_val b))
  /\ (fits (d_val a / d_val b) -> d_val (d_div a b) = rnd (d_val a / d_val b)).
Proof.
  intros a b Ha Hb Fa Nb. rewrite d_is_finite_B in Fa by assumption.
  unfold d_div. rewrite finite_bits, val_bits.
  pose proof (Binary.Bdiv_correct 53 1024 eq_refl eq_refl binop_nan_pl64 mode_NE (b64_of_bits a) (b64_of_bits b) Nb) as H.
  cbn [round_mode] in H. unfold b64_div. fold (d_val a) (d_val b) in H. revert H.
  by_cases (d_val a / d_val b)%R.
  - intros (H1 & H2 & _). rewrite Fa in H2. split; [split; auto|]. intros _. exact H1.
  - intros H1. apply overflow_not_finite in H1. split; [|lra].
    split; [rewrite H1; discriminate|lra].
Qed.

(** An operation whose result is finite had finite operands. *)
Lemma d_add_finite_inv : forall a b, d_ok a -> d_ok b -> d_is_finite (d_add a b) = true ->
  d_is_finite a = true /\ d_is_finite b = true.
Proof.
  intros a b Ha Hb. rewrite !d_is_finite_B by auto using d_add_ok. unfold d_add. rewrite b64_bits.
  generalize (b64_of_bits a) (b64_of_bits b). intros x y.
  destruct x as [s|s|s p e|s m e Hx]; destruct y as [s'|s'|s' p' e'|s' m' e' Hy]; cbn; try (intros H; discriminate H); auto.
  all: destruct s, s'; vm_compute; intros H; discriminate H.
Qed.
Lemma d_sub_finite_inv : forall a b, d_ok a -> d_ok b -> d_is_finite (d_sub a b) = true ->
  d_is_finite a = true /\ d_is_finite b = true.
Proof.
  intros a b Ha Hb. rewrite !d_is_finite_B by auto using d_sub_ok. unfold d_sub. rewrite b64_bits.
  generalize (b64_of_bits a) (b64_of_bits b). intros x y.
  destruct x as [s|s|s p e|s m e Hx]; destruct y as [s'|s'|s' p' e'|s' m' e' Hy]; cbn; try (intros H; discriminate H); auto.
  all: destruct s, s'; vm_compute; intros H; discriminate H.
Qed.

Lemma d_trunc_val : forall d, d_trunc d = Ztrunc (d_val d).
Proof.
  intros d. unfold d_trunc, d_val. apply eq_IZR. rewrite Binary.Btrunc_correct by reflexivity.
  apply round_FIX_IZR.
Qed.

Lemma d_of_z_val : forall z, Z.abs z <= 2 ^ 64 -> d_is_finite (d_of_z z) = true /\ d_val (d_of_z z) = rnd (IZR z).
Proof.
  intros z Hz. unfold d_of_z. rewrite finite_bits, val_bits.
  pose proof (Binary.binary_normalize_correct 53 1024 eq_refl eq_refl mode_NE z 0 false) as H.
  cbn [round_mode] in H. revert H.
  replace (F2R (Float radix2 z 0)) with (IZR z) by (unfold F2R; cbn; ring).
  rewrite Rlt_bool_true.
  - intros (H1 & H2 & _). auto.
  - apply (fits_bpow (IZR z) 64); [|lia]. rewrite <- abs_IZR.
    rewrite <- (IZR_Zpower radix2) by lia. apply IZR_le. exact Hz.
Qed.

Lemma d_of_z_exact : forall z, Z.abs z <= 2 ^ 53 -> d_is_finite (d_of_z z) = true /\ d_val (d_of_z z) = IZR z.
Proof.
  intros z Hz. destruct (d_of_z_val z) as [H1 H2]; [lia|]. split; [exact H1|]. now rewrite H2, rnd_int.
Qed.

(** Conversion to an integer. *)
Lemma d_cast_ret : forall lo hi d n, d_cast lo hi d = Ret n <->
  d_is_finite d = true /\ n = Ztrunc (d_val d) /\ lo <= n <= hi.
Proof.
  intros lo hi d n. unfold d_cast. rewrite <- d_trunc_val.
  destruct (d_is_finite d); cbn [andb]; [|split; [discriminate|intros (? & _); discriminate]].
  destruct (Z.leb_spec lo (d_trunc d)); cbn [andb].
  - destruct (Z.leb_spec (d_trunc d) hi).
    + split; [intros [= <-]; auto|]. intros (_ & -> & _). reflexivity.
    + split; [discriminate|]. intros (_ & -> & ?). lia.
  - split; [discriminate|]. intros (_ & -> & ?). lia.
Qed.
Lemma d_cast_cases : forall lo hi d, (exists n, d_cast lo hi d = Ret n) \/ d_cast lo hi d = UB ub_float_to_int.
Proof. intros lo hi d. unfold d_cast. destruct (_ && _); eauto. Qed.

Lemma d_val_zero : d_val 0 = 0%R.
Proof. reflexivity. Qed.

Lemma val_finite_or_0 : forall d, d_ok d -> d_is_finite d = false -> d_val d = 0%R.
Proof.
  intros d Hd. rewrite d_is_finite_B by assumption. unfold d_val. now destruct (b64_of_bits d).
Qed.

(** ** Zero, signs, cancellation *)

Lemma F2R_cond_neq : forall s m e, F2R (Float radix2 (cond_Zopp s (Zpos m)) e) <> 0%R.
Proof.
  intros s m e H. apply eq_0_F2R in H. destruct s; cbn in H; discriminate.
Qed.

Lemma b64_zero : forall d, d_ok d -> d_is_finite d = true -> d_val d = 0%R ->
  exists s, b64_of_bits d = Binary.B754_zero 53 1024 s.
Proof.
  intros d Hd. rewrite d_is_finite_B by assumption. unfold d_val.
  destruct (b64_of_bits d) as [s|s|s p e|s m e H]; cbn; try (intros F; discriminate F); eauto.
  intros _ E. exfalso. exact (F2R_cond_neq _ _ _ E).
Qed.

(** Division by a zero never gives a finite result. *)
Lemma d_div_zero : forall a b, d_ok a -> d_ok b -> d_is_finite b = true -> d_val b = 0%R ->
  d_is_finite (d_div a b) = false.
Proof.
  intros a b Ha Hb Fb Zb. destruct (b64_zero b Hb Fb Zb) as [s E].
  unfold d_div. rewrite finite_bits, E. generalize (b64_of_bits a). intros x.
  destruct x as [s'|s'|s' p' e'|s' m' e' Hy]; try reflexivity.
Qed.
(** Neither does an operation on a NaN. *)
Lemma d_div_finite_inv : forall a b, d_ok a -> d_ok b -> d_is_finite (d_div a b) = true ->
  d_is_finite a = true /\ d_is_nan b = false.
Proof.
  intros a b Ha Hb. unfold d_div. rewrite finite_bits, d_is_finite_B, d_is_nan_B by assumption.
  generalize (b64_of_bits a) (b64_of_bits b). intros x y.
  destruct x as [s|s|s p e|s m e Hx]; destruct y as [s'|s'|s' p' e'|s' m' e' Hy]; cbn;
    try (intros H; discriminate H); auto.
Qed.

(** Dividing a finite number by an infinity gives zero. *)
Lemma d_div_inf : forall a b, d_ok a -> d_ok b -> d_is_finite a = true ->
  d_is_finite b = false -> d_is_nan b = false ->
  d_is_finite (d_div a b) = true /\ d_val (d_div a b) = 0%R.
Proof.
  intros a b Ha Hb. unfold d_div. rewrite finite_bits, val_bits, !d_is_finite_B, d_is_nan_B by assumption.
  generalize (b64_of_bits a) (b64_of_bits b). intros x y.
  destruct x as [s|s|s p e|s m e Hx]; destruct y as [s'|s'|s' p' e'|s' m' e' Hy]; cbn;
    try (intros H; discriminate H); try (intros _ H; discriminate H); try (intros _ _ H; discriminate H); auto.
Qed.

Lemma rnd_sub_neq : forall a b, d_val a <> d_val b -> rnd (d_val a - d_val b) <> 0%R.
Proof.
  intros a b H. unfold rnd, Rminus. intros E.
  apply (round_plus_neq_0 radix2 fexp64 ZnearestE (d_val a) (- d_val b)); auto.
  - apply d_val_format.
  - apply generic_format_opp, d_val_format.
  - lra.
Qed.
