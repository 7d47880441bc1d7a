(** Facts about quantize and rescale. *)
From Coq Require Import Reals ZArith List Bool Lia Lra.
From Flocq Require Import Core Mult_error.
From Verif.Model Require Import Base Double Arith PointRecord Point Extent Utils.
From Verif.Proofs Require Import BaseFacts OrderFacts DoubleFacts ArithFacts VoxelFacts.
Import ListNotations.
Open Scope Z_scope.

(** The integer quantize multiplies the precision by. *)
Definition quantum (x p : R) : Z := Ztrunc (rnd (x / p)).

Lemma quantize1_ret : forall x p y, finite x -> finite p -> d_val p <> 0%R ->
  (quantize1 x p = Ret y <->
   fits (d_val x / d_val p) /\ - two31 <= quantum (d_val x) (d_val p) < two31
   /\ y = d_mul (d_of_z (quantum (d_val x) (d_val p))) p).
Proof.
  intros x p y [Ox Fx] [Op Fp] Nz. unfold quantize1, d_to_int.
  destruct (d_div_val x p Ox Op Fx Nz) as [D1 D2].
  destruct (d_cast_cases (- two31) (two31 - 1) (d_div x p)) as [[n H] | H]; rewrite H; cbn [bind].
  - apply d_cast_ret in H. destruct H as (F & En & B). apply D1 in F. rewrite (D2 F) in En.
    fold (quantum (d_val x) (d_val p)) in En. subst n. split.
    + intros [= <-]. split; [exact F|]. split; [lia|reflexivity].
    + now intros (_ & _ & ->).
  - split; [discriminate|]. intros (F & B & _). exfalso.
    assert (K : d_cast (- two31) (two31 - 1) (d_div x p) = Ret (quantum (d_val x) (d_val p))).
    { apply d_cast_ret. split; [now apply D1|]. rewrite (D2 F). split; [reflexivity|lia]. }
    congruence.
Qed.

Lemma quantize1_cases : forall x p, (exists y, quantize1 x p = Ret y) \/ quantize1 x p = UB ub_float_to_int.
Proof.
  intros x p. unfold quantize1, d_to_int.
  destruct (d_cast_cases (- two31) (two31 - 1) (d_div x p)) as [[n H] | H]; rewrite H; cbn [bind]; eauto.
Qed.

Lemma Ztrunc_small : forall x, (Rabs x < 1)%R -> Ztrunc x = 0.
Proof.
  intros x H. destruct (Rle_dec 0 x) as [P|P].
  - rewrite Ztrunc_floor by assumption. rewrite Rabs_pos_eq in H by assumption.
    apply Zfloor_imp. cbn. lra.
  - rewrite Ztrunc_ceil by lra. rewrite Rabs_left in H by lra. apply Zceil_imp. cbn. lra.
Qed.

Lemma bpow_half : bpow radix2 (-1) = (/ 2)%R.
Proof. reflexivity. Qed.

(** With a precision that is a power of two nothing is lost before truncation. *)
Lemma quantum_bpow : forall x p e, d_val p = bpow radix2 e ->
  quantum (d_val x) (d_val p) = Ztrunc (d_val x / d_val p).
Proof.
  intros x p e Hp. unfold quantum. destruct (Rlt_dec (Rabs (d_val x / d_val p)) (bpow radix2 (-1))) as [S|S].
  - rewrite bpow_half in S. rewrite (Ztrunc_small (d_val x / d_val p)) by lra. apply Ztrunc_small.
    rewrite rnd_abs. eapply Rle_lt_trans; [apply rnd_le, Rlt_le; rewrite <- bpow_half in S; exact S|].
    rewrite rnd_bpow by lia. rewrite bpow_half. lra.
  - f_equal. unfold rnd. apply round_generic; [apply valid_rnd_N|].
    assert (E : (d_val x / d_val p = d_val x * bpow radix2 (- e))%R).
    { rewrite Hp, bpow_opp. reflexivity. }
    rewrite E in *. apply (mult_bpow_exact_FLT radix2 (-1074) 53); [apply d_val_format|].
    assert (Nx : d_val x <> 0%R).
    { intros Z0. apply S. rewrite Z0, Rmult_0_l, Rabs_R0. apply bpow_gt_0. }
    assert (M : 0 <= mag radix2 (d_val x * bpow radix2 (- e))).
    { apply mag_ge_bpow. change (0 - 1) with (-1). lra. }
    rewrite mag_mult_bpow in M by assumption. lia.
Qed.

(** Multiplying a small integer by a power of two is exact. *)
Lemma int_bpow_format : forall n e, Z.abs n <= 2 ^ 53 -> -1074 <= e -> generic_format radix2 fexp64 (IZR n * bpow radix2 e).
Proof.
  intros n e Hn He. destruct (Z.eq_dec (Z.abs n) (2 ^ 53)) as [E|E].
  - assert (B : generic_format radix2 fexp64 (IZR (2 ^ 53) * bpow radix2 e)).
    { change 2 with (radix_val radix2). rewrite IZR_Zpower by lia. rewrite <- bpow_plus. apply bpow_format. lia. }
    destruct (Z.abs_eq_or_opp n) as [A|A].
    + rewrite A in E. now rewrite E.
    + replace n with (- 2 ^ 53) by lia. rewrite opp_IZR, Ropp_mult_distr_l_reverse. now apply generic_format_opp.
  - apply (generic_format_FLT radix2 (-1074) 53). exists (Float radix2 n e).
    + reflexivity.
    + cbn [Fnum]. change (Zpower radix2 53) with (2 ^ 53). lia.
    + cbn. lia.
Qed.

Lemma val_bpow_ge : forall p e, finite p -> d_val p = bpow radix2 e -> -1074 <= e.
Proof.
  intros p e [Op Fp] H. destruct (Z_lt_le_dec e (-1074)) as [L|L]; [|exact L]. exfalso.
  rewrite d_val_int in H by assumption.
  pose proof (bpow_lt radix2 e (-1074) L) as B. pose proof (bpow_gt_0 radix2 e) as P. pose proof (bpow_gt_0 radix2 (-1074)) as P'.
  rewrite <- H in B, P.
  assert (I0 : 0 < d_int p).
  { apply lt_IZR. apply (Rmult_lt_reg_r (bpow radix2 (-1074))); [exact P'|]. lra. }
  assert (I1 : d_int p < 1).
  { apply lt_IZR. apply (Rmult_lt_reg_r (bpow radix2 (-1074))); [exact P'|]. lra. }
  lia.
Qed.

Lemma Ztrunc_abs_le : forall x, (Rabs (IZR (Ztrunc x)) <= Rabs x)%R.
Proof.
  intros x. destruct (Rle_dec 0 x) as [P|P].
  - rewrite Ztrunc_floor by assumption.
    assert (F : (0 <= IZR (Zfloor x))%R) by (apply IZR_le; apply (Zfloor_lub 0 x); exact P).
    rewrite !Rabs_pos_eq by assumption. apply Zfloor_lb.
  - rewrite Ztrunc_ceil by lra. pose proof (Zceil_ub x) as U.
    assert (C : Zceil x <= 0) by (apply Zceil_glb; cbn; lra).
    apply IZR_le in C. rewrite !Rabs_left1 by (cbn in *; lra). lra.
Qed.

(** Quantizing with a power of two is exact and idempotent. *)
Lemma quantize1_bpow : forall x p e y, finite x -> finite p -> d_val p = bpow radix2 e ->
  quantize1 x p = Ret y ->
  finite y /\ d_val y = (IZR (Ztrunc (d_val x / d_val p)) * d_val p)%R /\ quantize1 y p = Ret y.
Proof.
  intros x p e y Hx Hp He H.
  assert (Nz : d_val p <> 0%R) by (rewrite He; apply Rgt_not_eq, bpow_gt_0).
  assert (Pp : (0 < d_val p)%R) by (rewrite He; apply bpow_gt_0).
  pose proof (val_bpow_ge p e Hp He) as Le.
  apply quantize1_ret in H; auto. rewrite (quantum_bpow x p e He) in H. destruct H as (F & B & ->).
  set (n := Ztrunc (d_val x / d_val p)) in *.
  assert (Bn : Z.abs n <= 2 ^ 53) by (unfold two31 in B; lia).
  destruct (d_of_z_exact n Bn) as [Fn Vn]. destruct Hp as [Op Fp].
  destruct (d_mul_val (d_of_z n) p (d_of_z_ok n) Op Fn Fp) as [M1 M2]. rewrite Vn in M1, M2.
  assert (R1 : rnd (IZR n * d_val p) = (IZR n * d_val p)%R).
  { unfold rnd. apply round_generic; [apply valid_rnd_N|]. rewrite He. now apply int_bpow_format. }
  assert (Ft : fits (IZR n * d_val p)).
  { eapply fits_le; [|apply (fits_val x)].
    rewrite Rabs_mult, (Rabs_pos_eq (d_val p)) by lra.
    pose proof (Ztrunc_abs_le (d_val x / d_val p)) as T. fold n in T.
    unfold Rdiv in T. rewrite Rabs_mult, Rabs_inv, (Rabs_pos_eq (d_val p)) in T by lra.
    apply (Rmult_le_compat_r (d_val p)) in T; [|lra].
    rewrite Rmult_assoc, Rinv_l, Rmult_1_r in T by assumption. exact T. }
  assert (Vy : d_val (d_mul (d_of_z n) p) = (IZR n * d_val p)%R) by (rewrite (M2 Ft); exact R1).
  assert (Fy : finite (d_mul (d_of_z n) p)) by (split; [apply d_mul_ok|now apply M1]).
  split; [exact Fy|]. split; [exact Vy|].
  apply quantize1_ret; [exact Fy|now split|exact Nz|]. rewrite (quantum_bpow _ p e He), Vy.
  replace (IZR n * d_val p / d_val p)%R with (IZR n) by (field; exact Nz).
  rewrite Ztrunc_IZR. split; [|split; [exact B|reflexivity]].
  apply (fits_bpow (IZR n) 53); [|lia]. rewrite <- abs_IZR, <- (IZR_Zpower radix2) by lia. apply IZR_le. exact Bn.
Qed.

(** ** Rescale *)

Definition scale_top : R := bpow radix2 62.
Lemma max_value_val : finite max_value /\ d_val max_value = scale_top.
Proof.
  split; [split; [unfold d_ok, max_value, two64; lia|reflexivity]|].
  rewrite d_val_int; [|unfold d_ok, max_value, two64; lia|reflexivity].
  change (d_int max_value) with (2 ^ 1136). change 2 with (radix_val radix2).
  rewrite IZR_Zpower by lia. rewrite <- bpow_plus. reflexivity.
Qed.

Lemma scale_exact : forall s, fits (d_val s * scale_top) -> rnd (d_val s * scale_top) = (d_val s * scale_top)%R.
Proof.
  intros s _. unfold rnd, scale_top. apply round_generic; [apply valid_rnd_N|].
  destruct (Req_dec (d_val s) 0) as [Z0|Z0].
  - rewrite Z0, Rmult_0_l. apply generic_format_0.
  - apply (mult_bpow_exact_FLT radix2 (-1074) 53); [apply d_val_format|].
    destruct (mag radix2 (d_val s)) as [e He]. cbn [mag_val]. specialize (He Z0).
    assert (L : (bpow radix2 (-1074) <= Rabs (d_val s))%R).
    { apply (generic_format_ge_bpow radix2 fexp64); [|now apply Rabs_pos_lt|apply generic_format_abs, d_val_format].
      intros e'. unfold fexp64, SpecFloat.fexp, SpecFloat.emin. lia. }
    assert (-1074 < e).
    { apply (lt_bpow radix2). lra. }
    lia.
Qed.

(** One axis of rescale, for a point between the bounds. *)
Lemma rescale1_in : forall p m M, finite p -> finite m -> finite M ->
  (d_val m <= d_val p <= d_val M)%R -> (d_val m < d_val M)%R ->
  d_is_finite (d_mul (d_sub M m) max_value) = true ->
  exists n, rescale1 p (d_sub M m) m = Ret n /\ 0 <= n <= 2 ^ 62
    /\ n = Ztrunc (rnd (rnd (d_val p - d_val m) * scale_top / rnd (d_val M - d_val m))).
Proof.
  intros p m M [Op Fp] [Om Fm] [OM FM] Le Lt F.
  destruct max_value_val as [[Ov Fv] Vv].
  assert (Fs : d_is_finite (d_sub M m) = true).
  { destruct (d_is_finite (d_sub M m)) eqn:E; [reflexivity|]. exfalso. revert F.
    rewrite !d_is_finite_B in * by auto using d_mul_ok, d_sub_ok. unfold d_mul. rewrite b64_bits.
    change (Flocq.IEEE754.Bits.b64_of_bits max_value) with (Flocq.IEEE754.Bits.b64_of_bits 4886405595696988160).
    destruct (Flocq.IEEE754.Bits.b64_of_bits (d_sub M m)) as [sg|sg|sg pl e|sg mm e H]; try discriminate E;
      destruct sg; cbn; discriminate. }
  destruct (d_sub_val M m OM Om FM Fm) as [S1 S2]. pose proof (proj1 S1 Fs) as S3. pose proof (S2 S3) as Vs.
  destruct (d_mul_val (d_sub M m) max_value (d_sub_ok M m) Ov Fs Fv) as [M1 M2].
  pose proof (proj1 M1 F) as M3. rewrite Vv in *.
  destruct (d_sub_val p m Op Om Fp Fm) as [P1 P2].
  assert (A0 : (0 <= d_val p - d_val m <= d_val M - d_val m)%R) by lra.
  assert (P3 : fits (d_val p - d_val m)) by (eapply fits_le; [|exact S3]; rewrite !Rabs_pos_eq; lra).
  pose proof (proj2 P1 P3) as Fd. pose proof (P2 P3) as Vd.
  assert (A1 : (0 <= d_val (d_sub p m) <= d_val (d_sub M m))%R).
  { rewrite Vd, Vs. split; [apply rnd_pos; lra|apply rnd_le; lra]. }
  assert (T : (0 < scale_top)%R) by apply bpow_gt_0.
  destruct (d_mul_val (d_sub p m) max_value (d_sub_ok p m) Ov Fd Fv) as [Q1 Q2]. rewrite Vv in *.
  assert (A2 : (0 <= d_val (d_sub p m) * scale_top <= d_val (d_sub M m) * scale_top)%R).
  { split; [apply Rmult_le_pos; lra|apply Rmult_le_compat_r; lra]. }
  assert (Q3 : fits (d_val (d_sub p m) * scale_top)) by (eapply fits_le; [|exact M3]; rewrite !Rabs_pos_eq; lra).
  pose proof (proj2 Q1 Q3) as Fq. pose proof (Q2 Q3) as Vq. rewrite scale_exact in Vq by exact Q3.
  assert (Ps : (0 < d_val (d_sub M m))%R).
  { assert (d_val (d_sub M m) <> 0%R) by (rewrite Vs; apply rnd_sub_neq; lra). lra. }
  assert (Nz : d_val (d_sub M m) <> 0%R) by lra.
  destruct (d_div_val (d_mul (d_sub p m) max_value) (d_sub M m) (d_mul_ok _ _) (d_sub_ok _ _) Fq Nz) as [D1 D2].
  rewrite Vq in *.
  assert (A3 : (0 <= d_val (d_sub p m) * scale_top / d_val (d_sub M m) <= scale_top)%R).
  { assert (Pi : (0 < / d_val (d_sub M m))%R) by now apply Rinv_0_lt_compat. unfold Rdiv.
    split; [apply Rmult_le_pos; lra|].
    replace scale_top with (d_val (d_sub M m) * scale_top * / d_val (d_sub M m))%R at 2 by (field; exact Nz).
    apply Rmult_le_compat_r; lra. }
  assert (D3 : fits (d_val (d_sub p m) * scale_top / d_val (d_sub M m))).
  { apply (fits_bpow _ 62); [|lia]. rewrite Rabs_pos_eq by lra. apply A3. }
  pose proof (proj2 D1 D3) as Fr. pose proof (D2 D3) as Vr.
  assert (A4 : (0 <= rnd (d_val (d_sub p m) * scale_top / d_val (d_sub M m)) <= scale_top)%R).
  { split; [apply rnd_pos; lra|]. unfold scale_top at 2. rewrite <- (rnd_bpow 62) by lia. apply rnd_le. apply A3. }
  assert (B : 0 <= Ztrunc (rnd (d_val (d_sub p m) * scale_top / d_val (d_sub M m))) <= 2 ^ 62).
  { split.
    - rewrite <- (Ztrunc_IZR 0). apply Ztrunc_le. apply A4.
    - rewrite <- (Ztrunc_IZR (2 ^ 62)). apply Ztrunc_le.
      replace (IZR (2 ^ 62)) with scale_top; [apply A4|].
      unfold scale_top. now rewrite <- (IZR_Zpower radix2) by lia. }
  exists (Ztrunc (rnd (d_val (d_sub p m) * scale_top / d_val (d_sub M m)))).
  split; [|split; [exact B|now rewrite Vd, Vs]].
  unfold rescale1, d_to_size. apply d_cast_ret. split; [exact Fr|]. rewrite Vr. split; [reflexivity|].
  unfold two64. lia.
Qed.

(** On a flat axis the scale factor is zero and the conversion is undefined. *)
Lemma rescale1_flat : forall p m M, d_ok p -> finite m -> finite M -> d_val m = d_val M ->
  rescale1 p (d_sub M m) m = UB ub_float_to_int.
Proof.
  intros p m M Op [Om Fm] [OM FM] E. unfold rescale1, d_to_size, d_cast.
  destruct (d_sub_val M m OM Om FM Fm) as [S1 S2].
  assert (Z0 : (d_val M - d_val m = 0)%R) by lra. rewrite Z0 in *.
  rewrite d_div_zero; [reflexivity|apply d_mul_ok|apply d_sub_ok|apply S1, fits_0|].
  rewrite S2 by apply fits_0. apply rnd_0.
Qed.
