(** Rounding errors of double arithmetic. *)
From Coq Require Import Reals ZArith Bool List Lia Lra Psatz.
From Flocq Require Import Core Relative Plus_error IEEE754.BinarySingleNaN IEEE754.Binary IEEE754.Bits.
From Verif.Model Require Import Base Double Arith PointRecord Point Extent Voxel.
From Verif.Spec Require Import Rounding Geometry Distance.
From Verif.Proofs Require Import DoubleFacts ArithFacts VoxelFacts.
Open Scope R_scope.

Definition eps : R := bpow radix2 (-53).
Definition tiny : R := bpow radix2 (-1075).

Lemma eps_pos : 0 < eps. Proof. apply bpow_gt_0. Qed.
Lemma tiny_pos : 0 < tiny. Proof. apply bpow_gt_0. Qed.
Lemma eps_val : eps = / 9007199254740992.
Proof. unfold eps. cbn. reflexivity. Qed.
Lemma tiny_le : forall e, (-1075 <= e)%Z -> tiny <= bpow radix2 e.
Proof. intros e H. unfold tiny. now apply bpow_le. Qed.

Lemma half_bpow : forall e, / 2 * bpow radix2 (e + 1) = bpow radix2 e.
Proof. intros e. rewrite bpow_plus. cbn. lra. Qed.

Lemma rnd_err : forall x, exists e n, Rabs e <= eps /\ Rabs n <= tiny /\ rnd x = x * (1 + e) + n.
Proof.
  intros x. destruct (error_N_FLT radix2 (-1074) 53 eq_refl (fun z => negb (Z.even z)) x) as (e & n & He & Hn & _ & H).
  exists e, n. split; [|split; [|exact H]].
  - eapply Rle_trans; [exact He|]. rewrite half_bpow. apply Rle_refl.
  - eapply Rle_trans; [exact Hn|]. unfold tiny. rewrite <- (half_bpow (-1075)). apply Rle_refl.
Qed.

Lemma rnd_bounds : forall x, 0 <= x -> x * (1 - eps) - tiny <= rnd x <= x * (1 + eps) + tiny.
Proof.
  intros x Hx. destruct (rnd_err x) as (e & n & He & Hn & ->).
  apply Rabs_le_inv in He. apply Rabs_le_inv in Hn. nra.
Qed.

Lemma rnd_sum_err : forall x y, generic_format radix2 fexp64 x -> generic_format radix2 fexp64 y ->
  exists e, Rabs e <= eps /\ rnd (x + y) = (x + y) * (1 + e).
Proof.
  intros x y Fx Fy. assert (P : Prec_gt_0 53) by (unfold Prec_gt_0; lia).
  destruct (FLT_plus_error_N_ex radix2 (-1074) 53 (fun z => negb (Z.even z)) x y Fx Fy) as (e & He & H).
  exists e. split; [|exact H].
  assert (U : u_ro radix2 53 = eps).
  { unfold u_ro, eps. apply half_bpow. }
  rewrite U in He. pose proof eps_pos. eapply Rle_trans; [exact He|].
  apply Rmult_le_reg_r with (1 + eps); [lra|]. unfold Rdiv. rewrite Rmult_assoc, Rinv_l by lra. nra.
Qed.

Lemma rnd_sum_bounds : forall x y, generic_format radix2 fexp64 x -> generic_format radix2 fexp64 y -> 0 <= x + y ->
  (x + y) * (1 - eps) <= rnd (x + y) <= (x + y) * (1 + eps).
Proof.
  intros x y Fx Fy P. destruct (rnd_sum_err x y Fx Fy) as (e & He & ->). apply Rabs_le_inv in He. nra.
Qed.

Lemma rnd_format : forall x, generic_format radix2 fexp64 (rnd x).
Proof. intros x. unfold rnd. apply generic_format_round; [apply fexp64_valid|apply valid_rnd_N]. Qed.

Lemma rnd_diff_bounds : forall a b, exists e, Rabs e <= eps /\ rnd (d_val a - d_val b) = (d_val a - d_val b) * (1 + e).
Proof.
  intros a b. unfold Rminus. apply rnd_sum_err; [apply d_val_format|]. apply generic_format_opp, d_val_format.
Qed.

(** ** Square roots *)

Lemma d_sqrt_val : forall a, d_ok a -> d_is_finite a = true -> 0 <= d_val a ->
  d_is_finite (d_sqrt a) = true /\ d_val (d_sqrt a) = rnd (sqrt (d_val a)).
Proof.
  intros a Ha Fa Pa. rewrite d_is_finite_B in Fa by assumption. unfold d_sqrt. rewrite finite_bits, val_bits.
  pose proof (Binary.Bsqrt_correct 53 1024 eq_refl eq_refl unop_nan_pl64 mode_NE (b64_of_bits a)) as (H1 & H2 & _).
  cbn [round_mode] in H1. unfold b64_sqrt. split; [|exact H1]. rewrite H2. unfold d_val in Pa.
  destruct (b64_of_bits a) as [s|s|s p e|s m e H]; try discriminate Fa; try reflexivity.
  destruct s; [|reflexivity]. exfalso. cbn in Pa. revert Pa. apply Rlt_not_le.
  apply F2R_lt_0. reflexivity.
Qed.

(** The relative error of a square root never includes underflow. *)
Lemma rnd_sqrt_bounds : forall x, 0 <= x -> x = 0 \/ bpow radix2 (-1074) <= x ->
  sqrt x * (1 - eps) <= rnd (sqrt x) <= sqrt x * (1 + eps).
Proof.
  intros x Px [->|Lx].
  - rewrite sqrt_0, rnd_0. lra.
  - assert (S : bpow radix2 (-537) <= sqrt x).
    { rewrite <- (sqrt_square (bpow radix2 (-537))) by apply bpow_ge_0. apply sqrt_le_1_alt.
      rewrite <- bpow_plus. exact Lx. }
    pose proof (relative_error_N_FLT radix2 (-1074) 53 eq_refl (fun z => negb (Z.even z)) (sqrt x)) as R.
    assert (A : bpow radix2 (-1074 + 53 - 1) <= Rabs (sqrt x)).
    { rewrite Rabs_pos_eq by apply sqrt_ge_0. eapply Rle_trans; [|exact S]. apply bpow_le. lia. }
    specialize (R A). fold (rnd (sqrt x)) in R. rewrite (Rabs_pos_eq (sqrt x)) in R by apply sqrt_ge_0.
    assert (U : / 2 * bpow radix2 (- (53) + 1) = eps).
    { unfold eps. apply half_bpow. }
    rewrite U in R. change (round radix2 (FLT_exp (-1074) 53) ZnearestE (sqrt x)) with (rnd (sqrt x)) in R.
    apply Rabs_le_inv in R. lra.
Qed.

(** ** Voxel numbers *)

(** The quotient that is truncated is within 2^-21 of the exact one. *)
Lemma quotient_error : forall p m r, d_val m <= d_val p -> 0 < r -> d_val p - d_val m <= 1073741824 * r ->
  Rabs (rnd (rnd (d_val p - d_val m) / r) - (d_val p - d_val m) / r) <= / 2097152.
Proof.
  intros p m r L Pr B. destruct (rnd_diff_bounds p m) as (e & He & ->).
  set (u := d_val p - d_val m) in *. assert (Pu : 0 <= u) by (unfold u; lra).
  assert (Q : u * (1 + e) / r = u / r * (1 + e)) by (field; lra). rewrite Q.
  assert (T : 0 <= u / r <= 1073741824).
  { split; [apply Rmult_le_pos; [exact Pu|left; now apply Rinv_0_lt_compat]|].
    apply Rmult_le_reg_r with r; [exact Pr|]. unfold Rdiv. rewrite Rmult_assoc, Rinv_l by lra. lra. }
  set (t := u / r) in *.
  destruct (rnd_err (t * (1 + e))) as (e' & n & He' & Hn & ->).
  assert (Tn : tiny <= eps) by (apply bpow_le; lia).
  apply Rabs_le_inv in He. apply Rabs_le_inv in He'. apply Rabs_le_inv in Hn.
  replace (t * (1 + e) * (1 + e') + n - t) with (t * (e + e' + e * e') + n) by ring.
  assert (Ee : - (3 * eps) <= e + e' + e * e' <= 3 * eps).
  { rewrite eps_val in *. nra. }
  rewrite eps_val in *. apply Rabs_le. split.
  - assert (- (1073741824 * (3 * / 9007199254740992)) <= t * (e + e' + e * e')) by nra. lra.
  - assert (t * (e + e' + e * e') <= 1073741824 * (3 * / 9007199254740992)) by nra. lra.
Qed.

Lemma trunc_close : forall A B, 0 <= A -> 0 <= B -> Rabs (A - B) < 1 -> (Z.abs (Ztrunc A - Ztrunc B) <= 1)%Z.
Proof.
  intros A B PA PB H. rewrite !Ztrunc_floor by assumption.
  pose proof (Zfloor_lb A). pose proof (Zfloor_ub A). pose proof (Zfloor_lb B). pose proof (Zfloor_ub B).
  apply Rabs_def2 in H.
  assert (IZR (Zfloor A) < IZR (Zfloor B + 2)) by (rewrite plus_IZR; lra).
  assert (IZR (Zfloor B) < IZR (Zfloor A + 2)) by (rewrite plus_IZR; lra).
  apply lt_IZR in H4. apply lt_IZR in H5. lia.
Qed.

Lemma rnd_le_bpow : forall x e, (-1074 <= e)%Z -> Rabs x <= bpow radix2 e -> Rabs (rnd x) <= bpow radix2 e.
Proof. intros x e He H. rewrite rnd_abs. rewrite <- (rnd_bpow e He). now apply rnd_le. Qed.

(** A coordinate less than 2^30 voxels from the minimum has a voxel. *)
Lemma voxel1_small : forall p m r, finite p -> finite m -> finite r -> fits (d_val p - d_val m) ->
  0 < d_val r -> d_val m <= d_val p -> d_val p - d_val m <= 1073741824 * d_val r ->
  exists a, voxel1 p m r = Ret a /\ (0 <= a <= 1073741825)%Z.
Proof.
  intros p m r [Op Fp] [Om Fm] [Or Fr] Ft Pr L B.
  pose proof (quotient_error p m (d_val r) L Pr B) as Q. set (A := rnd (rnd (d_val p - d_val m) / d_val r)) in *.
  assert (T : 0 <= (d_val p - d_val m) / d_val r <= 1073741824).
  { split; [apply Rmult_le_pos; [lra|left; now apply Rinv_0_lt_compat]|].
    apply Rmult_le_reg_r with (d_val r); [exact Pr|]. unfold Rdiv. rewrite Rmult_assoc, Rinv_l by lra. lra. }
  apply Rabs_le_inv in Q.
  assert (PA : 0 <= A).
  { apply rnd_pos. apply Rmult_le_pos; [apply rnd_pos; lra|left; now apply Rinv_0_lt_compat]. }
  assert (UA : A < 1073741825) by lra.
  exists (Ztrunc A). assert (Z0 : (0 <= Ztrunc A <= 1073741825)%Z).
  { rewrite Ztrunc_floor by exact PA. pose proof (Zfloor_lb A). split.
    - apply Zfloor_lub. exact PA.
    - apply le_IZR. lra. }
  split; [|exact Z0]. apply voxel1_ret; auto. split; [exact Fp|]. split; [exact Fm|]. split; [exact Ft|].
  left. split; [exact Fr|]. split; [lra|]. split.
  - unfold fits. fold A. rewrite Rabs_pos_eq by exact PA.
    eapply Rlt_trans; [exact UA|]. apply Rlt_trans with (bpow radix2 31); [cbn; lra|apply bpow_lt; lia].
  - split; [reflexivity|]. unfold two64. lia.
Qed.

(** Coordinates that differ by less than the resolution, with a margin, are in
    touching voxels. *)
Lemma voxel1_close : forall p q m r a b, finite p -> finite q -> finite m -> finite r ->
  0 < d_val r -> d_val m <= d_val p -> d_val m <= d_val q ->
  d_val p - d_val m <= 1073741824 * d_val r -> d_val q - d_val m <= 1073741824 * d_val r ->
  Rabs (d_val p - d_val q) <= (1 - / 524288) * d_val r ->
  voxel1 p m r = Ret a -> voxel1 q m r = Ret b -> (Z.abs (a - b) <= 1)%Z.
Proof.
  intros p q m r a b [Op Fp] [Oq Fq] [Om Fm] [Or Fr] Pr Lp Lq Bp Bq D Ha Hb.
  apply voxel1_ret in Ha; auto. apply voxel1_ret in Hb; auto.
  destruct Ha as (_ & _ & _ & [(_ & _ & _ & -> & _)|(X & _)]); [|congruence].
  destruct Hb as (_ & _ & _ & [(_ & _ & _ & -> & _)|(X & _)]); [|congruence].
  unfold voxel_number. apply trunc_close.
  - apply rnd_pos. apply Rmult_le_pos; [apply rnd_pos; lra|left; now apply Rinv_0_lt_compat].
  - apply rnd_pos. apply Rmult_le_pos; [apply rnd_pos; lra|left; now apply Rinv_0_lt_compat].
  - pose proof (quotient_error p m (d_val r) Lp Pr Bp) as Q1. pose proof (quotient_error q m (d_val r) Lq Pr Bq) as Q2.
    set (A := rnd (rnd (d_val p - d_val m) / d_val r)) in *. set (B := rnd (rnd (d_val q - d_val m) / d_val r)) in *.
    assert (T : Rabs ((d_val p - d_val m) / d_val r - (d_val q - d_val m) / d_val r) <= 1 - / 524288).
    { replace ((d_val p - d_val m) / d_val r - (d_val q - d_val m) / d_val r) with ((d_val p - d_val q) / d_val r) by (field; lra).
      unfold Rdiv. rewrite Rabs_mult, (Rabs_pos_eq (/ d_val r)) by (left; now apply Rinv_0_lt_compat).
      apply Rmult_le_reg_r with (d_val r); [exact Pr|]. rewrite Rmult_assoc, Rinv_l by lra. lra. }
    apply Rabs_le_inv in Q1. apply Rabs_le_inv in Q2. apply Rabs_le_inv in T. apply Rabs_def1; lra.
Qed.

(** ** Distances *)

Lemma diff_square : forall a b, modest a -> modest b ->
  let x := d_sub a b in
  finite (d_mul x x)
  /\ sq (d_val a - d_val b) * (1 - eps) * (1 - eps) * (1 - eps) - tiny <= d_val (d_mul x x)
     <= sq (d_val a - d_val b) * (1 + eps) * (1 + eps) * (1 + eps) + tiny
  /\ 0 <= d_val (d_mul x x) <= bpow radix2 1004.
Proof.
  intros a b [[Oa Fa] Ma] [[Ob Fb] Mb] x.
  set (u := d_val a - d_val b).
  assert (Bu : Rabs u <= bpow radix2 501).
  { unfold u. replace (bpow radix2 501) with (bpow radix2 500 + bpow radix2 500).
    - eapply Rle_trans; [apply Rabs_triang|]. rewrite Rabs_Ropp. lra.
    - change 501%Z with (1 + 500)%Z. rewrite bpow_plus. cbn [bpow]. change (IZR (Z.pow_pos radix2 1)) with 2. ring. }
  assert (Fu : fits u) by (eapply fits_bpow; [exact Bu|lia]).
  destruct (d_sub_val a b Oa Ob Fa Fb) as [Hf Hv]. fold u in Hf, Hv. fold x in Hf, Hv.
  apply Hf in Fu as Fx. specialize (Hv Fu).
  assert (Ox : d_ok x) by apply d_sub_ok.
  assert (Bx : Rabs (d_val x) <= bpow radix2 501) by (rewrite Hv; apply rnd_le_bpow; [lia|exact Bu]).
  assert (Bxx : Rabs (d_val x * d_val x) <= bpow radix2 1002).
  { rewrite Rabs_mult. change 1002%Z with (501 + 501)%Z. rewrite bpow_plus. apply Rmult_le_compat; try apply Rabs_pos; exact Bx. }
  assert (Fxx : fits (d_val x * d_val x)) by (eapply fits_bpow; [exact Bxx|lia]).
  destruct (d_mul_val x x Ox Ox Fx Fx) as [Hf2 Hv2]. apply Hf2 in Fxx as Fm. specialize (Hv2 Fxx).
  split; [split; [apply d_mul_ok|exact Fm]|].
  assert (Pxx : 0 <= d_val x * d_val x) by apply Rle_0_sqr. split.
  - rewrite Hv2. destruct (rnd_bounds _ Pxx) as [L U].
    destruct (rnd_diff_bounds a b) as (e & He & E). fold u in E. rewrite <- Hv in E. rewrite E in L, U |- *.
    apply Rabs_le_inv in He. pose proof eps_pos. assert (eps <= / 2) by (rewrite eps_val; lra).
    unfold sq. assert (Pu : 0 <= u * u) by apply Rle_0_sqr.
    assert (K1 : (1 - eps) * (1 - eps) <= (1 + e) * (1 + e)) by nra.
    assert (K2 : (1 + e) * (1 + e) <= (1 + eps) * (1 + eps)) by nra.
    replace (u * (1 + e) * (u * (1 + e))) with (u * u * ((1 + e) * (1 + e))) in L, U |- * by ring.
    split.
    + eapply Rle_trans; [|exact L]. apply Rplus_le_compat_r.
      replace (u * u * (1 - eps) * (1 - eps) * (1 - eps)) with (u * u * ((1 - eps) * (1 - eps)) * (1 - eps)) by ring.
      apply Rmult_le_compat_r; [lra|]. apply Rmult_le_compat_l; [exact Pu|exact K1].
    + eapply Rle_trans; [exact U|]. apply Rplus_le_compat_r.
      replace (u * u * (1 + eps) * (1 + eps) * (1 + eps)) with (u * u * ((1 + eps) * (1 + eps)) * (1 + eps)) by ring.
      apply Rmult_le_compat_r; [lra|]. apply Rmult_le_compat_l; [exact Pu|exact K2].
  - rewrite Hv2. split; [now apply rnd_pos|].
    eapply Rle_trans; [apply Rle_abs|]. apply rnd_le_bpow; [lia|]. eapply Rle_trans; [exact Bxx|]. apply bpow_le. lia.
Qed.

Lemma sum_bounds : forall a b e, finite a -> finite b -> 0 <= d_val a <= bpow radix2 e -> 0 <= d_val b <= bpow radix2 e ->
  (-1074 <= e < 1022)%Z ->
  finite (d_add a b)
  /\ (d_val a + d_val b) * (1 - eps) <= d_val (d_add a b) <= (d_val a + d_val b) * (1 + eps)
  /\ 0 <= d_val (d_add a b) <= bpow radix2 (e + 1).
Proof.
  intros a b e [Oa Fa] [Ob Fb] Ba Bb He.
  assert (D : bpow radix2 (e + 1) = bpow radix2 e + bpow radix2 e) by (rewrite bpow_plus; cbn; lra).
  assert (A : Rabs (d_val a + d_val b) <= bpow radix2 (e + 1)) by (rewrite Rabs_pos_eq; lra).
  assert (F : fits (d_val a + d_val b)) by (eapply fits_bpow; [exact A|lia]).
  destruct (d_add_val a b Oa Ob Fa Fb) as [Hf Hv]. apply Hf in F as Fx. specialize (Hv F).
  split; [split; [apply d_add_ok|exact Fx]|]. rewrite Hv. split.
  - apply rnd_sum_bounds; [apply d_val_format|apply d_val_format|lra].
  - split; [apply rnd_pos; lra|]. eapply Rle_trans; [apply Rle_abs|]. apply rnd_le_bpow; [lia|exact A].
Qed.

(** The number whose square root is the computed distance. *)
Lemma distance_bounds : forall p q, modest_pt p -> modest_pt q ->
  exists S, finite (distance p q) /\ d_val (distance p q) = rnd (sqrt S) /\ 0 <= S
    /\ (S = 0 \/ bpow radix2 (-1074) <= S)
    /\ dist2 p q * (1 - 6 * eps) - 4 * tiny <= S <= dist2 p q * (1 + 6 * eps) + 4 * tiny.
Proof.
  intros p q (X1 & Y1 & Z1) (X2 & Y2 & Z2). unfold distance, dist2.
  destruct (diff_square _ _ X1 X2) as (Fx & Bx & Ux). destruct (diff_square _ _ Y1 Y2) as (Fy & By & Uy).
  destruct (diff_square _ _ Z1 Z2) as (Fz & Bz & Uz).
  set (xx := d_mul (d_sub (px p) (px q)) (d_sub (px p) (px q))) in *.
  set (yy := d_mul (d_sub (py p) (py q)) (d_sub (py p) (py q))) in *.
  set (zz := d_mul (d_sub (pz p) (pz q)) (d_sub (pz p) (pz q))) in *.
  destruct (sum_bounds xx yy 1004 Fx Fy Ux Uy ltac:(lia)) as (Fs & Bs & Us).
  assert (Uz' : 0 <= d_val zz <= bpow radix2 (1004 + 1)).
  { split; [apply Uz|]. eapply Rle_trans; [apply Uz|]. apply bpow_le. lia. }
  destruct (sum_bounds (d_add xx yy) zz (1004 + 1) Fs Fz Us Uz' ltac:(lia)) as (Ft & Bt & Ut).
  set (s := d_add xx yy) in *. set (t := d_add s zz) in *.
  destruct Ft as [Ot Ft]. destruct (d_sqrt_val t Ot Ft (proj1 Ut)) as [Fr Vr].
  exists (d_val t). split; [split; [apply d_sqrt_ok|exact Fr]|]. split; [exact Vr|]. split; [apply Ut|]. split.
  - destruct (Rle_lt_or_eq_dec _ _ (proj1 Ut)) as [P|E]; [|left; now symmetry].
    right. apply (generic_format_ge_bpow radix2 fexp64); [|exact P|apply d_val_format].
    intros e. rewrite fexp64_FLT. unfold FLT_exp. lia.
  - set (A := sq (d_val (px p) - d_val (px q))) in *. set (B := sq (d_val (py p) - d_val (py q))) in *.
    set (C := sq (d_val (pz p) - d_val (pz q))) in *.
    assert (PA : 0 <= A) by apply Rle_0_sqr. assert (PB : 0 <= B) by apply Rle_0_sqr. assert (PC : 0 <= C) by apply Rle_0_sqr.
    pose proof eps_pos as Pe. pose proof tiny_pos as Pt. assert (Le : eps <= / 1000) by (rewrite eps_val; lra).
    destruct Bx as [Bx1 Bx2], By as [By1 By2], Bz as [Bz1 Bz2], Bs as [Bs1 Bs2], Bt as [Bt1 Bt2].
    set (k := (1 - eps) * (1 - eps) * (1 - eps)). set (K := (1 + eps) * (1 + eps) * (1 + eps)).
    assert (Hk : 0 <= k /\ 1 - 6 * eps <= k * (1 - eps) * (1 - eps)).
    { unfold k. split; [repeat apply Rmult_le_pos; lra|].
      assert (Q2 : 1 - 2 * eps <= (1 - eps) * (1 - eps)) by nra.
      assert (Q4 : 1 - 4 * eps <= (1 - eps) * (1 - eps) * ((1 - eps) * (1 - eps))) by nra.
      nra. }
    assert (HK : 1 <= K /\ K * (1 + eps) * (1 + eps) <= 1 + 6 * eps).
    { unfold K. assert (Q2 : 1 <= (1 + eps) * (1 + eps) <= 1 + 2 * eps + eps / 1000) by nra.
      assert (Q4 : (1 + eps) * (1 + eps) * ((1 + eps) * (1 + eps)) <= 1 + 4 * eps + eps / 100) by nra. 
      split; nra. }
    replace (A * (1 - eps) * (1 - eps) * (1 - eps)) with (A * k) in Bx1 by (unfold k; ring).
    replace (B * (1 - eps) * (1 - eps) * (1 - eps)) with (B * k) in By1 by (unfold k; ring).
    replace (C * (1 - eps) * (1 - eps) * (1 - eps)) with (C * k) in Bz1 by (unfold k; ring).
    replace (A * (1 + eps) * (1 + eps) * (1 + eps)) with (A * K) in Bx2 by (unfold K; ring).
    replace (B * (1 + eps) * (1 + eps) * (1 + eps)) with (B * K) in By2 by (unfold K; ring).
    replace (C * (1 + eps) * (1 + eps) * (1 + eps)) with (C * K) in Bz2 by (unfold K; ring).
    destruct Hk as [Pk Hk]. destruct HK as [PK HK].
    split.
    + assert (L1 : ((A + B) * k - 2 * tiny) * (1 - eps) <= d_val s).
      { eapply Rle_trans; [|exact Bs1]. apply Rmult_le_compat_r; lra. }
      assert (L2 : (((A + B) * k - 2 * tiny) * (1 - eps) + (C * k - tiny)) * (1 - eps) <= d_val t).
      { eapply Rle_trans; [|exact Bt1]. apply Rmult_le_compat_r; lra. }
      eapply Rle_trans; [|exact L2].
      assert (M : (A + B + C) * (k * (1 - eps) * (1 - eps)) <= (A + B) * k * (1 - eps) * (1 - eps) + C * k * (1 - eps)).
      { assert (0 <= C * k) by (apply Rmult_le_pos; assumption).
        replace ((A + B + C) * (k * (1 - eps) * (1 - eps))) with ((A + B) * k * (1 - eps) * (1 - eps) + C * k * (1 - eps) * (1 - eps)) by ring.
        assert (W : 0 <= C * k * (1 - eps)) by (apply Rmult_le_pos; lra).
        assert (C * k * (1 - eps) * (1 - eps) <= C * k * (1 - eps) * 1) by (apply Rmult_le_compat_l; lra). lra. }
      assert (M2 : (A + B + C) * (1 - 6 * eps) <= (A + B + C) * (k * (1 - eps) * (1 - eps))).
      { apply Rmult_le_compat_l; [lra|exact Hk]. }
      assert (N1 : 2 * tiny * (1 - eps) * (1 - eps) + tiny * (1 - eps) <= 4 * tiny).
      { assert (tiny * (1 - eps) <= tiny * 1) by (apply Rmult_le_compat_l; lra).
        assert (tiny * ((1 - eps) * (1 - eps)) <= tiny * 1) by (apply Rmult_le_compat_l; [lra|nra]). lra. }
      replace ((((A + B) * k - 2 * tiny) * (1 - eps) + (C * k - tiny)) * (1 - eps))
        with ((A + B) * k * (1 - eps) * (1 - eps) + C * k * (1 - eps) - (2 * tiny * (1 - eps) * (1 - eps) + tiny * (1 - eps))) by ring.
      lra.
    + assert (L1 : d_val s <= ((A + B) * K + 2 * tiny) * (1 + eps)).
      { eapply Rle_trans; [exact Bs2|]. apply Rmult_le_compat_r; lra. }
      assert (L2 : d_val t <= (((A + B) * K + 2 * tiny) * (1 + eps) + (C * K + tiny)) * (1 + eps)).
      { eapply Rle_trans; [exact Bt2|]. apply Rmult_le_compat_r; lra. }
      eapply Rle_trans; [exact L2|].
      assert (M : (A + B) * K * (1 + eps) * (1 + eps) + C * K * (1 + eps) <= (A + B + C) * (K * (1 + eps) * (1 + eps))).
      { assert (0 <= C * K) by (apply Rmult_le_pos; lra).
        replace ((A + B + C) * (K * (1 + eps) * (1 + eps))) with ((A + B) * K * (1 + eps) * (1 + eps) + C * K * (1 + eps) * (1 + eps)) by ring.
        assert (W : 0 <= C * K * (1 + eps)) by (apply Rmult_le_pos; lra).
        assert (C * K * (1 + eps) * 1 <= C * K * (1 + eps) * (1 + eps)) by (apply Rmult_le_compat_l; lra). lra. }
      assert (M2 : (A + B + C) * (K * (1 + eps) * (1 + eps)) <= (A + B + C) * (1 + 6 * eps)).
      { apply Rmult_le_compat_l; [lra|exact HK]. }
      assert (N1 : 2 * tiny * (1 + eps) * (1 + eps) + tiny * (1 + eps) <= 4 * tiny).
      { assert (tiny * (1 + eps) <= tiny * (1 + / 1000)) by (apply Rmult_le_compat_l; lra).
        assert (tiny * ((1 + eps) * (1 + eps)) <= tiny * (1 + / 100)) by (apply Rmult_le_compat_l; [lra|nra]). lra. }
      replace ((((A + B) * K + 2 * tiny) * (1 + eps) + (C * K + tiny)) * (1 + eps))
        with ((A + B) * K * (1 + eps) * (1 + eps) + C * K * (1 + eps) + (2 * tiny * (1 + eps) * (1 + eps) + tiny * (1 + eps))) by ring.
      lra.
Qed.

(** Truly close points are close by the computed distance, with a margin. *)
Lemma distance_le : forall p q r, modest_pt p -> modest_pt q -> finite r -> bpow radix2 (-500) <= d_val r ->
  dist2 p q <= sq ((1 - / 524288) * d_val r) -> d_leb (distance p q) r = true.
Proof.
  intros p q r Hp Hq [Or Fr] Br H.
  destruct (distance_bounds p q Hp Hq) as (S & [Od Fd] & V & PS & _ & _ & U).
  apply d_leb_val; auto. rewrite V, <- (rnd_val r). apply rnd_le.
  pose proof (bpow_gt_0 radix2 (-500)) as P500.
  rewrite <- (sqrt_square (d_val r)) by lra. apply sqrt_le_1_alt.
  eapply Rle_trans; [exact U|].
  assert (T : 4 * tiny <= / 1073741824 * (d_val r * d_val r)).
  { apply Rle_trans with (/ 1073741824 * (bpow radix2 (-500) * bpow radix2 (-500))).
    - rewrite <- bpow_plus. change (-500 + -500)%Z with (-1000)%Z. 
      replace (/ 1073741824) with (bpow radix2 (-30)) by reflexivity. rewrite <- bpow_plus.
      replace 4 with (bpow radix2 2) by reflexivity. unfold tiny. rewrite <- bpow_plus. apply bpow_le. lia.
    - apply Rmult_le_compat_l; [lra|]. apply Rmult_le_compat; lra. }
  set (R2 := d_val r * d_val r) in *. assert (PR : 0 <= R2) by apply Rle_0_sqr.
  assert (H' : dist2 p q <= (1 - / 524288) * R2).
  { eapply Rle_trans; [exact H|]. unfold sq. 
    replace ((1 - / 524288) * d_val r * ((1 - / 524288) * d_val r)) with ((1 - / 524288) * ((1 - / 524288) * R2)) by (unfold R2; ring).
    assert (0 <= (1 - / 524288) * R2) by (apply Rmult_le_pos; lra). lra. }
  assert (PD : 0 <= dist2 p q) by (unfold dist2, sq; repeat apply Rplus_le_le_0_compat; apply Rle_0_sqr).
  assert (E6 : 6 * eps <= / 1073741824) by (rewrite eps_val; lra).
  assert (M : dist2 p q * (1 + 6 * eps) <= (1 - / 524288) * R2 * (1 + / 1073741824)).
  { apply Rmult_le_compat; try lra. pose proof eps_pos. lra. }
  lra.
Qed.

(** Conversely, a computed distance within the radius is a distance within the
    radius up to rounding. *)
Lemma distance_sound : forall p q r, modest_pt p -> modest_pt q -> finite r -> bpow radix2 (-500) <= d_val r ->
  d_leb (distance p q) r = true -> dist2 p q <= sq ((1 + / 1125899906842624) * d_val r).
Proof.
  intros p q r Hp Hq [Or Fr] Br H.
  destruct (distance_bounds p q Hp Hq) as (S & [Od Fd] & V & PS & NS & L & _).
  apply d_leb_val in H; auto. rewrite V in H.
  pose proof (bpow_gt_0 radix2 (-500)) as P500.
  destruct (rnd_sqrt_bounds S PS NS) as [L1 _].
  pose proof eps_pos as Pe. assert (Le : eps <= / 1000) by (rewrite eps_val; lra).
  assert (A : sqrt S * (1 - eps) <= d_val r) by lra.
  assert (B : S * ((1 - eps) * (1 - eps)) <= d_val r * d_val r).
  { rewrite <- (sqrt_def S PS). replace (sqrt S * sqrt S * ((1 - eps) * (1 - eps))) with (sqrt S * (1 - eps) * (sqrt S * (1 - eps))) by ring.
    pose proof (sqrt_ge_0 S). apply Rmult_le_compat; try assumption; apply Rmult_le_pos; lra. }
  assert (T : 4 * tiny <= eps / 1000 * (d_val r * d_val r)).
  { apply Rle_trans with (bpow radix2 (-10) * eps * (bpow radix2 (-500) * bpow radix2 (-500))).
    - unfold eps. rewrite <- !bpow_plus. 
      replace 4 with (bpow radix2 2) by reflexivity. unfold tiny. rewrite <- bpow_plus. apply bpow_le. lia.
    - apply Rmult_le_compat; try (apply Rmult_le_pos; try apply bpow_ge_0; lra).
      + replace (bpow radix2 (-10)) with (/ 1024) by reflexivity. lra.
      + apply Rmult_le_compat; lra. }
  set (R2 := d_val r * d_val r) in *. assert (PR : 0 <= R2) by apply Rle_0_sqr.
  assert (PD : 0 <= dist2 p q) by (unfold dist2, sq; repeat apply Rplus_le_le_0_compat; apply Rle_0_sqr).
  unfold sq. replace ((1 + / 1125899906842624) * d_val r * ((1 + / 1125899906842624) * d_val r))
    with ((1 + / 1125899906842624) * (1 + / 1125899906842624) * R2) by (unfold R2; ring).
  assert (E : / 1125899906842624 = 8 * eps) by (rewrite eps_val; lra). rewrite E.
  assert (C1 : dist2 p q * (1 - 6 * eps) <= S + eps / 1000 * R2) by lra.
  assert (C2 : dist2 p q * (1 - 6 * eps) * (1 - 2 * eps) <= R2 + eps / 1000 * R2).
  { assert (Q : 1 - 2 * eps <= (1 - eps) * (1 - eps) <= 1) by nra.
    apply Rle_trans with ((S + eps / 1000 * R2) * (1 - 2 * eps)); [apply Rmult_le_compat_r; lra|].
    assert (X : 0 <= eps / 1000 * R2) by (apply Rmult_le_pos; lra).
    assert (S * (1 - 2 * eps) <= S * ((1 - eps) * (1 - eps))) by (apply Rmult_le_compat_l; lra). nra. }
  assert (Q : 1 - 8 * eps <= (1 - 6 * eps) * (1 - 2 * eps)) by nra.
  assert (C3 : dist2 p q * (1 - 8 * eps) <= (1 + eps / 1000) * R2).
  { rewrite Rmult_assoc in C2.
    assert (dist2 p q * (1 - 8 * eps) <= dist2 p q * ((1 - 6 * eps) * (1 - 2 * eps))) by (apply Rmult_le_compat_l; lra). lra. }
  assert (Q2 : 1 + eps / 1000 <= (1 + 8 * eps) * (1 + 8 * eps) * (1 - 8 * eps)) by nra.
  apply Rmult_le_reg_r with (1 - 8 * eps); [lra|].
  eapply Rle_trans; [exact C3|].
  replace ((1 + 8 * eps) * (1 + 8 * eps) * R2 * (1 - 8 * eps)) with ((1 + 8 * eps) * (1 + 8 * eps) * (1 - 8 * eps) * R2) by ring.
  apply Rmult_le_compat_r; lra.
Qed.
