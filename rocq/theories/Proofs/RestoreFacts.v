(** Rounding errors of restore and of the center of a cloud. *)
From Coq Require Import Reals ZArith List Bool Lia Lra Psatz.
From Flocq Require Import Core.
From Verif.Model Require Import Base Double Arith PointRecord Point Extent Utils.
From Verif.Spec Require Import Rounding Tools.
From Verif.Proofs Require Import BaseFacts DoubleFacts ArithFacts ErrorFacts VoxelFacts ScaleFacts ToolFacts ToolGeometryFacts.
Import ListNotations.
Open Scope R_scope.

(** Values a little above a double still round to doubles. *)
Lemma fits_near : forall d x, Rabs x <= Rabs (d_val d) + bpow radix2 960 -> fits x.
Proof.
  intros d x H. unfold fits. rewrite rnd_abs.
  assert (D : Rabs (d_val d) < bpow radix2 1024) by apply (Binary.abs_B2R_lt_emax 53 1024).
  assert (Fd : generic_format radix2 fexp64 (Rabs (d_val d))) by apply generic_format_abs, d_val_format.
  assert (Fm : generic_format radix2 fexp64 (bpow radix2 1024 - bpow radix2 971)).
  { apply generic_format_FLT.
    exists (Float radix2 (2 ^ 53 - 1) 971); [|cbn; lia|cbn; lia].
    unfold F2R. cbn [Fnum Fexp]. rewrite minus_IZR. change (2 ^ 53)%Z with (Zpower radix2 53). rewrite IZR_Zpower by lia.
    rewrite Rmult_minus_distr_r, Rmult_1_l, <- bpow_plus. reflexivity. }
  assert (L : Rabs (d_val d) <= bpow radix2 1024 - bpow radix2 971).
  { replace (bpow radix2 1024 - bpow radix2 971) with (pred radix2 fexp64 (bpow radix2 1024)).
    - apply pred_ge_gt; [apply fexp64_valid|exact Fd| |exact D]. apply generic_format_bpow. cbn. lia.
    - rewrite pred_bpow. reflexivity. }
  apply Rle_lt_trans with (bpow radix2 1024 - bpow radix2 971); [|pose proof (bpow_gt_0 radix2 971); lra].
  unfold rnd. apply round_N_le_midp; [apply fexp64_valid|exact Fm|].
  assert (S : bpow radix2 1024 <= succ radix2 fexp64 (bpow radix2 1024 - bpow radix2 971)).
  { apply Rnot_lt_le. intros K.
    replace (bpow radix2 1024 - bpow radix2 971) with (pred radix2 fexp64 (bpow radix2 1024)) in K by (rewrite pred_bpow; reflexivity).
    rewrite succ_pred in K; [lra|apply fexp64_valid|]. apply generic_format_bpow. cbn. lia. }
  assert (B : bpow radix2 960 < / 2 * bpow radix2 971).
  { replace (/ 2 * bpow radix2 971) with (bpow radix2 970); [apply bpow_lt; lia|]. rewrite <- (half_bpow 970). reflexivity. }
  lra.
Qed.

Lemma abs_mul_le : forall a b x y, 0 <= a -> Rabs x <= a -> 0 <= b -> Rabs y <= b -> Rabs (x * y) <= a * b.
Proof. intros a b x y A X B Y. rewrite Rabs_mult. apply Rmult_le_compat; try apply Rabs_pos; assumption. Qed.

Lemma d_mul_finite_inv : forall a b, d_ok a -> d_ok b -> d_is_finite (d_mul a b) = true ->
  d_is_finite a = true /\ d_is_finite b = true.
Proof.
  intros a b Oa Ob F. unfold d_mul in F. rewrite finite_bits in F. rewrite !d_is_finite_B by assumption.
  unfold Flocq.IEEE754.Bits.b64_mult in F.
  destruct (Flocq.IEEE754.Bits.b64_of_bits a) as [s|s|s p e|s m e B], (Flocq.IEEE754.Bits.b64_of_bits b) as [s'|s'|s' p' e'|s' m' e' B']; cbn in *;
    try (split; reflexivity); try discriminate F.
Qed.

(** Rescaling and restoring gives back every coordinate of the box up to a few
    units in the last place of the coordinate and of the size of the box. *)
Lemma restore_rescale1 : forall p m M n, finite p -> finite m -> finite M ->
  d_val m <= d_val p <= d_val M -> d_val m < d_val M ->
  d_is_finite (d_mul (d_sub M m) max_value) = true ->
  rescale1 p (d_sub M m) m = Ret n ->
  d_is_finite (restore1 n (d_sub M m) m) = true
  /\ Rabs (d_val (restore1 n (d_sub M m) m) - d_val p) <= eps * (Rabs (d_val p) + 8 * (d_val M - d_val m)) + 3 * tiny.
Proof.
  intros p m M n Hp Hm HM Le Lt F E.
  destruct (rescale1_in p m M Hp Hm HM Le Lt F) as (n' & E' & Bn & V). rewrite E in E'. injection E' as <-. rename n into N.
  destruct Hp as [Op Fp], Hm as [Om Fm], HM as [OM FM]. destruct max_value_val as [[Ov Fv] Vv].
  destruct (d_mul_finite_inv (d_sub M m) max_value (d_sub_ok M m) Ov F) as [Fs _].
  destruct (d_sub_val M m OM Om FM Fm) as [S1 S2]. pose proof (proj1 S1 Fs) as S3. pose proof (S2 S3) as Vs.
  destruct (d_mul_val (d_sub M m) max_value (d_sub_ok M m) Ov Fs Fv) as [M1 M2].
  pose proof (proj1 M1 F) as M3. rewrite Vv in *.
  assert (SX : rnd (d_val (d_sub M m) * scale_top) = d_val (d_sub M m) * scale_top) by (apply scale_exact, M3).
  assert (FS : fits (d_val (d_sub M m))) by apply fits_val.
  destruct (d_of_z_val N) as [Fn Vn]; [lia|].
  assert (T : 0 < scale_top) by apply bpow_gt_0.
  assert (IT : IZR (2 ^ 62) = scale_top) by (unfold scale_top; now rewrite <- (IZR_Zpower radix2) by lia).
  assert (Xn : 0 <= rnd (IZR N) <= scale_top).
  { split; [apply rnd_pos, IZR_le; lia|]. unfold scale_top. rewrite <- (rnd_bpow 62) by lia. apply rnd_le.
    fold scale_top. rewrite <- IT. apply IZR_le. lia. }
  assert (Ps : 0 <= d_val (d_sub M m)) by (rewrite Vs; apply rnd_pos; lra).
  assert (A1 : 0 <= rnd (IZR N) * d_val (d_sub M m) <= d_val (d_sub M m) * scale_top).
  { split; [apply Rmult_le_pos; lra|]. rewrite Rmult_comm. apply Rmult_le_compat_l; lra. }
  destruct (d_mul_val (d_of_z N) (d_sub M m) (d_of_z_ok N) (d_sub_ok M m) Fn Fs) as [Q1 Q2]. rewrite Vn in *.
  assert (Q3 : fits (rnd (IZR N) * d_val (d_sub M m))) by (eapply fits_le; [|exact M3]; rewrite !Rabs_pos_eq; lra).
  pose proof (proj2 Q1 Q3) as Fy. pose proof (Q2 Q3) as Vy.
  assert (A2 : 0 <= rnd (rnd (IZR N) * d_val (d_sub M m)) <= d_val (d_sub M m) * scale_top).
  { split; [apply rnd_pos; lra|]. rewrite <- (scale_exact (d_sub M m)) by exact M3. apply rnd_le. lra. }
  assert (Nt : d_val max_value <> 0) by (rewrite Vv; lra).
  destruct (d_div_val (d_mul (d_of_z N) (d_sub M m)) max_value (d_mul_ok _ _) Ov Fy Nt) as [D1 D2]. rewrite Vy, Vv in *.
  assert (IP : 0 < / scale_top) by now apply Rinv_0_lt_compat.
  assert (A3 : 0 <= rnd (rnd (IZR N) * d_val (d_sub M m)) / scale_top <= d_val (d_sub M m)).
  { unfold Rdiv. split; [apply Rmult_le_pos; lra|].
    replace (d_val (d_sub M m)) with (d_val (d_sub M m) * scale_top * / scale_top) at 2 by (field; lra).
    apply Rmult_le_compat_r; lra. }
  assert (D3 : fits (rnd (rnd (IZR N) * d_val (d_sub M m)) / scale_top)).
  { eapply fits_le; [|exact (fits_val (d_sub M m))]. rewrite !Rabs_pos_eq; lra. }
  pose proof (proj2 D1 D3) as Fz. pose proof (D2 D3) as Vz.
  (* the errors *)
  destruct (rnd_diff_bounds p m) as (e1 & He1 & R1). destruct (rnd_diff_bounds M m) as (e0 & He0 & R0).
  rewrite Vs in *. pose proof eps_pos as Pe. pose proof tiny_pos as Pt.
  assert (Se : eps <= / 1000000) by (rewrite eps_val; lra).
  set (S := rnd (d_val M - d_val m)) in *. set (d := rnd (d_val p - d_val m)) in *.
  assert (NS : 0 < S).
  { assert (S <> 0) by (unfold S; apply rnd_sub_neq; lra). lra. }
  assert (dS : 0 <= d <= S) by (split; [apply rnd_pos; lra|apply rnd_le; lra]).
  destruct (rnd_err (d * scale_top / S)) as (e2 & t2 & He2 & Ht2 & R2).
  set (q := rnd (d * scale_top / S)) in *.
  assert (Pq : 0 <= q).
  { apply rnd_pos. unfold Rdiv. apply Rmult_le_pos; [apply Rmult_le_pos; lra|]. apply Rlt_le, Rinv_0_lt_compat, NS. }
  assert (Fl : IZR N <= q < IZR N + 1).
  { rewrite V, Ztrunc_floor by exact Pq. split; [apply Zfloor_lb|]. apply Zfloor_ub. }
  destruct (rnd_err (IZR N)) as (e6 & t6 & He6 & Ht6 & R6). set (x := rnd (IZR N)) in *.
  destruct (rnd_err (x * S)) as (e3 & t3 & He3 & Ht3 & R3). set (y := rnd (x * S)) in *.
  destruct (rnd_err (y / scale_top)) as (e4 & t4 & He4 & Ht4 & R4). set (z := rnd (y / scale_top)) in *.
  set (D := d_val M - d_val m) in *. set (a := d_val p - d_val m) in *. set (i := / scale_top) in *.
  assert (Ti : scale_top * i = 1) by (unfold i; field; lra).
  assert (i9 : i <= eps / 512).
  { unfold i, scale_top, eps. rewrite <- bpow_opp. replace (bpow radix2 (-53)) with (bpow radix2 (- (62)) * 512).
    - lra.
    - replace 512 with (bpow radix2 9) by (cbn; lra). rewrite <- bpow_plus. reflexivity. }
  assert (aD : 0 <= a <= D) by (unfold a, D; lra). assert (PD : 0 < D) by (unfold D; lra).
  assert (SD : S <= D * (1 + eps)).
  { rewrite R0. apply Rmult_le_compat_l; [lra|]. apply Rabs_le_inv in He0. lra. }
  assert (T1 : tiny <= / 1000000).
  { eapply Rle_trans; [apply (bpow_le radix2 _ (-53)); lia|]. exact Se. }
  (* d - a *)
  assert (E1 : Rabs (d - a) <= eps * D).
  { rewrite R1. replace (a * (1 + e1) - a) with (e1 * a) by ring.
    eapply Rle_trans; [apply (abs_mul_le eps a); [lra|exact He1|lra|rewrite Rabs_pos_eq; lra]|]. apply Rmult_le_compat_l; lra. }
  (* N S / T - d *)
  assert (E2 : Rabs (IZR N * S * i - d) <= eps * S + 2 * (eps / 512) * S).
  { assert (C : q * S * i = d * (1 + e2) + t2 * S * i).
    { rewrite R2. unfold i. field. lra. }
    replace (IZR N * S * i - d) with (e2 * d + (t2 - (q - IZR N)) * (S * i)) by (rewrite <- (Rplus_0_r (IZR N * S * i)); lra).
    eapply Rle_trans; [apply Rabs_triang|]. apply Rplus_le_compat.
    - eapply Rle_trans; [apply (abs_mul_le eps d); [lra|exact He2|lra|rewrite Rabs_pos_eq; lra]|]. apply Rmult_le_compat_l; lra.
    - assert (Si : 0 <= S * i <= S * (eps / 512)) by (split; [apply Rmult_le_pos; lra|apply Rmult_le_compat_l; lra]).
      eapply Rle_trans; [apply (abs_mul_le 2 (S * i)); [lra| |apply Si|rewrite Rabs_pos_eq; lra]|lra].
      apply Rabs_le. apply Rabs_le_inv in Ht2. lra. }
  (* x S / T - N S / T *)
  assert (NT : 0 <= IZR N <= scale_top) by (rewrite <- IT; split; apply IZR_le; lia).
  assert (Si : 0 <= S * i <= S * (eps / 512)) by (split; [apply Rmult_le_pos; lra|apply Rmult_le_compat_l; lra]).
  assert (E3 : Rabs (x * S * i - IZR N * S * i) <= eps * S + (eps / 512) * S).
  { rewrite R6. replace ((IZR N * (1 + e6) + t6) * S * i - IZR N * S * i) with (e6 * (IZR N * (S * i)) + t6 * (S * i)) by ring.
    eapply Rle_trans; [apply Rabs_triang|]. apply Rplus_le_compat.
    - assert (0 <= IZR N * (S * i) <= S).
      { split; [apply Rmult_le_pos; lra|]. replace S with (scale_top * (S * i)) at 2 by (unfold i; field; lra).
        apply Rmult_le_compat_r; lra. }
      apply abs_mul_le; [lra|exact He6|lra|rewrite Rabs_pos_eq; lra].
    - eapply Rle_trans; [apply (abs_mul_le 1 (S * i)); [lra|lra|apply Si|rewrite Rabs_pos_eq; lra]|lra]. }
  assert (xS : 0 <= x * S * i <= S).
  { split; [apply Rmult_le_pos; lra|]. replace S with (S * scale_top * i) at 2 by (unfold i; field; lra).
    apply Rmult_le_compat_r; lra. }
  (* y / T - x S / T *)
  assert (E4 : Rabs (y * i - x * S * i) <= eps * S + tiny / 512).
  { rewrite R3. replace ((x * S * (1 + e3) + t3) * i - x * S * i) with (e3 * (x * S * i) + t3 * i) by ring.
    eapply Rle_trans; [apply Rabs_triang|]. apply Rplus_le_compat.
    - apply abs_mul_le; [lra|exact He3|lra|rewrite Rabs_pos_eq; lra].
    - eapply Rle_trans; [apply (abs_mul_le tiny i); [lra|exact Ht3|lra|rewrite Rabs_pos_eq; lra]|].
      apply Rmult_le_compat_l; lra. }
  assert (E5 : Rabs (z - y * i) <= eps * S + tiny).
  { unfold Rdiv in R4. fold i in R4. rewrite R4. replace (y * i * (1 + e4) + t4 - y * i) with (e4 * (y * i) + t4) by ring.
    unfold Rdiv in A3. fold i in A3.
    eapply Rle_trans; [apply Rabs_triang|]. apply Rplus_le_compat; [|exact Ht4].
    apply abs_mul_le; [lra|exact He4|lra|rewrite Rabs_pos_eq; lra]. }
  assert (eS : eps * S <= eps * D + eps * D / 1000000).
  { apply Rle_trans with (eps * (D * (1 + eps))); [apply Rmult_le_compat_l; lra|].
    assert (eps * D * eps <= eps * D * / 1000000) by (apply Rmult_le_compat_l; [apply Rmult_le_pos; lra|lra]). lra. }
  assert (PeD : 0 <= eps * D) by (apply Rmult_le_pos; lra).
  assert (G : Rabs (z - a) <= 6 * (eps * D) + 2 * tiny).
  { apply Rabs_le_inv in E1. apply Rabs_le_inv in E2. apply Rabs_le_inv in E3. apply Rabs_le_inv in E4. apply Rabs_le_inv in E5.
    apply Rabs_le. lra. }
  (* the last addition *)
  destruct (d_add_val (d_div (d_mul (d_of_z N) (d_sub M m)) max_value) m (d_div_ok _ _) Om Fz Fm) as [Z1 Z2]. rewrite Vz in Z1, Z2.
  assert (FF : fits (z + d_val m)).
  { assert (B0 : Rabs S < bpow radix2 963).
    { apply Rnot_le_lt. intros K. apply (Rlt_irrefl (bpow radix2 1024)). eapply Rle_lt_trans; [|exact M3].
      rewrite SX, Rabs_mult, (Rabs_pos_eq scale_top) by lra.
      apply Rle_trans with (bpow radix2 963 * scale_top); [unfold scale_top; rewrite <- bpow_plus; apply bpow_le; lia|].
      apply Rmult_le_compat_r; lra. }
    assert (Z0 : 0 <= z <= S).
    { split; [apply rnd_pos; apply A3|]. replace S with (rnd S) by apply rnd_rnd. apply rnd_le, A3. }
    rewrite Rabs_pos_eq in B0 by lra. destruct (Rle_lt_dec 0 (d_val m)) as [K|K].
    - apply (fits_near M). rewrite !Rabs_pos_eq by lra. fold D. assert (z <= D + eps * D) by lra.
      assert (D <= bpow radix2 964).
      { rewrite R0 in B0. apply Rabs_le_inv in He0. replace (bpow radix2 964) with (2 * bpow radix2 963).
        - nra.
        - rewrite <- (half_bpow 963). change (963 + 1)%Z with 964%Z. lra. }
      assert (eps * D <= bpow radix2 960).
      { apply Rle_trans with (eps * bpow radix2 964); [apply Rmult_le_compat_l; lra|].
        unfold eps. rewrite <- bpow_plus. apply bpow_le. lia. }
      unfold D in *. lra.
    - eapply (fits_le _ (Rmax (Rabs (d_val m)) S)).
      + rewrite (Rabs_pos_eq (Rmax _ _)); [|eapply Rle_trans; [apply Rabs_pos|apply Rmax_l]].
        destruct (Rle_lt_dec 0 (z + d_val m)) as [K'|K'].
        * rewrite Rabs_pos_eq by lra. eapply Rle_trans; [|apply Rmax_r]. lra.
        * rewrite Rabs_left by lra. eapply Rle_trans; [|apply Rmax_l]. rewrite Rabs_left by lra. lra.
      + apply Rmax_case; [eapply fits_le; [|exact (fits_val m)]; rewrite Rabs_Rabsolu; lra|exact FS]. }
  unfold restore1. split; [now apply Z1|]. rewrite (Z2 FF).
  assert (Fz' : generic_format radix2 fexp64 z) by apply rnd_format.
  destruct (rnd_sum_err z (d_val m) Fz' (d_val_format m)) as (e5 & He5 & ->).
  replace ((z + d_val m) * (1 + e5) - d_val p) with ((z - a) * (1 + e5) + e5 * d_val p) by (unfold a; ring).
  eapply Rle_trans; [apply Rabs_triang|].
  assert (H1 : Rabs (e5 * d_val p) <= eps * Rabs (d_val p)) by (apply abs_mul_le; try lra; apply Rabs_pos).
  assert (H2 : Rabs ((z - a) * (1 + e5)) <= (6 * (eps * D) + 2 * tiny) * (1 + / 1000000)).
  { apply abs_mul_le; [lra|exact G|lra|]. apply Rabs_le_inv in He5. apply Rabs_le. lra. }
  lra.
Qed.
