(** Lemmas about the tile size and the tile numbers. *)
From Coq Require Import Reals ZArith List Bool Lia Lra Psatz.
From Flocq Require Import Core.
From Verif.Model Require Import Base Double Arith PointRecord Point Extent Voxel TileApp.
From Verif.Spec Require Import Rounding Geometry Tiles.
From Verif.Proofs Require Import BaseFacts DoubleFacts ArithFacts VoxelFacts ErrorFacts ScaleFacts.
Import ListNotations.
Open Scope Z_scope.

Lemma zero_finite : finite d_zero.
Proof. split; [unfold d_ok, d_zero, two64; lia|reflexivity]. Qed.

Lemma one_finite : finite d_one /\ d_val d_one = 1%R.
Proof.
  split; [split; [unfold d_ok, d_one, two64; lia|reflexivity]|].
  unfold d_val. vm_compute. lra.
Qed.

Lemma gtb_zero : forall s, finite s -> d_gtb s d_zero = true <-> (0 < d_val s)%R.
Proof.
  intros s [O F]. unfold d_gtb. destruct zero_finite as [O0 F0].
  rewrite (d_ltb_val d_zero s O0 O F0 F). change (d_val d_zero) with (d_val 0). rewrite d_val_zero. tauto.
Qed.

Lemma fits_small : forall x, (0 <= x <= bpow radix2 1000)%R -> fits x.
Proof. intros x H. apply fits_bpow with 1000; [rewrite Rabs_pos_eq by lra; apply H|lia]. Qed.

Lemma Ztrunc_nonneg : forall x, (0 <= x)%R -> 0 <= Ztrunc x.
Proof. intros x H. rewrite Ztrunc_floor by exact H. apply Zfloor_lub. exact H. Qed.

Lemma Ztrunc_lt_bound : forall x n, (0 <= x)%R -> (Ztrunc x < n) <-> (x < IZR n)%R.
Proof.
  intros x n H. rewrite Ztrunc_floor by exact H. split; intros L.
  - eapply Rlt_le_trans; [apply Zfloor_ub|]. rewrite <- (plus_IZR _ 1). apply IZR_le. lia.
  - apply lt_IZR. eapply Rle_lt_trans; [apply Zfloor_lb|exact L].
Qed.

Lemma div_nonneg : forall a b, (0 <= a)%R -> (0 < b)%R -> (0 <= a / b)%R.
Proof. intros a b A B. apply Rmult_le_pos; [exact A|]. left. now apply Rinv_0_lt_compat. Qed.

Lemma div_le : forall a b c, (a <= b)%R -> (0 < c)%R -> (a / c <= b / c)%R.
Proof. intros a b c L P. apply Rmult_le_compat_r; [|exact L]. left. now apply Rinv_0_lt_compat. Qed.

(** The cell of a coordinate above the minimum *)
Lemma tile_cell_ret : forall p m s, finite p -> finite m -> finite s -> (d_val m <= d_val p)%R ->
  fits (d_val p - d_val m) -> cell p m s < 2 ^ 64 ->
  tile_cell p m s = Ret (cell p m s) /\ 0 <= cell p m s.
Proof.
  intros p m s [Op Fp] [Om Fm] [Os Fs] L F B. unfold tile_cell. cbv zeta.
  pose proof (gtb_zero s (conj Os Fs)) as G. unfold cell in *.
  destruct (Rlt_dec 0 (d_val s)) as [Ps|Ns].
  - rewrite (proj2 G Ps). change (d_to_size (d_div (d_sub p m) s)) with (voxel1 p m s).
    assert (P0 : (0 <= rnd (rnd (d_val p - d_val m) / d_val s))%R).
    { apply rnd_pos. apply div_nonneg; [apply rnd_pos; lra|exact Ps]. }
    assert (N0 : 0 <= Ztrunc (rnd (rnd (d_val p - d_val m) / d_val s))) by now apply Ztrunc_nonneg.
    split; [|exact N0]. apply voxel1_ret; auto. split; [exact Fp|]. split; [exact Fm|]. split; [exact F|].
    left. split; [exact Fs|]. split; [lra|]. split.
    + unfold fits. rewrite Rabs_pos_eq by exact P0. apply Ztrunc_lt_bound in B; [|exact P0].
      eapply Rlt_trans; [exact B|]. change (2 ^ 64) with (Zpower radix2 64). rewrite IZR_Zpower by lia.
      apply bpow_lt. lia.
    + split; [reflexivity|]. change two64 with (2 ^ 64). lia.
  - assert (G' : d_gtb s d_zero = false).
    { destruct (d_gtb s d_zero) eqn:E; [|reflexivity]. exfalso. apply Ns. now apply G. }
    rewrite G'. split; [|lia]. reflexivity.
Qed.

(** Cells grow with the coordinate. *)
Lemma cell_mono : forall p q m s, (d_val m <= d_val p <= d_val q)%R -> 0 <= cell p m s <= cell q m s.
Proof.
  intros p q m s L. unfold cell. destruct (Rlt_dec 0 (d_val s)) as [Ps|]; [|lia].
  assert (P0 : (0 <= rnd (rnd (d_val p - d_val m) / d_val s))%R).
  { apply rnd_pos. apply div_nonneg; [apply rnd_pos; lra|exact Ps]. }
  split; [now apply Ztrunc_nonneg|]. apply Ztrunc_le. apply rnd_le. apply div_le; [apply rnd_le; lra|exact Ps].
Qed.

Lemma fits_le_diff : forall p q m, (d_val m <= d_val p <= d_val q)%R -> fits (d_val q - d_val m) -> fits (d_val p - d_val m).
Proof. intros p q m L F. eapply fits_le; [|exact F]. rewrite !Rabs_pos_eq by lra. lra. Qed.

(** The stride is larger than the last column. *)
Lemma stride_ret : forall e s, finite (px (minp e)) -> finite (px (maxp e)) -> finite s ->
  (d_val (px (minp e)) <= d_val (px (maxp e)))%R -> fits (d_val (px (maxp e)) - d_val (px (minp e))) ->
  let n := cell (px (maxp e)) (px (minp e)) s in n < 2 ^ 53 - 1 ->
  exists stride, tile_stride e s = Ret stride /\ n < stride <= n + 2.
Proof.
  intros e s [Om Fm] [OM FM] [Os Fs] L F n B. unfold tile_stride. cbv zeta.
  set (m := px (minp e)) in *. set (M := px (maxp e)) in *.
  pose proof (gtb_zero s (conj Os Fs)) as G. subst n. unfold cell in *.
  destruct (Rlt_dec 0 (d_val s)) as [Ps|Ns].
  - rewrite (proj2 G Ps).
    assert (P0 : (0 <= rnd (rnd (d_val M - d_val m) / d_val s))%R).
    { apply rnd_pos. apply div_nonneg; [apply rnd_pos; lra|exact Ps]. }
    set (q := rnd (rnd (d_val M - d_val m) / d_val s)) in *.
    pose proof (Ztrunc_nonneg q P0) as N0.
    assert (Bq : (q < IZR (Ztrunc q + 1))%R) by (apply Ztrunc_lt_bound; [exact P0|lia]).
    assert (Lq : (IZR (Ztrunc q) <= q)%R) by (rewrite Ztrunc_floor by exact P0; apply Zfloor_lb).
    assert (Fq : fits (rnd (d_val M - d_val m) / d_val s)).
    { unfold fits. fold q. rewrite Rabs_pos_eq by exact P0. eapply Rlt_trans; [exact Bq|].
      eapply Rlt_le_trans; [apply IZR_lt; instantiate (1 := 2 ^ 53); lia|].
      change (2 ^ 53) with (Zpower radix2 53). rewrite IZR_Zpower by lia. apply bpow_le. lia. }
    destruct (d_sub_val M m OM Om FM Fm) as [S1 S2].
    pose proof (proj2 S1 F) as Fd. specialize (S2 F).
    destruct (d_div_val (d_sub M m) s (d_sub_ok M m) Os Fd ltac:(lra)) as [D1 D2].
    rewrite S2 in D1, D2. pose proof (proj2 D1 Fq) as Fdq. specialize (D2 Fq). fold q in D2.
    destruct one_finite as [[O1 F1] V1].
    destruct (d_add_val (d_div (d_sub M m) s) d_one (d_div_ok _ _) O1 Fdq F1) as [A1 A2].
    rewrite D2, V1 in A1, A2.
    assert (Rl : (IZR (Ztrunc q + 1) <= rnd (q + 1))%R).
    { rewrite <- (rnd_int (Ztrunc q + 1)) by lia. apply rnd_le. rewrite plus_IZR. lra. }
    assert (Ru : (rnd (q + 1) <= IZR (Ztrunc q + 2))%R).
    { rewrite <- (rnd_int (Ztrunc q + 2)) by lia. apply rnd_le. rewrite !plus_IZR in *. lra. }
    assert (Fa : fits (q + 1)).
    { unfold fits. rewrite Rabs_pos_eq by (eapply Rle_trans; [|exact Rl]; apply IZR_le; lia).
      eapply Rle_lt_trans; [exact Ru|]. eapply Rle_lt_trans; [apply IZR_le; instantiate (1 := 2 ^ 54); lia|].
      change (2 ^ 54) with (Zpower radix2 54). rewrite IZR_Zpower by lia. apply bpow_lt. lia. }
    pose proof (proj2 A1 Fa) as Ff. specialize (A2 Fa).
    exists (Ztrunc (rnd (q + 1))).
    assert (T1 : Ztrunc q + 1 <= Ztrunc (rnd (q + 1))) by (rewrite <- (Ztrunc_IZR (Ztrunc q + 1)); now apply Ztrunc_le).
    assert (T2 : Ztrunc (rnd (q + 1)) <= Ztrunc q + 2) by (rewrite <- (Ztrunc_IZR (Ztrunc q + 2)); now apply Ztrunc_le).
    split; [|lia].
    apply d_cast_ret. split; [exact Ff|]. rewrite A2. split; [reflexivity|]. unfold two64. lia.
  - assert (G' : d_gtb s d_zero = false).
    { destruct (d_gtb s d_zero) eqn:E; [|reflexivity]. exfalso. apply Ns. now apply G. }
    rewrite G'. exists 1. split; [|lia]. apply d_cast_ret. destruct one_finite as [[O1 F1] V1].
    split; [exact F1|]. rewrite V1. split; [now rewrite (Ztrunc_IZR 1)|unfold two64; lia].
Qed.

(** ** The tile size for a number of tiles *)

Lemma float_epsilon_val : finite float_epsilon /\ d_val float_epsilon = bpow radix2 (-23).
Proof.
  split; [split; [unfold d_ok, float_epsilon, two64; lia|reflexivity]|].
  unfold d_val. vm_compute. lra.
Qed.

(** One side of the extent, as it enters the tile size *)
Lemma side_val : forall M m, finite M -> finite m -> (0 <= d_val M - d_val m <= bpow radix2 999)%R ->
  let D := rnd (d_val M - d_val m) in
  finite (d_add (d_sub M m) float_epsilon) /\ d_val (d_add (d_sub M m) float_epsilon) = rnd (D + bpow radix2 (-23))
  /\ (0 <= D)%R /\ (rnd (D + bpow radix2 (-23)) <= bpow radix2 1000)%R
  /\ ((D + bpow radix2 (-23)) * (1 - eps) <= rnd (D + bpow radix2 (-23)))%R /\ (D <= rnd (D + bpow radix2 (-23)))%R.
Proof.
  intros M m [OM FM] [Om Fm] B D.
  assert (F : fits (d_val M - d_val m)).
  { apply fits_bpow with 999; [rewrite Rabs_pos_eq by lra; apply B|lia]. }
  destruct (d_sub_val M m OM Om FM Fm) as [S1 S2]. pose proof (proj2 S1 F) as Fd. specialize (S2 F).
  destruct float_epsilon_val as [[Oe Fe] Ve].
  destruct (d_add_val (d_sub M m) float_epsilon (d_sub_ok _ _) Oe Fd Fe) as [A1 A2].
  rewrite S2, Ve in A1, A2. fold D in S2, A1, A2.
  assert (D0 : (0 <= D)%R) by (apply rnd_pos; lra).
  assert (D1 : (D <= bpow radix2 999)%R).
  { unfold D. rewrite <- (rnd_bpow 999) by lia. apply rnd_le. apply B. }
  pose proof (bpow_gt_0 radix2 (-23)) as E0.
  assert (D2 : (D + bpow radix2 (-23) <= bpow radix2 1000)%R).
  { assert (H : (bpow radix2 (-23) <= bpow radix2 999)%R) by (apply bpow_le; lia).
    assert (H' : bpow radix2 1000 = (2 * bpow radix2 999)%R).
    { change 1000 with (1 + 999). rewrite bpow_plus. f_equal. }
    lra. }
  assert (Fa : fits (D + bpow radix2 (-23))) by (apply fits_small; lra).
  split; [split; [apply d_add_ok|now apply A1]|]. split; [now apply A2|]. split; [exact D0|]. split.
  - rewrite <- (rnd_bpow 1000) by lia. now apply rnd_le.
  - split.
    + apply rnd_sum_bounds; [apply rnd_format| |lra]. apply bpow_format. lia.
    + assert (X : rnd D = D) by (unfold D; apply rnd_rnd). rewrite <- X at 1. apply rnd_le. lra.
Qed.

(** The tile size: positive, finite, and at least what it should be up to rounding *)
Lemma tile_size_val : forall e n, pt_finite (minp e) -> pt_finite (maxp e) -> 1 <= n < 2 ^ 32 ->
  (forall ax, In ax [px; py] -> (0 <= d_val (ax (maxp e)) - d_val (ax (minp e)) <= bpow radix2 999)%R) ->
  finite (get_tile_size e n) /\
  forall ax, In ax [px; py] -> (0 < rnd (rnd (d_val (ax (maxp e)) - d_val (ax (minp e))) + bpow radix2 (-23))
      * (1 - 2 * eps) <= d_val (get_tile_size e n) * IZR n)%R.
Proof.
  intros e n Fm FM Hn B. unfold get_tile_size. cbv zeta.
  assert (Fax : forall ax, In ax axes -> finite (ax (minp e)) /\ finite (ax (maxp e))).
  { intros ax I. destruct Fm as ((M1 & M2 & M3) & M4 & M5 & M6). destruct FM as ((N1 & N2 & N3) & N4 & N5 & N6).
    destruct I as [<-|[<-|[<-|[]]]]; (split; split; assumption). }
  assert (Ix : In px axes) by (left; reflexivity). assert (Iy : In py axes) by (right; left; reflexivity).
  assert (Jx : In px [px; py]) by (left; reflexivity). assert (Jy : In py [px; py]) by (right; left; reflexivity).
  destruct (side_val _ _ (proj2 (Fax px Ix)) (proj1 (Fax px Ix)) (B px Jx)) as (Fx & Vx & X0 & X1 & X2 & _).
  destruct (side_val _ _ (proj2 (Fax py Iy)) (proj1 (Fax py Iy)) (B py Jy)) as (Fy & Vy & Y0 & Y1 & Y2 & _).
  set (Dx := rnd (rnd (d_val (px (maxp e)) - d_val (px (minp e))) + bpow radix2 (-23))) in *.
  set (Dy := rnd (rnd (d_val (py (maxp e)) - d_val (py (minp e))) + bpow radix2 (-23))) in *.
  set (dx := d_add (d_sub (px (maxp e)) (px (minp e))) float_epsilon) in *.
  set (dy := d_add (d_sub (py (maxp e)) (py (minp e))) float_epsilon) in *.
  assert (K : exists d, (if d_gtb dx dy then d_div dx (d_of_z n) else d_div dy (d_of_z n)) = d_div d (d_of_z n)
      /\ finite d /\ (Dx <= d_val d /\ Dy <= d_val d)%R /\ (d_val d <= bpow radix2 1000)%R).
  { destruct (d_gtb dx dy) eqn:E.
    - exists dx. split; [reflexivity|]. split; [exact Fx|]. unfold d_gtb in E.
      apply (d_ltb_val dy dx) in E; [|apply Fy|apply Fx|apply Fy|apply Fx]. rewrite Vx in *. rewrite Vy in E. split; [lra|exact X1].
    - exists dy. split; [reflexivity|]. split; [exact Fy|].
      assert (E' : ~ (d_val dy < d_val dx)%R).
      { intros H. apply (d_ltb_val dy dx) in H; [|apply Fy|apply Fx|apply Fy|apply Fx]. unfold d_gtb in E. congruence. }
      rewrite Vx, Vy in E'. rewrite Vy. split; [lra|exact Y1]. }
  destruct K as (d & -> & [Od Fd] & [Kx Ky] & Kb).
  destruct (d_of_z_exact n ltac:(lia)) as [Fn Vn].
  assert (N1 : (1 <= IZR n)%R) by (apply IZR_le; lia).
  assert (N2 : (IZR n <= 4294967296)%R) by (apply IZR_le; lia).
  pose proof (bpow_gt_0 radix2 (-23)) as E0. pose proof eps_val as Ev.
  assert (Dpos : (bpow radix2 (-23) * (1 - eps) <= d_val d)%R).
  { eapply Rle_trans; [|exact Kx]. eapply Rle_trans; [|exact X2]. apply Rmult_le_compat_r; [rewrite Ev; lra|]. lra. }
  assert (Ebp : bpow radix2 (-23) = (/ 8388608)%R) by (cbn; lra).
  assert (Q : (/ 72057594037927936 <= d_val d / IZR n)%R).
  { apply Rmult_le_reg_r with (IZR n); [lra|]. unfold Rdiv. rewrite Rmult_assoc, Rinv_l by lra. rewrite Rmult_1_r.
    rewrite Ebp, Ev in Dpos. lra. }
  assert (Qb : (d_val d / IZR n <= bpow radix2 1000)%R).
  { eapply Rle_trans; [|exact Kb]. apply Rmult_le_reg_r with (IZR n); [lra|]. unfold Rdiv.
    rewrite Rmult_assoc, Rinv_l by lra. apply Rmult_le_compat_l; [|lra]. rewrite Ebp, Ev in Dpos. lra. }
  destruct (d_div_val d (d_of_z n) Od (d_of_z_ok n) Fd) as [V1 V2]; [rewrite Vn; lra|].
  rewrite Vn in V1, V2.
  assert (Fq : fits (d_val d / IZR n)) by (apply fits_small; lra).
  specialize (V2 Fq). split; [split; [apply d_div_ok|now apply V1]|].
  pose proof (rnd_bounds (d_val d / IZR n) ltac:(lra)) as [R _]. rewrite <- V2 in R.
  assert (T : (tiny <= d_val d / IZR n * eps)%R).
  { assert (T1 : (tiny <= bpow radix2 (-109))%R) by (apply tiny_le; lia).
    eapply Rle_trans; [exact T1|]. unfold eps. 
    replace (bpow radix2 (-109)) with (/ 72057594037927936 * bpow radix2 (-53))%R.
    - apply Rmult_le_compat_r; [apply bpow_ge_0|exact Q].
    - replace (/ 72057594037927936)%R with (bpow radix2 (-56)); [now rewrite <- bpow_plus|]. cbn. lra. }
  assert (M : (d_val d * (1 - 2 * eps) <= d_val (d_div d (d_of_z n)) * IZR n)%R).
  { assert (H : (d_val d / IZR n * (1 - 2 * eps) <= d_val (d_div d (d_of_z n)))%R) by lra.
    apply (Rmult_le_compat_r (IZR n)) in H; [|lra].
    replace (d_val d / IZR n * (1 - 2 * eps) * IZR n)%R with (d_val d * (1 - 2 * eps))%R in H by (field; lra). exact H. }
  assert (Dx0 : (0 < Dx)%R).
  { eapply Rlt_le_trans; [|exact X2]. apply Rmult_lt_0_compat; [lra|rewrite Ev; lra]. }
  assert (Dy0 : (0 < Dy)%R).
  { eapply Rlt_le_trans; [|exact Y2]. apply Rmult_lt_0_compat; [lra|rewrite Ev; lra]. }
  assert (E2 : (0 < 1 - 2 * eps)%R) by (rewrite Ev; lra).
  intros ax [<-|[<-|[]]]; cbv beta.
  - fold Dx. split; [now apply Rmult_lt_0_compat|]. eapply Rle_trans; [|exact M]. apply Rmult_le_compat_r; lra.
  - fold Dy. split; [now apply Rmult_lt_0_compat|]. eapply Rle_trans; [|exact M]. apply Rmult_le_compat_r; lra.
Qed.

(** At most one tile too many *)
Lemma cell_bound : forall p M m s n, finite p -> finite M -> finite m -> finite s ->
  (d_val m <= d_val p <= d_val M)%R -> 1 <= n < 2 ^ 32 ->
  let D' := rnd (rnd (d_val M - d_val m) + bpow radix2 (-23)) in
  (0 <= d_val M - d_val m <= bpow radix2 999)%R ->
  (0 < D' * (1 - 2 * eps) <= d_val s * IZR n)%R -> cell p m s <= n.
Proof.
  intros p M m s n Fp FM Fm Fs L Hn D' B S.
  destruct (side_val M m FM Fm B) as (_ & _ & D0 & _ & _ & D1). fold D' in D1.
  assert (N1 : (1 <= IZR n)%R) by (apply IZR_le; lia).
  assert (N2 : (IZR n <= 4294967296)%R) by (apply IZR_le; lia).
  assert (S0 : (0 < d_val s)%R) by nra.
  unfold cell. destruct (Rlt_dec 0 (d_val s)); [|contradiction].
  assert (T0 : (0 <= rnd (d_val p - d_val m) <= D')%R).
  { split; [apply rnd_pos; lra|]. eapply Rle_trans; [|exact D1]. apply rnd_le. lra. }
  assert (Q : (rnd (d_val p - d_val m) / d_val s <= IZR (2 * n + 1) * bpow radix2 (-1))%R).
  { apply Rmult_le_reg_r with (d_val s); [exact S0|]. unfold Rdiv. rewrite Rmult_assoc, Rinv_l by lra. rewrite Rmult_1_r.
    eapply Rle_trans; [apply T0|].
    rewrite plus_IZR, mult_IZR. rewrite bpow_half. pose proof eps_val as Ev. rewrite Ev in S. nra. }
  assert (Rb : (rnd (rnd (d_val p - d_val m) / d_val s) <= IZR (2 * n + 1) * bpow radix2 (-1))%R).
  { assert (F : generic_format radix2 fexp64 (IZR (2 * n + 1) * bpow radix2 (-1))) by (apply int_bpow_format; lia).
    rewrite <- (round_generic radix2 fexp64 ZnearestE _ F). now apply rnd_le. }
  assert (P0 : (0 <= rnd (rnd (d_val p - d_val m) / d_val s))%R) by (apply rnd_pos, div_nonneg; lra).
  assert (Ztrunc (rnd (rnd (d_val p - d_val m) / d_val s)) < n + 1); [|lia].
  apply Ztrunc_lt_bound; [exact P0|]. eapply Rle_lt_trans; [exact Rb|].
  rewrite !plus_IZR, mult_IZR, bpow_half. lra.
Qed.

(** Not a tile too many when the extent is small *)
Lemma cell_bound_small : forall p M m s n, finite p -> finite M -> finite m -> finite s ->
  (d_val m <= d_val p <= d_val M)%R -> 1 <= n < 2 ^ 32 ->
  let D' := rnd (rnd (d_val M - d_val m) + bpow radix2 (-23)) in
  (0 <= d_val M - d_val m <= bpow radix2 26)%R ->
  (0 < D' * (1 - 2 * eps) <= d_val s * IZR n)%R -> cell p m s < n.
Proof.
  intros p M m s n Fp FM Fm Fs L Hn D' B S.
  assert (B' : (0 <= d_val M - d_val m <= bpow radix2 999)%R).
  { split; [apply B|]. eapply Rle_trans; [apply B|]. apply bpow_le. lia. }
  destruct (side_val M m FM Fm B') as (_ & _ & D0 & _ & D2 & D1). fold D' in D1, D2.
  assert (N1 : (1 <= IZR n)%R) by (apply IZR_le; lia).
  assert (N2 : (IZR n <= 4294967296)%R) by (apply IZR_le; lia).
  assert (S0 : (0 < d_val s)%R) by nra.
  unfold cell. destruct (Rlt_dec 0 (d_val s)); [|contradiction].
  set (D := rnd (d_val M - d_val m)) in *.
  assert (Db : (D <= 67108864)%R).
  { unfold D. replace 67108864%R with (bpow radix2 26) by (cbn; lra). rewrite <- (rnd_bpow 26) by lia. apply rnd_le. apply B. }
  set (t := rnd (d_val p - d_val m)).
  assert (T0 : (0 <= t <= D)%R).
  { split; [apply rnd_pos; lra|]. apply rnd_le. lra. }
  assert (Ebp : bpow radix2 (-23) = (/ 8388608)%R) by (cbn; lra). rewrite Ebp in D2.
  pose proof eps_val as Ev. rewrite Ev in S, D2.
  set (q := (t / d_val s)%R).
  assert (Qs : (q * d_val s = t)%R) by (unfold q; field; lra).
  assert (Q0 : (0 <= q)%R) by (apply div_nonneg; lra).
  assert (Q1 : (q <= IZR n * (1 - 8 * / 9007199254740992))%R).
  { apply Rmult_le_reg_r with (d_val s); [exact S0|]. rewrite Qs.
    eapply Rle_trans; [apply T0|].
    assert (X : (D <= D' * (1 - 2 * / 9007199254740992) * (1 - 8 * / 9007199254740992))%R) by nra.
    eapply Rle_trans; [exact X|]. nra. }
  assert (P0 : (0 <= rnd q)%R) by now apply rnd_pos.
  apply Ztrunc_lt_bound; [exact P0|].
  pose proof (rnd_bounds q Q0) as [_ R]. rewrite Ev in R.
  assert (T : (tiny <= / 9007199254740992)%R) by (rewrite <- Ev; apply tiny_le; lia).
  nra.
Qed.
