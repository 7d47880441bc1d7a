(** C112: the area and the volume of a box. *)
From Coq Require Import String Reals ZArith List Bool Lia Lra Psatz.
From Flocq Require Import Core IEEE754.BinarySingleNaN IEEE754.Binary IEEE754.Bits.
From Verif.Model Require Import Base Double Arith PointRecord Point Extent.
From Verif.Spec Require Import Rounding Geometry.
From Verif.Proofs Require Import BaseFacts OrderFacts DoubleFacts ArithFacts ErrorFacts.
From Verif.Props Require Import GeometryProps VoxelProps.
Import ListNotations.
Open Scope R_scope.

(** The true length of a side. *)
Definition side (ax : point -> double) (e : extent) : R := d_val (ax (maxp e)) - d_val (ax (minp e)).

(** A box: finite corners, no side negative. *)
Definition box (e : extent) : Prop :=
  pt_finite (minp e) /\ pt_finite (maxp e) /\ forall ax, In ax axes -> 0 <= side ax e.

(** [e] lies inside [f]. *)
Definition inside (e f : extent) : Prop := forall ax, In ax axes ->
  d_val (ax (minp f)) <= d_val (ax (minp e)) /\ d_val (ax (maxp e)) <= d_val (ax (maxp f)).

Lemma d_mul_finite_inv : forall a b, d_ok a -> d_ok b -> d_is_finite (d_mul a b) = true ->
  d_is_finite a = true /\ d_is_finite b = true.
Proof.
  intros a b Ha Hb. rewrite !d_is_finite_B by auto using d_mul_ok. unfold d_mul. rewrite b64_bits.
  generalize (b64_of_bits a) (b64_of_bits b). intros x y.
  destruct x as [s|s|s p e|s m e Hx]; destruct y as [s'|s'|s' p' e'|s' m' e' Hy]; cbn; try (intros H; discriminate H); auto.
Qed.

Lemma finite_axis : forall p ax, pt_finite p -> In ax axes -> d_ok (ax p) /\ d_is_finite (ax p) = true.
Proof. intros p ax ((O1 & O2 & O3) & F1 & F2 & F3) [<-|[<-|[<-|[]]]]; auto. Qed.

(** The length as computed. *)
Lemma side_val : forall e ax, box e -> In ax axes ->
  let w := d_sub (ax (maxp e)) (ax (minp e)) in
  (d_is_finite w = true <-> fits (side ax e)) /\ (d_is_finite w = true -> d_val w = rnd (side ax e)).
Proof.
  intros e ax (B1 & B2 & _) I w. destruct (finite_axis _ ax B1 I) as [O1 F1]. destruct (finite_axis _ ax B2 I) as [O2 F2].
  destruct (d_sub_val _ _ O2 O1 F2 F1) as [A B]. fold w in A, B. split; [exact A|]. intros F. apply B, A, F.
Qed.

Lemma area_val : forall e, box e -> finite (get_area e) ->
  fits (side px e) /\ fits (side py e)
  /\ d_val (get_area e) = rnd (rnd (side px e) * rnd (side py e)).
Proof.
  intros e B [O F]. unfold get_area in *.
  pose proof (d_mul_finite_inv _ _ (d_sub_ok _ _) (d_sub_ok _ _) F) as [F1 F2].
  destruct (side_val e px B ltac:(cbn; tauto)) as [A1 V1]. destruct (side_val e py B ltac:(cbn; tauto)) as [A2 V2].
  split; [now apply A1|]. split; [now apply A2|].
  destruct (d_mul_val _ _ (d_sub_ok (px (maxp e)) (px (minp e))) (d_sub_ok (py (maxp e)) (py (minp e))) F1 F2) as [M1 M2].
  rewrite M2 by (now apply M1). now rewrite V1, V2.
Qed.

Lemma volume_area : forall e, get_volume e = d_mul (get_area e) (d_sub (pz (maxp e)) (pz (minp e))).
Proof. intros e. unfold get_volume, get_area. reflexivity. Qed.
Lemma area_ok : forall e, d_ok (get_area e).
Proof. intros e. unfold get_area. apply d_mul_ok. Qed.

Lemma volume_val : forall e, box e -> finite (get_volume e) ->
  finite (get_area e) /\ fits (side pz e)
  /\ d_val (get_volume e) = rnd (d_val (get_area e) * rnd (side pz e)).
Proof.
  intros e B [O F]. rewrite (volume_area e) in *. pose proof (area_ok e) as Oa.
  pose proof (d_mul_finite_inv _ _ Oa (d_sub_ok _ _) F) as [F1 F2].
  destruct (side_val e pz B ltac:(cbn; tauto)) as [A V].
  split; [now split|]. split; [now apply A|].
  destruct (d_mul_val _ _ Oa (d_sub_ok (pz (maxp e)) (pz (minp e))) F1 F2) as [M1 M2].
  rewrite M2 by (now apply M1). now rewrite V.
Qed.

Lemma side_rel : forall e ax, 0 <= side ax e -> side ax e * (1 - eps) <= rnd (side ax e) <= side ax e * (1 + eps).
Proof.
  intros e ax H. unfold side in *. destruct (rnd_diff_bounds (ax (maxp e)) (ax (minp e))) as (d & D & ->).
  apply Rabs_le_inv in D. nra.
Qed.

(** Two roundings of a product of a rounded length. *)
Lemma product_bounds : forall a a' z z' n m, 0 <= a -> 0 <= z -> 0 <= n -> 0 <= a' -> 0 <= m ->
  a * (1 - m * eps) - n <= a' <= a * (1 + m * eps) + n ->
  z * (1 - eps) <= z' <= z * (1 + eps) -> m <= 4 -> 0 <= z' ->
  a * z * (1 - (m + 3) * eps) - (2 * n * z + tiny) <= rnd (a' * z') <= a * z * (1 + (m + 3) * eps) + (2 * n * z + tiny).
Proof.
  intros a a' z z' n m Ha Hz Hn Ha' Hm A Z Lm Hz'.
  assert (E : eps = / 9007199254740992) by apply eps_val.
  assert (P : 0 <= a' * z') by (now apply Rmult_le_pos).
  pose proof (rnd_bounds (a' * z') P) as R0. set (r := rnd (a' * z')) in *.
  assert (U : a' * z' <= (a * (1 + m * eps) + n) * (z * (1 + eps))) by (apply Rmult_le_compat; lra).
  assert (L : (a * (1 - m * eps) - n) * (z * (1 - eps)) <= a' * z').
  { apply Rle_trans with (a' * (z * (1 - eps))).
    - apply Rmult_le_compat_r; [apply Rmult_le_pos; lra|lra].
    - apply Rmult_le_compat_l; lra. }
  assert (Paz : 0 <= a * z) by (now apply Rmult_le_pos). assert (Pnz : 0 <= n * z) by (now apply Rmult_le_pos).
  set (q := a' * z') in *.
  assert (U2 : q <= a * z * ((1 + m * eps) * (1 + eps)) + n * z * (1 + eps)) by (eapply Rle_trans; [exact U|right; ring]).
  assert (L2 : a * z * ((1 - m * eps) * (1 - eps)) - n * z * (1 - eps) <= q) by (eapply Rle_trans; [right|exact L]; ring).
  set (t := a * z) in *. set (w := n * z) in *.
  replace (2 * n * z) with (2 * w) by (unfold w; ring).
  assert (C1 : (1 + m * eps) * (1 + eps) * (1 + eps) <= 1 + (m + 3) * eps) by (rewrite E; nra).
  assert (C2 : 1 - (m + 3) * eps <= (1 - m * eps) * (1 - eps) * (1 - eps)) by (rewrite E; nra).
  assert (C3 : (1 + eps) * (1 + eps) <= 2) by (rewrite E; lra).
  assert (C4 : (1 - eps) * (1 - eps) <= 2) by (rewrite E; lra).
  split.
  - apply Rle_trans with (q * (1 - eps) - tiny); [|apply R0].
    apply Rle_trans with ((t * ((1 - m * eps) * (1 - eps)) - w * (1 - eps)) * (1 - eps) - tiny).
    + pose proof (Rmult_le_compat_l t _ _ Paz C2). pose proof (Rmult_le_compat_l w _ _ Pnz C4). nra.
    + assert (0 <= 1 - eps) by (rewrite E; lra). pose proof (Rmult_le_compat_r (1 - eps) _ _ H L2). lra.
  - apply Rle_trans with (q * (1 + eps) + tiny); [apply R0|].
    apply Rle_trans with ((t * ((1 + m * eps) * (1 + eps)) + w * (1 + eps)) * (1 + eps) + tiny).
    + assert (0 <= 1 + eps) by (rewrite E; lra). pose proof (Rmult_le_compat_r (1 + eps) _ _ H U2). lra.
    + pose proof (Rmult_le_compat_l t _ _ Paz C1). pose proof (Rmult_le_compat_l w _ _ Pnz C3). nra.
Qed.

Lemma area_bounds : forall e, box e -> finite (get_area e) ->
  let t := side px e * side py e in
  0 <= d_val (get_area e) /\ t * (1 - 4 * eps) - tiny <= d_val (get_area e) <= t * (1 + 4 * eps) + tiny.
Proof.
  intros e B F t. destruct (area_val e B F) as (_ & _ & ->). destruct B as (_ & _ & P).
  pose proof (P px ltac:(cbn; tauto)) as Px. pose proof (P py ltac:(cbn; tauto)) as Py.
  pose proof (side_rel e px Px) as Rx. pose proof (side_rel e py Py) as Ry.
  assert (Q1 : 0 <= rnd (side px e)) by (now apply rnd_pos). assert (Q2 : 0 <= rnd (side py e)) by (now apply rnd_pos).
  split; [apply rnd_pos; now apply Rmult_le_pos|].
  assert (X : side px e * (1 - 1 * eps) - 0 <= rnd (side px e) <= side px e * (1 + 1 * eps) + 0) by lra.
  pose proof (product_bounds _ _ _ _ 0 1 Px Py (Rle_refl 0) Q1 Rle_0_1 X Ry ltac:(lra) Q2) as G.
  unfold t. replace (1 + 3) with 4 in G by ring. lra.
Qed.

(** The area is the true one up to a relative error of 2^-50 and an absolute one of
    2^-1074, and not negative. *)
Theorem C112_area : forall e, box e -> finite (get_area e) ->
  let true_area := side px e * side py e in
  0 <= d_val (get_area e)
  /\ Rabs (d_val (get_area e) - true_area) <= bpow radix2 (-50) * true_area + bpow radix2 (-1074).
Proof.
  intros e B F t. destruct (area_bounds e B F) as [N L]. fold t in L. split; [exact N|].
  assert (T : tiny <= bpow radix2 (-1074)) by (apply tiny_le; lia).
  assert (B50 : bpow radix2 (-50) = 8 * eps) by (rewrite eps_val; cbn; lra).
  destruct B as (_ & _ & P).
  assert (Pt : 0 <= t) by (apply Rmult_le_pos; apply P; cbn; tauto).
  pose proof eps_pos. assert (0 <= t * eps) by (apply Rmult_le_pos; lra).
  rewrite B50. apply Rabs_le. lra.
Qed.

(** The volume likewise; the absolute error of the area is multiplied by the depth. *)
Theorem C112_volume : forall e, box e -> finite (get_volume e) ->
  let true_volume := side px e * side py e * side pz e in
  0 <= d_val (get_volume e)
  /\ Rabs (d_val (get_volume e) - true_volume)
     <= bpow radix2 (-50) * true_volume + bpow radix2 (-1074) * (1 + side pz e).
Proof.
  intros e B F t. destruct (volume_val e B F) as (Fa & _ & ->). destruct (area_bounds e B Fa) as [Na L].
  destruct B as (_ & _ & P). pose proof (P pz ltac:(cbn; tauto)) as Pz. pose proof (side_rel e pz Pz) as Rz.
  assert (Q : 0 <= rnd (side pz e)) by (now apply rnd_pos).
  split; [apply rnd_pos; now apply Rmult_le_pos|].
  assert (Pt : 0 <= side px e * side py e) by (apply Rmult_le_pos; apply P; cbn; tauto).
  pose proof tiny_pos as Tp. pose proof eps_pos as Ep.
  pose proof (product_bounds _ _ _ _ tiny 4 Pt Pz (Rlt_le _ _ Tp) Na ltac:(lra) L Rz (Rle_refl 4) Q) as G.
  fold t in G. assert (Pv : 0 <= t) by (now apply Rmult_le_pos).
  assert (T : bpow radix2 (-1074) = 2 * tiny).
  { unfold tiny. change (-1074)%Z with (1 + -1075)%Z. rewrite bpow_plus. reflexivity. }
  assert (B50 : bpow radix2 (-50) = 8 * eps) by (rewrite eps_val; cbn; lra).
  assert (0 <= t * eps) by (apply Rmult_le_pos; lra).
  rewrite B50, T. apply Rabs_le. lra.
Qed.

Lemma pos_side : forall e ax, box e -> In ax axes -> 0 <= rnd (side ax e).
Proof. intros e ax (_ & _ & P) I. apply rnd_pos. now apply P. Qed.

Lemma side_mono : forall e f ax, inside e f -> In ax axes -> side ax e <= side ax f.
Proof. intros e f ax H I. destruct (H ax I). unfold side. lra. Qed.

Lemma inside_area : forall e f, box e -> box f -> inside e f -> finite (get_area f) ->
  finite (get_area e) /\ d_val (get_area e) <= d_val (get_area f).
Proof.
  intros e f Be Bf I F. destruct (area_val f Bf F) as (Fx & Fy & Vf).
  assert (Ix : In px axes) by (cbn; tauto). assert (Iy : In py axes) by (cbn; tauto).
  pose proof (side_mono e f px I Ix) as Mx. pose proof (side_mono e f py I Iy) as My.
  assert (Sx : 0 <= side px e) by (now apply Be). assert (Sy : 0 <= side py e) by (now apply Be).
  pose proof (pos_side e px Be Ix) as Px. pose proof (pos_side e py Be Iy) as Py.
  assert (Le : rnd (side px e) * rnd (side py e) <= rnd (side px f) * rnd (side py f))
    by (apply Rmult_le_compat; auto; now apply rnd_le).
  assert (Fe : finite (get_area e)).
  { destruct (side_val e px Be Ix) as [A1 V1]. destruct (side_val e py Be Iy) as [A2 V2].
    assert (X1 : d_is_finite (d_sub (px (maxp e)) (px (minp e))) = true)
      by (apply A1; apply fits_le with (side px f); [rewrite !Rabs_pos_eq; lra|exact Fx]).
    assert (X2 : d_is_finite (d_sub (py (maxp e)) (py (minp e))) = true)
      by (apply A2; apply fits_le with (side py f); [rewrite !Rabs_pos_eq; lra|exact Fy]).
    split; [apply d_mul_ok|].
    destruct (d_mul_val _ _ (d_sub_ok (px (maxp e)) (px (minp e))) (d_sub_ok (py (maxp e)) (py (minp e))) X1 X2) as [M1 _].
    apply M1. rewrite (V1 X1), (V2 X2).
    destruct (side_val f px Bf Ix) as [A3 V3]. destruct (side_val f py Bf Iy) as [A4 V4].
    pose proof (proj2 A3 Fx) as X3. pose proof (proj2 A4 Fy) as X4.
    destruct (d_mul_val _ _ (d_sub_ok (px (maxp f)) (px (minp f))) (d_sub_ok (py (maxp f)) (py (minp f))) X3 X4) as [M3 _].
    apply fits_le with (rnd (side px f) * rnd (side py f)).
    - rewrite !Rabs_pos_eq; try (now apply Rmult_le_pos); [exact Le|].
      apply Rmult_le_pos; apply pos_side; auto.
    - rewrite <- (V3 X3), <- (V4 X4). apply M3, F. }
  split; [exact Fe|]. destruct (area_val e Be Fe) as (_ & _ & Ve). rewrite Ve, Vf. now apply rnd_le.
Qed.

(** A box inside another has no larger area and no larger volume. *)
Theorem C112_inside : forall e f, box e -> box f -> inside e f ->
  (finite (get_area f) -> finite (get_area e) /\ d_val (get_area e) <= d_val (get_area f))
  /\ (finite (get_volume f) -> finite (get_volume e) /\ d_val (get_volume e) <= d_val (get_volume f)).
Proof.
  intros e f Be Bf I. split; [now apply inside_area|]. intros F.
  pose proof (volume_val f Bf F) as (Fa & Fz & Vf). destruct (inside_area e f Be Bf I Fa) as [Fe Le].
  assert (Iz : In pz axes) by (cbn; tauto).
  pose proof (side_mono e f pz I Iz) as Mz. assert (Sz : 0 <= side pz e) by (now apply Be).
  pose proof (pos_side e pz Be Iz) as Pz. pose proof (proj1 (area_bounds e Be Fe)) as Pa.
  assert (L : d_val (get_area e) * rnd (side pz e) <= d_val (get_area f) * rnd (side pz f))
    by (apply Rmult_le_compat; auto; now apply rnd_le).
  assert (Fv : finite (get_volume e)).
  { rewrite (volume_area e). split; [apply d_mul_ok|].
    destruct (side_val e pz Be Iz) as [A1 V1].
    assert (X1 : d_is_finite (d_sub (pz (maxp e)) (pz (minp e))) = true)
      by (apply A1; apply fits_le with (side pz f); [rewrite !Rabs_pos_eq; lra|exact Fz]).
    destruct (d_mul_val _ _ (proj1 Fe) (d_sub_ok (pz (maxp e)) (pz (minp e))) (proj2 Fe) X1) as [M1 _].
    apply M1. rewrite (V1 X1).
    destruct (side_val f pz Bf Iz) as [A3 V3]. pose proof (proj2 A3 Fz) as X3.
    destruct (d_mul_val _ _ (proj1 Fa) (d_sub_ok (pz (maxp f)) (pz (minp f))) (proj2 Fa) X3) as [M3 _].
    apply fits_le with (d_val (get_area f) * rnd (side pz f)).
    - rewrite !Rabs_pos_eq; try (now apply Rmult_le_pos); [exact L|].
      apply Rmult_le_pos; [apply (proj1 (area_bounds f Bf Fa))|apply pos_side; auto].
    - rewrite <- (V3 X3). apply M3. rewrite <- (volume_area f). exact (proj2 F). }
  split; [exact Fv|]. destruct (volume_val e Be Fv) as (_ & _ & Ve). rewrite Ve, Vf. now apply rnd_le.
Qed.

(** The extent of a cloud is such a box ... *)
Lemma extent_box : forall ps, Forall pt_finite ps -> ps <> [] -> box (get_extent ps).
Proof.
  intros [|q t] H Hne; [congruence|]. destruct (extent_finite _ H) as [A B]. split; [exact A|]. split; [exact B|].
  intros ax I. destruct (C32_extent_contains (q :: t) q ax H (or_introl eq_refl) I) as [L1 L2].
  destruct (finite_axis _ ax A I). destruct (finite_axis _ ax B I).
  destruct (finite_axis q ax (Forall_inv H) I).
  apply d_leb_val in L1; auto. apply d_leb_val in L2; auto. unfold side. lra.
Qed.

(** ... so leaving out points never increases the area or the volume of a cloud. *)
Theorem C112_cloud : forall ps qs, Forall pt_finite qs -> incl ps qs -> ps <> [] ->
  let e := get_extent ps in let f := get_extent qs in
  (finite (get_area f) -> 0 <= d_val (get_area e) <= d_val (get_area f))
  /\ (finite (get_volume f) -> 0 <= d_val (get_volume e) <= d_val (get_volume f)).
Proof.
  intros ps qs Hq I Hne e f.
  assert (Hp : Forall pt_finite ps) by (rewrite Forall_forall in *; auto).
  assert (Hqne : qs <> []) by (destruct ps as [|p ?]; [congruence|]; intros ->; apply (I p); now left).
  pose proof (extent_box ps Hp Hne) as Be. pose proof (extent_box qs Hq Hqne) as Bf. fold e in Be. fold f in Bf.
  assert (In_ : inside e f).
  { intros ax Ia. destruct (C32_extent_attained ps ax Hp Hne Ia) as [(a & Ha & Ea) (b & Hb & Eb)].
    pose proof Hp as Hp'. rewrite Forall_forall in Hp'.
    destruct (finite_axis _ ax (Hp' a Ha) Ia). destruct (finite_axis _ ax (Hp' b Hb) Ia).
    destruct (finite_axis _ ax (proj1 Be) Ia). destruct (finite_axis _ ax (proj1 (proj2 Be)) Ia).
    destruct (finite_axis _ ax (proj1 Bf) Ia). destruct (finite_axis _ ax (proj1 (proj2 Bf)) Ia).
    destruct (C32_extent_contains qs a ax Hq (I _ Ha) Ia) as [L1 _].
    destruct (C32_extent_contains qs b ax Hq (I _ Hb) Ia) as [_ L2].
    apply d_eqb_val in Ea; auto. apply d_eqb_val in Eb; auto. apply d_leb_val in L1; auto. apply d_leb_val in L2; auto.
    unfold e in *. unfold f in *. lra. }
  destruct (C112_inside e f Be Bf In_) as [A V]. split; intros F.
  - destruct (A F) as [Fe L]. split; [|exact L]. apply (area_bounds e Be Fe).
  - destruct (V F) as [Fe L]. split; [|exact L]. apply (C112_volume e Be Fe).
Qed.

(** A box with a side of length zero has area, or volume, zero. *)
Theorem C112_flat : forall e, box e ->
  ((side px e = 0 \/ side py e = 0) -> finite (get_area e) -> d_val (get_area e) = 0)
  /\ ((side px e = 0 \/ side py e = 0 \/ side pz e = 0) -> finite (get_volume e) -> d_val (get_volume e) = 0).
Proof.
  assert (Z : forall e, box e -> (side px e = 0 \/ side py e = 0) -> finite (get_area e) -> d_val (get_area e) = 0).
  { intros e B H F. destruct (area_val e B F) as (_ & _ & ->).
    destruct H as [-> | ->]; rewrite rnd_0, ?Rmult_0_l, ?Rmult_0_r; apply rnd_0. }
  intros e B. split; [now apply Z|]. intros H F. destruct (volume_val e B F) as (Fa & _ & ->).
  destruct H as [H|[H|H]].
  - rewrite (Z e B (or_introl H) Fa), Rmult_0_l. apply rnd_0.
  - rewrite (Z e B (or_intror H) Fa), Rmult_0_l. apply rnd_0.
  - rewrite H, rnd_0, Rmult_0_r. apply rnd_0.
Qed.

(** Coordinates up to 2^300 in size are small enough for both results to be finite. *)
Theorem C112_finite : forall e, box e ->
  (forall ax, In ax axes -> Rabs (d_val (ax (minp e))) <= bpow radix2 300 /\ Rabs (d_val (ax (maxp e))) <= bpow radix2 300) ->
  finite (get_area e) /\ finite (get_volume e).
Proof.
  intros e B H.
  assert (K : forall ax, In ax axes -> 0 <= side ax e <= bpow radix2 301).
  { intros ax I. split; [now apply B|]. destruct (H ax I) as [H1 H2]. apply Rabs_le_inv in H1. apply Rabs_le_inv in H2.
    unfold side. change 301%Z with (1 + 300)%Z. rewrite bpow_plus. change (bpow radix2 1) with 2. lra. }
  assert (Kr : forall ax, In ax axes -> 0 <= rnd (side ax e) <= bpow radix2 301).
  { intros ax I. split; [now apply pos_side|]. rewrite <- (rnd_bpow 301) by lia. apply rnd_le. now apply K. }
  assert (Fs : forall ax, In ax axes -> fits (side ax e)).
  { intros ax I. apply (fits_bpow _ 301); [|lia]. destruct (K ax I). now rewrite Rabs_pos_eq. }
  assert (Ix : In px axes) by (cbn; tauto). assert (Iy : In py axes) by (cbn; tauto). assert (Iz : In pz axes) by (cbn; tauto).
  destruct (side_val e px B Ix) as [A1 V1]. destruct (side_val e py B Iy) as [A2 V2]. destruct (side_val e pz B Iz) as [A3 V3].
  pose proof (proj2 A1 (Fs _ Ix)) as X1. pose proof (proj2 A2 (Fs _ Iy)) as X2. pose proof (proj2 A3 (Fs _ Iz)) as X3.
  destruct (Kr _ Ix) as [Lx Ux]. destruct (Kr _ Iy) as [Ly Uy]. destruct (Kr _ Iz) as [Lz Uz].
  assert (P2 : 0 <= rnd (side px e) * rnd (side py e) <= bpow radix2 602).
  { split; [now apply Rmult_le_pos|]. change 602%Z with (301 + 301)%Z. rewrite bpow_plus. now apply Rmult_le_compat. }
  assert (Fa : finite (get_area e)).
  { split; [apply d_mul_ok|].
    destruct (d_mul_val _ _ (d_sub_ok (px (maxp e)) (px (minp e))) (d_sub_ok (py (maxp e)) (py (minp e))) X1 X2) as [M1 _].
    apply M1. rewrite (V1 X1), (V2 X2). apply (fits_bpow _ 602); [|lia]. destruct P2. now rewrite Rabs_pos_eq. }
  split; [exact Fa|]. rewrite (volume_area e). split; [apply d_mul_ok|].
  destruct (d_mul_val _ _ (proj1 Fa) (d_sub_ok (pz (maxp e)) (pz (minp e))) (proj2 Fa) X3) as [M1 _].
  apply M1. rewrite (V3 X3). destruct (area_val e B Fa) as (_ & _ & ->).
  assert (R0 : 0 <= rnd (rnd (side px e) * rnd (side py e)) <= bpow radix2 602).
  { split; [now apply rnd_pos|]. rewrite <- (rnd_bpow 602) by lia. now apply rnd_le. }
  apply (fits_bpow _ 903); [|lia]. rewrite Rabs_pos_eq by (apply Rmult_le_pos; lra).
  change 903%Z with (602 + 301)%Z. rewrite bpow_plus. apply Rmult_le_compat; lra.
Qed.

(** A cloud with no points has the inverted extent: its area is +infinity and its
    volume is -infinity, not zero. *)
Theorem C112_empty : get_area (get_extent []) = d_inf /\ get_volume (get_extent []) = d_ninf.
Proof. split; vm_compute; reflexivity. Qed.

(** The unit cube; three points whose box is 1 by 2 by 3. *)
Example C112_example :
  box (mk_ext (mk_pt 0 0 0) (mk_pt d_one d_one d_one)) /\ get_volume (mk_ext (mk_pt 0 0 0) (mk_pt d_one d_one d_one)) = d_one
  /\ (let e := get_extent [mk_pt d_one 0 (d_add d_one (d_add d_one d_one)); mk_pt 0 (d_add d_one d_one) 0; mk_pt d_one d_one d_one] in
      get_area e = d_add d_one d_one /\ get_volume e = d_mul (d_add d_one d_one) (d_add d_one (d_add d_one d_one))).
Proof.
  assert (F0 : pt_finite (mk_pt 0 0 0)) by (repeat split; vm_compute; congruence).
  assert (F1 : pt_finite (mk_pt d_one d_one d_one)) by (repeat split; vm_compute; congruence).
  split; [|split; [vm_compute; reflexivity|split; vm_compute; reflexivity]].
  split; [exact F0|]. split; [exact F1|]. intros ax I. unfold side. cbn [minp maxp].
  destruct (finite_axis _ ax F0 I). destruct (finite_axis _ ax F1 I).
  apply Rle_0_minus, d_leb_val; auto. destruct I as [<-|[<-|[<-|[]]]]; reflexivity.
Qed.

Print Assumptions C112_area.
Print Assumptions C112_volume.
Print Assumptions C112_inside.
Print Assumptions C112_cloud.
Print Assumptions C112_flat.
Print Assumptions C112_finite.
Print Assumptions C112_empty.
