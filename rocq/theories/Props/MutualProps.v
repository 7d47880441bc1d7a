(** C110: being neighbours is mutual; the overloads of [radius_search]; the
    numbers [std::minstd_rand] gives. *)
From Coq Require Import String Reals ZArith List Bool Permutation Lia Lra.
From Flocq Require Import Core IEEE754.BinarySingleNaN IEEE754.Binary IEEE754.Bits.
From Verif.Model Require Import Base Double Arith PointRecord Point Extent Voxel Subsampling RadiusSearch.
From Verif.Spec Require Import Rounding Sampling Geometry Distance.
From Verif.Proofs Require Import BaseFacts OrderFacts DoubleFacts ArithFacts VoxelFacts ErrorFacts SubsampleFacts RadiusFacts.
From Verif.Props Require Import GeometryProps VoxelProps SearchProps RadiusProps.
Import ListNotations.
Open Scope Z_scope.

(** ** The distance is symmetric *)

Lemma b_square_sign : forall m (x y : binary64), Binary.is_finite 53 1024 x = true -> Binary.is_finite 53 1024 y = true ->
  Binary.B2R 53 1024 x = (- Binary.B2R 53 1024 y)%R -> b64_mult m x x = b64_mult m y y.
Proof.
  intros m x y Fx Fy E.
  pose proof (Binary.Bmult_correct 53 1024 eq_refl eq_refl binop_nan_pl64 m x x) as Hx.
  pose proof (Binary.Bmult_correct 53 1024 eq_refl eq_refl binop_nan_pl64 m y y) as Hy.
  fold (b64_mult m x x) in Hx. fold (b64_mult m y y) in Hy.
  assert (S : (Binary.B2R 53 1024 x * Binary.B2R 53 1024 x = Binary.B2R 53 1024 y * Binary.B2R 53 1024 y)%R) by (rewrite E; ring).
  rewrite S in Hx. rewrite !xorb_nilpotent in Hx, Hy. rewrite Fx in Hx. rewrite Fy in Hy.
  match type of Hx with context [if ?c then _ else _] => destruct c end.
  - destruct Hx as (X1 & X2 & X3), Hy as (Y1 & Y2 & Y3). cbn in X2, Y2.
    apply Binary.B2R_Bsign_inj; [exact X2|exact Y2|congruence|].
    rewrite X3, Y3; [reflexivity| |];
      match goal with |- Binary.is_nan _ _ ?t = false => destruct t; (reflexivity || discriminate) end.
  - apply Binary.B2FF_inj. congruence.
Qed.

Lemma b_infinite : forall s (x : binary64), Binary.B2FF 53 1024 x = F754_infinity s -> x = Binary.B754_infinity 53 1024 s.
Proof. intros s x H. destruct x; try discriminate H. cbn in H. congruence. Qed.

Lemma sub_square : forall a b, finite a -> finite b ->
  d_mul (d_sub a b) (d_sub a b) = d_mul (d_sub b a) (d_sub b a).
Proof.
  intros a b [Oa Fa] [Ob Fb]. rewrite d_is_finite_B in Fa by exact Oa. rewrite d_is_finite_B in Fb by exact Ob.
  unfold d_mul, d_sub. rewrite !b64_bits. f_equal.
  set (x := b64_of_bits a) in *. set (y := b64_of_bits b) in *.
  pose proof (Binary.Bminus_correct 53 1024 eq_refl eq_refl binop_nan_pl64 mode_NE x y Fa Fb) as Hx.
  pose proof (Binary.Bminus_correct 53 1024 eq_refl eq_refl binop_nan_pl64 mode_NE y x Fb Fa) as Hy.
  fold (b64_minus mode_NE x y) in Hx. fold (b64_minus mode_NE y x) in Hy. cbn [round_mode] in Hx, Hy.
  replace (Binary.B2R 53 1024 y - Binary.B2R 53 1024 x)%R with (- (Binary.B2R 53 1024 x - Binary.B2R 53 1024 y))%R in Hy by ring.
  rewrite round_NE_opp, Rabs_Ropp in Hy.
  destruct (Rlt_bool (Rabs (round radix2 (SpecFloat.fexp 53 1024) ZnearestE (Binary.B2R 53 1024 x - Binary.B2R 53 1024 y))) (bpow radix2 1024)).
  - destruct Hx as (X1 & X2 & _), Hy as (Y1 & Y2 & _). apply b_square_sign; [exact X2|exact Y2|].
    rewrite X1, Y1. ring.
  - destruct Hx as (X1 & _), Hy as (Y1 & _). cbn in X1, Y1.
    apply b_infinite in X1, Y1. rewrite X1, Y1.
    destruct (Binary.Bsign 53 1024 x), (Binary.Bsign 53 1024 y); reflexivity.
Qed.

Lemma pt_axes : forall p, pt_finite p -> finite (px p) /\ finite (py p) /\ finite (pz p).
Proof. intros p ((O1 & O2 & O3) & F1 & F2 & F3). unfold finite. auto. Qed.

Theorem C110_distance : forall p q, pt_finite p -> pt_finite q -> distance p q = distance q p.
Proof.
  intros p q P Q. destruct (pt_axes p P) as (P1 & P2 & P3). destruct (pt_axes q Q) as (Q1 & Q2 & Q3). unfold distance.
  rewrite (sub_square (px p) (px q)), (sub_square (py p) (py q)), (sub_square (pz p) (pz q)) by assumption. reflexivity.
Qed.

Lemma sub_self : forall a, finite a -> d_mul (d_sub a a) (d_sub a a) = 0.
Proof.
  intros a [Oa Fa]. rewrite d_is_finite_B in Fa by exact Oa. unfold d_mul, d_sub. rewrite !b64_bits.
  set (x := b64_of_bits a) in *.
  pose proof (Binary.Bminus_correct 53 1024 eq_refl eq_refl binop_nan_pl64 mode_NE x x Fa Fa) as H.
  fold (b64_minus mode_NE x x) in H. cbn [round_mode] in H.
  rewrite Rminus_eq_0, round_0, Rabs_R0, Rlt_bool_true in H by (auto with typeclass_instances; apply bpow_gt_0).
  destruct H as (H1 & H2 & _). destruct (b64_minus mode_NE x x) as [s|s|s pl e|s m e Hb]; try discriminate H2.
  - destruct s; vm_compute; reflexivity.
  - exfalso. cbn in H1. now apply F2R_cond_neq in H1.
Qed.

(** The distance of a point to itself is +0. *)
Theorem C110_zero : forall p, pt_finite p -> distance p p = 0.
Proof.
  intros p P. destruct (pt_axes p P) as (P1 & P2 & P3). unfold distance. rewrite !sub_self by assumption.
  vm_compute. reflexivity.
Qed.

(** ** Mutual neighbours *)

Lemma all_vox_int : forall points is radius vs, Forall modest_pt points -> finite radius ->
  (0 < d_val radius)%R -> spans points radius -> get_voxel_indexes_of points is radius = Ret vs -> Forall vox_int vs.
Proof.
  intros points is radius vs Hf Fr Pr Sp E. apply Forall_forall. intros v Iv.
  apply In_nth_error in Iv as [n Hn]. destruct (voxels_of_ret _ _ _ _ E) as [_ V].
  destruct (V (Z.of_nat n) v) as (k & x & _ & Hx & G).
  - rewrite znth_nth_error, Nat2Z.id by lia. exact Hn.
  - destruct (voxel_exists points x radius Hf (znth_In _ _ _ Hx) Fr Pr Sp) as (v' & G' & Iv'). congruence.
Qed.

Lemma near_sym : forall v w, near v w -> near w v.
Proof. unfold near. intros. lia. Qed.

Lemma within_sym : forall points pis nis radius i j, Forall modest_pt points ->
  within points pis nis radius i j -> within points nis pis radius j i.
Proof.
  intros points pis nis radius i j Hf (a & b & p & q & Ha & Hp & Hb & Hq & D).
  rewrite Forall_forall in Hf. exists b, a, q, p. repeat split; auto.
  rewrite C110_distance; [exact D| |]; apply modest_finite, Hf; eapply znth_In; eassumption.
Qed.

(** Two searches over the same points, the second with the two index lists
    exchanged: unless a list was cut off, [j] is reported for [i] exactly when
    [i] is reported for [j], whatever the random numbers. *)
Theorem C110_mutual : forall rand rand' points pis nis radius max max' calls calls' i j ns ms,
  rand_ok rand -> rand_ok rand' ->
  Forall modest_pt points -> finite radius -> (0 < d_val radius)%R -> spans points radius ->
  radius_search rand points pis nis radius max = Ret calls ->
  radius_search rand' points nis pis radius max' = Ret calls' ->
  In (i, ns) calls -> In (j, ms) calls' -> zlen ns < max -> zlen ms < max' ->
  (In j ns <-> In i ms).
Proof.
  intros rand rand' points pis nis radius max max' calls calls' i j ns ms R R' Hf Fr Pr Sp H H' I J Ln Lm.
  destruct (radius_search_calls _ _ _ _ _ _ _ H) as (pvi & nvi & Ep & En & _ & _).
  pose proof (all_vox_int _ _ _ _ Hf Fr Pr Sp Ep) as Vp. pose proof (all_vox_int _ _ _ _ Hf Fr Pr Sp En) as Vn.
  rewrite (C46_touching_voxels rand points pis nis radius max calls pvi nvi R H Ep En Vp Vn i ns I Ln j).
  rewrite (C46_touching_voxels rand' points nis pis radius max' calls' nvi pvi R' H' En Ep Vn Vp j ms J Lm i).
  split; intros [W (v & w & Hv & Hw & N)]; (split; [now apply within_sym|]);
    exists w, v; split; [exact Hw| |exact Hw|]; (split; [exact Hv|now apply near_sym]).
Qed.

(** An entry of the neighbour list that stands for the same location is
    reported. *)
Theorem C110_self : forall rand points pis nis radius max calls i ns j a b p, rand_ok rand ->
  Forall modest_pt points -> finite radius -> (0 < d_val radius)%R -> spans points radius ->
  radius_search rand points pis nis radius max = Ret calls ->
  In (i, ns) calls -> zlen ns < max ->
  znth pis i = Some a -> znth points a = Some p -> znth nis j = Some b -> znth points b = Some p ->
  In j ns.
Proof.
  intros rand points pis nis radius max calls i ns j a b p R Hf Fr Pr Sp H I Ln Ha Hp Hb Hq.
  destruct (radius_search_calls _ _ _ _ _ _ _ H) as (pvi & nvi & Ep & En & _ & _).
  pose proof (all_vox_int _ _ _ _ Hf Fr Pr Sp Ep) as Vp. pose proof (all_vox_int _ _ _ _ Hf Fr Pr Sp En) as Vn.
  rewrite (C46_touching_voxels rand points pis nis radius max calls pvi nvi R H Ep En Vp Vn i ns I Ln j).
  assert (Fp : pt_finite p) by (apply modest_finite; rewrite Forall_forall in Hf; apply Hf; eapply znth_In; exact Hp).
  split.
  - exists a, b, p, p. repeat split; auto. rewrite C110_zero by exact Fp.
    destruct Fr as [Or Fr]. apply d_leb_val; [unfold d_ok, two64; lia|exact Or|reflexivity|exact Fr|].
    rewrite d_val_zero. lra.
  - destruct (voxels_of_ret _ _ _ _ Ep) as [Lp Vp']. destruct (voxels_of_ret _ _ _ _ En) as [Ln' Vn'].
    destruct (znth_in_range pvi i) as [v Hv]; [rewrite Lp; eapply znth_Some_range; exact Ha|].
    destruct (znth_in_range nvi j) as [w Hw]; [rewrite Ln'; eapply znth_Some_range; exact Hb|].
    exists v, w. split; [exact Hv|]. split; [exact Hw|].
    destruct (Vp' _ _ Hv) as (a' & p' & Ha' & Hp' & Gv). destruct (Vn' _ _ Hw) as (b' & q' & Hb' & Hq' & Gw).
    assert (v = w) by congruence. subst w. unfold near. lia.
Qed.

(** ** The overloads *)

Lemma iota_znth : forall n i, 0 <= i < Z.of_nat n -> znth (iota n) i = Some i.
Proof. intros n i H. now rewrite iota_nth. Qed.

Lemma calls_range : forall rand points pis nis radius max calls i ns,
  radius_search rand points pis nis radius max = Ret calls -> In (i, ns) calls -> 0 <= i < zlen pis.
Proof.
  intros rand points pis nis radius max calls i ns H I.
  destruct (radius_search_calls _ _ _ _ _ _ _ H) as (pvi & nvi & Ep & _ & _ & C).
  destruct (C _ _ I) as [B _]. now rewrite (proj1 (voxels_of_ret _ _ _ _ Ep)) in B.
Qed.

(** One list of indexes for both: one call for each, and the numbers passed are
    positions in that list; for the lists that were not cut off, being reported
    is mutual, each position is among its own neighbours, and what is closer
    than the radius (by a relative margin of 2^-19) is there. *)
Theorem C110_indexes : forall rand points indexes radius max calls, rand_ok rand -> 0 <= max ->
  Forall modest_pt points -> finite radius -> (bpow radix2 (-500) <= d_val radius)%R -> spans points radius ->
  radius_search_indexes rand points indexes radius max = Ret calls ->
  map fst calls = map Z.of_nat (seq 0 (length indexes))
  /\ (forall i ns, In (i, ns) calls -> NoDup ns /\ zlen ns <= max
       /\ forall j, In j ns -> exists a b p q, znth indexes i = Some a /\ znth points a = Some p
            /\ znth indexes j = Some b /\ znth points b = Some q /\ d_leb (distance p q) radius = true)
  /\ (forall i ns j a b p q, In (i, ns) calls -> zlen ns < max ->
       znth indexes i = Some a -> znth points a = Some p -> znth indexes j = Some b -> znth points b = Some q ->
       (dist2 p q <= sq ((1 - / 524288) * d_val radius))%R -> In j ns)
  /\ (forall i j ns ms, In (i, ns) calls -> In (j, ms) calls -> zlen ns < max -> zlen ms < max ->
       In i ns /\ (In j ns <-> In i ms)).
Proof.
  intros rand points indexes radius max calls R Pm Hf Fr Br Sp H. unfold radius_search_indexes in H.
  pose proof (bpow_gt_0 radix2 (-500)) as P500. assert (Pr : (0 < d_val radius)%R) by lra.
  destruct (C45_sound _ _ _ _ _ _ _ R Pm H) as [F S]. split; [exact F|]. split; [|split].
  - intros i ns I. destruct (S _ _ I) as (S1 & S2 & S3). split; [exact S1|]. split; [exact S2|].
    intros j J. apply (S3 j J).
  - intros i ns j a b p q I L Ha Hp Hb Hq D.
    exact (C46_complete rand points indexes indexes radius max calls i ns j a b p q R H Hf Fr Br Sp I L Ha Hp Hb Hq D).
  - intros i j ns ms I J Ln Lm. split.
    + destruct (radius_search_calls _ _ _ _ _ _ _ H) as (pvi & nvi & Ep & _ & _ & C).
      destruct (C _ _ I) as [B _]. destruct (znth_in_range _ _ B) as [v Hv].
      destruct (proj2 (voxels_of_ret _ _ _ _ Ep) _ _ Hv) as (a & p & Ha & Hp & _).
      eapply C110_self; eassumption.
    + exact (C110_mutual rand rand points indexes indexes radius max max calls calls i j ns ms R R Hf Fr Pr Sp H H I J Ln Lm).
Qed.

(** Neighbours among all points: the numbers passed are the numbers of the
    points themselves. *)
Theorem C110_all_neighbors : forall rand points indexes radius max calls, rand_ok rand -> 0 <= max ->
  Forall modest_pt points -> finite radius -> (bpow radix2 (-500) <= d_val radius)%R -> spans points radius ->
  radius_search_all_neighbors rand points indexes radius max = Ret calls ->
  map fst calls = map Z.of_nat (seq 0 (length indexes))
  /\ (forall i ns, In (i, ns) calls -> NoDup ns /\ zlen ns <= max
       /\ forall j, In j ns -> exists a p q, znth indexes i = Some a /\ znth points a = Some p
            /\ znth points j = Some q /\ d_leb (distance p q) radius = true)
  /\ (forall i ns a p, In (i, ns) calls -> zlen ns < max -> znth indexes i = Some a -> znth points a = Some p ->
       In a ns
       /\ forall j q, znth points j = Some q -> (dist2 p q <= sq ((1 - / 524288) * d_val radius))%R -> In j ns).
Proof.
  intros rand points indexes radius max calls R Pm Hf Fr Br Sp H. unfold radius_search_all_neighbors in H.
  pose proof (bpow_gt_0 radix2 (-500)) as P500. assert (Pr : (0 < d_val radius)%R) by lra.
  destruct (C45_sound _ _ _ _ _ _ _ R Pm H) as [F S]. split; [exact F|]. split.
  - intros i ns I. destruct (S _ _ I) as (S1 & S2 & S3). split; [exact S1|]. split; [exact S2|].
    intros j J. destruct (S3 j J) as (B & a & b & p & q & Ha & Hp & Hb & Hq & D).
    unfold zlen in B. rewrite iota_length in B. rewrite iota_nth in Hb by lia. injection Hb as <-. exists a, p, q. auto.
  - intros i ns a p I L Ha Hp. split.
    + pose proof (znth_Some_range _ _ _ Hp) as B. unfold zlen in B.
      eapply C110_self with (b := a); try eassumption. now apply iota_znth.
    + intros j q Hq D. pose proof (znth_Some_range _ _ _ Hq) as B. unfold zlen in B.
      eapply C46_complete with (b := j); try eassumption. now apply iota_znth.
Qed.

(** All points against all points, as lists (capacity 32): for the lists that
    hold fewer than 32, every point is its own neighbour and being neighbours
    is mutual. *)
Theorem C110_lists : forall rand points radius lists, rand_ok rand ->
  Forall modest_pt points -> finite radius -> (0 < d_val radius)%R -> spans points radius ->
  radius_search_get_neighbors rand points radius = Ret lists ->
  forall i j ns ms, znth lists i = Some ns -> znth lists j = Some ms -> zlen ns < 32 -> zlen ms < 32 ->
  In i ns /\ (In j ns <-> In i ms).
Proof.
  intros rand points radius lists R Hf Fr Pr Sp H i j ns ms Hi Hj Ln Lm.
  unfold radius_search_get_neighbors in H. apply bind_Ret_inv in H as (calls & H & E). injection E as <-.
  unfold radius_search_all in H. assert (P32 : 0 <= 32) by lia.
  destruct (C45_sound _ _ _ _ _ _ _ R P32 H) as [F _].
  assert (K : forall k l, znth (map snd calls) k = Some l -> In (k, l) calls /\ 0 <= k < Z.of_nat (length points)).
  { intros k l Hk. rewrite znth_map in Hk. destruct (znth calls k) as [[k' l']|] eqn:C; [|discriminate].
    injection Hk as Hk. cbn in Hk. subst l'.
    assert (X : znth (map fst calls) k = Some k') by (rewrite znth_map, C; reflexivity).
    rewrite F, iota_length in X. pose proof (znth_Some_range _ _ _ X) as B.
    unfold zlen in B. rewrite map_length, seq_length in B.
    fold (iota (length points)) in X. rewrite iota_nth in X by lia. injection X as <-.
    split; [eapply znth_In; exact C|lia]. }
  destruct (K i ns Hi) as [I Bi]. destruct (K j ms Hj) as [J _]. split.
  - destruct (znth_in_range points i ltac:(unfold zlen; lia)) as [p Hp].
    eapply C110_self with (a := i) (b := i); try eassumption; now apply iota_znth.
  - eapply C110_mutual with (rand := rand) (rand' := rand); try exact H; eauto.
Qed.

(** A full list need not be mutual: two points at one place and a capacity of
    one.  Both are told of the same neighbour. *)
Theorem C110_cut_off :
  radius_search_all minstd_rand [mk_pt 0 0 0; mk_pt 0 0 0] r_05 1 = Ret [(0, [1]); (1, [1])].
Proof. vm_compute. reflexivity. Qed.

(** ** The random numbers *)

(** [std::minstd_rand]: the [n]-th number (from 0) is the seed times 48271^(n+1)
    modulo 2^31 - 1, and is never 0; a seed divisible by 2^31 - 1 counts as 1. *)
Theorem C110_random : forall seed n,
  let s := if seed mod (2 ^ 31 - 1) =? 0 then 1 else seed in
  minstd_rand seed n = (48271 ^ (Z.of_nat n + 1) * s) mod (2 ^ 31 - 1)
  /\ 1 <= minstd_rand seed n <= 2 ^ 31 - 2.
Proof.
  intros seed n s. change (2 ^ 31 - 1) with 2147483647 in *. change (2 ^ 31 - 2) with 2147483646.
  assert (E : forall k, minstd_state seed k = (48271 ^ Z.of_nat k * s) mod 2147483647).
  { induction k as [|k IH].
    - cbn [minstd_state]. unfold minstd_seed, s. change (Z.of_nat 0) with 0. rewrite Z.pow_0_r, Z.mul_1_l.
      destruct (seed mod 2147483647 =? 0); reflexivity.
    - cbn [minstd_state]. rewrite IH, Zmult_mod_idemp_l, Nat2Z.inj_succ, Z.pow_succ_r by lia. f_equal. ring. }
  assert (P : forall k, minstd_state seed k <> 0).
  { induction k as [|k IH].
    - cbn [minstd_state]. unfold minstd_seed. destruct (seed mod 2147483647 =? 0) eqn:C; [lia|now apply Z.eqb_neq].
    - cbn [minstd_state]. intros Z0. apply IH.
      assert (B : 0 <= minstd_state seed k < 2147483647) by (rewrite E; apply Z.mod_pos_bound; lia).
      assert (X : (minstd_state seed k * 48271 * 1899818559) mod 2147483647 = 0) by (rewrite <- Zmult_mod_idemp_l, Z0; reflexivity).
      rewrite <- Z.mul_assoc, <- Zmult_mod_idemp_r in X.
      change ((48271 * 1899818559) mod 2147483647) with 1 in X. rewrite Z.mul_1_r, Z.mod_small in X by exact B. exact X. }
  split.
  - unfold minstd_rand. rewrite E. do 2 f_equal. f_equal. lia.
  - specialize (P (S n)). unfold minstd_rand. rewrite E in *.
    pose proof (Z.mod_pos_bound (48271 ^ Z.of_nat (S n) * s) 2147483647). lia.
Qed.

(** The standard requires the 10000th number with the default seed 1 to be
    399268537. *)
Example C110_random_example : minstd_rand 1 (Z.to_nat 9999) = 399268537 /\ minstd_rand 0 0%nat = 48271.
Proof. split; vm_compute; reflexivity. Qed.

(** The hypotheses hold of the cloud 0, 0.25, 1 with radius 0.5 (see
    [C46_complete_example]), and the lists are as computed. *)
Example C110_example :
  radius_search_get_neighbors minstd_rand line3 r_05 = Ret [[1; 0]; [1; 0]; [2]]
  /\ radius_search_indexes minstd_rand line3 [2; 1; 0] r_05 5 = Ret [(0, [0]); (1, [2; 1]); (2, [2; 1])]
  /\ radius_search_all_neighbors minstd_rand line3 [2; 1] r_05 5 = Ret [(0, [2]); (1, [1; 0])]
  /\ Forall modest_pt line3 /\ finite r_05 /\ (bpow radix2 (-500) <= d_val r_05)%R /\ spans line3 r_05.
Proof.
  split; [vm_compute; reflexivity|]. split; [vm_compute; reflexivity|]. split; [vm_compute; reflexivity|].
  destruct C46_complete_example as (A & B & C & D & _). auto.
Qed.

Print Assumptions C110_distance.
Print Assumptions C110_zero.
Print Assumptions C110_mutual.
Print Assumptions C110_self.
Print Assumptions C110_indexes.
Print Assumptions C110_all_neighbors.
Print Assumptions C110_lists.
Print Assumptions C110_cut_off.
Print Assumptions C110_random.
