(** C26, C27, C32-C36: equality, hashing, order, extents, serialisation, crop.

    [d_eqb], [d_ltb], [d_leb], [d_gtb] are the C++ comparison operators on
    doubles; the first theorem ties them to the order of the real numbers. *)
From Coq Require Import Reals ZArith List Bool Permutation Lia.
From Verif.Model Require Import Base Double Arith PointRecord Point Extent Voxel Utils.
From Verif.Spec Require Import Geometry.
From Verif.Proofs Require Import BaseFacts OrderFacts DoubleFacts PointRecordFacts.
Import ListNotations.
Open Scope Z_scope.

(** On finite doubles the comparison operators are those of the reals. *)
Theorem C27_comparisons : forall a b, d_ok a -> d_ok b -> d_is_finite a = true -> d_is_finite b = true ->
  (d_eqb a b = true <-> d_val a = d_val b)
  /\ (d_ltb a b = true <-> (d_val a < d_val b)%R)
  /\ (d_leb a b = true <-> (d_val a <= d_val b)%R)
  /\ (d_gtb a b = true <-> (d_val a > d_val b)%R).
Proof.
  intros a b Ha Hb Fa Fb. split; [now apply d_eqb_val|]. split; [now apply d_ltb_val|].
  split; [now apply d_leb_val|]. now apply d_ltb_val.
Qed.

(** ** C26: equality and hashing *)

Lemma pt_eqb_iff : forall a b, pt_eqb a b = true <->
  d_eqb (px a) (px b) = true /\ d_eqb (py a) (py b) = true /\ d_eqb (pz a) (pz b) = true.
Proof.
  intros a b. unfold pt_eqb, d_neb.
  destruct (d_eqb (px a) (px b)), (d_eqb (py a) (py b)), (d_eqb (pz a) (pz b)); cbn; intuition congruence.
Qed.

Lemma vec_eqb_Z : forall a b, vec_eqb Z.eqb a b = true <-> a = b.
Proof.
  induction a as [|x a IH]; intros [|y b]; cbn; split; intros H; try discriminate; try reflexivity.
  - apply andb_true_iff in H. destruct H as [H1 H2]. apply Z.eqb_eq in H1. apply IH in H2. congruence.
  - injection H as -> ->. rewrite Z.eqb_refl. now apply IH.
Qed.

Lemma pr_eqb_iff : forall a b, pr_eqb a b = true <->
  (d_eqb (rx a) (rx b) = true /\ d_eqb (ry a) (ry b) = true /\ d_eqb (rz a) (rz b) = true)
  /\ rc a = rc b /\ rp a = rp b /\ ri a = ri b /\ rr a = rr b /\ rg a = rg b /\ rb a = rb b
  /\ rextra a = rextra b.
Proof.
  intros a b. unfold pr_eqb. rewrite !andb_true_iff, !Z.eqb_eq, vec_eqb_Z.
  rewrite (d_eqb_sym (rx b)), (d_eqb_sym (ry b)), (d_eqb_sym (rz b)). intuition congruence.
Qed.

Lemma vox_eqb_iff : forall a b, vox_eqb a b = true <-> a = b.
Proof.
  intros [a1 a2 a3] [b1 b2 b3]. unfold vox_eqb. cbn. rewrite !andb_true_iff, !Z.eqb_eq.
  split; [intros [[-> ->] ->]; reflexivity|]. now intros [= -> -> ->].
Qed.

(** A hash of doubles that respects [==] (in particular +0.0 and -0.0). *)
Definition respects_equality (H : hashes) : Prop :=
  forall a b, d_eqb a b = true -> hash_double H a = hash_double H b.

Theorem C26_point_hash : forall H a b, respects_equality H -> pt_eqb a b = true ->
  point_hash H a = point_hash H b.
Proof.
  intros H a b R E. apply pt_eqb_iff in E. destruct E as (E1 & E2 & E3).
  unfold point_hash. now rewrite (R _ _ E1), (R _ _ E2), (R _ _ E3).
Qed.

Theorem C26_record_hash : forall H a b, respects_equality H -> pr_eqb a b = true ->
  point_record_hash H a = point_record_hash H b.
Proof.
  intros H a b R E. apply pr_eqb_iff in E.
  destruct E as ((E1 & E2 & E3) & E4 & E5 & E6 & E7 & E8 & E9 & E10).
  unfold point_record_hash. now rewrite (R _ _ E1), (R _ _ E2), (R _ _ E3), E4, E5, E6, E7, E8, E9, E10.
Qed.

Theorem C26_voxel_hash : forall a b, vox_eqb a b = true -> voxel_index_hash a = voxel_index_hash b.
Proof. intros a b E. apply vox_eqb_iff in E. now rewrite E. Qed.

(** A hash that respects equality: the position of a double in the order. *)
Definition some_hashes : hashes := mk_hashes d_key (fun v => v) (fun v => v) (fun v => v).

Example C26_example : respects_equality some_hashes
  /\ pt_eqb (mk_pt d_zero d_one 0) (mk_pt d_nzero d_one 0) = true
  /\ point_hash some_hashes (mk_pt d_zero d_one 0) = point_hash some_hashes (mk_pt d_nzero d_one 0)
  /\ point_hash some_hashes (mk_pt d_zero d_one 0) <> point_hash some_hashes (mk_pt d_one d_zero 0).
Proof.
  split; [|split; [reflexivity|split; [reflexivity|vm_compute; discriminate]]].
  intros a b E. destruct (d_eqb_not_nan _ _ E). now apply d_eqb_key in E.
Qed.

Theorem C26_equality : forall a b c : point_record,
  pr_eqb a b = pr_eqb b a
  /\ (pr_eqb a b = true -> pr_eqb b c = true -> pr_eqb a c = true)
  /\ (pr_eqb a a = true <-> d_is_nan (rx a) = false /\ d_is_nan (ry a) = false /\ d_is_nan (rz a) = false).
Proof.
  intros a b c. split; [|split].
  - apply eq_true_iff_eq. rewrite !pr_eqb_iff.
    rewrite (d_eqb_sym (rx b)), (d_eqb_sym (ry b)), (d_eqb_sym (rz b)). intuition congruence.
  - rewrite !pr_eqb_iff. intros ((A1 & A2 & A3) & A) ((B1 & B2 & B3) & B).
    split; [|intuition congruence]. repeat split; eapply d_eqb_trans; eassumption.
  - rewrite pr_eqb_iff, !d_eqb_refl. intuition congruence.
Qed.

Theorem C26_point_equality : forall a b c : point,
  pt_eqb a b = pt_eqb b a
  /\ (pt_eqb a b = true -> pt_eqb b c = true -> pt_eqb a c = true)
  /\ (pt_eqb a a = true <-> pt_no_nan a)
  /\ pt_neb a b = negb (pt_eqb a b).
Proof.
  intros a b c. split; [|split; [|split]].
  - apply eq_true_iff_eq. rewrite !pt_eqb_iff.
    rewrite (d_eqb_sym (px b)), (d_eqb_sym (py b)), (d_eqb_sym (pz b)). tauto.
  - rewrite !pt_eqb_iff. intros (A1 & A2 & A3) (B1 & B2 & B3). repeat split; eapply d_eqb_trans; eassumption.
  - rewrite pt_eqb_iff, !d_eqb_refl. reflexivity.
  - reflexivity.
Qed.

(** ** C27: the order on points *)

Definition key3 (p : point) : Z * Z * Z := (d_key (px p), d_key (py p), d_key (pz p)).

Lemma pt_ltb_key : forall a b, pt_no_nan a -> pt_no_nan b -> pt_ltb a b = true <->
  d_key (px a) < d_key (px b)
  \/ (d_key (px a) = d_key (px b) /\ (d_key (py a) < d_key (py b)
      \/ (d_key (py a) = d_key (py b) /\ d_key (pz a) < d_key (pz b)))).
Proof.
  intros a b (A1 & A2 & A3) (B1 & B2 & B3). unfold pt_ltb, d_gtb.
  pose proof (d_ltb_key _ _ A1 B1) as K1. pose proof (d_ltb_key _ _ B1 A1) as K2.
  pose proof (d_ltb_key _ _ A2 B2) as K3. pose proof (d_ltb_key _ _ B2 A2) as K4.
  pose proof (d_ltb_key _ _ A3 B3) as K5.
  destruct (d_ltb (px a) (px b)); [assert (d_key (px a) < d_key (px b)) by (now apply K1); split; auto|].
  assert (N1 : ~ d_key (px a) < d_key (px b)) by (intros X; apply K1 in X; discriminate).
  destruct (d_ltb (px b) (px a)).
  { assert (d_key (px b) < d_key (px a)) by (now apply K2). split; [discriminate|lia]. }
  assert (N2 : ~ d_key (px b) < d_key (px a)) by (intros X; apply K2 in X; discriminate).
  destruct (d_ltb (py a) (py b)); [assert (d_key (py a) < d_key (py b)) by (now apply K3); split; auto; intros; right; split; lia|].
  assert (N3 : ~ d_key (py a) < d_key (py b)) by (intros X; apply K3 in X; discriminate).
  destruct (d_ltb (py b) (py a)).
  { assert (d_key (py b) < d_key (py a)) by (now apply K4). split; [discriminate|lia]. }
  assert (N4 : ~ d_key (py b) < d_key (py a)) by (intros X; apply K4 in X; discriminate).
  destruct (d_ltb (pz a) (pz b)).
  - assert (d_key (pz a) < d_key (pz b)) by (now apply K5). split; auto. intros _. lia.
  - assert (~ d_key (pz a) < d_key (pz b)) by (intros X; apply K5 in X; discriminate).
    split; [destruct (d_ltb _ _); discriminate|lia].
Qed.

Lemma pt_eqb_key : forall a b, pt_no_nan a -> pt_no_nan b -> pt_eqb a b = true <->
  d_key (px a) = d_key (px b) /\ d_key (py a) = d_key (py b) /\ d_key (pz a) = d_key (pz b).
Proof.
  intros a b (A1 & A2 & A3) (B1 & B2 & B3). rewrite pt_eqb_iff, !d_eqb_key by assumption. reflexivity.
Qed.

Theorem C27_strict_order : forall a b c, pt_no_nan a -> pt_no_nan b -> pt_no_nan c ->
  pt_ltb a a = false
  /\ (pt_ltb a b = true -> pt_ltb b a = false)
  /\ (pt_ltb a b = true -> pt_ltb b c = true -> pt_ltb a c = true)
  /\ (pt_ltb a b = false /\ pt_ltb b a = false <-> pt_eqb a b = true).
Proof.
  intros a b c Ha Hb Hc. split; [|split; [|split]].
  - destruct (pt_ltb a a) eqn:E; [|reflexivity]. apply pt_ltb_key in E; auto. lia.
  - intros E. destruct (pt_ltb b a) eqn:E'; [|reflexivity].
    apply pt_ltb_key in E; auto. apply pt_ltb_key in E'; auto. lia.
  - rewrite !pt_ltb_key by assumption. lia.
  - rewrite pt_eqb_key by assumption. rewrite <- !not_true_iff_false, !pt_ltb_key by assumption. lia.
Qed.

(** The order is lexicographic in x, y, z. *)
Theorem C27_lexicographic : forall a b, pt_no_nan a -> pt_no_nan b ->
  (pt_ltb a b = true <->
   d_ltb (px a) (px b) = true
   \/ (d_eqb (px a) (px b) = true /\ d_ltb (py a) (py b) = true)
   \/ (d_eqb (px a) (px b) = true /\ d_eqb (py a) (py b) = true /\ d_ltb (pz a) (pz b) = true)).
Proof.
  intros a b Ha Hb. rewrite pt_ltb_key by assumption.
  destruct Ha as (A1 & A2 & A3), Hb as (B1 & B2 & B3). rewrite !d_ltb_key, !d_eqb_key by assumption. lia.
Qed.

Example C27_example : pt_no_nan (mk_pt 0 d_one d_inf) /\ pt_ltb (mk_pt 0 0 0) (mk_pt d_nzero d_one 0) = true
  /\ pt_ltb (mk_pt d_qnan 0 0) (mk_pt d_one 0 0) = false.
Proof. repeat split; reflexivity. Qed.

(** ** C32: extents are tight bounds *)

Lemma extent_axis : forall ax, In ax axes -> forall ps e,
  ax (minp (fold_left extent_step ps e)) = run_min (map ax ps) (ax (minp e))
  /\ ax (maxp (fold_left extent_step ps e)) = run_max (map ax ps) (ax (maxp e)).
Proof.
  intros ax Hax ps. induction ps as [|p t IH]; intros e; [auto|]. cbn [fold_left map].
  destruct (IH (extent_step e p)) as [A B]. rewrite A, B. unfold run_min, run_max. cbn [fold_left].
  destruct Hax as [<-|[<-|[<-|[]]]]; auto.
Qed.

Lemma axis_finite : forall ax p, In ax axes -> pt_finite p -> d_ok (ax p) /\ d_is_finite (ax p) = true.
Proof.
  intros ax p H ((O1 & O2 & O3) & F1 & F2 & F3). destruct H as [<-|[<-|[<-|[]]]]; auto.
Qed.

Lemma axis_start : forall ax, In ax axes -> ax (minp extent_start) = d_max /\ ax (maxp extent_start) = d_lowest.
Proof. intros ax [<-|[<-|[<-|[]]]]; auto. Qed.

Lemma axis_no_nan : forall ax ps, In ax axes -> Forall pt_finite ps -> no_nan (map ax ps).
Proof.
  intros ax ps Hax H. unfold no_nan. apply Forall_map. eapply Forall_impl; [|exact H]. intros p Hp.
  destruct (axis_finite ax p Hax Hp) as [_ F]. cbn. now apply d_finite_not_nan.
Qed.

Theorem C32_extent_contains : forall ps p ax, Forall pt_finite ps -> In p ps -> In ax axes ->
  d_leb (ax (minp (get_extent ps))) (ax p) = true /\ d_leb (ax p) (ax (maxp (get_extent ps))) = true.
Proof.
  intros ps p ax Hf Hp Hax. unfold get_extent. destruct (extent_axis ax Hax ps extent_start) as [A B].
  rewrite A, B. destruct (axis_start ax Hax) as [-> ->].
  pose proof (axis_no_nan ax ps Hax Hf) as Hn.
  destruct (run_min_key (map ax ps) d_max Hn eq_refl) as [N1 K1].
  destruct (run_max_key (map ax ps) d_lowest Hn eq_refl) as [N2 K2].
  assert (Np : d_is_nan (ax p) = false).
  { unfold no_nan in Hn. rewrite Forall_forall in Hn. apply Hn. now apply in_map. }
  rewrite !d_leb_key by assumption. rewrite K1, K2.
  split; [apply fold_min_le|apply fold_max_le]; now apply in_map, in_map.
Qed.

Theorem C32_extent_attained : forall ps ax, Forall pt_finite ps -> ps <> [] -> In ax axes ->
  (exists p, In p ps /\ d_eqb (ax p) (ax (minp (get_extent ps))) = true)
  /\ (exists p, In p ps /\ d_eqb (ax p) (ax (maxp (get_extent ps))) = true).
Proof.
  intros ps ax Hf Hne Hax. unfold get_extent. destruct (extent_axis ax Hax ps extent_start) as [A B].
  rewrite A, B. destruct (axis_start ax Hax) as [-> ->].
  pose proof (axis_no_nan ax ps Hax Hf) as Hn.
  destruct (run_min_key (map ax ps) d_max Hn eq_refl) as [N1 K1].
  destruct (run_max_key (map ax ps) d_lowest Hn eq_refl) as [N2 K2].
  destruct ps as [|q t]; [congruence|].
  assert (Fq : pt_finite q) by now inversion Hf.
  destruct (axis_finite ax q Hax Fq) as [Oq Fq']. pose proof (d_finite_key (ax q) Oq Fq') as Kq.
  pose proof (d_finite_not_nan _ Fq') as Nq.
  split.
  - destruct (run_min_In (map ax (q :: t)) d_max) as [E|E].
    + exists q. split; [now left|]. apply d_eqb_key; auto.
      destruct (fold_min_le (map d_key (map ax (q :: t))) (d_key d_max)) as [_ L].
      specialize (L (d_key (ax q)) (or_introl eq_refl)). rewrite E in *. lia.
    + apply in_map_iff in E. destruct E as (p & E & Hp). exists p. split; [exact Hp|]. rewrite E.
      now apply d_eqb_refl.
  - destruct (run_max_In (map ax (q :: t)) d_lowest) as [E|E].
    + exists q. split; [now left|]. apply d_eqb_key; auto.
      destruct (fold_max_le (map d_key (map ax (q :: t))) (d_key d_lowest)) as [_ L].
      specialize (L (d_key (ax q)) (or_introl eq_refl)). rewrite E in *. lia.
    + apply in_map_iff in E. destruct E as (p & E & Hp). exists p. split; [exact Hp|]. rewrite E.
      now apply d_eqb_refl.
Qed.

Lemma ext_eqb_axes : forall e f,
  (forall ax, In ax axes -> d_eqb (ax (minp e)) (ax (minp f)) = true /\ d_eqb (ax (maxp e)) (ax (maxp f)) = true) ->
  ext_eqb e f = true.
Proof.
  intros e f H. unfold ext_eqb. apply andb_true_iff. rewrite !pt_eqb_iff.
  destruct (H px) as [X1 X2]; [cbn; tauto|]. destruct (H py) as [Y1 Y2]; [cbn; tauto|].
  destruct (H pz) as [Z1 Z2]; [cbn; tauto|]. tauto.
Qed.

(** For points without NaN (infinite ones included) the order does not matter. *)
Theorem C32_order_independent : forall ps qs, Forall pt_no_nan ps -> Permutation ps qs ->
  ext_eqb (get_extent ps) (get_extent qs) = true.
Proof.
  intros ps qs Hn HP. apply ext_eqb_axes. intros ax Hax. unfold get_extent.
  destruct (extent_axis ax Hax ps extent_start) as [A1 B1]. rewrite A1, B1.
  destruct (extent_axis ax Hax qs extent_start) as [A2 B2]. rewrite A2, B2.
  destruct (axis_start ax Hax) as [-> ->].
  assert (N : forall l, Forall pt_no_nan l -> no_nan (map ax l)).
  { intros l Hl. unfold no_nan. apply Forall_map. eapply Forall_impl; [|exact Hl].
    intros p (P1 & P2 & P3). destruct Hax as [<-|[<-|[<-|[]]]]; auto. }
  assert (Hq : Forall pt_no_nan qs).
  { rewrite Forall_forall in *. intros p Hp. apply Hn. eapply Permutation_in; [symmetry; exact HP|exact Hp]. }
  pose proof (N ps Hn) as Np. pose proof (N qs Hq) as Nq.
  destruct (run_min_key _ d_max Np eq_refl) as [M1 K1]. destruct (run_min_key _ d_max Nq eq_refl) as [M2 K2].
  destruct (run_max_key _ d_lowest Np eq_refl) as [M3 K3]. destruct (run_max_key _ d_lowest Nq eq_refl) as [M4 K4].
  rewrite !d_eqb_key by assumption. rewrite K1, K2, K3, K4.
  split; [apply fold_min_perm|apply fold_max_perm]; now apply Permutation_map, Permutation_map.
Qed.

(** The bounds of a non-empty list of finite points are ordered (the condition
    the library asserts before it uses an extent). *)
Theorem C32_ordered : forall ps, Forall pt_finite ps -> ps <> [] ->
  all_less_equal (minp (get_extent ps)) (maxp (get_extent ps)) = true.
Proof.
  intros [|q t] H Hne; [congruence|].
  assert (K : forall ax, In ax axes -> d_gtb (ax (minp (get_extent (q :: t)))) (ax (maxp (get_extent (q :: t)))) = false).
  { intros ax Hax. destruct (C32_extent_contains (q :: t) q ax H (or_introl eq_refl) Hax) as [A B].
    unfold d_gtb. apply not_true_iff_false. intros C. unfold d_leb, d_ltb in *.
    rewrite !andb_true_iff, ?Z.leb_le, ?Z.ltb_lt in *. lia. }
  unfold all_less_equal.
  rewrite (K px), (K py), (K pz) by (cbn; tauto). reflexivity.
Qed.

Example C32_example : Forall pt_finite [mk_pt d_one 0 0; mk_pt 0 d_nzero (d_one + two63)]
  /\ get_extent [mk_pt d_one 0 0; mk_pt 0 d_nzero (d_one + two63)]
     = mk_ext (mk_pt 0 d_nzero (d_one + two63)) (mk_pt d_one d_nzero 0).
Proof.
  split; [|reflexivity].
  apply Forall_cons; [|apply Forall_cons; [|constructor]]; (split; [|repeat split]);
    unfold pt_ok, d_ok, d_one, d_nzero, two63, two64; cbn; lia.
Qed.

(** ** C33: a NaN makes the extent forget *)

(** If the last NaN on an axis is followed by finite points, the bounds on that
    axis are those of the points that follow. *)
Theorem C33_nan_forgets : forall ps n qs ax, In ax axes -> d_is_nan (ax n) = true ->
  Forall pt_finite qs -> qs <> [] ->
  d_eqb (ax (minp (get_extent (ps ++ n :: qs)))) (ax (minp (get_extent qs))) = true
  /\ d_eqb (ax (maxp (get_extent (ps ++ n :: qs)))) (ax (maxp (get_extent qs))) = true.
Proof.
  intros ps n qs ax Hax Hn Hq Hne. unfold get_extent.
  destruct (extent_axis ax Hax (ps ++ n :: qs) extent_start) as [A1 B1]. rewrite A1, B1.
  destruct (extent_axis ax Hax qs extent_start) as [A2 B2]. rewrite A2, B2.
  destruct (axis_start ax Hax) as [-> ->]. rewrite map_app. cbn [map].
  pose proof (axis_no_nan ax qs Hax Hq) as N.
  rewrite run_min_after_nan, run_max_after_nan by (auto; now destruct qs).
  destruct qs as [|q t]; [congruence|]. cbn [map] in *.
  assert (Nq : d_is_nan (ax q) = false) by (now inversion N).
  assert (Nt : no_nan (map ax t)) by (now inversion N).
  destruct (axis_finite ax q Hax) as [Oq Fq]; [now inversion Hq|].
  pose proof (d_finite_key _ Oq Fq) as Kq.
  destruct (run_min_key _ (ax q) Nt Nq) as [M1 K1]. destruct (run_max_key _ (ax q) Nt Nq) as [M2 K2].
  destruct (run_min_key _ d_max N eq_refl) as [M3 K3]. destruct (run_max_key _ d_lowest N eq_refl) as [M4 K4].
  rewrite !d_eqb_key by assumption. rewrite K1, K2, K3, K4. cbn [map fold_right].
  assert (Fmin : forall l a b, fold_right Z.min (Z.min a b) l = Z.min a (fold_right Z.min b l)).
  { induction l as [|y l IH]; intros a b; cbn; [reflexivity|]. rewrite IH. lia. }
  assert (Fmax : forall l a b, fold_right Z.max (Z.max a b) l = Z.max a (fold_right Z.max b l)).
  { induction l as [|y l IH]; intros a b; cbn; [reflexivity|]. rewrite IH. lia. }
  rewrite <- Fmin, <- Fmax. split; f_equal; lia.
Qed.

Theorem C33_nan_last : forall ps n ax, In ax axes -> d_is_nan (ax n) = true ->
  d_is_nan (ax (minp (get_extent (ps ++ [n])))) = true /\ d_is_nan (ax (maxp (get_extent (ps ++ [n])))) = true.
Proof.
  intros ps n ax Hax Hn. unfold get_extent.
  destruct (extent_axis ax Hax (ps ++ [n]) extent_start) as [A1 B1]. rewrite A1, B1. rewrite map_app. cbn [map].
  now rewrite run_min_ends_nan, run_max_ends_nan.
Qed.

(** A point outside the extent of the list it belongs to. *)
Theorem C33_point_outside : exists ps p, In p ps /\ pt_finite p
  /\ d_is_nan (px (minp (get_extent ps))) = false /\ d_gtb (px p) (px (maxp (get_extent ps))) = true.
Proof.
  exists [mk_pt d_one 0 0; mk_pt d_qnan 0 0; mk_pt 0 0 0], (mk_pt d_one 0 0).
  split; [now left|]. split; [|split; reflexivity].
  split; [|repeat split]. unfold pt_ok, d_ok, d_one, two64; cbn; lia.
Qed.

(** ** C34: the total extent is the union *)

Lemma ext_eqb_iff : forall e f, ext_eqb e f = true <->
  (forall ax, In ax axes -> d_eqb (ax (minp e)) (ax (minp f)) = true /\ d_eqb (ax (maxp e)) (ax (maxp f)) = true).
Proof.
  intros e f. split; [|apply ext_eqb_axes]. unfold ext_eqb. rewrite andb_true_iff, !pt_eqb_iff.
  intros H ax [<-|[<-|[<-|[]]]]; tauto.
Qed.

Lemma ext_eqb_trans : forall e f g, ext_eqb e f = true -> ext_eqb f g = true -> ext_eqb e g = true.
Proof.
  intros e f g. rewrite !ext_eqb_iff. intros H1 H2 ax Hax. specialize (H1 ax Hax). specialize (H2 ax Hax).
  destruct H1, H2. split; eapply d_eqb_trans; eassumption.
Qed.

Lemma total_extent_proper : forall e f g, ext_eqb e f = true ->
  ext_eqb g g = true -> ext_eqb (get_total_extent e g) (get_total_extent f g) = true.
Proof.
  intros e f g. rewrite !ext_eqb_iff. intros H1 H2 ax Hax. specialize (H1 ax Hax). specialize (H2 ax Hax).
  destruct H1 as [A B], H2 as [C D].
  assert (T : forall e, ax (minp (get_total_extent e g)) = d_min (ax (minp e)) (ax (minp g))
           /\ ax (maxp (get_total_extent e g)) = d_max2 (ax (maxp e)) (ax (maxp g))).
  { intros h. destruct Hax as [<-|[<-|[<-|[]]]]; auto. }
  destruct (T e) as [-> ->]. destruct (T f) as [-> ->].
  destruct (d_eqb_not_nan _ _ A), (d_eqb_not_nan _ _ B), (d_eqb_not_nan _ _ C), (d_eqb_not_nan _ _ D).
  apply d_eqb_key in A; auto. apply d_eqb_key in B; auto.
  rewrite !d_eqb_key by auto using d_min_nan, d_max2_nan. rewrite !d_min_key, !d_max2_key by assumption. lia.
Qed.

Lemma get_extent_refl : forall ps, Forall pt_no_nan ps -> ext_eqb (get_extent ps) (get_extent ps) = true.
Proof. intros ps H. apply C32_order_independent; [exact H|apply Permutation_refl]. Qed.

Theorem C34_total_extent : forall ps qs, Forall pt_no_nan ps -> Forall pt_no_nan qs ->
  ext_eqb (get_total_extent (get_extent ps) (get_extent qs)) (get_extent (ps ++ qs)) = true.
Proof.
  intros ps qs Hp Hq. apply ext_eqb_axes. intros ax Hax.
  assert (T : ax (minp (get_total_extent (get_extent ps) (get_extent qs)))
              = d_min (ax (minp (get_extent ps))) (ax (minp (get_extent qs)))
           /\ ax (maxp (get_total_extent (get_extent ps) (get_extent qs)))
              = d_max2 (ax (maxp (get_extent ps))) (ax (maxp (get_extent qs)))).
  { destruct Hax as [<-|[<-|[<-|[]]]]; auto. }
  destruct T as [-> ->]. unfold get_extent.
  destruct (extent_axis ax Hax ps extent_start) as [A1 B1]. rewrite A1, B1.
  destruct (extent_axis ax Hax qs extent_start) as [A2 B2]. rewrite A2, B2.
  destruct (extent_axis ax Hax (ps ++ qs) extent_start) as [A3 B3]. rewrite A3, B3.
  destruct (axis_start ax Hax) as [-> ->].
  assert (N : forall l, Forall pt_no_nan l -> no_nan (map ax l)).
  { intros l Hl. unfold no_nan. apply Forall_map. eapply Forall_impl; [|exact Hl].
    intros p (P1 & P2 & P3). destruct Hax as [<-|[<-|[<-|[]]]]; auto. }
  pose proof (N ps Hp) as Np. pose proof (N qs Hq) as Nq.
  assert (Nb : no_nan (map ax (ps ++ qs))) by (rewrite map_app; now apply Forall_app).
  destruct (run_min_key _ d_max Np eq_refl) as [M1 K1]. destruct (run_min_key _ d_max Nq eq_refl) as [M2 K2].
  destruct (run_max_key _ d_lowest Np eq_refl) as [M3 K3]. destruct (run_max_key _ d_lowest Nq eq_refl) as [M4 K4].
  destruct (run_min_key _ d_max Nb eq_refl) as [M5 K5]. destruct (run_max_key _ d_lowest Nb eq_refl) as [M6 K6].
  rewrite !d_eqb_key by auto using d_min_nan, d_max2_nan. rewrite d_min_key, d_max2_key by assumption.
  rewrite K1, K2, K3, K4, K5, K6. rewrite !map_app, !fold_right_app.
  assert (Fmin : forall l a, Z.min (fold_right Z.min a l) (fold_right Z.min a (map d_key (map ax qs)))
                 = fold_right Z.min (fold_right Z.min a (map d_key (map ax qs))) l).
  { induction l as [|y l IH]; intros a; cbn.
    - destruct (fold_min_le (map d_key (map ax qs)) a). lia.
    - rewrite <- IH. lia. }
  assert (Fmax : forall l a, Z.max (fold_right Z.max a l) (fold_right Z.max a (map d_key (map ax qs)))
                 = fold_right Z.max (fold_right Z.max a (map d_key (map ax qs))) l).
  { induction l as [|y l IH]; intros a; cbn.
    - destruct (fold_max_le (map d_key (map ax qs)) a). lia.
    - rewrite <- IH. lia. }
  split; [apply Fmin|apply Fmax].
Qed.

(** Any number of point sets. *)
Theorem C34_total_extent_many : forall sets, Forall (Forall pt_no_nan) sets ->
  ext_eqb (fold_left (fun e ps => get_total_extent e (get_extent ps)) sets (get_extent []))
          (get_extent (concat sets)) = true.
Proof.
  assert (G : forall sets e ps, Forall (Forall pt_no_nan) sets -> Forall pt_no_nan ps ->
    ext_eqb e (get_extent ps) = true ->
    ext_eqb (fold_left (fun e ps => get_total_extent e (get_extent ps)) sets e) (get_extent (ps ++ concat sets)) = true).
  { induction sets as [|q t IH]; intros e ps Hs Hp E; cbn [fold_left concat].
    - now rewrite app_nil_r.
    - inversion Hs as [|? ? Hq Ht]; subst. rewrite app_assoc. apply IH; [exact Ht|now apply Forall_app|].
      eapply ext_eqb_trans; [|apply C34_total_extent; assumption].
      apply total_extent_proper; [exact E|now apply get_extent_refl]. }
  intros sets H. apply (G sets (get_extent []) []); [exact H|constructor|reflexivity].
Qed.

Example C34_example :
  get_total_extent (get_extent [mk_pt 0 d_one 0]) (get_extent [mk_pt d_one 0 0])
  = mk_ext (mk_pt 0 0 0) (mk_pt d_one d_one 0).
Proof. reflexivity. Qed.

(** ** C35: serialisation *)

Lemma le8 : forall d, d_ok d -> le_val (le_bytes 8 d) = d.
Proof. intros d H. apply le_val_bytes. exact H. Qed.

Theorem C35_point : forall p rest, pt_ok p ->
  decode_point (encode_point p ++ rest) = Ret p /\ length (encode_point p) = 24%nat.
Proof.
  intros [x y z] rest (Hx & Hy & Hz). cbn [px py pz] in *.
  assert (E : encode_point (mk_pt x y z) = le_bytes 8 x ++ le_bytes 8 y ++ le_bytes 8 z).
  { unfold encode_point, append_double. cbn [px py pz app]. now rewrite <- app_assoc. }
  split; [|rewrite E, !app_length, !length_le_bytes; reflexivity].
  rewrite E, <- !app_assoc. unfold decode_point, bytes_to_double.
  assert (L : forall v, zlen (le_bytes 8 v) = 8) by (intros; apply zlen_le_bytes).
  rewrite !zlen_app, !L. pose proof (zlen_nonneg rest).
  replace (0 * 8 + 8 <=? 8 + (8 + (8 + zlen rest))) with true by lia.
  replace (1 * 8 + 8 <=? 8 + (8 + (8 + zlen rest))) with true by lia.
  replace (2 * 8 + 8 <=? 8 + (8 + (8 + zlen rest))) with true by lia.
  cbn [bind]. rewrite zdrop_le0 by lia. rewrite ztake_app_exact by now rewrite L.
  rewrite le8 by assumption.
  rewrite (zdrop_app_exact (1 * 8)) by now rewrite L. rewrite ztake_app_exact by now rewrite L.
  rewrite le8 by assumption.
  rewrite app_assoc, (zdrop_app_exact (2 * 8)) by now rewrite zlen_app, !L.
  rewrite ztake_app_exact by now rewrite L. now rewrite le8.
Qed.

Theorem C35_point_short : forall bytes, (length bytes < 24)%nat -> decode_point bytes = UB ub_index.
Proof.
  intros bytes H. unfold decode_point, bytes_to_double. unfold zlen.
  destruct (_ <=? _); [|reflexivity]. cbn [bind]. destruct (_ <=? _); [|reflexivity]. cbn [bind].
  replace (2 * 8 + 8 <=? Z.of_nat (length bytes)) with false by lia. reflexivity.
Qed.

Theorem C35_extent : forall e, pt_ok (minp e) -> pt_ok (maxp e) -> decode_extent (encode_extent e) = Ret e.
Proof.
  intros [a b] Ha Hb. unfold decode_extent, encode_extent. cbn [minp maxp fst snd] in *.
  pose proof (proj1 (C35_point a [] Ha)) as E1. pose proof (proj1 (C35_point b [] Hb)) as E2.
  rewrite app_nil_r in E1, E2. now rewrite E1, E2.
Qed.

Lemma points_at_image : forall ps, Forall pt_ok ps -> points_at (length ps) (flat_map point_image ps) = ps.
Proof.
  induction ps as [|[x y z] t IH]; intros H; [reflexivity|]. inversion H as [|? ? (Hx & Hy & Hz) Ht]; subst.
  cbn in Hx, Hy, Hz. cbn [flat_map length points_at].
  assert (L : forall v, zlen (le_bytes 8 v) = 8) by (intros; apply zlen_le_bytes).
  set (r := flat_map point_image t).
  assert (E : point_image (mk_pt x y z) ++ r = le_bytes 8 x ++ le_bytes 8 y ++ le_bytes 8 z ++ r).
  { unfold point_image. cbn [px py pz]. now rewrite <- !app_assoc. }
  f_equal.
  - rewrite E. rewrite ztake_app_exact by now rewrite L.
    rewrite (zdrop_app_exact 8) by now rewrite L. rewrite ztake_app_exact by now rewrite L.
    rewrite (app_assoc (le_bytes 8 x)), (zdrop_app_exact 16) by now rewrite zlen_app, !L.
    rewrite ztake_app_exact by now rewrite L. now rewrite !le8.
  - rewrite zdrop_app_exact; [now apply IH|]. unfold point_image. now rewrite !zlen_app, !L.
Qed.

Theorem C35_points : forall ps, ps <> [] -> Forall pt_ok ps ->
  exists bytes, encode_points ps = Ret bytes /\ length bytes = (24 * length ps)%nat
    /\ decode_points bytes = Ret ps.
Proof.
  intros ps Hne H. exists (flat_map point_image ps).
  assert (L : length (flat_map point_image ps) = (24 * length ps)%nat).
  { clear. induction ps as [|p t IH]; [reflexivity|]. cbn [flat_map length]. rewrite app_length, IH.
    unfold point_image. rewrite !app_length, !length_le_bytes. lia. }
  split; [now destruct ps|]. split; [exact L|].
  unfold decode_points. destruct (flat_map point_image ps) as [|b bs] eqn:E.
  - destruct ps; [congruence|]. cbn in L. lia.
  - rewrite <- E. unfold zlen. rewrite E, L. unfold point_size.
    replace (Z.of_nat (24 * length ps) / 24) with (Z.of_nat (length ps)).
    2: { rewrite Nat2Z.inj_mul. change (Z.of_nat 24) with 24. rewrite Z.mul_comm, Z.div_mul; lia. }
    rewrite Nat2Z.id, <- E. now rewrite points_at_image.
Qed.

Example C35_example : exists bytes, encode_points [mk_pt d_one d_qnan d_nzero; mk_pt 1 2 3] = Ret bytes
  /\ decode_points bytes = Ret [mk_pt d_one d_qnan d_nzero; mk_pt 1 2 3] /\ length bytes = 48%nat.
Proof. eexists. split; [reflexivity|]. split; reflexivity. Qed.

(** ** C36: crop *)

Lemma outside_iff : forall e p, outside e p = true <-> strictly_outside e p.
Proof.
  intros e p. unfold outside, strictly_outside, axes. rewrite !orb_true_iff. split.
  - intros [[[[[H|H]|H]|H]|H]|H]; [exists px|exists py|exists pz|exists px|exists py|exists pz]; cbn; tauto.
  - intros (ax & [<-|[<-|[<-|[]]]] & [H|H]); tauto.
Qed.

Theorem C36_crop : forall A (loc : A -> point) ps e,
  keeps (fun a => ~ strictly_outside e (loc a)) ps (crop loc ps e).
Proof.
  intros A loc ps e. induction ps as [|p t IH]; cbn; [constructor|].
  destruct (outside e (loc p)) eqn:E.
  - apply keeps_no; [|exact IH]. intros N. apply N. now apply outside_iff.
  - apply keeps_yes; [|exact IH]. intros N. apply outside_iff in N. congruence.
Qed.

Lemma keeps_In : forall A (P : A -> Prop) l l', keeps P l l' -> forall a, In a l' <-> In a l /\ P a.
Proof.
  intros A P l l' H. induction H as [|b l l' Hb H IH|b l l' Hb H IH]; intros a; cbn.
  - tauto.
  - rewrite IH. split; [intros [->|[]]; auto|intros [[->|] ?]; auto].
  - rewrite IH. split; [intros []; auto|]. intros [[->|] ?]; [contradiction|auto].
Qed.

(** Points without NaN are kept exactly when they are in the closed box. *)
Theorem C36_in_box : forall A (loc : A -> point) ps e a, pt_no_nan (loc a) -> pt_no_nan (minp e) -> pt_no_nan (maxp e) ->
  (In a (crop loc ps e) <-> In a ps /\ in_box e (loc a)).
Proof.
  intros A loc ps e a Na Nmin Nmax. rewrite (keeps_In _ _ _ _ (C36_crop A loc ps e)).
  assert (N : forall p ax, pt_no_nan p -> In ax axes -> d_is_nan (ax p) = false).
  { intros p ax (P1 & P2 & P3) [<-|[<-|[<-|[]]]]; auto. }
  apply and_iff_compat_l. split.
  - intros H ax Hax. rewrite !d_leb_key by auto.
    split; apply Z.nlt_ge; intros L; apply H; exists ax; split; auto;
      [left|right; unfold d_gtb]; apply d_ltb_key; auto.
  - intros H (ax & Hax & O). destruct (H ax Hax) as [B1 B2]. rewrite d_leb_key in B1, B2 by auto.
    unfold d_gtb in O. rewrite !d_ltb_key in O by auto. lia.
Qed.

Theorem C36_idempotent : forall A (loc : A -> point) ps e, crop loc (crop loc ps e) e = crop loc ps e.
Proof.
  intros A loc ps e. induction ps as [|p t IH]; [reflexivity|]. cbn.
  destruct (outside e (loc p)) eqn:E; [exact IH|]. cbn. rewrite E. now f_equal.
Qed.

Example C36_example :
  crop (fun p => p) [mk_pt d_one 0 0; mk_pt 0 d_qnan 0; mk_pt d_inf 0 0] (mk_ext (mk_pt 0 0 0) (mk_pt d_one d_one d_one))
  = [mk_pt d_one 0 0; mk_pt 0 d_qnan 0].
Proof. reflexivity. Qed.

Print Assumptions C27_comparisons.
Print Assumptions C26_point_hash.
Print Assumptions C26_record_hash.
Print Assumptions C26_voxel_hash.
Print Assumptions C26_equality.
Print Assumptions C26_point_equality.
Print Assumptions C27_strict_order.
Print Assumptions C27_lexicographic.
Print Assumptions C32_extent_contains.
Print Assumptions C32_extent_attained.
Print Assumptions C32_order_independent.
Print Assumptions C33_nan_forgets.
Print Assumptions C33_nan_last.
Print Assumptions C33_point_outside.
Print Assumptions C34_total_extent.
Print Assumptions C34_total_extent_many.
Print Assumptions C32_ordered.
Print Assumptions C35_point.
Print Assumptions C35_point_short.
Print Assumptions C35_extent.
Print Assumptions C35_points.
Print Assumptions C36_crop.
Print Assumptions C36_in_box.
Print Assumptions C36_idempotent.
