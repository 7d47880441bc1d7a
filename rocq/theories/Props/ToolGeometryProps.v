(** C66 - C68: spoc_tool, commands that move points or copy classifications. *)
From Coq Require Import String Reals ZArith List Bool Lia Lra.
From Flocq Require Import Core.
From Verif.Model Require Import Base Double Arith Header PointRecord Point File Utils Par Affine Extent Voxel Subsampling
  AppUtils FilterApp ToolApp.
From Verif.Spec Require Import Rounding Fields Files Apps Geometry Sampling Tools.
From Verif.Proofs Require Import BaseFacts DoubleFacts ArithFacts ErrorFacts FieldFacts FileFacts FilterFacts VoxelFacts
  DiffFacts ToolFacts ToolGeometryFacts.
From Verif.Props Require Import GeometryProps VoxelProps SearchProps.
Import ListNotations.
Open Scope Z_scope.
Open Scope outcome_scope.

(** ** C66 subtract_min *)

Lemma finite_axis : forall ax p, In ax axes -> pt_finite p -> finite (ax p).
Proof. intros ax p I F. split; now apply axis_finite. Qed.

(** The axis of points that belongs to a coordinate of records. *)
Lemma coordinate_axis : forall z_flag ax, In ax (coordinates z_flag) ->
  exists bx, In bx axes /\ (forall p, ax p = bx (pr_pt p))
    /\ forall x y z p, ax (pr_minus z_flag x y z p) = d_sub (ax p) (bx (mk_pt x y z)).
Proof.
  intros z_flag ax I. unfold coordinates in I. destruct z_flag; cbn in I.
  - destruct I as [<-|[<-|[<-|[]]]]; [exists px|exists py|exists pz]; cbn; auto.
  - destruct I as [<-|[<-|[]]]; [exists px|exists py]; cbn; auto.
Qed.

Lemma subtract_run : forall debug z_flag f, live f ->
  let m := minp (get_extent (map pr_pt (f_prs f))) in
  subtract_min debug z_flag f = Ret (with_prs f (map (pr_minus z_flag (px m) (py m) (pz m)) (f_prs f))).
Proof.
  intros debug z_flag f Lf m. unfold subtract_min. rewrite (live_valid debug f Lf). cbn [bind]. apply with_points_ok; [exact Lf|].
  apply minus_uniform, Lf.
Qed.

(** Each coordinate (the z only with the flag) is diminished by the least one of the file.
    The smallest is then exactly 0 and none is negative, not even if a difference
    overflows; nothing else changes. *)
Theorem C66_subtract_min : forall debug z_flag f, live f -> Forall (fun p => pt_finite (pr_pt p)) (f_prs f) ->
  exists g, subtract_min debug z_flag f = Ret g /\ live g /\ same_meta f g
    /\ Forall2 (only (coordinate_fields z_flag)) (f_prs f) (f_prs g)
    /\ forall ax, In ax (coordinates z_flag) -> exists m, finite m
         /\ Forall2 (fun p p' => ax p' = d_sub (ax p) m /\ d_leb m (ax p) = true /\ d_leb d_zero (ax p') = true) (f_prs f) (f_prs g)
         /\ (f_prs f <> [] -> exists p p', In (p, p') (combine (f_prs f) (f_prs g)) /\ d_eqb (ax p) m = true /\ d_eqb (ax p') d_zero = true).
Proof.
  intros debug z_flag f Lf F. pose proof (subtract_run debug z_flag f Lf) as R. cbv zeta in R.
  set (m := minp (get_extent (map pr_pt (f_prs f)))) in *. eexists. split; [exact R|].
  assert (Fm : Forall pt_finite (map pr_pt (f_prs f))) by now apply Forall_map.
  destruct (extent_finite _ Fm) as [Mf _]. fold m in Mf.
  split; [apply live_with_prs; [exact Lf|apply minus_uniform, Lf]|]. split; [apply with_prs_same|]. cbn [f_prs with_prs].
  split; [apply Forall2_map_self; intros; apply pr_minus_only|].
  intros ax I. destruct (coordinate_axis z_flag ax I) as (bx & Ib & E1 & E2). exists (bx m).
  assert (Fb : finite (bx m)) by (now apply finite_axis). assert (Em : bx (mk_pt (px m) (py m) (pz m)) = bx m) by (now destruct m).
  split; [exact Fb|]. rewrite Forall_forall in F.
  assert (Le : forall p, In p (f_prs f) -> d_leb (bx m) (ax p) = true).
  { intros p Ip. rewrite E1. apply (C32_extent_contains (map pr_pt (f_prs f)) (pr_pt p) bx Fm); [now apply in_map|exact Ib]. }
  assert (Fp : forall p, In p (f_prs f) -> finite (ax p)).
  { intros p Ip. rewrite E1. apply finite_axis; auto. }
  split.
  - apply Forall2_map_self. intros p Ip. rewrite E2, Em. split; [reflexivity|]. split; [now apply Le|].
    apply d_sub_nonneg; auto. apply d_leb_val; try apply Fb; try apply (Fp p Ip). now apply Le.
  - intros N. destruct (C32_extent_attained (map pr_pt (f_prs f)) bx Fm) as [(q & Iq & Eq) _]; [|exact Ib|].
    { destruct (f_prs f); [congruence|discriminate]. }
    apply in_map_iff in Iq. destruct Iq as (p & <- & Ip). rewrite <- E1 in Eq. fold m in Eq.
    exists p, (pr_minus z_flag (px m) (py m) (pz m) p). split; [|split; [exact Eq|]].
    + clear - Ip. clearbody m. induction (f_prs f) as [|a l IH]; [destruct Ip|]. cbn. destruct Ip as [->|Ip]; [now left|right; now apply IH].
    + rewrite E2, Em. apply d_sub_zero; auto. apply d_eqb_val; try apply Fb; try apply (Fp p Ip); exact Eq.
Qed.

(** The order of the coordinates is kept. *)
Theorem C66_order : forall debug z_flag f g ax p p' q q', live f -> Forall (fun p => pt_finite (pr_pt p)) (f_prs f) ->
  subtract_min debug z_flag f = Ret g -> In ax (coordinates z_flag) ->
  In (p, p') (combine (f_prs f) (f_prs g)) -> In (q, q') (combine (f_prs f) (f_prs g)) ->
  d_leb (ax p) (ax q) = true -> d_leb (ax p') (ax q') = true.
Proof.
  intros debug z_flag f g ax p p' q q' Lf F E I Ip Iq L.
  destruct (C66_subtract_min debug z_flag f Lf F) as (g' & E' & _ & _ & _ & K). rewrite E in E'. injection E' as <-.
  destruct (K ax I) as (m & Fm & A & _).
  assert (B : forall a b, In (a, b) (combine (f_prs f) (f_prs g)) -> finite (ax a) /\ ax b = d_sub (ax a) m /\ (d_val m <= d_val (ax a))%R).
  { intros a b Iab. destruct (coordinate_axis z_flag ax I) as (bx & Ib & E1 & _).
    assert (Ia : In a (f_prs f)) by (eapply in_combine_l; exact Iab).
    assert (Fa : finite (ax a)) by (rewrite E1; apply finite_axis; [exact Ib|]; rewrite Forall_forall in F; now apply F).
    clear - A Iab Fa Fm. split; [exact Fa|]. induction A as [|x y xs ys H A IH]; [destruct Iab|]. destruct Iab as [Q|Q]; [|now apply IH].
    injection Q as <- <-. split; [apply H|]. apply d_leb_val; try apply Fm; try apply Fa. apply H. }
  destruct (B p p' Ip) as (Fp & -> & Lp). destruct (B q q' Iq) as (Fq & -> & Lq). apply d_sub_mono; auto. split; [exact Lp|].
  apply d_leb_val; try apply Fp; try apply Fq. exact L.
Qed.

(** Doing it again changes nothing but the sign of zeros. *)
Theorem C66_again : forall debug z_flag f g, live f -> Forall (fun p => pt_finite (pr_pt p)) (f_prs f) ->
  subtract_min debug z_flag f = Ret g -> Forall (fun p => pt_finite (pr_pt p)) (f_prs g) ->
  exists h, subtract_min debug z_flag g = Ret h /\ same_meta g h
    /\ Forall2 (fun p p' => only (coordinate_fields z_flag) p p'
         /\ forall ax, In ax (coordinates z_flag) -> d_eqb (ax p') (ax p) = true) (f_prs g) (f_prs h).
Proof.
  intros debug z_flag f g Lf Ff Eg Fg.
  destruct (C66_subtract_min debug z_flag f Lf Ff) as (g' & E & Lg & _ & _ & K). rewrite Eg in E. injection E as <-.
  destruct (C66_subtract_min debug z_flag g Lg Fg) as (h & E & _ & M & O & H). exists h. split; [exact E|]. split; [exact M|].
  assert (A : forall ax, In ax (coordinates z_flag) -> Forall2 (fun p p' => d_eqb (ax p') (ax p) = true) (f_prs g) (f_prs h)).
  { intros ax I. destruct (K ax I) as (m & Fm & A & Z1). destruct (H ax I) as (m' & Fm' & A' & Z2).
    destruct (coordinate_axis z_flag ax I) as (bx & Ib & E1 & _). rewrite Forall_forall in Fg.
    assert (Fa : forall p, In p (f_prs g) -> finite (ax p)) by (intros p Ip; rewrite E1; apply finite_axis; auto).
    assert (V : f_prs g <> [] -> d_val m' = 0%R).
    { intros N. destruct (Z2 N) as (q & q' & Iq & Eq & _). apply in_combine_l in Iq.
      assert (Nf : f_prs f <> []) by (intros Q; rewrite Q in A; inversion A; congruence).
      destruct (Z1 Nf) as (p & p' & Ip & _ & Ep). apply in_combine_r in Ip.
      apply d_eqb_val in Eq; try apply Fm'; try apply (Fa q Iq). apply d_eqb_val in Ep; try apply zero_finite; try apply (Fa p' Ip).
      rewrite zero_val in Ep.
      assert (L1 : (d_val m' <= d_val (ax p'))%R).
      { clear - A' Ip Fa Fm'. apply d_leb_val; try apply Fm'; try apply (Fa p' Ip). clear Fa. induction A' as [|x y xs ys Q A' IH]; [destruct Ip|].
        destruct Ip as [->|Ip]; [apply Q|now apply IH]. }
      assert (L2 : (0 <= d_val (ax q))%R).
      { clear - A Iq Fa. rewrite <- zero_val. apply d_leb_val; try apply zero_finite; try apply (Fa q Iq). clear Fa. induction A as [|x y xs ys Q A IH]; [destruct Iq|].
        destruct Iq as [->|Iq]; [apply Q|now apply IH]. }
      lra. }
    clear - A' V Fa Fm'. assert (W : f_prs g = [] \/ d_val m' = 0%R) by (destruct (f_prs g); [now left|right; apply V; discriminate]).
    destruct W as [W|W]; [rewrite W in *; inversion A'; constructor|]. clear V.
    induction A' as [|x y xs ys Q A' IH]; constructor; [|apply IH; intros p Ip; apply Fa; now right].
    destruct Q as (-> & _ & _). apply d_sub_val_zero; auto. apply Fa. now left. }
  clear - O A. assert (B : forall l l', Forall2 (only (coordinate_fields z_flag)) l l' ->
     (forall ax, In ax (coordinates z_flag) -> Forall2 (fun p p' => d_eqb (ax p') (ax p) = true) l l') ->
     Forall2 (fun p p' => only (coordinate_fields z_flag) p p' /\ forall ax, In ax (coordinates z_flag) -> d_eqb (ax p') (ax p) = true) l l').
  { clear. intros l l' O A. induction O as [|x y xs ys Q O IH]; constructor.
    - split; [exact Q|]. intros ax I. specialize (A ax I). now inversion A.
    - apply IH. intros ax I. specialize (A ax I). now inversion A. }
  now apply B.
Qed.

(** ** C67 recenter *)

(** All records are shifted by the same amount in each coordinate (the z only with the
    flag), and nothing else changes.  The amount is the mean, up to rounding errors, if it
    is a number at all. *)
Theorem C67_recenter : forall debug z_flag f, live f ->
  exists g, recenter debug z_flag f = Ret g /\ live g /\ same_meta f g
    /\ Forall2 (only (coordinate_fields z_flag)) (f_prs f) (f_prs g)
    /\ forall ax, In ax (coordinates z_flag) -> exists c,
         Forall2 (fun p p' => ax p' = d_sub (ax p) c) (f_prs f) (f_prs g)
         /\ (Forall pr_ok (f_prs f) -> f_prs f <> [] -> d_is_finite c = true ->
             let n := List.length (f_prs f) in
             Z.of_nat n <= 2 ^ 53 ->
             (Rabs (d_val c - exact_sum (map ax (f_prs f)) / INR n)
              <= ((1 + / 2 ^ 53) ^ (n + 1) - 1) * (abs_sum (map ax (f_prs f)) / INR n) + bpow radix2 (-1075))%R).
Proof.
  intros debug z_flag f Lf. unfold recenter. rewrite (live_valid debug f Lf). cbn [bind].
  rewrite with_points_ok; [|exact Lf|apply minus_uniform, Lf]. eexists. split; [reflexivity|].
  split; [apply live_with_prs; [exact Lf|apply minus_uniform, Lf]|]. split; [apply with_prs_same|]. cbn [f_prs with_prs].
  split; [apply Forall2_map_self; intros; apply pr_minus_only|].
  intros ax I. exists (d_mean (map ax (f_prs f))). split.
  - apply Forall2_map_self. intros p _. unfold coordinates in I. destruct z_flag; cbn in I.
    + destruct I as [<-|[<-|[<-|[]]]]; reflexivity.
    + destruct I as [<-|[<-|[]]]; reflexivity.
  - intros O N F B. set (n := List.length (f_prs f)) in *.
    assert (Ol : Forall d_ok (map ax (f_prs f))).
    { apply Forall_map. eapply Forall_impl; [|exact O]. intros p Q. unfold coordinates in I. destruct z_flag; cbn in I.
      - destruct I as [<-|[<-|[<-|[]]]]; apply Q.
      - destruct I as [<-|[<-|[]]]; apply Q. }
    pose proof (mean_error (map ax (f_prs f)) Ol) as E. rewrite zlen_map in E. unfold zlen in E. fold n in E. rewrite map_length in E. fold n in E.
    rewrite <- INR_IZR_INZ in E. rewrite Nat.add_1_r.
    assert (X : (1 + / 2 ^ 53 = 1 + eps)%R) by (unfold eps; cbn; lra). rewrite X.
    apply E; [|exact B|exact F]. destruct (f_prs f); [congruence|discriminate].
Qed.

(** ** C68 upsample_classifications *)

Lemma cell_voxel : forall x m r n, finite x -> finite m -> finite r -> (0 < d_val r)%R -> voxel1 x m r = Ret n <-> cell x m r n.
Proof.
  intros x m r n Fx Fm Fr P. rewrite C39_value by (try apply Fx; try apply Fm; try apply Fr). unfold cell.
  change two64 with (2 ^ 64). split.
  - intros (_ & _ & F & [(_ & _ & F' & E & B)|(F' & _ & _)]); [auto|]. destruct Fr as [_ Fr]. congruence.
  - intros (F & F' & E & B). split; [exact Fx|]. split; [exact Fm|]. split; [exact F|]. left. split; [exact Fr|]. split; [lra|]. auto.
Qed.

Lemma cell_val : forall x m m' r n, d_val m = d_val m' -> cell x m r n <-> cell x m' r n.
Proof. intros x m m' r n E. unfold cell. now rewrite E. Qed.

Lemma cell_fun : forall x m r n k, cell x m r n -> cell x m r k -> n = k.
Proof. intros x m r n k (_ & _ & -> & _) (_ & _ & -> & _). reflexivity. Qed.

Lemma voxel_cells : forall p m r v, pt_finite p -> pt_finite m -> finite r -> (0 < d_val r)%R ->
  get_voxel_index p m r = Ret v <-> cell (px p) (px m) r (vi v) /\ cell (py p) (py m) r (vj v) /\ cell (pz p) (pz m) r (vk v).
Proof.
  intros p m r v Fp Fm Fr P. rewrite get_voxel_index_ret.
  rewrite !cell_voxel by (auto; apply finite_axis; auto; cbn; auto). reflexivity.
Qed.

Lemma has_voxel_index : forall p m r, pt_finite p -> pt_finite m -> finite r -> (0 < d_val r)%R ->
  has_voxel m r p <-> exists v, get_voxel_index p m r = Ret v.
Proof.
  intros p m r Fp Fm Fr P. split.
  - intros H. destruct (H px) as [i I]; [cbn; auto|]. destruct (H py) as [j J]; [cbn; auto|]. destruct (H pz) as [k K]; [cbn; auto|].
    exists (mk_vox i j k). apply voxel_cells; auto.
  - intros [v V]. apply voxel_cells in V; auto. destruct V as (A & B & C). intros ax [<-|[<-|[<-|[]]]]; eauto.
Qed.

Lemma same_voxel_index : forall p q m r, pt_finite p -> pt_finite q -> pt_finite m -> finite r -> (0 < d_val r)%R ->
  same_voxel m r p q <-> exists v, get_voxel_index p m r = Ret v /\ get_voxel_index q m r = Ret v.
Proof.
  intros p q m r Fp Fq Fm Fr P. split.
  - intros H. destruct (H px) as (i & I & I'); [cbn; auto|]. destruct (H py) as (j & J & J'); [cbn; auto|].
    destruct (H pz) as (k & K & K'); [cbn; auto|]. exists (mk_vox i j k). split; apply voxel_cells; auto.
  - intros (v & V & W). apply voxel_cells in V; auto. apply voxel_cells in W; auto.
    destruct V as (A & B & C). destruct W as (A' & B' & C'). intros ax [<-|[<-|[<-|[]]]]; eauto.
Qed.

Lemma lowest_extent : forall ps m, Forall pt_finite ps -> ps <> [] -> pt_finite m -> lowest ps m ->
  forall ax, In ax axes -> d_val (ax (minp (get_extent ps))) = d_val (ax m).
Proof.
  intros ps m F N Fm Lm ax I. destruct (extent_finite ps F) as [Fe _]. destruct (Lm ax I) as [A (p & Ip & Ep)].
  destruct (C32_extent_attained ps ax F N I) as [(q & Iq & Eq) _]. pose proof (C32_extent_contains ps p ax F Ip I) as [C _].
  rewrite Forall_forall in F, A.
  pose proof (finite_axis ax _ I (F p Ip)) as Fp. pose proof (finite_axis ax _ I (F q Iq)) as Fq. pose proof (finite_axis ax _ I Fe) as Fx.
  apply d_leb_val in C; try apply Fx; try apply Fp. apply d_eqb_val in Eq; try apply Fx; try apply Fq. pose proof (A q Iq). lra.
Qed.

Lemma mapM_index : forall ps m r, (exists vs, mapM (fun p => get_voxel_index p m r) ps = Ret vs)
  \/ (mapM (fun p => get_voxel_index p m r) ps = UB ub_float_to_int /\ exists p, In p ps /\ forall v, get_voxel_index p m r <> Ret v).
Proof.
  intros ps m r. induction ps as [|p ps IH]; [left; eexists; reflexivity|]. cbn [mapM].
  assert (C : (exists v, get_voxel_index p m r = Ret v) \/ get_voxel_index p m r = UB ub_float_to_int).
  { unfold get_voxel_index. destruct (voxel1_cases (px p) (px m) r) as [[i ->]| ->]; [|now right]. cbn [bind].
    destruct (voxel1_cases (py p) (py m) r) as [[j ->]| ->]; [|now right]. cbn [bind].
    destruct (voxel1_cases (pz p) (pz m) r) as [[k ->]| ->]; [|now right]. cbn [bind]. left. eauto. }
  destruct C as [[v E]|E]; rewrite E; cbn [bind].
  - destruct IH as [[vs ->]|[-> (q & Iq & Q)]]; [left; eexists; reflexivity|]. right. split; [reflexivity|]. exists q. split; [now right|exact Q].
  - right. split; [reflexivity|]. exists p. split; [now left|]. intros v. rewrite E. discriminate.
Qed.

Section Upsample.
Variable debug : bool.
Variables (l f : spoc_file) (r : double) (m : point).
Hypothesis Ll : live l.
Hypothesis Lf : live f.
Hypothesis Fl : Forall (fun p => pt_finite (pr_pt p)) (f_prs l).
Hypothesis Ff : Forall (fun p => pt_finite (pr_pt p)) (f_prs f).
Hypothesis Nf : f_prs f <> [].
Hypothesis Fr : finite r.
Hypothesis Pr : (0 < d_val r)%R.
Hypothesis Fm : pt_finite m.
Hypothesis Lm : lowest (map pr_pt (f_prs f)) m.

Let e := minp (get_extent (map pr_pt (f_prs f))).

Lemma e_finite : pt_finite e.
Proof. apply extent_finite. now apply Forall_map. Qed.

Lemma e_val : forall ax, In ax axes -> d_val (ax e) = d_val (ax m).
Proof.
  intros ax I. apply lowest_extent; auto; [now apply Forall_map|]. destruct (f_prs f); [congruence|discriminate].
Qed.

Lemma cell_e : forall ax x n, In ax axes -> cell x (ax e) r n <-> cell x (ax m) r n.
Proof. intros ax x n I. apply cell_val. now apply e_val. Qed.

Lemma has_e : forall p, has_voxel e r p <-> has_voxel m r p.
Proof. intros p. split; intros H ax I; destruct (H ax I) as [n K]; exists n; now apply cell_e in K || apply cell_e. Qed.

Lemma same_e : forall p q, same_voxel e r p q <-> same_voxel m r p q.
Proof.
  intros p q. split; intros H ax I; destruct (H ax I) as (n & K & K'); exists n; split.
  - now apply cell_e in K.
  - now apply cell_e in K'.
  - now apply cell_e.
  - now apply cell_e.
Qed.

Lemma upsample_start : upsample_classifications debug l f r =
  (vh <- mapM (fun p => get_voxel_index p e r) (map pr_pt (f_prs f)) ;;
   vl <- mapM (fun p => get_voxel_index p e r) (map pr_pt (f_prs l)) ;;
   upsample_loop debug (get_voxel_index_map vh) l 0 vl f).
Proof.
  unfold upsample_classifications. rewrite !live_valid by assumption. cbn [bind]. unfold require.
  assert (G : d_gtb r d_zero = true) by (apply d_ltb_val; try apply zero_finite; try apply Fr; now rewrite zero_val).
  rewrite G. cbn [negb]. rewrite andb_false_r. cbn [bind]. rewrite (live_copy f Lf). reflexivity.
Qed.

(** Every record of the high resolution file gets the class of the last record of the
    other file in the same voxel, if there is one; the grid of voxels begins at the least
    coordinates of the high resolution file.  Nothing else changes. *)
Theorem C68_upsample : (forall p, In p (f_prs f ++ f_prs l) -> has_voxel m r (pr_pt p)) ->
  exists g, upsample_classifications debug l f r = Ret g /\ live g /\ same_meta f g
    /\ Forall2 (fun p p' => only [FC] p p'
         /\ (forall q, last_of (fun q => same_voxel m r (pr_pt p) (pr_pt q)) (f_prs l) q -> rc p' = rc q)
         /\ ((forall q, In q (f_prs l) -> ~ same_voxel m r (pr_pt p) (pr_pt q)) -> p' = p)) (f_prs f) (f_prs g).
Proof.
  intros V. rewrite upsample_start. pose proof (proj1 (Forall_forall _ _) Fl) as Fl'. pose proof (proj1 (Forall_forall _ _) Ff) as Ff'. cbv beta in Fl', Ff'. pose proof e_finite as Fe.
  assert (X : forall ps, (forall p, In p ps -> pt_finite (pr_pt p) /\ has_voxel m r (pr_pt p)) ->
     exists vs, mapM (fun p => get_voxel_index p e r) (map pr_pt ps) = Ret vs).
  { intros ps H. destruct (mapM_index (map pr_pt ps) e r) as [Q|[_ (p & Ip & Q)]]; [exact Q|]. exfalso.
    apply in_map_iff in Ip. destruct Ip as (q & <- & Iq). destruct (H q Iq) as [Fq Hq]. apply has_e in Hq.
    apply has_voxel_index in Hq; auto. destruct Hq as [v E]. now elim (Q v). }
  destruct (X (f_prs f)) as [vh Eh]; [intros p I; split; [now apply Ff'|apply V, in_or_app; now left]|].
  destruct (X (f_prs l)) as [vl El]; [intros p I; split; [now apply Fl'|apply V, in_or_app; now right]|].
  rewrite Eh, El. cbn [bind]. apply mapM_Ret_inv in Eh. apply mapM_Ret_inv in El.
  pose proof (Forall2_length' _ _ _ Eh) as Lh. rewrite map_length in Lh. pose proof (Forall2_length' _ _ _ El) as Lv. rewrite map_length in Lv.
  destruct (upsample_loop_ok debug vh l (f_prs l) [] vl f eq_refl) as (prs & E & Lp & U & P); [congruence|exact Lf|unfold zlen; now rewrite Lh|].
  change (zlen []) with 0 in E. rewrite E. eexists. split; [reflexivity|]. split; [now apply live_with_prs|]. split; [apply with_prs_same|].
  cbn [f_prs with_prs].
  assert (Q : forall i p v, znth (f_prs f) i = Some p -> znth vh i = Some v -> get_voxel_index (pr_pt p) e r = Ret v).
  { intros i p v Ip Iv. pose proof (znth_Some_range _ _ _ Ip) as B. rewrite znth_nth_error in Ip by lia. rewrite znth_nth_error in Iv by lia.
    clear - Eh Ip Iv. revert Ip Iv. generalize (Z.to_nat i). clear i. revert Eh. generalize (f_prs f). intros fs. revert vh.
    induction fs as [|a fs IH]; intros vh Eh n Ip Iv; [destruct n; discriminate Ip|]. cbn [map] in Eh. inversion Eh as [|? b ? bs H T]; subst.
    destruct n; cbn in Ip, Iv; [congruence|]. eapply IH; eassumption. }
  (* the pairs of the records of [l] *)
  assert (C : forall w c a b, combine vl (map rc (f_prs l)) = a ++ (w, c) :: b -> exists l1 q l2, f_prs l = l1 ++ q :: l2 /\ c = rc q
     /\ get_voxel_index (pr_pt q) e r = Ret w
     /\ forall q', In q' l2 -> exists w', In (w', rc q') b /\ get_voxel_index (pr_pt q') e r = Ret w').
  { clear - El. revert vl El. induction (f_prs l) as [|q ql IH]; intros vl El w c a b H.
    - destruct vl; destruct a; discriminate H.
    - cbn [map] in El. inversion El as [|? v ? vs Hv T]; subst. cbn [map combine] in H. destruct a as [|x a]; cbn in H.
      + injection H as <- <- <-. exists [], q, ql. split; [reflexivity|]. split; [reflexivity|]. split; [exact Hv|].
        clear - T. revert vs T. induction ql as [|q ql IH]; intros vs T q' I; [destruct I|]. cbn [map] in T. inversion T as [|? v ? vs' Hv T']; subst.
        cbn [map combine]. destruct I as [->|I]; [exists v; split; [now left|exact Hv]|]. destruct (IH vs' T' q' I) as (w' & W & K). exists w'. split; [now right|exact K].
      + injection H as _ H. destruct (IH vs T w c a b H) as (l1 & q0 & l2 & -> & R). exists (q :: l1), q0, l2. split; [reflexivity|exact R]. }
  assert (D : forall q, In q (f_prs l) -> exists w, In (w, rc q) (combine vl (map rc (f_prs l))) /\ get_voxel_index (pr_pt q) e r = Ret w).
  { clear - El. revert vl El. induction (f_prs l) as [|a al IH]; intros vl El q I; [destruct I|]. cbn [map] in El. inversion El as [|? v ? vs Hv T]; subst.
    cbn [map combine]. destruct I as [->|I]; [exists v; split; [now left|exact Hv]|]. destruct (IH vs T q I) as (w & W & K). exists w. split; [now right|exact K]. }
  assert (S : forall i p v, znth (f_prs f) i = Some p -> znth vh i = Some v ->
     let p' := recolor v (combine vl (map rc (f_prs l))) p in
     only [FC] p p' /\ (forall q, last_of (fun q => same_voxel m r (pr_pt p) (pr_pt q)) (f_prs l) q -> rc p' = rc q)
     /\ ((forall q, In q (f_prs l) -> ~ same_voxel m r (pr_pt p) (pr_pt q)) -> p' = p)).
  { intros i p v Ip Iv p'. pose proof (Q i p v Ip Iv) as Ep. pose proof (Ff' p (znth_In _ _ _ Ip)) as Fp.
    assert (SV : forall q w, In q (f_prs l) -> get_voxel_index (pr_pt q) e r = Ret w -> same_voxel m r (pr_pt p) (pr_pt q) <-> w = v).
    { intros q w Iq Eq. rewrite <- same_e, same_voxel_index by auto. rewrite Ep, Eq. split; [intros (x & A & B); congruence|intros ->; eauto]. }
    destruct (recolor_last v (combine vl (map rc (f_prs l))) p) as [[N R]|(a & c & b & Es & N & R)]; fold p' in R; rewrite R.
    - split; [apply only_refl|]. split; [|reflexivity]. intros q (l1 & l2 & Eq & Sq & _). exfalso.
      assert (Iq : In q (f_prs l)) by (rewrite Eq; apply in_or_app; right; now left). destruct (D q Iq) as (w & W & K).
      apply (SV q w Iq K) in Sq. subst w. rewrite Forall_forall in N. now apply (N _ W).
    - destruct (C v c a b Es) as (l1 & q & l2 & El2 & -> & Kq & Rest).
      assert (Iq : In q (f_prs l)) by (rewrite El2; apply in_or_app; right; now left).
      assert (Sq : same_voxel m r (pr_pt p) (pr_pt q)) by now apply (SV q v Iq Kq).
      assert (Nq : Forall (fun q' => ~ same_voxel m r (pr_pt p) (pr_pt q')) l2).
      { apply Forall_forall. intros q' I' H. destruct (Rest q' I') as (w' & W' & K').
        assert (J : In q' (f_prs l)) by (rewrite El2; apply in_or_app; right; now right).
        apply (SV q' w' J K') in H. subst w'. rewrite Forall_forall in N. now apply (N _ W'). }
      split; [|split].
      + split; [reflexivity|]. intros g G. destruct g; try reflexivity. elim G. now left.
      + intros q0 (m1 & m2 & Em & Sq0 & Nq0). cbn [rc set_c]. f_equal. rewrite El2 in Em.
        clear - Em Sq Nq Sq0 Nq0. revert m1 Em. induction l1 as [|x l1 IH]; intros m1 Em; destruct m1 as [|y m1]; cbn in Em.
        * now injection Em.
        * injection Em as <- Em. rewrite Forall_forall in Nq. exfalso. apply (Nq q0); [rewrite Em; apply in_or_app; right; now left|exact Sq0].
        * injection Em as -> Em. rewrite Forall_forall in Nq0. exfalso. apply (Nq0 q); [rewrite <- Em; apply in_or_app; right; now left|exact Sq].
        * injection Em as <- Em. now apply (IH m1).
      + intros H. now elim (H q Iq). }
  clear - S P Lp Lh. assert (G : forall i p p', znth (f_prs f) i = Some p -> znth prs i = Some p' ->
     only [FC] p p' /\ (forall q, last_of (fun q => same_voxel m r (pr_pt p) (pr_pt q)) (f_prs l) q -> rc p' = rc q)
     /\ ((forall q, In q (f_prs l) -> ~ same_voxel m r (pr_pt p) (pr_pt q)) -> p' = p)).
  { intros i p p' Ip Ip'. pose proof (znth_Some_range _ _ _ Ip) as B. destruct (znth_in_range vh i) as [v Iv]; [unfold zlen in *; lia|].
    rewrite (P i p v Ip Iv) in Ip'. injection Ip' as <-. now apply (S i p v). }
  clear S P Lh. assert (Ln : List.length prs = List.length (f_prs f)) by (unfold zlen in Lp; lia). clear Lp. revert prs Ln G.
  generalize (f_prs f). intros fs. induction fs as [|p fs IH]; intros prs Ln G; destruct prs as [|p' prs]; try discriminate Ln; constructor.
  - now apply (G 0 p p').
  - apply IH; [now injection Ln|]. intros i a b Ia Ib. pose proof (znth_Some_range _ _ _ Ia) as B. apply (G (i + 1)).
    + change (p :: fs) with ([p] ++ fs). rewrite znth_app_r by (unfold zlen; cbn; lia). unfold zlen; cbn. rewrite Z.add_simpl_r. exact Ia.
    + change (p' :: prs) with ([p'] ++ prs). rewrite znth_app_r by (unfold zlen; cbn; lia). unfold zlen; cbn. rewrite Z.add_simpl_r. exact Ib.
Qed.

(** Finding: a record of either file without a voxel makes the whole call undefined. *)
Theorem C68_undefined : (exists p, In p (f_prs f ++ f_prs l) /\ ~ has_voxel m r (pr_pt p)) ->
  upsample_classifications debug l f r = UB ub_float_to_int.
Proof.
  intros (p & Ip & N). rewrite upsample_start. pose proof (proj1 (Forall_forall _ _) Fl) as Fl'. pose proof (proj1 (Forall_forall _ _) Ff) as Ff'. cbv beta in Fl', Ff'. pose proof e_finite as Fe.
  assert (K : forall ps, In p ps -> pt_finite (pr_pt p) -> mapM (fun p => get_voxel_index p e r) (map pr_pt ps) = UB ub_float_to_int).
  { intros ps I Fp. destruct (mapM_index (map pr_pt ps) e r) as [[vs Q]|[Q _]]; [|exact Q]. exfalso. apply N, has_e, has_voxel_index; auto.
    apply mapM_Ret_inv in Q. clear - Q I. revert vs Q. induction ps as [|a ps IH]; intros vs Q; [destruct I|]. cbn [map] in Q. inversion Q as [|? v ? vs' Hv T]; subst.
    destruct I as [->|I]; [eauto|]. eapply IH; eassumption. }
  apply in_app_or in Ip. destruct Ip as [Ip|Ip].
  - rewrite (K _ Ip (Ff' _ Ip)). reflexivity.
  - destruct (mapM_index (map pr_pt (f_prs f)) e r) as [[vs ->]|[-> _]]; [|reflexivity]. cbn [bind]. rewrite (K _ Ip (Fl' _ Ip)). reflexivity.
Qed.

(** That is so for a record that is a voxel or more below the high resolution file. *)
Theorem C68_below : forall q ax, In ax axes -> (d_val (ax q) <= d_val (ax m) - d_val r)%R -> ~ has_voxel m r q.
Proof.
  intros q ax I B H. destruct (H ax I) as (n & _ & _ & E & R).
  assert (D : (rnd (d_val (ax q) - d_val (ax m)) <= - d_val r)%R).
  { rewrite <- (rnd_val r), <- rnd_opp. apply rnd_le. lra. }
  assert (Q : (rnd (d_val (ax q) - d_val (ax m)) / d_val r <= -1)%R).
  { apply Rmult_le_reg_r with (d_val r); [exact Pr|]. unfold Rdiv. rewrite Rmult_assoc, Rinv_l by lra. lra. }
  assert (W : (rnd (rnd (d_val (ax q) - d_val (ax m)) / d_val r) <= -1)%R).
  { replace (-1)%R with (rnd (IZR (-1))) by (rewrite rnd_int; [reflexivity|cbn; lia]). apply rnd_le. exact Q. }
  assert (T : Ztrunc (rnd (rnd (d_val (ax q) - d_val (ax m)) / d_val r)) <= -1).
  { rewrite <- (Ztrunc_IZR (-1)). now apply Ztrunc_le. }
  lia.
Qed.

(** A record inside the extent of the high resolution file has a voxel if all of that
    file have. *)
Theorem C68_inside : forall q, pt_finite q -> (forall p, In p (f_prs f) -> has_voxel m r (pr_pt p)) ->
  (forall ax, In ax axes -> (d_val (ax m) <= d_val (ax q))%R /\ exists p, In p (f_prs f) /\ (d_val (ax q) <= d_val (ax (pr_pt p)))%R) ->
  has_voxel m r q.
Proof.
  intros q Fq V B ax I. destruct (B ax I) as [Lo (p & Ip & Hi)]. destruct (V p Ip ax I) as [n C].
  pose proof (proj1 (Forall_forall _ _) Ff p Ip) as Ff'. cbv beta in Ff'. pose proof (finite_axis ax _ I Ff') as Fp. pose proof (finite_axis ax _ I Fq) as Fqa. pose proof (finite_axis ax _ I Fm) as Fma.
  apply cell_voxel in C; auto. destruct (voxel1_mono (ax q) (ax (pr_pt p)) (ax m) r n) as (k & K & _); auto; [apply Fp|].
  exists k. apply cell_voxel; auto.
Qed.
End Upsample.

(** Finding: so it is also if the high resolution file is empty and the other is not:
    then the grid begins at the largest number there is. *)
Theorem C68_empty : forall debug l f r q, live l -> live f -> Forall (fun p => pt_finite (pr_pt p)) (f_prs l) ->
  finite r -> (0 < d_val r)%R -> f_prs f = [] -> In q (f_prs l) -> (d_val (rx q) <= d_val d_max - d_val r)%R ->
  upsample_classifications debug l f r = UB ub_float_to_int.
Proof.
  intros debug l f r q Ll Lf Fl Fr Pr Ef Iq B. rewrite upsample_start by assumption. rewrite Ef. cbn [map mapM bind].
  change (minp (get_extent [])) with (mk_pt d_max d_max d_max).
  assert (Fm : pt_finite (mk_pt d_max d_max d_max)).
  { split; [|auto]. unfold pt_ok. cbn [px py pz]. unfold d_ok, d_max, d_inf, two64. lia. }
  destruct (mapM_index (map pr_pt (f_prs l)) (mk_pt d_max d_max d_max) r) as [[vs Q]|[-> _]]; [|reflexivity]. exfalso.
  apply (C68_below r (mk_pt d_max d_max d_max) Pr (pr_pt q) px); [now left|exact B|].
  apply has_voxel_index; auto; [rewrite Forall_forall in Fl; now apply Fl|]. apply mapM_Ret_inv in Q.
  clear - Q Iq. revert vs Q. induction (f_prs l) as [|a ps IH]; intros vs Q; [destruct Iq|]. cbn [map] in Q. inversion Q as [|? v ? vs' Hv T]; subst.
  destruct Iq as [->|I]; [eauto|]. eapply IH; eassumption.
Qed.

Lemma Forall2_znth : forall {A B} (R : A -> B -> Prop) l k i a, Forall2 R l k -> znth l i = Some a -> exists b, znth k i = Some b /\ R a b.
Proof.
  intros A B R l k i a H E. pose proof (znth_Some_range _ _ _ E) as Bd. rewrite znth_nth_error in E by lia.
  assert (G : exists b, nth_error k (Z.to_nat i) = Some b /\ R a b).
  { clear Bd. revert E. generalize (Z.to_nat i). induction H as [|x y xs ys Q H IH]; intros n E; [destruct n; discriminate E|].
    destruct n; cbn in *; [injection E as <-; eauto|now apply IH]. }
  destruct G as (b & G & Q). exists b. split; [|exact Q]. rewrite znth_nth_error by lia. exact G.
Qed.

(** The way it is meant to be used: the low resolution file has been subsampled from the
    high resolution file with the same resolution, and its records may have got other
    classes since.  Then the call is defined, each voxel has exactly one low resolution
    record, and every record gets its class. *)
Lemma place_has : forall m r p q, same_place p q -> has_voxel m r q -> has_voxel m r p.
Proof. intros m r p q (_ & _ & E) H ax I. destruct (H ax I) as (n & C). exists n. unfold cell in *. now rewrite (E ax I). Qed.
Lemma place_same : forall m r p q q', same_place q q' -> same_voxel m r p q <-> same_voxel m r p q'.
Proof.
  intros m r p q q' (_ & _ & E). split; intros H ax I; destruct (H ax I) as (n & C & C'); exists n; (split; [exact C|]); unfold cell in *;
    [now rewrite <- (E ax I)|now rewrite (E ax I)].
Qed.

Theorem C68_subsampled : forall debug sh seed f s l r m, permutes sh -> live f -> live l ->
  Forall (fun p => pt_finite (pr_pt p)) (f_prs f) -> f_prs f <> [] -> finite r -> (0 < d_val r)%R ->
  pt_finite m -> lowest (map pr_pt (f_prs f)) m ->
  subsample_file sh f r seed = Ret s -> Forall2 (fun q p => same_place (pr_pt q) (pr_pt p)) (f_prs l) (f_prs s) ->
  exists g, upsample_classifications debug l f r = Ret g /\ live g /\ same_meta f g
    /\ Forall2 (fun p p' => only [FC] p p' /\ exists q, In q (f_prs l) /\ same_voxel m r (pr_pt p) (pr_pt q) /\ rc p' = rc q
         /\ forall q', In q' (f_prs l) -> same_voxel m r (pr_pt p) (pr_pt q') -> q' = q) (f_prs f) (f_prs g).
Proof.
  intros debug sh seed f s l r m Sh Lf Ll Ff Nf Fr Pr Fm Lm Es El.
  unfold subsample_file in Es. rewrite (live_clone f Lf) in Es. cbn [bind] in Es.
  destruct (subsample_points pr_pt sh (f_prs f) r seed) as [prs|x|u|] eqn:Ep; cbn [bind] in Es; try discriminate Es.
  assert (Er : f_prs s = prs).
  { unfold after, set_point_records, m_then, m_throw_if, m_update in Es. destruct (all_same_size_extra prs); cbn [negb] in Es; [|discriminate Es]. now injection Es as <-. }
  rewrite Er in El. clear Es Er s. apply C41_points in Ep. destruct Ep as (idx & Ei & M).
  destruct (proj1 (C41_succeeds sh (map pr_pt (f_prs f)) r seed Sh) (ex_intro _ idx Ei)) as [vs V].
  destruct (C41_one_per_voxel sh _ r seed vs idx Sh V Ei) as (Nd & Bd & Un & Al). rewrite zlen_map in Bd, Al.
  unfold get_voxel_indexes, get_voxel_indexes_ext in V. set (e := minp (get_extent (map pr_pt (f_prs f)))) in *.
  apply mapM_Ret_inv in V. pose proof (proj1 (Forall_forall _ _) Ff) as Ff'. cbv beta in Ff'.
  assert (Fe : pt_finite e) by (now apply e_finite).
  (* the records of [f] *)
  assert (Hf : forall i p, znth (f_prs f) i = Some p -> exists v, znth vs i = Some v /\ get_voxel_index (pr_pt p) e r = Ret v).
  { intros i p Ip. destruct (Forall2_znth _ _ _ i (pr_pt p) V) as (v & Iv & E); [rewrite znth_map, Ip; reflexivity|]. eauto. }
  (* the records of [l] *)
  assert (Hl : forall k q, znth (f_prs l) k = Some q -> exists i p, znth idx k = Some i /\ znth (f_prs f) i = Some p /\ same_place (pr_pt q) (pr_pt p)).
  { intros k q Iq. destruct (Forall2_znth _ _ _ k q El Iq) as (p0 & E & Sp).
    pose proof (f_equal (fun z => znth z k) M) as E'. cbv beta in E'. rewrite !znth_map in E'.
    rewrite E in E'. destruct (znth idx k) as [i|]; cbn in E'; [|discriminate E'].
    exists i, p0. split; [reflexivity|]. split; [congruence|exact Sp]. }
  assert (Hk : forall k i, znth idx k = Some i -> exists q, znth (f_prs l) k = Some q).
  { intros k i Ik. pose proof (znth_Some_range _ _ _ Ik) as B. apply znth_in_range.
    apply Forall2_length' in El. apply (f_equal (@List.length _)) in M. rewrite !map_length in *. unfold zlen in *. lia. }
  assert (Fl : Forall (fun p => pt_finite (pr_pt p)) (f_prs l)).
  { apply Forall_forall. intros q Iq. apply In_nth_error in Iq. destruct Iq as [n Iq].
    destruct (Hl (Z.of_nat n) q) as (i & p & _ & _ & Sp & _); [rewrite znth_nth_error by lia; now rewrite Nat2Z.id|]. exact Sp. }
  assert (Vx : forall p, In p (f_prs f) -> has_voxel m r (pr_pt p)).
  { intros p Ip. apply In_nth_error in Ip. destruct Ip as [n Ip].
    assert (Ip' : znth (f_prs f) (Z.of_nat n) = Some p) by (rewrite znth_nth_error by lia; now rewrite Nat2Z.id).
    destruct (Hf _ _ Ip') as (v & _ & E). apply (has_e f r m Ff Nf Fm Lm). apply has_voxel_index; auto; [|exists v; exact E]. apply Ff'. eapply znth_In. exact Ip'. }
  destruct (C68_upsample debug l f r m Ll Lf Fl Ff Nf Fr Pr Fm Lm) as (g & Eg & Lg & Mg & A).
  { intros p Ip. apply in_app_or in Ip. destruct Ip as [Ip|Ip]; [now apply Vx|]. apply In_nth_error in Ip. destruct Ip as [n Ip].
    destruct (Hl (Z.of_nat n) p) as (i & p0 & _ & I0 & Sp); [rewrite znth_nth_error by lia; now rewrite Nat2Z.id|]. eapply place_has; [exact Sp|]. apply Vx. eapply znth_In. exact I0. }
  exists g. split; [exact Eg|]. split; [exact Lg|]. split; [exact Mg|].
  assert (K : forall p, In p (f_prs f) -> exists q, last_of (fun q => same_voxel m r (pr_pt p) (pr_pt q)) (f_prs l) q
     /\ forall q', In q' (f_prs l) -> same_voxel m r (pr_pt p) (pr_pt q') -> q' = q).
  { intros p Ip. apply In_nth_error in Ip. destruct Ip as [n Ip].
    assert (Ip' : znth (f_prs f) (Z.of_nat n) = Some p) by (rewrite znth_nth_error by lia; now rewrite Nat2Z.id).
    destruct (Hf _ _ Ip') as (v & Iv & E). destruct (Al (Z.of_nat n) (znth_Some_range _ _ _ Ip')) as (i & Ii & Ev).
    apply In_nth_error in Ii. destruct Ii as [k Ik]. assert (Ik' : znth idx (Z.of_nat k) = Some i) by (rewrite znth_nth_error by lia; now rewrite Nat2Z.id).
    destruct (Hk _ _ Ik') as [q Iq].
    (* the record of [l] at [k'] is in the voxel exactly if k' = k *)
    assert (S : forall k' q', znth (f_prs l) k' = Some q' -> same_voxel m r (pr_pt p) (pr_pt q') <-> k' = Z.of_nat k).
    { intros k' q' Iq'. destruct (Hl k' q' Iq') as (i' & p' & Ii' & Ip2 & Eq). destruct (Hf _ _ Ip2) as (v' & Iv' & E').
      assert (Fp : pt_finite (pr_pt p)) by (apply Ff'; eapply znth_In; exact Ip'). assert (Fp2 : pt_finite (pr_pt p')) by (apply Ff'; eapply znth_In; exact Ip2).
      rewrite (place_same m r (pr_pt p) _ _ Eq), <- (same_e f r m Ff Nf Fm Lm), same_voxel_index by auto. fold e. rewrite E, E'. split.
      - intros (w & W & W'). injection W as <-. injection W' as ->.
        assert (i' = i) by (apply Un; [eapply znth_In; exact Ii'|eapply znth_In; exact Ik'|congruence]). subst i'.
        pose proof (znth_Some_range _ _ _ Ii') as B. rewrite znth_nth_error in Ii', Ik' by lia. rewrite Nat2Z.id in Ik'.
        assert (Z.to_nat k' = k); [|lia]. apply (proj1 (NoDup_nth_error idx) Nd); [unfold zlen in B; lia|].
        now rewrite Ii', Ik.
      - intros ->. exists v. split; [reflexivity|]. rewrite Ii' in Ik'. injection Ik' as ->. congruence. }
    exists q. split.
    - rewrite znth_nth_error, Nat2Z.id in Iq by lia. destruct (nth_error_split _ _ Iq) as (l1 & l2 & E2 & Len). exists l1, l2. split; [exact E2|].
      split; [apply (S (Z.of_nat k)); [rewrite znth_nth_error by lia; now rewrite Nat2Z.id|reflexivity]|].
      apply Forall_forall. intros q' I' Sq. apply In_nth_error in I'. destruct I' as [j I'].
      assert (J : znth (f_prs l) (Z.of_nat (k + 1 + j)) = Some q').
      { rewrite znth_nth_error by lia. rewrite Nat2Z.id, E2. change (q :: l2) with ([q] ++ l2). rewrite app_assoc, nth_error_app2; rewrite app_length; cbn [List.length]; [|lia].
        rewrite Len. replace (k + 1 + j - (k + 1))%nat with j by lia. exact I'. }
      apply (S _ _ J) in Sq. lia.
    - intros q' I' Sq. apply In_nth_error in I'. destruct I' as [j I'].
      assert (J : znth (f_prs l) (Z.of_nat j) = Some q') by (rewrite znth_nth_error by lia; now rewrite Nat2Z.id).
      apply (S _ _ J) in Sq. rewrite Sq in J. congruence. }
  clear - A K. induction A as [|p p' ps ps' (O & Q & _) A IH]; constructor; [|apply IH; intros; apply K; now right].
  split; [exact O|]. destruct (K p (or_introl eq_refl)) as (q & Lq & Uq). exists q. split; [|split; [|split; [now apply Q|exact Uq]]].
  - destruct Lq as (l1 & l2 & -> & _). apply in_or_app. right. now left.
  - now destruct Lq as (l1 & l2 & _ & S & _).
Qed.

(** ** Examples *)

(** The numbers 1, 2, 3, 4 and -1. *)
Definition d_two : double := 4611686018427387904.
Definition d_three : double := 4613937818241073152.
Definition d_four : double := 4616189618054758400.
Definition d_minus : double := 13830554455654793216.
Definition at_xz (x z : double) (c : Z) : point_record := mk_pr x d_one z c 9 8 7 6 5 [4].
Definition file_at (prs : list point_record) : spoc_file := mk_file 0 1 [] false prs.

Lemma at_live : forall prs, (forall p, In p prs -> rextra p = [4]) -> live (file_at prs).
Proof. intros prs H. constructor; cbn; try lia. intros p q Ip Iq. now rewrite (H p Ip), (H q Iq). Qed.

Lemma at_finite : forall x z c, finite x -> finite z -> pt_finite (pr_pt (at_xz x z c)).
Proof.
  intros x z c [Ox Fx] [Oz Fz]. split; [|cbn; auto]. unfold pt_ok, pr_pt, at_xz; cbn. split; [exact Ox|]. split; [|exact Oz]. unfold d_ok, d_one, two64. lia.
Qed.

Lemma small_finite : finite d_one /\ finite d_two /\ finite d_three /\ finite d_four /\ finite d_minus.
Proof. repeat split; try reflexivity; unfold d_ok, d_one, d_two, d_three, d_four, d_minus, two64; lia. Qed.

(** x: 3, 1, 2 and z: 1, 4, -1. *)
Definition shift_file : spoc_file := file_at [at_xz d_three d_one 1; at_xz d_one d_four 2; at_xz d_two d_minus 3].

Example C66_example : live shift_file /\ Forall (fun p => pt_finite (pr_pt p)) (f_prs shift_file)
  /\ match subtract_min true false shift_file with
     | Ret g => map (fun p => (rx p, ry p, rz p)) (f_prs g) = [(d_two, d_zero, d_one); (d_zero, d_zero, d_four); (d_one, d_zero, d_minus)]
     | _ => False end
  /\ match subtract_min true true shift_file with
     | Ret g => map (fun p => (rx p, ry p, rz p)) (f_prs g) = [(d_two, d_zero, d_two); (d_zero, d_zero, d_add d_four d_one); (d_one, d_zero, d_zero)]
                /\ Forall (fun p => pt_finite (pr_pt p)) (f_prs g)
     | _ => False end.
Proof.
  destruct small_finite as (F1 & F2 & F3 & F4 & F5).
  split; [apply at_live; intros p Ip; cbn in Ip; intuition (subst; reflexivity)|].
  split; [repeat constructor; cbn; try reflexivity; unfold d_ok, d_one, d_two, d_three, d_four, d_minus, two64; lia|].
  split; [vm_compute; reflexivity|].
  destruct (subtract_min true true shift_file) as [g|?|?|] eqn:E; vm_compute in E; try discriminate E. injection E as <-.
  split; [vm_compute; reflexivity|]. repeat constructor; cbn; unfold d_ok, two64; lia.
Qed.

Example C67_example : match recenter true false shift_file with
     | Ret g => map (fun p => (rx p, ry p, rz p)) (f_prs g) = [(d_one, d_zero, d_one); (d_minus, d_zero, d_four); (d_zero, d_zero, d_minus)]
     | _ => False end
  /\ d_mean (map rx (f_prs shift_file)) = d_two /\ d_is_finite (d_mean (map rx (f_prs shift_file))) = true
  /\ Forall pr_ok (f_prs shift_file).
Proof.
  split; [vm_compute; reflexivity|]. split; [vm_compute; reflexivity|]. split; [vm_compute; reflexivity|].
  repeat constructor; cbn; unfold d_ok, u32_ok, u16_ok, d_one, d_two, d_three, d_four, d_minus, two64, two32, two16; try lia;
    repeat constructor; unfold u64_ok, two64; lia.
Qed.

(** High resolution points at x = 1, 2, 3, 4, 1 and voxels of size 2; low resolution points
    at x = 4 (class 7), 2 (class 5), 1 (class 6). *)
Definition high_file : spoc_file := file_at [at_xz d_one d_one 1; at_xz d_two d_one 1; at_xz d_three d_one 1; at_xz d_four d_one 1; at_xz d_one d_one 1].
Definition low_file (x : double) : spoc_file := file_at [at_xz d_four d_one 7; at_xz d_two d_one 5; at_xz x d_one 6].

Lemma m_lowest : lowest (map pr_pt (f_prs high_file)) (mk_pt d_one d_one d_one).
Proof.
  destruct small_finite as (F1 & F2 & F3 & F4 & F5).
  assert (L : forall a b, finite a -> finite b -> d_leb a b = true -> (d_val a <= d_val b)%R) by (intros a b [] [] Hab; now apply d_leb_val).
  intros ax I. split.
  - apply Forall_forall. intros p Ip. cbn in Ip. destruct I as [<-|[<-|[<-|[]]]]; intuition (subst; apply L; auto).
  - exists (pr_pt (at_xz d_one d_one 1)). split; [now left|]. destruct I as [<-|[<-|[<-|[]]]]; reflexivity.
Qed.

Lemma high_finite : Forall (fun p => pt_finite (pr_pt p)) (f_prs high_file).
Proof. destruct small_finite as (F1 & F2 & F3 & F4 & F5). repeat (constructor; [now apply at_finite|]). constructor. Qed.

Lemma low_finite : Forall (fun p => pt_finite (pr_pt p)) (f_prs (low_file d_one)).
Proof. destruct small_finite as (F1 & F2 & F3 & F4 & F5). repeat (constructor; [now apply at_finite|]). constructor. Qed.

Example C68_example : live high_file /\ live (low_file d_one) /\ f_prs high_file <> [] /\ (0 < d_val d_two)%R
  /\ pt_finite (mk_pt d_one d_one d_one)
  /\ (forall p, In p (f_prs high_file ++ f_prs (low_file d_one)) -> has_voxel (mk_pt d_one d_one d_one) d_two (pr_pt p))
  /\ match upsample_classifications true (low_file d_one) high_file d_two with
     | Ret g => map rc (f_prs g) = [6; 6; 7; 7; 6] | _ => False end
  /\ match upsample_classifications true (file_at [at_xz d_two d_one 5]) high_file d_two with
     | Ret g => map rc (f_prs g) = [5; 5; 1; 1; 5] | _ => False end
  (* a point at -1, one voxel below *)
  /\ upsample_classifications true (low_file d_minus) high_file d_two = UB ub_float_to_int.
Proof.
  destruct small_finite as (F1 & F2 & F3 & F4 & F5).
  assert (P : (0 < d_val d_two)%R) by (rewrite <- zero_val; apply d_ltb_val; try apply zero_finite; try apply F2; reflexivity).
  assert (M : pt_finite (mk_pt d_one d_one d_one)) by (apply (at_finite d_one d_one 1); auto).
  split; [apply at_live; intros p Ip; cbn in Ip; intuition (subst; reflexivity)|].
  split; [apply at_live; intros p Ip; cbn in Ip; intuition (subst; reflexivity)|].
  split; [discriminate|]. split; [exact P|]. split; [exact M|]. split; [|split; [|split]; vm_compute; reflexivity].
  assert (A : forall x c, finite x -> (exists v, get_voxel_index (pr_pt (at_xz x d_one c)) (mk_pt d_one d_one d_one) d_two = Ret v) ->
            has_voxel (mk_pt d_one d_one d_one) d_two (pr_pt (at_xz x d_one c))).
  { intros x c Fx H. apply has_voxel_index; auto. now apply at_finite. }
  intros p Ip. cbn in Ip. repeat (destruct Ip as [<-|Ip]; [apply A; [assumption|eexists; vm_compute; reflexivity]|]). destruct Ip.
Qed.

(** Subsampling the high resolution file keeps the points at 1 and 3. *)
Example C68_subsampled_example : subsample_file (fun _ l => l) high_file d_two 0 = Ret (file_at [at_xz d_one d_one 1; at_xz d_three d_one 1])
  /\ permutes (fun _ l => l)
  /\ match upsample_classifications true (file_at [at_xz d_one d_one 3; at_xz d_three d_one 4]) high_file d_two with
     | Ret g => map rc (f_prs g) = [3; 3; 4; 4; 3] | _ => False end.
Proof. split; [vm_compute; reflexivity|]. split; [intros s l; reflexivity|]. vm_compute. reflexivity. Qed.

Print Assumptions C66_subtract_min.
Print Assumptions C66_order.
Print Assumptions C66_again.
Print Assumptions C67_recenter.
Print Assumptions C68_upsample.
Print Assumptions C68_undefined.
Print Assumptions C68_below.
Print Assumptions C68_inside.
Print Assumptions C68_empty.
Print Assumptions C68_subsampled.
