(** C115: what does not depend on the order of the records. *)
From Coq Require Import String Reals ZArith List Bool Permutation Lia.
From Verif.Model Require Import Base Double Arith Header PointRecord Point Extent Voxel Subsampling File Compression IO AppUtils AppConvert FilterApp Par ToolApp TileApp Json InfoApp.
From Verif.Spec Require Import Files Format Rounding Geometry Sampling Reports Apps Tiles.
From Verif.Proofs Require Import BaseFacts OrderFacts SummaryFacts FilterFacts ToolFacts ToolGeometryFacts.
From Verif.Props Require Import GeometryProps SummaryProps MetricProps SearchProps ToolGeometryProps InfoProps FilterProps.
Import ListNotations.
Open Scope Z_scope.
Open Scope outcome_scope.

(** A double that is a number, possibly infinite, and not -0: equal ones have equal bits. *)
Definition plain (d : double) : Prop := 0 <= d < 2 ^ 64 /\ d_is_nan d = false /\ d <> 2 ^ 63.
Definition plain_pt (p : point) : Prop := plain (px p) /\ plain (py p) /\ plain (pz p).

Lemma plain_key a b : plain a -> plain b -> d_key a = d_key b -> a = b.
Proof.
  intros (Ra & _ & Za) (Rb & _ & Zb). unfold d_key. change (2 ^ 63) with two63 in *. change (2 ^ 64) with (two63 + two63) in *. destruct (Z.ltb_spec a two63), (Z.ltb_spec b two63); lia.
Qed.

Lemma plain_pts_nan ps : Forall plain_pt ps -> Forall pt_no_nan ps.
Proof. apply Forall_impl. intros p ((_ & A & _) & (_ & B & _) & (_ & C & _)). now repeat split. Qed.

Lemma extent_same ps qs : Forall plain_pt ps -> Permutation ps qs -> get_extent ps = get_extent qs.
Proof.
  intros F P. pose proof (C32_order_independent ps qs (plain_pts_nan ps F) P) as E.
  assert (Fq : Forall plain_pt qs) by (eapply Permutation_Forall; eauto).
  assert (Pl : forall l ax, Forall plain_pt l -> In ax axes -> plain (ax (minp (get_extent l))) /\ plain (ax (maxp (get_extent l)))).
  { intros l ax Fl A. unfold get_extent. destruct (extent_axis ax A l extent_start) as [-> ->]. destruct (axis_start ax A) as [-> ->].
    assert (M : forall x, In x (map ax l) -> plain x).
    { intros x I. apply in_map_iff in I as (p & <- & I). rewrite Forall_forall in Fl. destruct (Fl p I) as (X & Y & Z).
      destruct A as [<-|[<-|[<-|[]]]]; assumption. }
    split.
    - destruct (run_min_In (map ax l) d_max) as [-> |I]; [|now apply M]. unfold plain. vm_compute. repeat split; discriminate.
    - destruct (run_max_In (map ax l) d_lowest) as [-> |I]; [|now apply M]. unfold plain. vm_compute. repeat split; discriminate. }
  assert (Eq : forall ax, In ax axes -> ax (minp (get_extent ps)) = ax (minp (get_extent qs)) /\ ax (maxp (get_extent ps)) = ax (maxp (get_extent qs))).
  { intros ax A. unfold ext_eqb in E. apply andb_true_iff in E as [E1 E2]. apply pt_eqb_iff in E1, E2.
    destruct (Pl ps ax F A) as [M1 M2]. destruct (Pl qs ax Fq A) as [N1 N2].
    split; (apply plain_key; [assumption|assumption|]); destruct A as [<-|[<-|[<-|[]]]];
      (apply d_eqb_key; [now destruct M1 as (_ & ? & _), M2 as (_ & ? & _)|now destruct N1 as (_ & ? & _), N2 as (_ & ? & _)|tauto]). }
  destruct (Eq px) as [A1 A2]; [cbn; tauto|]. destruct (Eq py) as [B1 B2]; [cbn; tauto|]. destruct (Eq pz) as [C1 C2]; [cbn; tauto|].
  destruct (get_extent ps) as [[] []], (get_extent qs) as [[] []]. cbn in *. congruence.
Qed.

(** ** spoc_info *)

Lemma zlen_perm {A} (x x' : list A) : Permutation x x' -> zlen x = zlen x'.
Proof. intros P. unfold zlen. f_equal. now apply Permutation_length. Qed.

Lemma summary_same srt k x x' : sorts srt -> all_numbers k x -> Permutation x x' ->
  (forall a b, In a x -> In b x -> col_key k a = col_key k b -> a = b) ->
  (forall quartiles, get_summary_object srt k x quartiles = get_summary_object srt k x' quartiles)
  /\ forall fmt label compact quartiles, get_summary_string fmt srt k label x compact quartiles = get_summary_string fmt srt k label x' compact quartiles.
Proof.
  intros Hs N P Key.
  assert (N' : all_numbers k x') by (destruct k; auto; cbn in *; eapply Permutation_Forall; eauto).
  assert (F : Forall (numb k) x) by now apply all_numbers_numb. assert (F' : Forall (numb k) x') by now apply all_numbers_numb.
  pose proof (zlen_perm _ _ P) as Lx.
  destruct x as [|a t].
  { apply Permutation_nil in P. subst x'. split; reflexivity. }
  destruct x' as [|a' t']; [apply Permutation_sym, Permutation_nil in P; discriminate|].
  assert (Es : col_sort srt k (a :: t) = col_sort srt k (a' :: t')).
  { destruct (col_sort_spec srt k (a :: t) Hs N) as (y & -> & P1 & S1). destruct (col_sort_spec srt k (a' :: t') Hs N') as (y' & -> & P2 & S2).
    f_equal. apply znth_ext; [rewrite <- (zlen_perm _ _ P1), <- (zlen_perm _ _ P2); exact Lx|].
    intros r _. destruct (znth y r) as [u|] eqn:U.
    - pose proof (znth_Some_range _ _ _ U) as R. rewrite <- (zlen_perm _ _ P1), Lx, (zlen_perm _ _ P2) in R.
      destruct (znth_in_range _ _ R) as (w & W). rewrite W. f_equal.
      pose proof (sorted_rank k (a :: t) y r u F P1 S1 U) as R1.
      pose proof (rank_perm k _ _ r w (Permutation_sym P) (sorted_rank k (a' :: t') y' r w F' P2 S2 W)) as R2.
      apply Key; [apply R1|apply R2|]. now apply (rank_unique k (a :: t) r).
    - apply znth_None_range in U. rewrite <- (zlen_perm _ _ P1), Lx, (zlen_perm _ _ P2) in U. symmetry. now apply znth_None_range. }
  assert (Em : min_element k a t = min_element k a' t').
  { destruct (min_element_spec k t a F) as (I1 & L1), (min_element_spec k t' a' F') as (I2 & L2).
    apply (Permutation_in _ P) in I1 as J1. apply (Permutation_in _ (Permutation_sym P)) in I2 as J2.
    pose proof (L1 _ J2) as A. pose proof (L2 _ J1) as B. rewrite Forall_forall in F. apply Key; auto.
    apply at_most_key in A; auto. apply at_most_key in B; auto. lia. }
  assert (Ex : max_element k a t = max_element k a' t').
  { destruct (max_element_spec k t a F) as (I1 & L1), (max_element_spec k t' a' F') as (I2 & L2).
    apply (Permutation_in _ P) in I1 as J1. apply (Permutation_in _ (Permutation_sym P)) in I2 as J2.
    pose proof (L1 _ J2) as A. pose proof (L2 _ J1) as B. rewrite Forall_forall in F. apply Key; auto.
    apply at_most_key in A; auto. apply at_most_key in B; auto. lia. }
  split; [intros quartiles|intros fmt label compact quartiles]; cbn [get_summary_object get_summary_string]; destruct quartiles; rewrite ?Es, ?Em, ?Ex, ?Lx; reflexivity.
Qed.

Lemma summary_same_int srt k x x' : k <> col_double -> sorts srt -> Permutation x x' ->
  (forall quartiles, get_summary_object srt k x quartiles = get_summary_object srt k x' quartiles)
  /\ forall fmt label compact quartiles, get_summary_string fmt srt k label x compact quartiles = get_summary_string fmt srt k label x' compact quartiles.
Proof.
  intros K Hs P. apply summary_same; auto; [now destruct k|]. intros a b _ _. destruct k; [congruence| | |]; auto.
Qed.

Lemma w_iter_same {A} (f g : A -> writer unit) l : (forall a, In a l -> forall s, f a s = g a s) -> forall s, w_iter f l s = w_iter g l s.
Proof.
  induction l as [|a l IH]; intros H s; [reflexivity|]. cbn [w_iter]. unfold w_seq, w_bind. rewrite (H a (or_introl eq_refl)).
  destruct (g a s) as [s1 [u|e|u|]]; try reflexivity. apply IH. intros b B. apply H. now right.
Qed.

Lemma w_seq_same {A} (a b : writer unit) (c d : writer A) : (forall s, a s = b s) -> (forall s, c s = d s) -> forall s, w_seq a c s = w_seq b d s.
Proof. intros H K s. unfold w_seq, w_bind. rewrite H. destruct (b s) as [s1 [u|e|u|]]; auto. Qed.

Lemma extra_fields_perm p q : uniform p -> Permutation p q -> extra_indexes p = extra_indexes q
  /\ match p with [] => True | r :: _ => match q with [] => True | s :: _ => List.length (rextra r) = List.length (rextra s) end end.
Proof.
  intros U P. destruct p as [|r p]; [apply Permutation_nil in P; now subst|]. destruct q as [|s q]; [apply Permutation_sym, Permutation_nil in P; discriminate|].
  assert (E : List.length (rextra r) = List.length (rextra s)).
  { apply U; [now left|]. eapply Permutation_in; [apply Permutation_sym, P|now left]. }
  split; [cbn; now rewrite E|exact E].
Qed.

Lemma get_extra_perm p q k : uniform p -> Permutation p q -> In k (extra_indexes p) ->
  exists x y, get_extra k p = Ret x /\ get_extra k q = Ret y /\ Permutation x y.
Proof.
  intros U P I.
  assert (H : forall l, (forall r, In r l -> In r p) -> exists x, mapM (fun r => vec_get (rextra r) k) l = Ret x).
  { destruct p as [|r0 p]; [destruct I|]. cbn [extra_indexes] in I. apply in_map_iff in I as (i & <- & I). apply in_seq in I.
    induction l as [|r l IH]; intros S; [now exists []|]. cbn [mapM].
    destruct (znth_in_range (rextra r) (Z.of_nat i)) as (e & E).
    { rewrite (U r0 r (or_introl eq_refl) (S r (or_introl eq_refl))) in I. unfold zlen. lia. }
    unfold vec_get at 1. rewrite E. cbn [bind]. destruct IH as (x & ->); [intros s Is; apply S; now right|]. cbn [bind]. eauto. }
  destruct (H p) as (x & E); [auto|]. destruct (mapM_perm _ _ _ _ P E) as (y & E' & Pxy). exists x, y. auto.
Qed.

Lemma get_header_perm f prs : uniform (f_prs f) -> Permutation (f_prs f) prs -> get_header (with_prs f prs) = get_header f.
Proof.
  intros U P. unfold get_header, get_extra_fields. cbn [f_major f_minor f_wkt f_compressed f_prs with_prs]. rewrite <- (zlen_perm _ _ P).
  destruct (extra_fields_perm _ _ U P) as [_ E]. destruct (f_prs f) as [|r p]; [apply Permutation_nil in P; now subst|].
  destruct prs as [|s q]; [apply Permutation_sym, Permutation_nil in P; discriminate|]. unfold zlen. now rewrite E.
Qed.

(** The whole report, as text or as JSON, whatever its sections: it does not depend on the
    order of the records. *)
Theorem C115_info : forall prt args f prs, uniform (f_prs f) -> Forall (fun p => plain_pt (pr_pt p)) (f_prs f) -> sorts (p_sort prt) ->
  Permutation (f_prs f) prs -> forall os, process prt args (with_prs f prs) os = process prt args f os.
Proof.
  intros prt args f prs U F Hs P.
  assert (Fp : Forall plain_pt (map pr_pt (f_prs f))) by now apply Forall_map.
  assert (Col : forall g : point_record -> double, (forall p, In p (f_prs f) -> plain (g p)) ->
    (forall quartiles, get_summary_object (p_sort prt) col_double (map g prs) quartiles = get_summary_object (p_sort prt) col_double (map g (f_prs f)) quartiles)
    /\ forall fmt label compact quartiles, get_summary_string fmt (p_sort prt) col_double label (map g prs) compact quartiles = get_summary_string fmt (p_sort prt) col_double label (map g (f_prs f)) compact quartiles).
  { intros g G. destruct (summary_same (p_sort prt) col_double (map g (f_prs f)) (map g prs)) as [A B]; auto.
    - cbn. apply Forall_forall. intros x X. apply in_map_iff in X as (p & <- & X). now destruct (G p X) as (_ & ? & _).
    - now apply Permutation_map.
    - intros a b Ia Ib. apply in_map_iff in Ia as (p & <- & Ip), Ib as (q & <- & Iq). cbn. apply plain_key; auto. }
  rewrite Forall_forall in F.
  destruct (Col rx) as [X1 X2]; [intros p I; apply (F p I)|]. destruct (Col ry) as [Y1 Y2]; [intros p I; apply (F p I)|]. destruct (Col rz) as [Z1 Z2]; [intros p I; apply (F p I)|].
  assert (Int : forall k (g : point_record -> Z), k <> col_double ->
    (forall quartiles, get_summary_object (p_sort prt) k (map g prs) quartiles = get_summary_object (p_sort prt) k (map g (f_prs f)) quartiles)
    /\ forall fmt label compact quartiles, get_summary_string fmt (p_sort prt) k label (map g prs) compact quartiles = get_summary_string fmt (p_sort prt) k label (map g (f_prs f)) compact quartiles).
  { intros k g K. destruct (summary_same_int (p_sort prt) k (map g (f_prs f)) (map g prs) K Hs (Permutation_map _ P)) as [A B]. auto. }
  destruct (Int col_u32 rc) as [C1 C2]; [discriminate|]. destruct (Int col_u32 rp) as [P1 P2]; [discriminate|].
  destruct (Int col_u16 ri) as [I1 I2]; [discriminate|]. destruct (Int col_u16 rr) as [R1 R2]; [discriminate|].
  destruct (Int col_u16 rg) as [G1 G2]; [discriminate|]. destruct (Int col_u16 rb) as [B1 B2]; [discriminate|].
  clear Col Int. destruct (extra_fields_perm _ _ U P) as [Ex _].
  assert (Cl : get_class_count_map (get_c prs) = get_class_count_map (get_c (f_prs f))).
  { apply C70_order. now apply Permutation_map, Permutation_sym. }
  assert (Me : get_metric_values prs = get_metric_values (f_prs f)).
  { unfold get_metric_values. rewrite <- (extent_same _ _ Fp (Permutation_map pr_pt P)), (zlen_perm _ _ (Permutation_sym P)).
    set (e := get_extent (map pr_pt (f_prs f))). unfold get_voxel_indexes_ext.
    destruct (indexes_cases (map pr_pt (f_prs f)) (minp e)) as [[vs E]|E].
    - destruct (mapM_perm _ _ _ _ (Permutation_map pr_pt P) E) as (vs' & E' & Pv). rewrite E, E'. cbn [bind].
      rewrite (distinct_unique vs _ _ (distinct_set vs) (distinct_perm _ _ _ (Permutation_sym Pv) (distinct_set vs'))).
      set (g := fun v => mk_vox (vi v) (vj v) 0).
      rewrite (distinct_unique (map g vs) _ _ (distinct_set _) (distinct_perm _ _ _ (Permutation_sym (Permutation_map g Pv)) (distinct_set _))). reflexivity.
    - destruct (indexes_cases (map pr_pt prs) (minp e)) as [[vs' E']|E']; [|now rewrite E, E'].
      destruct (mapM_perm _ _ _ _ (Permutation_map pr_pt (Permutation_sym P)) E') as (vs & E2 & _). congruence. }
  intros os. unfold process. destruct (ia_json args).
  - replace (info_object prt args (with_prs f prs)) with (info_object prt args f); [reflexivity|].
    unfold info_object. rewrite (get_header_perm f prs U P). cbn [f_prs with_prs]. rewrite Cl, Me.
    replace (summary_object (p_sort prt) prs (ia_quartiles args)) with (summary_object (p_sort prt) (f_prs f) (ia_quartiles args)); [reflexivity|].
    unfold summary_object, columns, get_x, get_y, get_z, get_c, get_p, get_i, get_r, get_g, get_b. cbn [foldM].
    rewrite X1, Y1, Z1, C1, P1, I1, R1, G1, B1, <- Ex.
    replace (mapM (fun k => x <- get_extra k prs ;; o <- get_summary_object (p_sort prt) col_u64 x (ia_quartiles args) ;; Ret (v_object o)) (extra_indexes (f_prs f)))
      with (mapM (fun k => x <- get_extra k (f_prs f) ;; o <- get_summary_object (p_sort prt) col_u64 x (ia_quartiles args) ;; Ret (v_object o)) (extra_indexes (f_prs f))); [reflexivity|].
    assert (In' : forall k, In k (extra_indexes (f_prs f)) -> In k (extra_indexes (f_prs f))) by auto. revert In'.
    generalize (extra_indexes (f_prs f)) at 1 3 4. induction l as [|k l IH]; intros S; [reflexivity|]. cbn [mapM].
    destruct (get_extra_perm _ _ k U P (S k (or_introl eq_refl))) as (x & y & Ea & Eb & Pxy). rewrite Ea, Eb. cbn [bind].
    destruct (summary_same_int (p_sort prt) col_u64 x y ltac:(discriminate) Hs Pxy) as [-> _]. rewrite IH; [reflexivity|]. intros j J. apply S. now right.
  - assert (H : forall s, header_lines (with_prs f prs) s = header_lines f s).
    { intros s. unfold header_lines. now rewrite (get_header_perm f prs U P). }
    assert (S : forall s, summary_lines prt prs (ia_compact args) (ia_quartiles args) s = summary_lines prt (f_prs f) (ia_compact args) (ia_quartiles args) s).
    { intros s. unfold summary_lines, columns, get_x, get_y, get_z, get_c, get_p, get_i, get_r, get_g, get_b. cbn [w_iter]. rewrite X2, Y2, Z2, C2, P2, I2, R2, G2, B2, <- Ex.
      apply w_seq_same; [reflexivity|]. clear s. intros s.
      apply w_iter_same. intros k K s2. destruct (get_extra_perm _ _ k U P K) as (x & y & Ea & Eb & Pxy).
      unfold w_bind at 1, w_lift at 1. rewrite Eb. symmetry. unfold w_bind at 1, w_lift at 1. rewrite Ea.
      destruct (summary_same_int (p_sort prt) col_u64 x y ltac:(discriminate) Hs Pxy) as [_ Q]. now rewrite Q. }
    unfold class_lines, metric_lines. cbn [f_prs with_prs]. rewrite Cl, Me.
    apply w_seq_same; [destruct (ia_header args); [exact H|reflexivity]|]. apply w_seq_same; [|reflexivity].
    destruct (ia_summary args); [exact S|reflexivity].
Qed.

(** ** Numbers of points kept *)

Lemma in_znth {A} (l : list A) a : In a l -> exists i, znth l i = Some a.
Proof.
  intros I. apply in_split in I as (l1 & l2 & ->). exists (zlen l1). rewrite znth_app_r by lia. now rewrite Z.sub_diag.
Qed.

Lemma voxel_set_perm ps qs res : Forall plain_pt ps -> Permutation ps qs -> forall vs, get_voxel_indexes ps res = Ret vs ->
  exists ws, get_voxel_indexes qs res = Ret ws /\ Permutation vs ws.
Proof.
  intros F P vs E. unfold get_voxel_indexes in *. rewrite <- (extent_same ps qs F P). unfold get_voxel_indexes_ext in *.
  now apply (mapM_perm _ ps).
Qed.

Lemma kept_distinct sh p res seed vs r : permutes sh -> get_voxel_indexes p res = Ret vs -> get_subsample_indexes sh p res seed = Ret r ->
  distinct (map Some vs) (zlen r).
Proof.
  intros Hsh V R. destruct (C41_one_per_voxel sh p res seed vs r Hsh V R) as (N & B & O & A).
  assert (L : zlen vs = zlen p) by apply (subsample_shape sh p res seed vs Hsh V).
  exists (map (znth vs) r). split; [|split].
  - clear A R. induction r as [|i r IH]; [constructor|]. cbn [map]. inversion N; subst. constructor.
    + intros I. apply in_map_iff in I as (j & E & J). apply H1. rewrite <- (O j i); [exact J|now right|now left|exact E].
    + apply IH; auto; intros; [apply B; now right|apply O; auto; now right].
  - intros a. split; intros I.
    + apply in_map_iff in I as (i & <- & I). destruct (znth_in_range vs i) as (v & E); [rewrite L; now apply B|].
      rewrite E. apply in_map. eapply znth_In. exact E.
    + apply in_map_iff in I as (v & <- & I). apply in_znth in I as (j & E).
      destruct (A j) as (i & I & Ei); [rewrite <- L; eapply znth_Some_range; exact E|]. apply in_map_iff. exists i. split; [congruence|exact I].
  - unfold zlen. now rewrite map_length.
Qed.

(** Subsampling keeps the same number of points whatever their order, the seed and the
    random numbers. *)
Theorem C115_subsample : forall sh sh' ps qs res seed seed' r, permutes sh -> permutes sh' -> Forall plain_pt ps -> Permutation ps qs ->
  get_subsample_indexes sh ps res seed = Ret r ->
  exists r', get_subsample_indexes sh' qs res seed' = Ret r' /\ List.length r' = List.length r.
Proof.
  intros sh sh' ps qs res seed seed' r H H' F P R.
  destruct (proj1 (C41_succeeds sh ps res seed H)) as (vs & V); [eauto|].
  destruct (voxel_set_perm ps qs res F P vs V) as (ws & W & Pv).
  destruct (proj2 (C41_succeeds sh' qs res seed' H')) as (r' & R'); [eauto|]. exists r'. split; [exact R'|].
  pose proof (kept_distinct _ _ _ _ _ _ H V R) as D. pose proof (kept_distinct _ _ _ _ _ _ H' W R') as D'.
  pose proof (distinct_unique _ _ _ (distinct_perm _ _ _ (Permutation_map Some Pv) D) D') as E. unfold zlen in E. lia.
Qed.

Definition pt_key (p : point) : Z * Z * Z := (d_key (px p), d_key (py p), d_key (pz p)).

Lemma pt_eqb_keys a b : pt_no_nan a -> pt_no_nan b -> (pt_eqb a b = true <-> pt_key a = pt_key b).
Proof.
  intros (A1 & A2 & A3) (B1 & B2 & B3). rewrite pt_eqb_iff, !d_eqb_key by assumption. unfold pt_key. split; [intros (-> & -> & ->); reflexivity|].
  intros [= -> -> ->]. auto.
Qed.

Lemma unique_distinct sh p seed r : permutes sh -> Forall pt_no_nan p -> get_unique_xyz_indexes sh p seed = Ret r ->
  distinct (map pt_key p) (zlen r).
Proof.
  intros Hsh F R. destruct (C42_one_per_location sh p seed Hsh) as (r0 & R0 & N & B & O & A). rewrite R in R0. injection R0 as <-.
  rewrite Forall_forall in F.
  set (key := fun i => match znth p i with Some a => pt_key a | None => (0, 0, 0) end).
  exists (map key r). split; [|split].
  - clear A R. induction r as [|i r IH]; [constructor|]. cbn [map]. inversion N; subst. constructor.
    + intros I. apply in_map_iff in I as (j & E & J). unfold key in E.
      destruct (znth_in_range p i) as (a & Ea); [apply B; now left|]. destruct (znth_in_range p j) as (b & Eb); [apply B; now right|]. rewrite Ea, Eb in E.
      assert (X : pt_eqb a b = true) by (apply pt_eqb_keys; [apply F; eapply znth_In; eauto|apply F; eapply znth_In; eauto|now symmetry]).
      rewrite (O i j a b) in X; [discriminate|now left|now right| |exact Ea|exact Eb]. intros ->. contradiction.
    + apply IH; [intros i' j' a b I J D Ei Ej; apply (O i' j'); auto; now right|intros i' I; apply B; now right|assumption].
  - intros a. split; intros I.
    + apply in_map_iff in I as (i & <- & I). destruct (znth_in_range p i) as (q & E); [now apply B|].
      unfold key. rewrite E. apply in_map. eapply znth_In. exact E.
    + apply in_map_iff in I as (q & <- & I). pose proof I as Iq. apply in_znth in I as (j & E). apply in_map_iff.
      destruct (A j q E) as [J|(i & q' & I & Ei & Eq)].
      * exists j. unfold key. rewrite E. auto.
      * exists i. unfold key. rewrite Ei. split; [|exact I]. apply pt_eqb_keys; auto. apply F. eapply znth_In. exact Ei.
  - unfold zlen. now rewrite map_length.
Qed.

(** So does the removal of duplicates. *)
Theorem C115_unique : forall sh sh' ps qs seed seed', permutes sh -> permutes sh' -> Forall pt_no_nan ps -> Permutation ps qs ->
  exists r r', get_unique_xyz_indexes sh ps seed = Ret r /\ get_unique_xyz_indexes sh' qs seed' = Ret r' /\ List.length r' = List.length r.
Proof.
  intros sh sh' ps qs seed seed' H H' F P.
  destruct (C42_one_per_location sh ps seed H) as (r & R & _). destruct (C42_one_per_location sh' qs seed' H') as (r' & R' & _).
  exists r, r'. split; [exact R|]. split; [exact R'|].
  pose proof (unique_distinct _ _ _ _ H F R) as D. pose proof (unique_distinct _ _ _ _ H' (Permutation_Forall P F) R') as D'.
  pose proof (distinct_unique _ _ _ (distinct_perm _ _ _ (Permutation_map pt_key P) D) D') as E. unfold zlen in E. lia.
Qed.

(** ** Records kept, tiles, moved records *)

Lemma filter_perm {A} (g : A -> bool) l l' : Permutation l l' -> Permutation (filter g l) (filter g l').
Proof.
  induction 1; cbn [filter]; [constructor|destruct (g x); [now constructor|assumption]| |eapply Permutation_trans; eassumption].
  destruct (g x), (g y); try apply Permutation_refl. constructor.
Qed.

Lemma live_perm f prs : live f -> Permutation (f_prs f) prs -> live (with_prs f prs).
Proof.
  intros L P. apply live_with_prs; [exact L|]. intros p q Ip Iq. apply L; (eapply Permutation_in; [apply Permutation_sym, P|assumption]).
Qed.

(** The class filters keep the same records. *)
Theorem C115_classes : forall f prs c, live f -> Permutation (f_prs f) prs ->
  exists k k' r r', keep_classes f c = Ret k /\ keep_classes (with_prs f prs) c = Ret k' /\ Permutation (f_prs k) (f_prs k')
    /\ remove_classes f c = Ret r /\ remove_classes (with_prs f prs) c = Ret r' /\ Permutation (f_prs r) (f_prs r').
Proof.
  intros f prs c L P. destruct (C49_class_filters f c L) as (k & r & K & R & _ & _ & Ek & Er).
  destruct (C49_class_filters (with_prs f prs) c (live_perm f prs L P)) as (k' & r' & K' & R' & _ & _ & Ek' & Er').
  exists k, k', r, r'. rewrite Ek, Er, Ek', Er'. cbn [f_prs with_prs]. split; [exact K|]. split; [exact K'|]. split; [now apply filter_perm|].
  split; [exact R|]. split; [exact R'|]. now apply filter_perm.
Qed.

Lemma mapM_pairs {A B} (g : A -> outcome B) l l' r : Permutation l l' -> mapM g l = Ret r ->
  exists r', mapM g l' = Ret r' /\ Permutation (combine r l) (combine r' l').
Proof.
  intros P. revert r. induction P as [|a l l' P IH|a b l|l l' l'' P1 IH1 P2 IH2]; intros r H.
  - exists r. split; [exact H|apply Permutation_refl].
  - cbn [mapM] in *. destruct (g a) as [x| | |]; try discriminate. cbn [bind] in *. destruct (mapM g l) as [xs| | |] eqn:E; try discriminate. cbn [bind] in H. injection H as <-.
    destruct (IH xs eq_refl) as (r' & -> & P'). exists (x :: r'). split; [reflexivity|]. cbn [combine]. now constructor.
  - cbn [mapM] in *. destruct (g b) as [y| | |]; try discriminate. cbn [bind] in *. destruct (g a) as [x| | |]; try discriminate. cbn [bind] in *.
    destruct (mapM g l) as [xs| | |]; try discriminate. cbn [bind] in *. injection H as <-. exists (x :: y :: xs). split; [reflexivity|]. cbn [combine]. constructor.
  - destruct (IH1 r H) as (r1 & E1 & P1'). destruct (IH2 r1 E1) as (r2 & E2 & P2'). exists r2. split; [exact E2|]. now apply Permutation_trans with (combine r1 l').
Qed.

(** spoc_tile puts the same records into the same tiles. *)
Theorem C115_tiles : forall args f prs numbers, Forall (fun p => plain_pt (pr_pt p)) (f_prs f) -> Permutation (f_prs f) prs ->
  tile_numbers args f = Ret numbers ->
  exists numbers', tile_numbers args (with_prs f prs) = Ret numbers'
    /\ forall n, Permutation (numbered_with n numbers (f_prs f)) (numbered_with n numbers' prs).
Proof.
  intros args f prs numbers F P. unfold tile_numbers.
  destruct (d_gtb (ta_size args) d_zero && d_gtb (ta_size_x args) d_zero); [discriminate|].
  destruct (d_gtb (ta_size args) d_zero && d_gtb (ta_size_y args) d_zero); [discriminate|]. cbn [f_prs with_prs].
  rewrite <- (extent_same (map pr_pt (f_prs f)) (map pr_pt prs)); [|now apply Forall_map|now apply Permutation_map].
  set (e := get_extent (map pr_pt (f_prs f))). destruct (tile_sizes args e) as [sx sy]. unfold get_tile_indexes.
  destruct (tile_stride e sx) as [st| | |]; cbn [bind]; try discriminate. intros H.
  assert (M : forall l, mapM (tile_index e sx sy st) (map pr_pt l) = mapM (fun p => tile_index e sx sy st (pr_pt p)) l).
  { induction l as [|p l IH]; [reflexivity|]. cbn [map mapM]. now rewrite IH. }
  rewrite M in *. destruct (mapM_pairs _ _ _ _ P H) as (n' & E & Pc). exists n'. split; [exact E|].
  intros n. unfold numbered_with. now apply Permutation_map, filter_perm.
Qed.

(** subtract-min moves the records in the same way. *)
Theorem C115_subtract_min : forall debug z_flag f prs, live f -> Forall (fun p => plain_pt (pr_pt p)) (f_prs f) -> Permutation (f_prs f) prs ->
  exists g g', subtract_min debug z_flag f = Ret g /\ subtract_min debug z_flag (with_prs f prs) = Ret g' /\ Permutation (f_prs g) (f_prs g').
Proof.
  intros debug z_flag f prs L F P. pose proof (subtract_run debug z_flag f L) as R. pose proof (subtract_run debug z_flag _ (live_perm f prs L P)) as R'.
  cbv zeta in R, R'. cbn [f_prs with_prs] in R'. rewrite <- (extent_same (map pr_pt (f_prs f)) (map pr_pt prs)) in R' by (try (now apply Forall_map); now apply Permutation_map).
  eexists _, _. split; [exact R|]. split; [exact R'|]. cbn [f_prs with_prs]. now apply Permutation_map.
Qed.

(** ** Where the order matters *)

Definition at_x (x : double) : point_record := mk_pr x d_zero d_zero 0 0 0 0 0 0 [].
Definition big : double := d_of_z 10000000000000000.
Definition minus_big : double := d_of_z (-10000000000000000).

(** recenter adds the coordinates in order: 10^16 + 1 - 10^16 is 0, 10^16 - 10^16 + 1 is 1. *)
Theorem C115_recenter_differs : exists f prs g g', live f /\ Forall (fun p => plain_pt (pr_pt p)) (f_prs f) /\ Permutation (f_prs f) prs
  /\ recenter true false f = Ret g /\ recenter true false (with_prs f prs) = Ret g'
  /\ In (at_x d_one) (f_prs g) /\ ~ In (at_x d_one) (f_prs g').
Proof.
  exists (mk_file 0 1 [] false [at_x big; at_x d_one; at_x minus_big]), [at_x big; at_x minus_big; at_x d_one].
  eexists _, _. split; [|split; [|split; [|split; [|split; [|split]]]]].
  - split; cbn; try lia. intros p q [<-|[<-|[<-|[]]]] [<-|[<-|[<-|[]]]]; reflexivity.
  - repeat constructor; try discriminate; vm_compute; discriminate.
  - cbn. constructor. constructor.
  - vm_compute. reflexivity.
  - vm_compute. reflexivity.
  - vm_compute. auto.
  - vm_compute. intuition discriminate.
Qed.

(** The two zeros are equal, and which of them is reported depends on the order. *)
Theorem C115_zeros_differ : exists x x', Permutation x x' /\ (forall d, In d x -> d_eqb d d_zero = true)
  /\ forall srt, exists o o', get_summary_object srt col_double x false = Ret o
       /\ get_summary_object srt col_double x' false = Ret o' /\ o <> o'.
Proof.
  exists [d_zero; d_nzero], [d_nzero; d_zero]. split; [constructor|]. split; [intros d [<-|[<-|[]]]; reflexivity|].
  intros srt. eexists _, _. split; [reflexivity|]. split; [reflexivity|]. vm_compute. discriminate.
Qed.

(** Three records in two orders meet the hypotheses; the report with all sections is the
    same text. *)
Definition ro_recs : list point_record :=
  [mk_pr (d_of_z 3) (d_of_z 1) d_zero 2 0 7 0 0 0 [5]; mk_pr (d_of_z (-2)) (d_of_z 4) d_one 6 1 0 0 0 0 [6]; mk_pr (d_of_z 3) (d_of_z 1) d_zero 2 2 9 0 0 0 [4]].
Definition ro_file : spoc_file := mk_file 0 1 (chars "WKT") false ro_recs.

Example C115_example : live ro_file /\ Forall (fun p => plain_pt (pr_pt p)) (f_prs ro_file) /\ Permutation ro_recs (rev ro_recs) /\ ro_recs <> rev ro_recs
  /\ (exists r, get_subsample_indexes (fun _ l => l) (map pr_pt ro_recs) d_one 1 = Ret r /\ List.length r = 2%nat)
  /\ (exists r, get_unique_xyz_indexes (fun _ l => rev l) (map pr_pt ro_recs) 1 = Ret r /\ List.length r = 2%nat)
  /\ tile_numbers (mk_tile_args false 2 3 d_zero d_zero d_zero [] None) ro_file = Ret [1; 2; 1].
Proof.
  split; [|split; [|split; [|split; [|split; [|split]]]]].
  - split; cbn; try lia. intros p q [<-|[<-|[<-|[]]]] [<-|[<-|[<-|[]]]]; reflexivity.
  - repeat constructor; try discriminate; vm_compute; discriminate.
  - apply Permutation_rev.
  - discriminate.
  - eexists. vm_compute. split; reflexivity.
  - eexists. vm_compute. split; reflexivity.
  - vm_compute. reflexivity.
Qed.

Print Assumptions C115_info.
Print Assumptions C115_subsample.
Print Assumptions C115_unique.
Print Assumptions C115_classes.
Print Assumptions C115_tiles.
Print Assumptions C115_subtract_min.
Print Assumptions C115_recenter_differs.
Print Assumptions C115_zeros_differ.
