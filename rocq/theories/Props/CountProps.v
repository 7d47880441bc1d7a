(** C123: what spoc_info counts adds up. *)
From Coq Require Import String ZArith List Bool Lia Permutation Sorted.
From Verif.Model Require Import Base Double Arith Header PointRecord Point File Compression IO AppUtils AppConvert FilterApp MergeApp TileApp
  Json InfoApp.
From Verif.Spec Require Import Text Streams Files Apps ZlibContract Tiles Reports.
From Verif.Proofs Require Import BaseFacts FileFacts ToyZlib StoreFacts FilterFacts TileFacts CountFacts.
From Verif.Props Require Import FilterProps MergeProps TileProps TileWidthProps InfoProps.
Import ListNotations.
Open Scope Z_scope.

(** The number of records that the report of [f] shows for the class with the label [t];
    classes without records are not shown. *)
Definition reported (t : list Z) (f : spoc_file) : Z :=
  match map_get t (get_class_count_map (map rc (f_prs f))) with Some n => n | None => 0 end.
(** The number of points that it shows *)
Definition points (f : spoc_file) : Z := zlen (f_prs f).

Definition has_label (t : list Z) (p : point_record) : bool :=
  if list_eq_dec Z.eq_dec (class_label (to_i32 (rc p))) t then true else false.
Definition labelled (t : list Z) (l : list point_record) : Z := zlen (filter (has_label t) l).

Lemma occurrences_label k l : occurrences k (map to_i32 (map rc l)) = labelled (class_label k) l.
Proof.
  unfold labelled, zlen. induction l as [|p l IH]; [reflexivity|]. unfold occurrences in *. cbn [map count_occ filter]. unfold has_label at 1.
  destruct (Z.eq_dec (to_i32 (rc p)) k) as [->|D]; destruct (list_eq_dec Z.eq_dec (class_label _) (class_label k)) as [E|E]; cbn [List.length].
  - lia.
  - congruence.
  - apply class_label_inj in E. congruence.
  - exact IH.
Qed.

Lemma reported_labelled t f : reported t f = labelled t (f_prs f).
Proof.
  unfold reported, get_class_count_map. destruct (count_classes_spec (map rc (f_prs f))) as (N & C).
  destruct (map_get t _) as [n|] eqn:E.
  - apply label_counts_spec in E as (k & -> & I); [|exact N]. apply C in I as [-> _]. apply occurrences_label.
  - unfold labelled. destruct (filter (has_label t) (f_prs f)) as [|p l] eqn:F; [reflexivity|]. exfalso.
    assert (I : In p (filter (has_label t) (f_prs f))) by (rewrite F; now left).
    apply filter_In in I as [I L]. unfold has_label in L. destruct (list_eq_dec _ _ _) as [<-|]; [|discriminate].
    assert (X : map_get (class_label (to_i32 (rc p))) (label_counts (count_classes (map rc (f_prs f)))) = Some (labelled (class_label (to_i32 (rc p))) (f_prs f))).
    { apply label_counts_spec; [exact N|]. eexists. split; [reflexivity|]. apply C. split; [symmetry; apply occurrences_label|].
      unfold labelled. rewrite F. rewrite zlen_cons. pose proof (zlen_nonneg l). lia. }
    congruence.
Qed.

Lemma labelled_app t a b : labelled t (a ++ b) = labelled t a + labelled t b.
Proof. unfold labelled. now rewrite filter_app, zlen_app. Qed.

Lemma labelled_id t i l : labelled t (map (with_id i) l) = labelled t l.
Proof. unfold labelled. induction l as [|p l IH]; [reflexivity|]. cbn [map filter]. change (has_label t (with_id i p)) with (has_label t p). destruct (has_label t p); rewrite ?zlen_cons; lia. Qed.

Lemma labelled_perm t a b : Permutation a b -> labelled t a = labelled t b.
Proof.
  intros P. unfold labelled, zlen. f_equal. apply Permutation_length.
  induction P; cbn [filter]; [constructor|destruct (has_label t x); [now constructor|assumption]| |eapply Permutation_trans; eassumption].
  destruct (has_label t x), (has_label t y); try apply Permutation_refl. constructor.
Qed.

Lemma labelled_classes t l : zlen (filter (fun c => if list_eq_dec Z.eq_dec (class_label (to_i32 c)) t then true else false) (map rc l)) = labelled t l.
Proof.
  unfold labelled. induction l as [|p l IH]; [reflexivity|]. cbn [map filter]. change (has_label t p) with (if list_eq_dec Z.eq_dec (class_label (to_i32 (rc p))) t then true else false).
  destruct (list_eq_dec _ _ _); rewrite ?zlen_cons; lia.
Qed.

(** In the merged file every class is counted as often as in all inputs together. *)
Theorem C123_merge : forall z ZS args bs f fs m warned, zlib_ok z ZS -> Forall is_bytes bs ->
  Forall2 (file_of (read_spoc_file z)) bs (f :: fs) -> fs <> [] -> uniform (flat_map f_prs (f :: fs)) ->
  merge_files z args (map Some bs) = Ret (m, warned) ->
  points m = total (map points (f :: fs)) /\ forall t, reported t m = total (map (reported t) (f :: fs)).
Proof.
  intros z ZS args bs f fs m w Hz B R N U M. destruct (C51_concatenates z ZS args bs f fs Hz B R N U) as (m' & w' & M' & _ & _ & _ & _ & P & _).
  rewrite M in M'. injection M' as <- <-.
  set (idf := fun i => if ma_point_id args <? 0 then i mod 2 ^ 32 else ma_point_id args mod 2 ^ 32).
  change (f_prs m = flat_map (fun '(i, h) => map (with_id (idf i)) (f_prs h)) (numbered 0 (f :: fs))) in P. clearbody idf. split.
  - unfold points at 1. rewrite P. generalize 0. generalize (f :: fs). induction l as [|h l IH]; intros n; [reflexivity|].
    cbn [numbered flat_map map total]. rewrite zlen_app, IH, zlen_map. reflexivity.
  - intros t. rewrite reported_labelled, P. generalize 0. generalize (f :: fs). induction l as [|h l IH]; intros n; [reflexivity|].
    cbn [numbered flat_map map total]. rewrite labelled_app, IH, labelled_id, reported_labelled. reflexivity.
Qed.

(** The tiles together have as many records of every class as the input. *)
Theorem C123_tiles : forall z ZS debug acc args input f fs fs', zlib_ok z ZS -> storable f ->
  file_of (read_spoc_file z) input f -> tile_tool z debug acc args input fs = (fs', Ret tt) ->
  exists tiles, NoDup (map fst tiles)
  /\ (forall name t, In (name, t) tiles -> exists bytes, fs' name = Some bytes /\ read_spoc_file z (i_open bytes) = Ret (t, i_open []))
  /\ (forall name, ~ In name (map fst tiles) -> fs' name = fs name)
  /\ total (map points (map snd tiles)) = points f
  /\ forall t, total (map (reported t) (map snd tiles)) = reported t f.
Proof.
  intros z ZS debug acc args input f fs fs' Hz S F E. destruct (C52_partition z ZS debug acc args input f fs fs' Hz S F E) as (numbers & tiles & Nu & St & P & T & O).
  assert (Nn : Forall (fun k => 0 <= k) (map fst tiles)).
  { apply Forall_forall. intros k I. apply in_map_iff in I as ([k' t] & <- & I). cbn [fst]. destruct (T k' t I) as (_ & E' & Ne & _).
    destruct (numbers_facts args f numbers Nu) as [_ R]. rewrite Forall_forall in R.
    rewrite E' in Ne. unfold numbered_with in Ne. destruct (filter _ _) as [|[n p] l] eqn:Fl; [cbn in Ne; congruence|].
    assert (J : In (n, p) (filter (fun np => fst np =? k') (combine numbers (f_prs f)))) by (rewrite Fl; now left).
    apply filter_In in J as [J Ek]. apply in_combine_l in J. cbn [fst] in Ek. apply Z.eqb_eq in Ek. subst n. now apply R. }
  assert (X : exists ts, Forall2 (fun kt nt => fst nt = tile_name args (f_compressed f) (fst kt)
       /\ (exists bytes, fs' (fst nt) = Some bytes /\ read_spoc_file z (i_open bytes) = Ret (snd nt, i_open []))
       /\ map rc (f_prs (snd nt)) = map rc (f_prs (snd kt))) tiles ts).
  { clear - T. induction tiles as [|[k t] l IH]; [now exists []|].
    destruct IH as (ts & H); [intros k' t' I; apply T; now right|].
    destruct (T k t (or_introl eq_refl)) as (_ & _ & _ & bytes & t' & Eb & _ & K & R).
    exists ((tile_name args (f_compressed f) k, t') :: ts). constructor; [|exact H]. cbn [fst snd]. split; [reflexivity|]. split; [eauto|].
    unfold kept in K. destruct (f_compressed t); [|now subst t']. destruct K as (_ & _ & _ & _ & K). clear - K.
    set (l := f_prs t) in K at 1. clearbody l. induction K as [|p q a b H K IH]; [reflexivity|]. cbn [map]. rewrite IH.
    now destruct H as (_ & _ & _ & -> & _). }
  destruct X as (ts & X). exists ts. 
  assert (Nm : map fst ts = map (tile_name args (f_compressed f)) (map fst tiles)).
  { clear - X. induction X as [|a b l l' (H & _) X IH]; [reflexivity|]. cbn [map]. now rewrite IH, H. }
  split; [|split; [|split]].
  - rewrite Nm. clear - St Nn. induction St as [|k l St IH H]; cbn [map]; constructor; [|apply IH; now inversion Nn].
    intros I. apply in_map_iff in I as (j & E & I). inversion Nn as [|? ? Nk Nl]. subst. rewrite Forall_forall in H, Nl. specialize (H j I). apply tile_name_inj in E; [lia|now apply Nl|exact Nk].
  - intros name t I. destruct (Forall2_In_r _ _ _ _ X I) as (kt & _ & _ & H & _). exact H.
  - intros name H. apply O. intros k t I ->. apply H. rewrite Nm. apply in_map, in_map_iff. now exists (k, t).
  - assert (Y : forall g : list point_record -> Z, (forall a b, map rc a = map rc b -> g a = g b) -> (forall a b, g (a ++ b) = g a + g b) -> g [] = 0 ->
      total (map (fun h => g (f_prs h)) (map snd ts)) = g (flat_map (fun kt => f_prs (snd kt)) tiles)).
    { clear - X. intros g G A Z. induction X as [|a b l l' (_ & _ & H) X IH]; [cbn; now rewrite Z|]. cbn [map total flat_map]. rewrite A, IH. f_equal. now apply G. }
    split.
    + unfold points. rewrite (Y (fun l => zlen l)).
      * unfold zlen. f_equal. now apply Permutation_length.
      * intros a b H. apply (f_equal (@List.length Z)) in H. rewrite !map_length in H. unfold zlen. now rewrite H.
      * intros a b. apply zlen_app.
      * reflexivity.
    + intros t. rewrite reported_labelled, <- (labelled_perm t _ _ P), <- (Y (labelled t)).
      * f_equal. apply map_ext. intros h. apply reported_labelled.
      * intros a b. rewrite <- !labelled_classes. now intros ->.
      * apply labelled_app.
      * reflexivity.
Qed.

(** What keep-class keeps and what remove-class leaves add up to the input. *)
Theorem C123_filters : forall f c, live f -> exists k r, keep_classes f c = Ret k /\ remove_classes f c = Ret r
  /\ points k + points r = points f
  /\ (forall t, reported t k + reported t r = reported t f)
  /\ forall v t, 0 <= v < 2 ^ 31 -> label_of v t ->
       (In v c -> reported t k = reported t f /\ reported t r = 0) /\ (~ In v c -> reported t k = 0 /\ reported t r = reported t f).
Proof.
  intros f c L. destruct (C49_class_filters f c L) as (k & r & K & R & _ & _ & Pk & Pr). exists k, r. split; [exact K|]. split; [exact R|].
  set (in_c := fun p => member (to_i32 (rc p)) c) in *. change (f_prs r = filter (fun p => negb (in_c p)) (f_prs f)) in Pr.
  assert (Sp : forall g : point_record -> bool, forall l, zlen (filter g (filter in_c l)) + zlen (filter g (filter (fun p => negb (in_c p)) l)) = zlen (filter g l)).
  { intros g l. induction l as [|p l IH]; [reflexivity|]. cbn [filter]. destruct (in_c p); cbn [negb filter]; destruct (g p); rewrite ?zlen_cons; lia. }
  split; [|split].
  - unfold points. rewrite Pk, Pr. specialize (Sp (fun _ => true) (f_prs f)).
    assert (T : forall l : list point_record, filter (fun _ => true) l = l) by (induction l as [|a l IH]; cbn; congruence). now rewrite !T in Sp.
  - intros t. rewrite !reported_labelled, Pk, Pr. apply Sp.
  - intros v t V Lt. apply label_of_class in Lt; [|lia]. rewrite !reported_labelled. subst t. rewrite Pk, Pr. unfold labelled.
    assert (E : to_i32 v = v) by (rewrite to_i32_u32 by lia; destruct (Z.ltb_spec v (2 ^ 31)); lia). rewrite E.
    assert (Has : forall p, has_label (class_label v) p = true <-> to_i32 (rc p) = v).
    { intros p. unfold has_label. destruct (list_eq_dec _ _ _) as [Eq|Eq]; split; intros H; try congruence. now apply class_label_inj. }
    specialize (Sp (has_label (class_label v)) (f_prs f)).
    assert (Em : forall g : point_record -> bool, (forall p, has_label (class_label v) p = true -> g p = false) ->
       zlen (filter (has_label (class_label v)) (filter g (f_prs f))) = 0).
    { clear Sp Pk Pr. intros g G. induction (f_prs f) as [|p l IH]; [reflexivity|]. cbn [filter]. destruct (g p) eqn:Eg; [|exact IH]. cbn [filter].
      destruct (has_label (class_label v) p) eqn:Eh; [rewrite G in Eg by exact Eh; discriminate|exact IH]. }
    split; intros I.
    + assert (E0 : zlen (filter (has_label (class_label v)) (filter (fun p => negb (in_c p)) (f_prs f))) = 0); [apply Em|split; lia]. intros p H. apply Has in H. unfold in_c. rewrite H. apply negb_false_iff. now apply member_iff.
    + assert (E0 : zlen (filter (has_label (class_label v)) (filter in_c (f_prs f))) = 0); [apply Em|split; lia]. intros p H. apply Has in H. unfold in_c. rewrite H. destruct (member v c) eqn:M; [|reflexivity]. apply member_iff in M. contradiction.
Qed.

(** Two tiles of three records; two files with the classes 1, 2, 3 merged; and the filters
    for the classes 1 and 3. *)
Definition count_labels : list (list Z) := [chars "001"; chars "002"; chars "003"].
Example C123_example :
  (exists m, merge_files toy (mk_merge_args true (-1)) (map Some [t_bytes t_file; t_bytes t_file]) = Ret (m, false)
     /\ points m = 6 /\ map (fun t => reported t m) count_labels = [2; 2; 2])
  /\ storable t_file /\ file_of (read_spoc_file toy) (t_bytes t_file) t_file
  /\ snd (tile_tool toy false t_all t_args (t_bytes t_file) t_none) = Ret tt
  /\ map (fun t => reported t (mk_file 0 1 (chars "W") false [t_pr d_zero d_zero 1; t_pr d_one d_one 3])) count_labels = [1; 0; 1]
  /\ (exists k r, keep_classes t_file [1; 3] = Ret k /\ remove_classes t_file [1; 3] = Ret r
       /\ map (fun t => reported t k) count_labels = [1; 0; 1] /\ map (fun t => reported t r) count_labels = [0; 1; 0]).
Proof.
  split; [eexists; split; [vm_compute; reflexivity|]; split; vm_compute; reflexivity|]. split.
  - apply t_storable.
  - split; [eexists; vm_compute; reflexivity|]. split; [vm_compute; reflexivity|]. split; [vm_compute; reflexivity|].
    eexists _, _. split; [vm_compute; reflexivity|]. split; [vm_compute; reflexivity|]. split; vm_compute; reflexivity.
Qed.

Print Assumptions C123_merge.
Print Assumptions C123_tiles.
Print Assumptions C123_filters.
