(** C43, C49, C50, C78: spoc_filter. *)
From Coq Require Import String ZArith List Bool Lia Sorting Permutation.
From Verif.Model Require Import Base Double Header PointRecord Point File Subsampling Compression IO AppConvert AppUtils FilterApp.
From Verif.Spec Require Import Files Apps Sampling Streams ZlibContract.
From Verif.Proofs Require Import BaseFacts FileFacts HistoryFacts SubsampleFacts FilterFacts StoreFacts FileMoreFacts FileIOFacts HeaderCutFacts.
From Verif.Props Require Import SearchProps.
Import ListNotations.
Open Scope Z_scope.
Open Scope outcome_scope.

(** ** C49: class filters *)

(** The classes of the set are compared as [int]s. *)
Theorem C49_class_filters : forall f c, live f -> exists k r,
  keep_classes f c = Ret k /\ remove_classes f c = Ret r
  /\ same_meta f k /\ same_meta f r
  /\ f_prs k = filter (fun p => member (to_i32 (rc p)) c) (f_prs f)
  /\ f_prs r = filter (fun p => negb (member (to_i32 (rc p)) c)) (f_prs f).
Proof.
  intros f c L.
  exists (with_prs f (filter (class_in c) (f_prs f))), (with_prs f (filter (fun p => negb (class_in c p)) (f_prs f))).
  split; [now apply filter_file|]. split; [now apply (filter_file (fun p => negb (class_in c p)))|].
  split; [apply with_prs_same|]. split; [apply with_prs_same|]. cbn [f_prs with_prs].
  split; apply filter_ext; intros p; unfold class_in; now rewrite member_existsb.
Qed.

(** So every record, with its multiplicity, is in exactly one of the two results. *)
Theorem C49_partition : forall f c k r, live f -> keep_classes f c = Ret k -> remove_classes f c = Ret r ->
  Permutation (f_prs k ++ f_prs r) (f_prs f)
  /\ sub (f_prs k) (f_prs f) /\ sub (f_prs r) (f_prs f)
  /\ (forall p, In p (f_prs k) -> In p (f_prs r) -> False).
Proof.
  intros f c k r L K R. destruct (C49_class_filters f c L) as (k' & r' & K' & R' & _ & _ & Ek & Er).
  rewrite K in K'. injection K' as <-. rewrite R in R'. injection R' as <-. rewrite Ek, Er.
  split; [apply (filter_partition (fun p => member (to_i32 (rc p)) c))|].
  split; [apply filter_sub|]. split; [apply filter_sub|].
  intros p A B. apply filter_In in A, B. destruct A as [_ A], B as [_ B]. rewrite A in B. discriminate B.
Qed.

(** For classes below 2^31 the comparison is with the class itself; a class from
    2^31 is matched by the negative number [class - 2^32]. *)
Theorem C49_classes_as_int : forall p c, 0 <= rc p < 2 ^ 32 ->
  member (to_i32 (rc p)) c = member (if rc p <? 2 ^ 31 then rc p else rc p - 2 ^ 32) c.
Proof.
  intros p c H. unfold to_i32. change two32 with (2 ^ 32). change two31 with (2 ^ 31). now rewrite Z.mod_small.
Qed.

Definition rec (x : double) (class : Z) : point_record := mk_pr x 0 0 class 0 0 0 0 0 [].
Example C49_example :
  let f := mk_file 0 1 [65] true [rec 0 2; rec 1 5; rec 2 2; rec 3 4294967295] in
  live f
  /\ keep_classes f [2; 9] = Ret (mk_file 0 1 [65] true [rec 0 2; rec 2 2])
  /\ remove_classes f [2; 9] = Ret (mk_file 0 1 [65] true [rec 1 5; rec 3 4294967295])
  /\ keep_classes f [-1] = Ret (mk_file 0 1 [65] true [rec 3 4294967295]).
Proof.
  split; [|now vm_compute]. split; cbn; try lia.
  intros p q Hp Hq. cbn in Hp, Hq. intuition subst; reflexivity.
Qed.

(** ** C50: remove_coords *)

(** The commands: an axis, a comparison and a text for the number. *)
Inductive coords_command : list Z -> (point_record -> double) -> (double -> double -> bool) -> list Z -> Prop :=
| cc : forall a sel o cmp v,
    In (a, sel) [(chars "x", rx); (chars "y", ry); (chars "z", rz)] ->
    In (o, cmp) [(chars "<", fun u w => d_ltb u w); (chars ">", fun u w => d_ltb w u)] ->
    ~ In 32 v -> coords_command (a ++ chars " " ++ o ++ chars " " ++ v) sel cmp v.

Lemma beq_bytes_eq : forall a b, beq_bytes a b = true <-> a = b.
Proof.
  induction a as [|x a IH]; intros [|y b]; cbn; try (split; congruence || reflexivity).
  rewrite andb_true_iff. fold (beq_bytes a b). rewrite IH, Z.eqb_eq. split; [intros [-> ->]; reflexivity|].
  intros [= -> ->]. auto.
Qed.

Lemma axis_value_Ret : forall a sel, axis_value a = Ret sel <->
  In (a, sel) [(chars "x", rx); (chars "y", ry); (chars "z", rz)].
Proof.
  intros a sel. unfold axis_value.
  destruct (beq_bytes a (chars "x")) eqn:X; [apply beq_bytes_eq in X; subst|].
  { split; [intros [= <-]; now left|]. intros [E|[E|[E|[]]]]; inversion E; subst; reflexivity. }
  destruct (beq_bytes a (chars "y")) eqn:Y; [apply beq_bytes_eq in Y; subst|].
  { split; [intros [= <-]; right; now left|]. intros [E|[E|[E|[]]]]; inversion E; subst; reflexivity. }
  destruct (beq_bytes a (chars "z")) eqn:Z; [apply beq_bytes_eq in Z; subst|].
  { split; [intros [= <-]; right; right; now left|]. intros [E|[E|[E|[]]]]; inversion E; subst; reflexivity. }
  split; [intros E; discriminate E|]. intros [E|[E|[E|[]]]]; inversion E; subst; discriminate.
Qed.

Lemma axis_value_Throw : forall a, (exists sel, axis_value a = Ret sel) \/ (exists m, axis_value a = Throw (runtime_error m)).
Proof. intros a. unfold axis_value. repeat match goal with |- context [beq_bytes ?x ?y] => destruct (beq_bytes x y) end; eauto. Qed.

Lemma comparison_Ret : forall o cmp, comparison o = Ret cmp <->
  In (o, cmp) [(chars "<", fun u w => d_ltb u w); (chars ">", fun u w => d_ltb w u)].
Proof.
  intros o cmp. unfold comparison.
  destruct (beq_bytes o (chars ">")) eqn:X; [apply beq_bytes_eq in X; subst|].
  { split; [intros [= <-]; right; now left|]. intros [E|[E|[]]]; inversion E; subst; reflexivity. }
  destruct (beq_bytes o (chars "<")) eqn:Y; [apply beq_bytes_eq in Y; subst|].
  { split; [intros [= <-]; now left|]. intros [E|[E|[]]]; inversion E; subst; reflexivity. }
  split; [intros E; discriminate E|]. intros [E|[E|[]]]; inversion E; subst; discriminate.
Qed.

Lemma comparison_Throw : forall a, (exists sel, comparison a = Ret sel) \/ (exists m, comparison a = Throw (runtime_error m)).
Proof. intros a. unfold comparison. repeat match goal with |- context [beq_bytes ?x ?y] => destruct (beq_bytes x y) end; eauto. Qed.

Lemma command_iff : forall op sel cmp v, coords_command op sel cmp v <->
  exists a o, split_blank op = [a; o; v] /\ axis_value a = Ret sel /\ comparison o = Ret cmp.
Proof.
  intros op sel cmp v. split.
  - intros C. destruct C as [a sel o cmp v A O V]. exists a, o.
    split; [|split; [now apply axis_value_Ret|now apply comparison_Ret]].
    change (chars " ") with [32]. cbn [app].
    rewrite split_blank_app, split_blank_app, split_blank_one; [reflexivity|exact V| |].
    + intros I. cbn [In] in O. destruct O as [E|[E|[]]]; inversion E; subst; cbn in I; lia.
    + intros I. cbn [In] in A. destruct A as [E|[E|[E|[]]]]; inversion E; subst; cbn in I; lia.
  - intros (a & o & S & A & O). apply axis_value_Ret in A. apply comparison_Ret in O.
    destruct (split_blank_inv op) as (w & ws & E & _ & D). rewrite E in S. injection S as -> ->.
    destruct D as [[D _]|(t & -> & D)]; [discriminate D|].
    destruct (split_blank_inv t) as (w & ws & E' & _ & D'). rewrite E' in D. injection D as <- <-.
    destruct D' as [[D' _]|(u & -> & D')]; [discriminate D'|].
    destruct (split_blank_inv u) as (w & ws & E'' & N & D''). rewrite E'' in D'. injection D' as <- <-.
    destruct D'' as [[_ ->]|(x & _ & D'')].
    + now apply (cc a sel o cmp).
    + exfalso. destruct (split_blank_inv x) as (w & ws & E3 & _). rewrite E3 in D''. discriminate D''.
Qed.

(** A well formed command with a number removes exactly the records for which the
    comparison holds (a NaN coordinate never compares). *)
Theorem C50_removes_matching : forall stod f op sel cmp v x n, live f ->
  coords_command op sel cmp v -> stod v = Some (x, n) ->
  exists g, remove_coords stod f op = Ret g /\ same_meta f g
    /\ f_prs g = filter (fun p => negb (cmp (sel p) x)) (f_prs f).
Proof.
  intros stod f op sel cmp v x n L C S. apply command_iff in C as (a & o & Sp & A & O).
  exists (with_prs f (filter (fun p => negb (cmp (sel p) x)) (f_prs f))).
  split; [|split; [apply with_prs_same|reflexivity]].
  pose proof (filter_file (fun p => negb (cmp (sel p) x)) f L) as F.
  unfold remove_coords. rewrite (live_clone f L) in *. cbn [bind] in *. rewrite Sp, A. cbn [bind].
  rewrite O. cbn [bind]. rewrite S. exact F.
Qed.

(** Anything else is refused with a runtime_error. *)
Theorem C50_refuses_others : forall stod f op, live f ->
  ~ (exists sel cmp v x n, coords_command op sel cmp v /\ stod v = Some (x, n)) ->
  exists what, remove_coords stod f op = Throw (runtime_error what).
Proof.
  intros stod f op L H. unfold remove_coords. rewrite (live_clone f L). cbn [bind].
  destruct (split_blank op) as [|a [|o [|v [|w ws]]]] eqn:Sp; eauto.
  destruct (axis_value_Throw a) as [[sel A]|[m A]]; rewrite A; cbn [bind]; [|eauto].
  destruct (comparison_Throw o) as [[cmp O]|[m O]]; rewrite O; cbn [bind]; [|eauto].
  destruct (stod v) as [[x n]|] eqn:S; [|eauto]. exfalso. apply H. exists sel, cmp, v, x, n.
  split; [|exact S]. apply command_iff. eauto.
Qed.

(** "z > v" with a [stod] that knows 1; note that trailing text after the number is
    not an error as [std::stod] ignores it. *)
Definition ex_stod : stod_fn := fun s => match s with 49 :: _ => Some (d_one, 1) | _ => None end.
Example C50_example :
  let f := mk_file 0 1 [] false [mk_pr 0 0 0 1 0 0 0 0 0 []; mk_pr 0 0 4611686018427387904 2 0 0 0 0 0 []] in
  remove_coords ex_stod f (chars "z > 1") = Ret (mk_file 0 1 [] false [mk_pr 0 0 0 1 0 0 0 0 0 []])
  /\ remove_coords ex_stod f (chars "z > 1m") = Ret (mk_file 0 1 [] false [mk_pr 0 0 0 1 0 0 0 0 0 []])
  /\ remove_coords ex_stod f (chars "z  > 1") = Throw (runtime_error "Did not find correct number of arguments for remove-coords option")
  /\ remove_coords ex_stod f (chars "w > 1") = Throw (runtime_error "An invalid coordinate value was given")
  /\ remove_coords ex_stod f (chars "z >= 1") = Throw (runtime_error "An invalid comparison operator was given")
  /\ coords_command (chars "z > 1") rz (fun u w => d_ltb w u) (chars "1").
Proof.
  repeat (split; [vm_compute; reflexivity|]).
  apply (cc (chars "z") rz (chars ">") (fun u w => d_ltb w u) (chars "1")); cbn; auto. lia.
Qed.

(** ** C43: idempotence *)

Theorem C43_keep_classes : forall f c g, live f -> keep_classes f c = Ret g -> keep_classes g c = Ret g.
Proof.
  intros f c g L H. unfold keep_classes in H. rewrite filter_file in H by exact L. injection H as <-.
  unfold keep_classes. rewrite filter_file by now apply live_filter. cbn [f_prs with_prs].
  rewrite filter_filter. reflexivity.
Qed.

Theorem C43_remove_classes : forall f c g, live f -> remove_classes f c = Ret g -> remove_classes g c = Ret g.
Proof.
  intros f c g L H. unfold remove_classes in H. rewrite filter_file in H by exact L. injection H as <-.
  unfold remove_classes. rewrite filter_file by now apply live_filter. cbn [f_prs with_prs].
  rewrite filter_filter. reflexivity.
Qed.

Theorem C43_remove_coords : forall stod f op g, live f -> remove_coords stod f op = Ret g -> remove_coords stod g op = Ret g.
Proof.
  intros stod f op g L H. unfold remove_coords in H. rewrite (live_clone f L) in H. cbn [bind] in H.
  destruct (split_blank op) as [|a [|o [|v [|w ws]]]] eqn:Sp; try discriminate H.
  destruct (axis_value a) as [sel|e|u|] eqn:A; try discriminate H. cbn [bind] in H.
  destruct (comparison o) as [cmp|e|u|] eqn:O; try discriminate H. cbn [bind] in H.
  destruct (stod v) as [[x n]|] eqn:S; [|discriminate H].
  set (k := fun p => negb (cmp (sel p) x)) in *.
  pose proof (filter_file k f L) as F. rewrite (live_clone f L) in F. cbn [bind] in F.
  rewrite F in H. injection H as <-.
  pose proof (filter_file k _ (live_filter k f L)) as F2.
  rewrite (live_clone _ (live_filter k f L)) in F2. cbn [bind f_prs with_prs] in F2. rewrite filter_filter in F2.
  unfold remove_coords. rewrite (live_clone _ (live_filter k f L)). cbn [bind].
  rewrite Sp, A. cbn [bind]. rewrite O. cbn [bind]. rewrite S. exact F2.
Qed.

Lemma unique_sel : forall sh f seed g, permutes sh -> live f -> unique_xyz sh f seed = Ret g ->
  exists idx, get_unique_xyz_indexes sh (map pr_pt (f_prs f)) seed = Ret idx
    /\ map Some (f_prs g) = map (znth (f_prs f)) idx /\ NoDup idx /\ (forall i, In i idx -> 0 <= i < zlen (f_prs f))
    /\ g = with_prs f (f_prs g).
Proof.
  intros sh f seed g P L H. unfold unique_xyz in H. rewrite (live_clone f L) in H. cbn [bind] in H.
  destruct (C42_one_per_location sh (map pr_pt (f_prs f)) seed P) as (idx & E & N & B & _).
  rewrite E in H. cbn [bind] in H. rewrite zlen_map in B.
  destruct (push_at_map (f_prs f) idx (with_prs f [])) as (sel & E' & M); [cbn; apply L|exact B|].
  rewrite E' in H. injection H as <-. exists idx. cbn [f_prs with_prs app]. auto.
Qed.

(** A file whose locations are pairwise different is left alone with seed 0, and
    only reordered with any other seed; and the result of unique-xyz, with whatever
    seed, is such a file. *)
Theorem C43_unique_xyz : forall sh f seed g seed', permutes sh -> live f -> unique_xyz sh f seed = Ret g ->
  exists g', unique_xyz sh g seed' = Ret g' /\ same_meta g g' /\ Permutation (f_prs g') (f_prs g)
    /\ (seed' = 0 -> g' = g).
Proof.
  intros sh f seed g seed' P L H.
  destruct (unique_sel sh f seed g P L H) as (idx & E & M & N & B & G).
  assert (Lg : live g).
  { rewrite G. apply live_sub; [exact L|]. intros p Hp.
    apply (in_map Some) in Hp. rewrite M in Hp. apply in_map_iff in Hp as (i & Hi & _). now apply znth_In in Hi. }
  set (n := length (f_prs g)).
  assert (A : forall i j, 0 <= i < Z.of_nat n -> 0 <= j < Z.of_nat n -> i <> j ->
     same_of pt_eqb (map pr_pt (f_prs g)) i j = false).
  { destruct (C42_one_per_location sh (map pr_pt (f_prs f)) seed P) as (idx' & E' & _ & _ & D & _).
    rewrite E in E'. injection E' as <-.
    assert (Ln : zlen idx = Z.of_nat n).
    { apply (f_equal (@length _)) in M. rewrite !map_length in M. unfold zlen. now rewrite <- M. }
    assert (K : forall i, 0 <= i < Z.of_nat n -> exists a p, znth idx i = Some a /\ In a idx
      /\ znth (f_prs g) i = Some p /\ znth (f_prs f) a = Some p).
    { intros i Hi. destruct (znth_in_range idx i ltac:(lia)) as [a Ha].
      destruct (znth_in_range (f_prs g) i ltac:(unfold zlen; fold n; lia)) as [p Hp].
      exists a, p. split; [exact Ha|]. split; [now apply znth_In in Ha|]. split; [exact Hp|].
      pose proof (f_equal (fun l => znth l i) M) as Q. cbv beta in Q. rewrite !znth_map, Ha, Hp in Q.
      cbn in Q. now injection Q as <-. }
    intros i j Hi Hj Ne. destruct (K i Hi) as (a & p & Ha & Ia & Hp & Fa). destruct (K j Hj) as (b & q & Hb & Ib & Hq & Fb).
    unfold same_of. rewrite !znth_map, Hp, Hq. cbn [option_map].
    apply (D a b); auto.
    - intros ->. apply Ne. apply (NoDup_znth idx N i j b Ha Hb).
    - rewrite znth_map, Fa. reflexivity.
    - rewrite znth_map, Fb. reflexivity. }
  pose proof (unique_shape sh (map pr_pt (f_prs g)) seed' P) as U.
  rewrite firsts_all in U.
  2:{ cbn [app]. intros i j Ii Ij Ne. apply visit_order_In in Ii, Ij; try exact P. rewrite map_length in Ii, Ij.
      now apply A. }
  2:{ cbn [app]. now apply visit_order_nodup. }
  cbn [app] in U. rewrite map_length in U. fold n in U.
  destruct (push_at_map (f_prs g) (visit_order sh n seed') (with_prs g [])) as (sel & E' & M').
  { cbn. apply Lg. }
  { intros i I. apply visit_order_In in I; [|exact P]. unfold zlen. fold n. exact I. }
  exists (with_prs g sel). split; [|split; [apply with_prs_same|split]].
  - unfold unique_xyz. rewrite (live_clone g Lg). cbn [bind]. rewrite U. cbn [bind].
    rewrite E'. reflexivity.
  - cbn [f_prs with_prs].
    assert (Q : Permutation (map Some sel) (map Some (f_prs g))).
    { rewrite M'. rewrite <- (znth_iota_id (f_prs g)). apply Permutation_map. fold n. now apply visit_order_perm. }
    clear - Q. apply (Permutation_map (fun o => match o with Some p => p | None => pr_zero 0 end)) in Q.
    rewrite !map_map, !map_id in Q. exact Q.
  - intros ->. unfold visit_order in M'. cbn [Z.eqb] in M'. unfold n in M'. rewrite znth_iota_id in M'.
    apply map_Some_inj in M'. subst sel. now destruct g.
Qed.

(** Subsampling twice can remove more: 0.5, 0, 1.4 with resolution 1. *)
Definition d_half : double := 4602678819172646912.
Definition d_1_4 : double := 4608983858650965606.
Theorem C43_subsample_not_idempotent : forall sh, exists f g h,
  live f /\ subsample_file sh f d_one 0 = Ret g /\ subsample_file sh g d_one 0 = Ret h
  /\ length (f_prs g) = 2%nat /\ length (f_prs h) = 1%nat.
Proof.
  intros sh.
  exists (mk_file 0 1 [] false [rec d_half 0; rec 0 0; rec d_1_4 0]),
    (mk_file 0 1 [] false [rec d_half 0; rec d_1_4 0]), (mk_file 0 1 [] false [rec d_half 0]).
  split; [|split; [vm_compute; reflexivity|split; [vm_compute; reflexivity|split; reflexivity]]].
  split; cbn; try lia. intros p q Hp Hq. cbn in Hp, Hq. intuition subst; reflexivity.
Qed.

Example C43_example :
  let f := mk_file 0 1 [] false [rec 0 2; rec 1 5; rec 0 3; rec 1 2] in
  unique_xyz (fun _ l => rev l) f 0 = Ret (mk_file 0 1 [] false [rec 0 2; rec 1 5])
  /\ unique_xyz (fun _ l => rev l) f 7 = Ret (mk_file 0 1 [] false [rec 1 2; rec 0 3])
  /\ keep_classes f [2] = Ret (mk_file 0 1 [] false [rec 0 2; rec 1 2]).
Proof. now vm_compute. Qed.

(** ** C78: the whole program *)

Lemma index_facts : forall sh prs res seed idx, permutes sh ->
  get_subsample_indexes sh (map pr_pt prs) res seed = Ret idx ->
  NoDup idx /\ (forall i, In i idx -> 0 <= i < zlen prs) /\ (seed = 0 -> StronglySorted Z.lt idx).
Proof.
  intros sh prs res seed idx P E.
  destruct (proj1 (C41_succeeds sh (map pr_pt prs) res seed P) (ex_intro _ idx E)) as [vs V].
  destruct (C41_one_per_voxel sh _ res seed vs idx P V E) as (N & B & _). rewrite zlen_map in B.
  split; [exact N|]. split; [exact B|]. intros ->. exact (proj1 (C41_seed_zero sh _ res vs idx V E)).
Qed.

(** What one step does to the records. *)
Definition selects (seed : Z) (f g : spoc_file) : Prop :=
  live g /\ same_meta f g /\ (exists rest, Permutation (f_prs g ++ rest) (f_prs f))
  /\ (seed = 0 -> sub (f_prs g) (f_prs f)).

Lemma selects_refl : forall seed f, live f -> selects seed f f.
Proof.
  intros seed f L. split; [exact L|]. split; [now repeat split|]. split; [exists []; now rewrite app_nil_r|].
  intros _. apply sub_refl.
Qed.

Lemma selects_trans : forall seed f g h, selects seed f g -> selects seed g h -> selects seed f h.
Proof.
  intros seed f g h (L1 & M1 & (r1 & P1) & S1) (L2 & M2 & (r2 & P2) & S2).
  split; [exact L2|]. split; [unfold same_meta in *; intuition congruence|]. split.
  - exists (r2 ++ r1). rewrite app_assoc. etransitivity; [apply Permutation_app_tail; exact P2|exact P1].
  - intros H. eapply sub_trans; [now apply S2|now apply S1].
Qed.

Lemma selects_prs : forall seed f prs, live f -> (exists rest, Permutation (prs ++ rest) (f_prs f)) ->
  (seed = 0 -> sub prs (f_prs f)) -> selects seed f (with_prs f prs).
Proof.
  intros seed f prs L (rest & P) S. split; [|split; [apply with_prs_same|split; [exists rest; exact P|exact S]]].
  apply live_sub; [exact L|]. intros p I. eapply Permutation_in; [exact P|]. apply in_or_app. now left.
Qed.

Lemma selects_filter : forall seed keep f, live f -> selects seed f (with_prs f (filter keep (f_prs f))).
Proof.
  intros seed keep f L. apply selects_prs; [exact L| |intros _; apply filter_sub]. apply sub_picks, filter_sub.
Qed.

Lemma selects_assign : forall seed flag f e g, live f -> (forall g, e = Ret g -> selects seed f g) ->
  assign_if flag f e = Ret g -> selects seed f g.
Proof.
  intros seed flag f e g L H E. unfold assign_if in E. destruct flag.
  - destruct e as [h|x|u|]; try discriminate E. cbn [bind] in E. specialize (H h eq_refl).
    rewrite live_copy in E by apply H. injection E as <-. exact H.
  - injection E as <-. now apply selects_refl.
Qed.

(** Whatever the options, the result consists of records of the input, unchanged
    and none used twice, with the metadata of the input; with seed 0 they are in the
    order of the input. *)
Theorem C78_only_selects : forall sh stod args f g, permutes sh -> live f ->
  filter_process sh stod args f = Ret g ->
  same_meta f g /\ (exists rest, Permutation (f_prs g ++ rest) (f_prs f))
  /\ (fa_seed args = 0 -> sub (f_prs g) (f_prs f)).
Proof.
  intros sh stod args f g P L H. enough (S : selects (fa_seed args) f g) by apply S.
  unfold filter_process in H.
  apply bind_Ret_inv in H as (f1 & H1 & H). apply bind_Ret_inv in H as (f2 & H2 & H).
  apply bind_Ret_inv in H as (f3 & H3 & H). apply bind_Ret_inv in H as (f4 & H4 & H5).
  assert (S1 : selects (fa_seed args) f f1).
  { eapply selects_assign; [exact L| |exact H1]. intros k E. unfold keep_classes in E.
    rewrite filter_file in E by exact L. injection E as <-. now apply selects_filter. }
  assert (L1 : live f1) by apply S1.
  assert (S2 : selects (fa_seed args) f1 f2).
  { eapply selects_assign; [exact L1| |exact H2]. intros k E. unfold remove_classes in E.
    rewrite filter_file in E by exact L1. injection E as <-. now apply selects_filter. }
  assert (L2 : live f2) by apply S2.
  assert (S3 : selects (fa_seed args) f2 f3).
  { eapply selects_assign; [exact L2| |exact H3]. intros k E.
    destruct (unique_sel sh f2 (fa_seed args) k P L2 E) as (idx & Ei & M & N & B & G).
    rewrite G. apply selects_prs; [exact L2|exact (nodup_picks _ _ _ N B M)|].
    intros Z. rewrite Z in Ei. eapply sorted_pick_sub; [exact (proj1 (C42_seed_zero sh _ idx Ei))| |exact M].
    intros i I. apply B in I. lia. }
  assert (L3 : live f3) by apply S3.
  assert (S4 : selects (fa_seed args) f3 f4).
  { eapply selects_assign; [exact L3| |exact H4]. intros k E. unfold subsample_file in E.
    rewrite (live_clone f3 L3) in E. cbn [bind] in E. apply bind_Ret_inv in E as (prs & Ep & E).
    apply C41_points in Ep as (idx & Ei & M). destruct (index_facts _ _ _ _ _ P Ei) as (N & B & S).
    destruct (nodup_picks _ _ _ N B M) as [rest PP].
    unfold after, set_point_records, m_then, m_throw_if, m_update in E.
    destruct (all_same_size_extra prs); cbn [negb] in E; [|discriminate E]. injection E as <-.
    change (with_prs (with_prs f3 []) prs) with (with_prs f3 prs).
    apply selects_prs; [exact L3|exists rest; exact PP|]. intros Z. eapply sorted_pick_sub; [now apply S| |exact M].
    intros i I. apply B in I. lia. }
  assert (L4 : live f4) by apply S4.
  assert (S5 : selects (fa_seed args) f4 g).
  { eapply selects_assign; [exact L4| |exact H5]. intros k E. unfold remove_coords in E.
    rewrite (live_clone f4 L4) in E. cbn [bind] in E.
    destruct (split_blank (fa_coords args)) as [|a [|o [|v [|w ws]]]]; try discriminate E.
    apply bind_Ret_inv in E as (sel & _ & E). apply bind_Ret_inv in E as (cmp & _ & E).
    destruct (stod v) as [[x n]|]; [|discriminate E].
    pose proof (filter_file (fun p => negb (cmp (sel p) x)) f4 L4) as F. rewrite (live_clone f4 L4) in F. cbn [bind] in F.
    rewrite F in E. injection E as <-. now apply selects_filter. }
  eapply selects_trans; [exact S1|]. eapply selects_trans; [exact S2|]. eapply selects_trans; [exact S3|].
  eapply selects_trans; [exact S4|exact S5].
Qed.

(** From file to file: given the bytes of a file the program either fails and writes
    nothing, or writes a file that reads back as the selected records. *)
Theorem C78_file_to_file : forall z ZS sh stod debug args f, zlib_ok z ZS -> permutes sh -> storable f ->
  exists input f1, appends (write_spoc_file z debug f) input /\ kept f f1
  /\ match filter_process sh stod args f1 with
     | Ret g => exists output g', appends (filter_tool z sh stod debug args input) output /\ kept g g'
                  /\ read_spoc_file z (i_open output) = Ret (g', i_open [])
     | Throw e => forall os, filter_tool z sh stod debug args input os = (os, Throw e)
     | UB u => forall os, filter_tool z sh stod debug args input os = (os, UB u)
     | Hang => forall os, filter_tool z sh stod debug args input os = (os, Hang)
     end.
Proof.
  intros z ZS sh stod debug args f Hz P S.
  destruct (storable_one z ZS debug f Hz S) as (input & f1 & W & B & K & R).
  pose proof (kept_storable f f1 S K) as S1.
  exists input, f1. split; [now apply emits_appends|]. split; [exact K|].
  assert (R0 : read_spoc_file z (i_open input) = Ret (f1, i_open [])).
  { rewrite <- (app_nil_r input). apply R. constructor. }
  assert (L : live f1).
  { destruct S1 as ([A1 A2 _ _ _ A3 _] & _). split; [lia|lia|exact A3]. }
  unfold filter_tool. unfold from_input. rewrite R0.
  destruct (filter_process sh stod args f1) as [g|e|u|] eqn:E.
  - destruct (C78_only_selects sh stod args f1 g P L E) as ((M1 & M2 & M3 & M4) & (rest & Pm) & _).
    assert (Sg : storable g).
    { assert (G : with_prs f1 (f_prs g) = g) by (clear - M1 M2 M3 M4; destruct g, f1; cbn in *; unfold with_prs; cbn; congruence).
      rewrite <- G.
      apply storable_pick; [exact S1| |].
      - intros p I. eapply Permutation_in; [exact Pm|]. apply in_or_app. now left.
      - apply Permutation_length in Pm. rewrite app_length in Pm. lia. }
    destruct (storable_one z ZS debug g Hz Sg) as (output & g' & W' & B' & K' & R').
    exists output, g'. split; [|split; [exact K'|]].
    + apply emits_appends. intros s Hs. unfold w_bind, w_lift. rewrite E. now apply W'.
    + rewrite <- (app_nil_r output). apply R'. constructor.
  - intros os. unfold w_bind, w_lift. now rewrite E.
  - intros os. unfold w_bind, w_lift. now rewrite E.
  - intros os. unfold w_bind, w_lift. now rewrite E.
Qed.

(** Without subsampling the program succeeds, or refuses the remove-coords text. *)
Theorem C78_succeeds : forall sh stod args f, permutes sh -> live f -> d_gtb (fa_subsample args) d_zero = false ->
  (exists g, filter_process sh stod args f = Ret g)
  \/ (fa_coords args <> [] /\ exists what, filter_process sh stod args f = Throw (runtime_error what)).
Proof.
  intros sh stod args f P L N. unfold filter_process. rewrite N.
  assert (A1 : exists f1, live f1 /\ assign_if (nonempty (fa_keep args)) f (keep_classes f (fa_keep args)) = Ret f1).
  { unfold assign_if, keep_classes. destruct (nonempty _); [|eauto]. rewrite filter_file by exact L. cbn [bind].
    pose proof (live_filter (class_in (fa_keep args)) f L) as L1. rewrite live_copy by exact L1. eauto. }
  destruct A1 as (f1 & L1 & ->). cbn [bind].
  assert (A2 : exists f2, live f2 /\ assign_if (nonempty (fa_remove args)) f1 (remove_classes f1 (fa_remove args)) = Ret f2).
  { unfold assign_if, remove_classes. destruct (nonempty _); [|eauto]. rewrite filter_file by exact L1. cbn [bind].
    pose proof (live_filter (fun p => negb (class_in (fa_remove args) p)) f1 L1) as L2.
    rewrite live_copy by exact L2. eauto. }
  destruct A2 as (f2 & L2 & ->). cbn [bind].
  assert (A3 : exists f3, live f3 /\ assign_if (fa_unique args) f2 (unique_xyz sh f2 (fa_seed args)) = Ret f3).
  { unfold assign_if. destruct (fa_unique args); [|eauto].
    destruct (C42_one_per_location sh (map pr_pt (f_prs f2)) (fa_seed args) P) as (idx & E & _ & B & _).
    rewrite zlen_map in B. unfold unique_xyz. rewrite (live_clone f2 L2). cbn [bind]. rewrite E. cbn [bind].
    destruct (push_at_map (f_prs f2) idx (with_prs f2 [])) as (sel & E' & M); [cbn; apply L2|exact B|].
    rewrite E'. cbn [bind f_prs with_prs app f_major f_minor f_wkt f_compressed].
    change (with_prs (with_prs f2 []) sel) with (with_prs f2 sel).
    assert (L3 : live (with_prs f2 sel)).
    { apply live_sub; [exact L2|]. intros p I. apply (in_map Some) in I. rewrite M in I.
      apply in_map_iff in I as (i & Hi & _). now apply znth_In in Hi. }
    rewrite live_copy by exact L3. eauto. }
  destruct A3 as (f3 & L3 & ->). cbn [bind]. unfold assign_if at 1. cbn [bind]. unfold assign_if.
  destruct (fa_coords args) as [|c t] eqn:C; cbn [nonempty]; [eauto|].
  assert (R : (exists g, live g /\ remove_coords stod f3 (c :: t) = Ret g)
    \/ exists what, remove_coords stod f3 (c :: t) = Throw (runtime_error what)).
  { unfold remove_coords. destruct (split_blank (c :: t)) as [|a [|o [|v [|w ws]]]];
      try (right; rewrite (live_clone f3 L3); eexists; reflexivity).
    destruct (axis_value_Throw a) as [[sel ->]|[m ->]];
      [|right; rewrite (live_clone f3 L3); eexists; reflexivity].
    destruct (comparison_Throw o) as [[cmp ->]|[m ->]];
      [|right; rewrite (live_clone f3 L3); eexists; reflexivity].
    destruct (stod v) as [[x n]|]; [|right; rewrite (live_clone f3 L3); eexists; reflexivity].
    left. exists (with_prs f3 (filter (fun p => negb (cmp (sel p) x)) (f_prs f3))).
    split; [now apply live_filter|]. exact (filter_file (fun p => negb (cmp (sel p) x)) f3 L3). }
  destruct R as [(g & Lg & R)|(what & R)].
  - left. rewrite R. cbn [bind]. rewrite live_copy by exact Lg. eauto.
  - right. split; [discriminate|]. exists what. cbn [bind]. rewrite R. reflexivity.
Qed.

(** All options at once. *)
Example C78_example :
  let f := mk_file 0 1 [65] false [rec 0 2; rec 0 2; rec d_one 3; rec d_1_4 2; rec d_half 2; rec d_one 2] in
  let run args := filter_process (fun _ l => l) ex_stod args f in
  run (mk_filter_args [2] 0 [7] true d_zero (chars "x > 1")) = Ret (mk_file 0 1 [65] false [rec 0 2; rec d_half 2; rec d_one 2])
  /\ run (mk_filter_args [2; 3] 0 [] false d_one []) = Ret (mk_file 0 1 [65] false [rec 0 2; rec d_one 3])
  /\ run (mk_filter_args [] 0 [] false d_zero (chars "x > b"))
     = Throw (runtime_error "Failed to convert comparison value to double for remove-coords option in spoc_filter. Did you format the option correctly?").
Proof. now vm_compute. Qed.

Print Assumptions C43_keep_classes.
Print Assumptions C43_remove_classes.
Print Assumptions C43_remove_coords.
Print Assumptions C43_unique_xyz.
Print Assumptions C43_subsample_not_idempotent.
Print Assumptions C49_class_filters.
Print Assumptions C49_partition.
Print Assumptions C49_classes_as_int.
Print Assumptions C50_removes_matching.
Print Assumptions C50_refuses_others.
Print Assumptions C78_only_selects.
Print Assumptions C78_file_to_file.
Print Assumptions C78_succeeds.
