(** C109: one run of spoc_filter or several, and the order of the filters. *)
From Coq Require Import String ZArith List Bool Lia Permutation.
From Verif.Model Require Import Base Double Arith Header PointRecord Point File Subsampling Compression IO AppUtils AppConvert FilterApp
  GetOpt Commands Programs.
From Verif.Spec Require Import Streams Files Apps ZlibContract CommandLines Sampling FilterOrder.
From Verif.Proofs Require Import BaseFacts OrderFacts FilterFacts SubsampleFacts.
From Verif.Props Require Import GeometryProps SearchProps FilterProps ScenarioProps.
Import ListNotations.
Open Scope Z_scope.
Open Scope outcome_scope.

(** ** The filters by class and coordinate commute *)

(** Each of them keeps the records that satisfy a condition. *)
Lemma one_filter : forall stod F, one_by_one stod F ->
  exists k, forall f, live f -> F f = Ret (with_prs f (filter k (f_prs f))).
Proof.
  intros stod F H. destruct H as [c|c|a o v x n A O V S].
  - exists (class_in c). intros f L. now apply filter_file.
  - exists (fun p => negb (class_in c p)). intros f L. now apply filter_file.
  - assert (Ea : exists sel, In (a, sel) [(chars "x", rx); (chars "y", ry); (chars "z", rz)]).
    { cbn [map In] in A. destruct A as [<-|[<-|[<-|[]]]]; eexists; cbn; eauto. }
    assert (Eo : exists cmp, In (o, cmp) [(chars "<", fun u w => d_ltb u w); (chars ">", fun u w => d_ltb w u)]).
    { cbn [map In] in O. destruct O as [<-|[<-|[]]]; eexists; cbn; eauto. }
    destruct Ea as [sel Ea]. destruct Eo as [cmp Eo]. exists (fun p => negb (cmp (sel p) x)). intros f L.
    destruct (C50_removes_matching stod f _ sel cmp v x n L (cc a sel o cmp v Ea Eo V) S) as (g & E & (M1 & M2 & M3 & M4) & P).
    rewrite E. f_equal. unfold with_prs. rewrite <- P. destruct g; cbn in *. congruence.
Qed.

Lemma filter_twice : forall {A} (k j : A -> bool) l, filter j (filter k l) = filter k (filter j l).
Proof.
  induction l as [|a t IH]; [reflexivity|]. cbn. destruct (k a) eqn:K, (j a) eqn:J; cbn; rewrite ?K, ?J, IH; reflexivity.
Qed.

(** Any two of keep-class, remove-class and remove-coords can be exchanged. *)
Theorem C109_commute : forall stod F G f, one_by_one stod F -> one_by_one stod G -> live f ->
  exists g, (h <- F f ;; G h) = Ret g /\ (h <- G f ;; F h) = Ret g.
Proof.
  intros stod F G f HF HG L. destruct (one_filter stod F HF) as [k K]. destruct (one_filter stod G HG) as [j J].
  eexists. rewrite K, J by exact L. cbn [bind]. rewrite K, J by now apply live_filter. cbn [f_prs with_prs].
  split; [reflexivity|]. now rewrite filter_twice.
Qed.

(** ** unique-xyz and remove-coords *)

(** The records whose location is not among [seen] or at an earlier record. *)
Fixpoint fresh (seen : list point) (l : list point_record) : list point_record :=
  match l with
  | [] => []
  | p :: t => if xyz_mem (pr_pt p) seen then fresh seen t else p :: fresh (seen ++ [pr_pt p]) t
  end.

Lemma unique_loop_fresh : forall post pre s r, exists r',
  unique_loop (map pr_pt (pre ++ post)) (map Z.of_nat (seq (length pre) (length post))) s r = Ret (r ++ r')
  /\ map (znth (pre ++ post)) r' = map Some (fresh s post) /\ Forall (fun i => 0 <= i < zlen (pre ++ post)) r'.
Proof.
  induction post as [|p post IH]; intros pre s r; cbn [length seq map unique_loop fresh].
  - exists []. rewrite app_nil_r. auto.
  - assert (E : znth (pre ++ p :: post) (Z.of_nat (length pre)) = Some p).
    { change (Z.of_nat (length pre)) with (zlen pre). rewrite znth_app_r by (unfold zlen; lia). now rewrite Z.sub_diag. }
    assert (E' : znth (map pr_pt (pre ++ p :: post)) (Z.of_nat (length pre)) = Some (pr_pt p)) by (rewrite znth_map, E; reflexivity).
    unfold vec_get. rewrite E'. cbn [bind].
    replace (pre ++ p :: post) with ((pre ++ [p]) ++ post) by (now rewrite <- app_assoc).
    replace (S (length pre)) with (length (pre ++ [p])) by (rewrite app_length; cbn; lia).
    destruct (xyz_mem (pr_pt p) s).
    + apply IH.
    + destruct (IH (pre ++ [p]) (s ++ [pr_pt p]) (r ++ [Z.of_nat (length pre)])) as (r' & A & B & C).
      exists (Z.of_nat (length pre) :: r'). rewrite A, <- app_assoc. split; [reflexivity|]. cbn [map]. rewrite B. split.
      * f_equal. now rewrite <- app_assoc.
      * constructor; [|exact C]. unfold zlen. rewrite !app_length. cbn. lia.
Qed.

Lemma map_some_inj : forall {A} (l m : list A), map Some l = map Some m -> l = m.
Proof. induction l as [|a l IH]; intros [|b m] H; try discriminate; [reflexivity|]. injection H as -> H. f_equal. now apply IH. Qed.

Lemma unique_fresh : forall sh f, live f -> unique_xyz sh f 0 = Ret (with_prs f (fresh [] (f_prs f))).
Proof.
  intros sh f L. unfold unique_xyz. rewrite (live_clone f L). cbn [bind].
  destruct (unique_loop_fresh (f_prs f) [] [] []) as (r & A & B & C). cbn [app length] in A, B, C.
  unfold get_unique_xyz_indexes, visit_order, iota. change (0 =? 0) with true. cbv iota. rewrite map_length, A. cbn [bind].
  destruct (push_at_map (f_prs f) r (with_prs f [])) as (sel & E & M); [cbn; apply L|now apply Forall_forall|].
  rewrite E. cbn [f_prs with_prs app]. rewrite B in M. apply map_some_inj in M. now subst.
Qed.

Lemma fresh_filter : forall k, (forall p q, pt_eqb (pr_pt p) (pr_pt q) = true -> k p = k q) ->
  forall l s s', (forall p, k p = true -> xyz_mem (pr_pt p) s' = xyz_mem (pr_pt p) s) ->
  fresh s' (filter k l) = filter k (fresh s l).
Proof.
  intros k K. induction l as [|p l IH]; intros s s' H; [reflexivity|]. cbn [filter fresh].
  destruct (k p) eqn:Kp.
  - cbn [fresh]. rewrite (H p Kp). destruct (xyz_mem (pr_pt p) s); [now apply IH|]. cbn [filter]. rewrite Kp. f_equal. apply IH.
    intros q Kq. unfold xyz_mem. rewrite !existsb_app. fold (xyz_mem (pr_pt q) s') (xyz_mem (pr_pt q) s). now rewrite H.
  - destruct (xyz_mem (pr_pt p) s); [now apply IH|]. cbn [filter]. rewrite Kp. apply IH.
    intros q Kq. unfold xyz_mem at 2. rewrite existsb_app. fold (xyz_mem (pr_pt q) s). cbn [existsb].
    destruct (pt_eqb (pr_pt p) (pr_pt q)) eqn:E; [rewrite (K p q E) in Kp; congruence|]. rewrite !orb_false_r. now apply H.
Qed.

Lemma ltb_same : forall a b x, d_eqb a b = true -> d_ltb a x = d_ltb b x /\ d_ltb x a = d_ltb x b.
Proof.
  intros a b x E. unfold d_eqb in E. apply andb_true_iff in E as [N E]. apply andb_true_iff in N as [Na Nb] || idtac.
  unfold d_ltb. apply Z.eqb_eq in E. rewrite E. destruct (d_is_nan a), (d_is_nan b); cbn in *; try discriminate; auto.
Qed.

Lemma eqb_coords : forall p q, pt_eqb (pr_pt p) (pr_pt q) = true -> d_eqb (rx p) (rx q) = true /\ d_eqb (ry p) (ry q) = true /\ d_eqb (rz p) (rz q) = true.
Proof. intros p q H. unfold pt_eqb, d_neb in H. cbn in H. destruct (d_eqb (rx p) (rx q)), (d_eqb (ry p) (ry q)), (d_eqb (rz p) (rz q)); cbn in H; try discriminate; auto. Qed.

(** remove-coords looks only at the location, so that unique-xyz and it can be exchanged. *)
Theorem C109_unique_coords : forall sh stod f a o v x n, live f ->
  In a (map chars ["x"; "y"; "z"]%string) -> In o (map chars ["<"; ">"]%string) -> ~ In 32 v -> stod v = Some (x, n) ->
  let op := a ++ chars " " ++ o ++ chars " " ++ v in
  exists g, (h <- unique_xyz sh f 0 ;; remove_coords stod h op) = Ret g
    /\ (h <- remove_coords stod f op ;; unique_xyz sh h 0) = Ret g.
Proof.
  intros sh stod f a o v x n L A O V S op.
  assert (K : exists k, (forall f, live f -> remove_coords stod f op = Ret (with_prs f (filter k (f_prs f))))
    /\ forall p q, pt_eqb (pr_pt p) (pr_pt q) = true -> k p = k q).
  { assert (Ea : exists sel, In (a, sel) [(chars "x", rx); (chars "y", ry); (chars "z", rz)]).
    { cbn [map In] in A. destruct A as [<-|[<-|[<-|[]]]]; eexists; cbn; eauto. }
    assert (Eo : exists cmp, In (o, cmp) [(chars "<", fun u w => d_ltb u w); (chars ">", fun u w => d_ltb w u)]).
    { cbn [map In] in O. destruct O as [<-|[<-|[]]]; eexists; cbn; eauto. }
    destruct Ea as [sel Ea]. destruct Eo as [cmp Eo]. exists (fun p => negb (cmp (sel p) x)). split.
    - intros g Lg. destruct (C50_removes_matching stod g _ sel cmp v x n Lg (cc a sel o cmp v Ea Eo V) S) as (h & E & (M1 & M2 & M3 & M4) & P).
      unfold op. rewrite E. f_equal. unfold with_prs. rewrite <- P. destruct h; cbn in *. congruence.
    - intros p q E. apply eqb_coords in E as (X & Y & Z). f_equal.
      assert (Q : d_eqb (sel p) (sel q) = true) by (destruct Ea as [T|[T|[T|[]]]]; inversion T; subst; assumption).
      destruct (ltb_same _ _ x Q). destruct Eo as [T|[T|[]]]; inversion T; subst; assumption. }
  destruct K as (k & K & R). eexists. rewrite unique_fresh, K by exact L. cbn [bind].
  rewrite K, unique_fresh.
  - cbn [f_prs with_prs]. split; [reflexivity|]. unfold with_prs. cbn. do 2 f_equal. now apply fresh_filter.
  - now apply live_filter.
  - apply live_sub; [exact L|]. clear. generalize (@nil point) as s. induction (f_prs f) as [|p l IH]; intros s q; cbn; [auto|].
    destruct (xyz_mem _ _); [|intros [<-|H]; [auto|]]; eauto.
Qed.

(** ** Where the order matters *)

(** Two records at the same place, of classes 5 and 2: removing duplicates first leaves none of
    class 2.  Two points one half apart: subsampling first can keep the one that remove-coords removes. *)
Theorem C109_order_matters : forall sh stod,
  (exists f, live f
     /\ exists g h, (u <- unique_xyz sh f 0 ;; keep_classes u [2]) = Ret g /\ (u <- keep_classes f [2] ;; unique_xyz sh u 0) = Ret h
          /\ f_prs g = [] /\ exists p, f_prs h = [p] /\ rc p = 2)
  /\ (stod (chars "1") = Some (d_one, 1) -> exists f, live f
     /\ exists g h, (u <- subsample_file sh f d_one 0 ;; remove_coords stod u (chars "x < 1")) = Ret g
          /\ (u <- remove_coords stod f (chars "x < 1") ;; subsample_file sh u d_one 0) = Ret h
          /\ f_prs g = [] /\ exists p, f_prs h = [p] /\ rx p = d_one).
Proof.
  intros sh stod. split.
  - exists (mk_file 0 1 [] false [rec 0 5; rec 0 2]). split.
    + split; cbn; try lia. intros p q Hp Hq. cbn in Hp, Hq. intuition subst; reflexivity.
    + eexists. eexists. split; [vm_compute; reflexivity|]. split; [vm_compute; reflexivity|]. split; [reflexivity|].
      eexists. split; reflexivity.
  - intros S. exists (mk_file 0 1 [] false [rec d_half 0; rec d_one 0]).
    assert (L : live (mk_file 0 1 [] false [rec d_half 0; rec d_one 0])).
    { split; cbn; try lia. intros p q Hp Hq. cbn in Hp, Hq. intuition subst; reflexivity. }
    split; [exact L|].
    assert (K : forall f, live f -> exists g, remove_coords stod f (chars "x < 1") = Ret g /\ same_meta f g
      /\ f_prs g = filter (fun p => negb (d_ltb (rx p) d_one)) (f_prs f)).
    { intros f Lf. assert (C : coords_command (chars "x < 1") rx (fun u w => d_ltb u w) (chars "1")).
      { apply (cc (chars "x") rx (chars "<") (fun u w => d_ltb u w) (chars "1")); [cbn; auto|cbn; auto|cbn; intuition lia]. }
      apply (C50_removes_matching stod f _ _ _ _ _ _ Lf C S). }
    assert (E1 : subsample_file sh (mk_file 0 1 [] false [rec d_half 0; rec d_one 0]) d_one 0 = Ret (mk_file 0 1 [] false [rec d_half 0])) by (vm_compute; reflexivity).
    destruct (K (mk_file 0 1 [] false [rec d_half 0])) as (g & Eg & _ & Pg).
    { split; cbn; try lia. intros p q Hp Hq. cbn in Hp, Hq. intuition subst; reflexivity. }
    destruct (K _ L) as (u & Eu & (U1 & U2 & U3 & U4) & Pu).
    change (filter (fun p => negb (d_ltb (rx p) d_one)) (f_prs (mk_file 0 1 [] false [rec d_half 0; rec d_one 0]))) with [rec d_one 0] in Pu.
    cbn in U1, U2, U3, U4.
    assert (Q : u = mk_file 0 1 [] false [rec d_one 0]) by (clear - U1 U2 U3 U4 Pu; destruct u; simpl in *; congruence).
    exists g, (mk_file 0 1 [] false [rec d_one 0]). rewrite E1, Eu. cbn [bind]. split; [exact Eg|]. rewrite Q.
    split; [vm_compute; reflexivity|]. split; [exact Pg|]. eexists. split; reflexivity.
Qed.

(** ** One run or several *)

Lemma arguments_app : forall n es1 es2, arguments n (es1 ++ es2) = arguments n es1 ++ arguments n es2.
Proof. intros. apply flat_map_app. Qed.
Lemma given_app : forall n es1 es2, given n (es1 ++ es2) = given n es1 || given n es2.
Proof. intros. apply existsb_app. Qed.

Lemma not_given : forall n es, (forall e, In e es -> fst e <> n) -> arguments n es = [] /\ given n es = false.
Proof.
  intros n es H. induction es as [|e es IH]; [split; reflexivity|]. destruct IH as [A B]; [intros; apply H; now right|].
  assert (N : String.eqb (fst e) n = false) by (apply String.eqb_neq, H; now left).
  unfold arguments, given in *. cbn. rewrite N, A, B. split; reflexivity.
Qed.

Lemma stages_not : forall lo hi es n k, stages lo hi es -> stage n = Some k -> ~ (lo <= k < hi) -> arguments n es = [] /\ given n es = false.
Proof.
  intros lo hi es n k S E N. apply not_given. intros e I Q. unfold stages in S. rewrite Forall_forall in S.
  destruct (S e I) as (j & Ej & Hj). rewrite Q, E in Ej. injection Ej as <-. contradiction.
Qed.
Lemma stages_seed : forall lo hi es, stages lo hi es -> arguments "random-seed" es = [].
Proof.
  intros lo hi es S. apply not_given. intros e I Q. unfold stages in S. rewrite Forall_forall in S.
  destruct (S e I) as (j & Ej & _). rewrite Q in Ej. discriminate Ej.
Qed.

Lemma d_zero_not_positive : d_gtb d_zero d_zero = false. Proof. reflexivity. Qed.

Lemma bind_bind : forall {A B C} (m : outcome A) (f : A -> outcome B) (g : B -> outcome C),
  (y <- (x <- m ;; f x) ;; g y) = (x <- m ;; y <- f x ;; g y).
Proof. intros A B C [a|e|u|] f g; reflexivity. Qed.
Lemma bind_cong : forall {A B} (m : outcome A) (f g : A -> outcome B), (forall a, f a = g a) -> (x <- m ;; f x) = (x <- m ;; g x).
Proof. intros A B [a|e|u|] f g H; cbn; auto. Qed.

(** What the program does at each stage, with the options given. *)
Definition step (sh : shuffler) (stod : stod_fn) (atof : list Z -> double) (j : Z) (es : list setting) (f : spoc_file) : outcome spoc_file :=
  let args := run_args atof es in
  if j =? 0 then assign_if (nonempty (fa_keep args)) f (keep_classes f (fa_keep args))
  else if j =? 1 then assign_if (nonempty (fa_remove args)) f (remove_classes f (fa_remove args))
  else if j =? 2 then assign_if (fa_unique args) f (unique_xyz sh f (fa_seed args))
  else if j =? 3 then assign_if (d_gtb (fa_subsample args) d_zero) f (subsample_file sh f (fa_subsample args) (fa_seed args))
  else assign_if (nonempty (fa_coords args)) f (remove_coords stod f (fa_coords args)).

Lemma process_steps : forall sh stod atof es f, filter_process sh stod (run_args atof es) f =
  (f <- step sh stod atof 0 es f ;; f <- step sh stod atof 1 es f ;; f <- step sh stod atof 2 es f ;; f <- step sh stod atof 3 es f ;;
   step sh stod atof 4 es f).
Proof. reflexivity. Qed.

Lemma step_seed : forall sh stod atof j es es', (forall n, stage n = Some j -> arguments n es = arguments n es' /\ given n es = given n es') ->
  arguments "random-seed" es = arguments "random-seed" es' -> 0 <= j < 5 -> forall f, step sh stod atof j es f = step sh stod atof j es' f.
Proof.
  intros sh stod atof j es es' H S J f. unfold step, run_args. cbn [fa_keep fa_seed fa_remove fa_unique fa_subsample fa_coords].
  unfold final. rewrite S.
  assert (C : j = 0 \/ j = 1 \/ j = 2 \/ j = 3 \/ j = 4) by lia.
  destruct C as [->|[->|[->|[->| ->]]]].
  - destruct (H "keep-class"%string eq_refl) as [-> _]. reflexivity.
  - destruct (H "remove-class"%string eq_refl) as [-> _]. reflexivity.
  - destruct (H "unique-xyz"%string eq_refl) as [_ ->]. reflexivity.
  - destruct (H "subsample"%string eq_refl) as [-> _]. reflexivity.
  - destruct (H "remove-coords"%string eq_refl) as [-> _]. reflexivity.
Qed.

Lemma step_none : forall sh stod atof j f, 0 <= j < 5 -> step sh stod atof j [] f = Ret f.
Proof.
  intros sh stod atof j f J. assert (C : j = 0 \/ j = 1 \/ j = 2 \/ j = 3 \/ j = 4) by lia.
  destruct C as [->|[->|[->|[->| ->]]]]; reflexivity.
Qed.

Lemma step_here : forall sh stod atof k es1 es2 j f, stages 0 k es1 -> stages k 5 es2 -> 0 <= j < 5 ->
  (j < k -> step sh stod atof j (es1 ++ es2) f = step sh stod atof j es1 f /\ step sh stod atof j es2 f = Ret f)
  /\ (k <= j -> step sh stod atof j (es1 ++ es2) f = step sh stod atof j es2 f /\ step sh stod atof j es1 f = Ret f).
Proof.
  intros sh stod atof k es1 es2 j f S1 S2 J.
  assert (Z1 := stages_seed _ _ _ S1). assert (Z2 := stages_seed _ _ _ S2). split; intros K; (split; [|rewrite <- (step_none sh stod atof j f J)]); apply step_seed; try exact J;
    try (rewrite ?arguments_app, ?Z1, ?Z2; reflexivity); intros n E; rewrite ?arguments_app, ?given_app.
  - destruct (stages_not k 5 es2 n j S2 E) as [-> ->]; [lia|]. now rewrite app_nil_r, orb_false_r.
  - now apply (stages_not k 5 es2 n j S2 E); lia.
  - destruct (stages_not 0 k es1 n j S1 E) as [-> ->]; [lia|]. split; reflexivity.
  - now apply (stages_not 0 k es1 n j S1 E); lia.
Qed.

(** The options in two groups, the stages of the first before those of the second: one run with
    all of them does what a run with the first group and a run with the second do. *)
Theorem C109_split : forall sh stod atof k es1 es2 f, stages 0 k es1 -> stages k 5 es2 ->
  filter_process sh stod (run_args atof (es1 ++ es2)) f
  = (g <- filter_process sh stod (run_args atof es1) f ;; filter_process sh stod (run_args atof es2) g).
Proof.
  intros sh stod atof k es1 es2 f S1 S2. rewrite (bind_cong _ _ _ (fun g => process_steps sh stod atof es2 g)), !process_steps.
  assert (H : forall j g, 0 <= j < 5 -> _) by (intros j g J; exact (step_here sh stod atof k es1 es2 j g S1 S2 J)).
  assert (T1 : forall j g, 0 <= j < 5 -> j < k -> step sh stod atof j (es1 ++ es2) g = step sh stod atof j es1 g) by (intros; now apply H).
  assert (T2 : forall j g, 0 <= j < 5 -> j < k -> step sh stod atof j es2 g = Ret g) by (intros; now apply H).
  assert (T3 : forall j g, 0 <= j < 5 -> k <= j -> step sh stod atof j (es1 ++ es2) g = step sh stod atof j es2 g) by (intros; now apply H).
  assert (T4 : forall j g, 0 <= j < 5 -> k <= j -> step sh stod atof j es1 g = Ret g) by (intros; now apply H).
  clear H. set (A := step sh stod atof) in *. clearbody A.
  assert (C : k <= 0 \/ k = 1 \/ k = 2 \/ k = 3 \/ k = 4 \/ 5 <= k) by lia.
  destruct C as [C|[C|[C|[C|[C|C]]]]].
  - rewrite (T4 0) by lia; cbn [bind].
    rewrite (T4 1) by lia; cbn [bind].
    rewrite (T4 2) by lia; cbn [bind].
    rewrite (T4 3) by lia; cbn [bind].
    rewrite (T4 4) by lia; cbn [bind].
    rewrite (T3 0) by lia; match goal with |- context [A 0 es2 ?g] => destruct (A 0 es2 g) end; cbn [bind]; try reflexivity.
    rewrite (T3 1) by lia; match goal with |- context [A 1 es2 ?g] => destruct (A 1 es2 g) end; cbn [bind]; try reflexivity.
    rewrite (T3 2) by lia; match goal with |- context [A 2 es2 ?g] => destruct (A 2 es2 g) end; cbn [bind]; try reflexivity.
    rewrite (T3 3) by lia; match goal with |- context [A 3 es2 ?g] => destruct (A 3 es2 g) end; cbn [bind]; try reflexivity.
    rewrite (T3 4) by lia; match goal with |- context [A 4 es2 ?g] => destruct (A 4 es2 g) end; cbn [bind]; try reflexivity.
  - rewrite (T1 0) by lia; match goal with |- context [A 0 es1 ?g] => destruct (A 0 es1 g) end; cbn [bind]; try reflexivity.
    rewrite (T4 1) by lia; cbn [bind].
    rewrite (T4 2) by lia; cbn [bind].
    rewrite (T4 3) by lia; cbn [bind].
    rewrite (T4 4) by lia; cbn [bind].
    rewrite (T2 0) by lia; cbn [bind].
    rewrite (T3 1) by lia; match goal with |- context [A 1 es2 ?g] => destruct (A 1 es2 g) end; cbn [bind]; try reflexivity.
    rewrite (T3 2) by lia; match goal with |- context [A 2 es2 ?g] => destruct (A 2 es2 g) end; cbn [bind]; try reflexivity.
    rewrite (T3 3) by lia; match goal with |- context [A 3 es2 ?g] => destruct (A 3 es2 g) end; cbn [bind]; try reflexivity.
    rewrite (T3 4) by lia; match goal with |- context [A 4 es2 ?g] => destruct (A 4 es2 g) end; cbn [bind]; try reflexivity.
  - rewrite (T1 0) by lia; match goal with |- context [A 0 es1 ?g] => destruct (A 0 es1 g) end; cbn [bind]; try reflexivity.
    rewrite (T1 1) by lia; match goal with |- context [A 1 es1 ?g] => destruct (A 1 es1 g) end; cbn [bind]; try reflexivity.
    rewrite (T4 2) by lia; cbn [bind].
    rewrite (T4 3) by lia; cbn [bind].
    rewrite (T4 4) by lia; cbn [bind].
    rewrite (T2 0) by lia; cbn [bind].
    rewrite (T2 1) by lia; cbn [bind].
    rewrite (T3 2) by lia; match goal with |- context [A 2 es2 ?g] => destruct (A 2 es2 g) end; cbn [bind]; try reflexivity.
    rewrite (T3 3) by lia; match goal with |- context [A 3 es2 ?g] => destruct (A 3 es2 g) end; cbn [bind]; try reflexivity.
    rewrite (T3 4) by lia; match goal with |- context [A 4 es2 ?g] => destruct (A 4 es2 g) end; cbn [bind]; try reflexivity.
  - rewrite (T1 0) by lia; match goal with |- context [A 0 es1 ?g] => destruct (A 0 es1 g) end; cbn [bind]; try reflexivity.
    rewrite (T1 1) by lia; match goal with |- context [A 1 es1 ?g] => destruct (A 1 es1 g) end; cbn [bind]; try reflexivity.
    rewrite (T1 2) by lia; match goal with |- context [A 2 es1 ?g] => destruct (A 2 es1 g) end; cbn [bind]; try reflexivity.
    rewrite (T4 3) by lia; cbn [bind].
    rewrite (T4 4) by lia; cbn [bind].
    rewrite (T2 0) by lia; cbn [bind].
    rewrite (T2 1) by lia; cbn [bind].
    rewrite (T2 2) by lia; cbn [bind].
    rewrite (T3 3) by lia; match goal with |- context [A 3 es2 ?g] => destruct (A 3 es2 g) end; cbn [bind]; try reflexivity.
    rewrite (T3 4) by lia; match goal with |- context [A 4 es2 ?g] => destruct (A 4 es2 g) end; cbn [bind]; try reflexivity.
  - rewrite (T1 0) by lia; match goal with |- context [A 0 es1 ?g] => destruct (A 0 es1 g) end; cbn [bind]; try reflexivity.
    rewrite (T1 1) by lia; match goal with |- context [A 1 es1 ?g] => destruct (A 1 es1 g) end; cbn [bind]; try reflexivity.
    rewrite (T1 2) by lia; match goal with |- context [A 2 es1 ?g] => destruct (A 2 es1 g) end; cbn [bind]; try reflexivity.
    rewrite (T1 3) by lia; match goal with |- context [A 3 es1 ?g] => destruct (A 3 es1 g) end; cbn [bind]; try reflexivity.
    rewrite (T4 4) by lia; cbn [bind].
    rewrite (T2 0) by lia; cbn [bind].
    rewrite (T2 1) by lia; cbn [bind].
    rewrite (T2 2) by lia; cbn [bind].
    rewrite (T2 3) by lia; cbn [bind].
    rewrite (T3 4) by lia; match goal with |- context [A 4 es2 ?g] => destruct (A 4 es2 g) end; cbn [bind]; try reflexivity.
  - rewrite (T1 0) by lia; match goal with |- context [A 0 es1 ?g] => destruct (A 0 es1 g) end; cbn [bind]; try reflexivity.
    rewrite (T1 1) by lia; match goal with |- context [A 1 es1 ?g] => destruct (A 1 es1 g) end; cbn [bind]; try reflexivity.
    rewrite (T1 2) by lia; match goal with |- context [A 2 es1 ?g] => destruct (A 2 es1 g) end; cbn [bind]; try reflexivity.
    rewrite (T1 3) by lia; match goal with |- context [A 3 es1 ?g] => destruct (A 3 es1 g) end; cbn [bind]; try reflexivity.
    rewrite (T1 4) by lia; match goal with |- context [A 4 es1 ?g] => destruct (A 4 es1 g) end; cbn [bind]; try reflexivity.
    rewrite (T2 0) by lia; cbn [bind].
    rewrite (T2 1) by lia; cbn [bind].
    rewrite (T2 2) by lia; cbn [bind].
    rewrite (T2 3) by lia; cbn [bind].
    rewrite (T2 4) by lia; cbn [bind]. reflexivity.
Qed.

(** Between files: the file [c] written by one run with all options and that written by way of
    [b] in two runs hold the same. *)
Theorem C109_runs : forall z ZS sh stod atof debug acc f fs a b c k es1 es2 argv1 argv2 argv input1 input2 input os1 os2 os fs1 fs2,
  zlib_ok z ZS -> permutes sh -> storable f -> f_compressed f = false -> reads z fs a f ->
  may_read acc a -> may_write acc b -> may_read acc b -> may_write acc c ->
  stages 0 k es1 -> stages k 5 es2 ->
  asks filter_options argv1 es1 [a; b] -> asks filter_options argv2 es2 [b; c] -> asks filter_options argv (es1 ++ es2) [a; c] ->
  spoc_filter z sh stod atof debug acc argv1 input1 os1 fs = (os1, fs1, Ret 0) ->
  spoc_filter z sh stod atof debug acc argv2 input2 os2 fs1 = (os2, fs2, Ret 0) ->
  exists fs3 g, spoc_filter z sh stod atof debug acc argv input os fs = (os, fs3, Ret 0)
    /\ reads z fs2 c g /\ reads z fs3 c g.
Proof.
  intros z ZS sh stod atof debug acc f fs a b c k es1 es2 argv1 argv2 argv input1 input2 input os1 os2 os fs1 fs2
    Hz P S U R Ra Wb Rb Wc S1 S2 A1 A2 A3 E1 E2.
  pose proof (C89_filter z ZS sh stod atof debug acc f fs a b argv1 es1 input1 os1 Hz P S R Ra Wb A1) as X1.
  cbv zeta in X1. fold (run_args atof es1) in X1. rewrite E1 in X1.
  destruct (filter_process sh stod (run_args atof es1) f) as [g1|e|u|] eqn:F1; [|discriminate X1..].
  destruct X1 as (fs1' & g1' & Q & R1 & K1 & St1 & _). injection Q as <-.
  destruct (C78_only_selects sh stod _ f g1 P (storable_live f S) F1) as ((M1 & M2 & M3 & M4) & _).
  assert (U1 : f_compressed g1 = false) by congruence. unfold kept in K1. rewrite U1 in K1. subst g1'.
  pose proof (C89_filter z ZS sh stod atof debug acc g1 fs1 b c argv2 es2 input2 os2 Hz P St1 R1 Rb Wc A2) as X2.
  cbv zeta in X2. fold (run_args atof es2) in X2. rewrite E2 in X2.
  destruct (filter_process sh stod (run_args atof es2) g1) as [g2|e|u|] eqn:F2; [|discriminate X2..].
  destruct X2 as (fs2' & g2' & Q & R2 & K2 & St2 & _). injection Q as <-.
  destruct (C78_only_selects sh stod _ g1 g2 P (storable_live g1 St1) F2) as ((N1 & N2 & N3 & N4) & _).
  assert (U2 : f_compressed g2 = false) by congruence. unfold kept in K2. rewrite U2 in K2. subst g2'.
  pose proof (C89_filter z ZS sh stod atof debug acc f fs a c argv (es1 ++ es2) input os Hz P S R Ra Wc A3) as X3.
  cbv zeta in X3. fold (run_args atof (es1 ++ es2)) in X3. rewrite (C109_split sh stod atof k es1 es2 f S1 S2), F1 in X3. cbn [bind] in X3. rewrite F2 in X3.
  destruct X3 as (fs3 & g3 & E3 & R3 & K3 & _). unfold kept in K3. rewrite U2 in K3. subst g3.
  exists fs3, g2. auto.
Qed.

Example C109_example :
  let es1 := [("keep-class"%string, Some (chars "2"))] in
  let es2 := [("remove-coords"%string, Some (chars "x < 1")); ("unique-xyz"%string, None)] in
  stages 0 1 es1 /\ stages 1 5 es2
  /\ (forall stod, one_by_one stod (fun f => keep_classes f [2]))
  /\ (forall x, one_by_one (fun _ => Some (x, 1)) (fun f => remove_coords (fun _ => Some (x, 1)) f (chars "x < 1")))
  /\ live (mk_file 0 1 [] false [rec 0 5; rec 0 2]).
Proof.
  split; [repeat constructor; exists 0; split; [reflexivity|lia]|].
  split; [constructor; [exists 4; split; [reflexivity|lia]|constructor; [exists 2; split; [reflexivity|lia]|constructor]]|].
  split; [intros; constructor|]. split.
  - intros x. apply (one_coords _ (chars "x") (chars "<") (chars "1") x 1); cbn; auto. intuition lia.
  - split; cbn; try lia. intros p q Hp Hq. cbn in Hp, Hq. intuition subst; reflexivity.
Qed.

Print Assumptions C109_commute.
Print Assumptions C109_unique_coords.
Print Assumptions C109_order_matters.
Print Assumptions C109_split.
Print Assumptions C109_runs.
