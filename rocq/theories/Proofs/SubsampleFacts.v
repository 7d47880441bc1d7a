(** Facts about the loops of Model/Subsampling.v. *)
From Coq Require Import ZArith List Bool Lia Permutation Sorted.
From Verif.Model Require Import Base Double Arith PointRecord Point Extent Voxel Subsampling.
From Verif.Spec Require Import Sampling.
From Verif.Proofs Require Import BaseFacts OrderFacts VoxelFacts.
Import ListNotations.
Open Scope Z_scope.

Lemma iota_In : forall n i, In i (iota n) <-> 0 <= i < Z.of_nat n.
Proof.
  intros n i. unfold iota. rewrite in_map_iff. split.
  - intros (k & <- & H). apply in_seq in H. lia.
  - intros H. exists (Z.to_nat i). rewrite in_seq. lia.
Qed.

Lemma iota_sorted : forall n, StronglySorted Z.lt (iota n).
Proof.
  intros n. unfold iota. generalize 0%nat as b. induction n as [|n IH]; intros b; cbn; constructor; [apply IH|].
  apply Forall_forall. intros x H. apply in_map_iff in H as (k & <- & H). apply in_seq in H. lia.
Qed.

Lemma iota_length : forall n, length (iota n) = n.
Proof. intros. unfold iota. now rewrite map_length, seq_length. Qed.

Lemma sorted_nodup : forall l, StronglySorted Z.lt l -> NoDup l.
Proof.
  induction 1 as [|a l S IH F]; constructor; [|exact IH]. intros I.
  rewrite Forall_forall in F. specialize (F _ I). lia.
Qed.

Lemma iota_nodup : forall n, NoDup (iota n).
Proof. intros. apply sorted_nodup, iota_sorted. Qed.

Lemma iota_nth : forall n i, 0 <= i < Z.of_nat n -> znth (iota n) i = Some i.
Proof.
  intros n i H. unfold iota. rewrite znth_map, znth_nth_error by lia.
  rewrite (nth_error_nth' _ 0%nat) by (rewrite seq_length; lia).
  rewrite seq_nth by lia. cbn. f_equal. lia.
Qed.

(** Both loops keep the first visited index of every class. *)
Fixpoint firsts (same : Z -> Z -> bool) (kept idx : list Z) : list Z :=
  match idx with
  | [] => kept
  | j :: t => if existsb (fun i => same i j) kept then firsts same kept t else firsts same (kept ++ [j]) t
  end.

Lemma firsts_app : forall same idx kept, exists more, firsts same kept idx = kept ++ more.
Proof.
  induction idx as [|j t IH]; intros kept; cbn; [exists []; now rewrite app_nil_r|].
  destruct (existsb _ kept); [apply IH|]. destruct (IH (kept ++ [j])) as [m E].
  exists (j :: m). now rewrite E, <- app_assoc.
Qed.

Lemma firsts_incl : forall same idx kept i, In i kept -> In i (firsts same kept idx).
Proof. intros same idx kept i H. destruct (firsts_app same idx kept) as [m ->]. apply in_or_app. now left. Qed.

Lemma firsts_In_inv : forall same idx kept i, In i (firsts same kept idx) -> In i kept \/ In i idx.
Proof.
  induction idx as [|j t IH]; intros kept i H; cbn in *; [auto|].
  destruct (existsb _ kept).
  - apply IH in H. tauto.
  - apply IH in H. rewrite in_app_iff in H. cbn in H. tauto.
Qed.

Lemma firsts_nodup : forall same idx kept, NoDup (kept ++ idx) -> NoDup (firsts same kept idx).
Proof.
  induction idx as [|j t IH]; intros kept H; cbn; [now rewrite app_nil_r in H|].
  destruct (existsb _ kept); apply IH.
  - now apply NoDup_remove_1 in H.
  - now rewrite <- app_assoc.
Qed.

Lemma firsts_represented : forall same idx kept j, In j idx ->
  In j (firsts same kept idx) \/ exists i, In i (firsts same kept idx) /\ same i j = true.
Proof.
  induction idx as [|a t IH]; intros kept j H; [destruct H|]. cbn.
  destruct (existsb (fun i => same i a) kept) eqn:E; destruct H as [->|H]; auto.
  - right. apply existsb_exists in E as (i & I & S). exists i. split; [now apply firsts_incl|exact S].
  - left. apply firsts_incl. apply in_or_app. right. now left.
Qed.

(** An index like no other in the visited list is kept. *)
Lemma firsts_alone : forall same idx kept j, In j idx ->
  (forall i, In i (kept ++ idx) -> same i j = false) -> In j (firsts same kept idx).
Proof.
  induction idx as [|a t IH]; intros kept j H A; [destruct H|]. cbn.
  destruct (existsb (fun i => same i a) kept) eqn:E; destruct H as [->|H].
  - exfalso. apply existsb_exists in E as (i & I & S). rewrite A in S; [discriminate|]. apply in_or_app. now left.
  - apply IH; [exact H|]. intros i I. apply A. rewrite in_app_iff in *. cbn. tauto.
  - apply firsts_incl. apply in_or_app. right. now left.
  - apply IH; [exact H|]. intros i I. apply A. rewrite !in_app_iff in *. cbn in *. tauto.
Qed.

Definition apart (same : Z -> Z -> bool) (l : list Z) : Prop := ForallOrdPairs (fun i j => same i j = false) l.

Lemma FOP_app : forall {A} (R : A -> A -> Prop) a b, ForallOrdPairs R a -> ForallOrdPairs R b ->
  (forall x y, In x a -> In y b -> R x y) -> ForallOrdPairs R (a ++ b).
Proof.
  induction a as [|x t IH]; intros b Ha Hb C; cbn; [exact Hb|].
  inversion Ha; subst. constructor.
  - apply Forall_app. split; [assumption|]. apply Forall_forall. intros y I. apply C; [now left|exact I].
  - apply IH; auto. intros u v I J. apply C; [now right|exact J].
Qed.

Lemma firsts_apart : forall same idx kept, apart same kept -> apart same (firsts same kept idx).
Proof.
  induction idx as [|j t IH]; intros kept H; cbn; [exact H|].
  destruct (existsb _ kept) eqn:E; apply IH; [exact H|].
  apply FOP_app; [exact H|repeat constructor|].
  intros x y I [<-|[]]. destruct (same x j) eqn:S; [|reflexivity].
  assert (X : existsb (fun i => same i j) kept = true) by (apply existsb_exists; eauto). congruence.
Qed.

Lemma FOP_In : forall {A} (R : A -> A -> Prop) l x y, ForallOrdPairs R l -> In x l -> In y l ->
  x = y \/ R x y \/ R y x.
Proof. intros. apply ForallOrdPairs_In with (l := l); assumption. Qed.

Lemma sub_nil_l : forall {A} (l : list A), sub [] l.
Proof. induction l; constructor; auto. Qed.

Lemma firsts_sub : forall same idx kept, exists more, firsts same kept idx = kept ++ more /\ sub more idx.
Proof.
  induction idx as [|j t IH]; intros kept; cbn; [exists []; rewrite app_nil_r; split; constructor|].
  destruct (existsb _ kept).
  - destruct (IH kept) as (m & -> & S). exists m. split; [reflexivity|now constructor].
  - destruct (IH (kept ++ [j])) as (m & -> & S). exists (j :: m). split; [now rewrite <- app_assoc|now constructor].
Qed.

Lemma sub_In : forall {A} (l k : list A) x, sub l k -> In x l -> In x k.
Proof. induction 1; cbn; intuition. Qed.

Lemma sub_sorted : forall l k, sub l k -> StronglySorted Z.lt k -> StronglySorted Z.lt l.
Proof.
  induction 1 as [|a l k S IH|a l k S IH]; intros H; [constructor| |].
  - inversion H; auto.
  - inversion H as [|? ? H1 H2]; subst. constructor; [auto|]. rewrite Forall_forall in *.
    intros x I. apply H2. eapply sub_In; eauto.
Qed.

(** Visiting in increasing order, an index is kept exactly if no earlier one is like it. *)
Lemma firsts_sorted : forall same idx, StronglySorted Z.lt idx ->
  (forall i j, same i j = same j i) -> (forall i j k, same i j = true -> same j k = true -> same i k = true) ->
  forall j, In j (firsts same [] idx) <-> In j idx /\ forall i, In i idx -> i < j -> same i j = false.
Proof.
  intros same idx Srt Sym Tr.
  assert (G : forall pre post kept, pre ++ post = idx ->
     (forall j, In j kept <-> In j pre /\ forall i, In i idx -> i < j -> same i j = false) ->
     (forall j, In j pre -> In j kept \/ exists i, In i kept /\ i < j /\ same i j = true) ->
     forall j, In j (firsts same kept post) <-> In j idx /\ forall i, In i idx -> i < j -> same i j = false).
  { intros pre post. revert pre. induction post as [|a t IH]; intros pre kept E K Rp; cbn.
    - rewrite app_nil_r in E. subst. exact K.
    - assert (LT : forall i, In i pre -> i < a).
      { rewrite <- E in Srt. clear - Srt. induction pre as [|x l IH]; cbn in *; [intros i []|].
        inversion Srt as [|? ? S F]; subst. intros i [<-|I]; [|auto].
        rewrite Forall_forall in F. apply F. apply in_or_app. right. now left. }
      assert (PRE : forall i, In i idx -> i < a -> In i pre).
      { intros i I L. rewrite <- E in I, Srt. apply in_app_or in I. destruct I as [I|[->|I]]; [exact I|lia|exfalso].
        clear - Srt I L. induction pre as [|x l IH]; cbn in *; inversion Srt as [|? ? S F]; subst; [|auto].
        rewrite Forall_forall in F. specialize (F _ I). lia. }
      assert (IA : In a idx) by (rewrite <- E; apply in_or_app; right; now left).
      destruct (existsb (fun i => same i a) kept) eqn:X; apply (IH (pre ++ [a])); try (now rewrite <- app_assoc).
      + apply existsb_exists in X as (k & Ik & Sk). pose proof (proj1 (K k) Ik) as [Pk _].
        intros j. rewrite K, in_app_iff. cbn. split; [tauto|]. intros [[Pj|[<-|[]]] Hj]; [tauto|].
        rewrite Hj in Sk; [discriminate| |auto]. rewrite <- E. apply in_or_app. now left.
      + apply existsb_exists in X as (k & Ik & Sk). pose proof (proj1 (K k) Ik) as [Pk _].
        intros j Ij. apply in_app_or in Ij. destruct Ij as [Ij|[<-|[]]]; [auto|]. right. exists k. auto.
      + assert (N : forall k, In k kept -> same k a = false).
        { intros k I. destruct (same k a) eqn:S; [|reflexivity]. assert (existsb (fun i => same i a) kept = true) by (apply existsb_exists; eauto). congruence. }
        intros j. rewrite !in_app_iff, K. cbn. split; [|tauto].
        intros [[? ?]|[<-|[]]]; [tauto|]. split; [tauto|]. intros i I L. apply PRE in I; [|exact L].
        destruct (Rp i I) as [Ki|(k & Kk & Lk & Sk)]; [auto|].
        destruct (same i a) eqn:S; [|reflexivity]. rewrite <- (N k Kk). symmetry. eauto.
      + intros j Ij. apply in_app_or in Ij. destruct Ij as [Ij|[<-|[]]].
        * destruct (Rp j Ij) as [?|(k & Kk & Lk)]; [left; apply in_or_app; tauto|]. right. exists k. split; [apply in_or_app; tauto|tauto].
        * left. apply in_or_app. right. now left. }
  intros j. apply (G [] idx []); [reflexivity| |].
  - cbn. tauto.
  - intros ? [].
Qed.

(** The loops are instances. *)
Definition same_of {A} (eqb : A -> A -> bool) (l : list A) (i j : Z) : bool :=
  match znth l i, znth l j with Some a, Some b => eqb a b | _, _ => false end.

Lemma vec_get_znth : forall {A} (l : list A) i a, vec_get l i = Ret a <-> znth l i = Some a.
Proof. intros A l i a. unfold vec_get. destruct (znth l i); split; intros [=]; subst; reflexivity. Qed.

Lemma existsb_map : forall {A B} (f : A -> B) (P : B -> bool) l, existsb P (map f l) = existsb (fun x => P (f x)) l.
Proof. induction l; cbn; congruence. Qed.

Lemma subsample_loop_firsts : forall v idx s r,
  (forall i, In i (r ++ idx) -> 0 <= i < zlen v) ->
  map Some s = map (znth v) r ->
  subsample_loop v idx s r = Ret (firsts (same_of vox_eqb v) r idx).
Proof.
  intros v. induction idx as [|j t IH]; intros s r V M; cbn [subsample_loop firsts]; [reflexivity|].
  assert (Vj : 0 <= j < zlen v) by (apply V, in_or_app; right; now left).
  destruct (znth_in_range v j Vj) as [a Ha]. unfold vec_get. rewrite Ha. cbn [bind].
  assert (E : set_mem a s = existsb (fun i => same_of vox_eqb v i j) r).
  { clear IH V. unfold set_mem. revert s M. induction r as [|i r IH]; intros [|b s] M; cbn in *; try discriminate; [reflexivity|].
    injection M as E M. rewrite (IH _ M). f_equal. unfold same_of. rewrite <- E, Ha.
    destruct (vox_eqb_spec a b), (vox_eqb_spec b a); congruence. }
  rewrite E. destruct (existsb _ r) eqn:X.
  - apply IH; [|exact M]. intros i I. apply V. rewrite in_app_iff in *. cbn. tauto.
  - apply IH.
    + intros i I. apply V. rewrite !in_app_iff in *. cbn in *. tauto.
    + unfold set_insert. rewrite E. rewrite !map_app, M. cbn. now rewrite Ha.
Qed.

Lemma unique_loop_firsts : forall v idx s r,
  (forall i, In i (r ++ idx) -> 0 <= i < zlen v) ->
  map Some s = map (znth v) r ->
  unique_loop v idx s r = Ret (firsts (same_of pt_eqb v) r idx).
Proof.
  intros v. induction idx as [|j t IH]; intros s r V M; cbn [unique_loop firsts]; [reflexivity|].
  assert (Vj : 0 <= j < zlen v) by (apply V, in_or_app; right; now left).
  destruct (znth_in_range v j Vj) as [a Ha]. unfold vec_get. rewrite Ha. cbn [bind].
  assert (E : xyz_mem a s = existsb (fun i => same_of pt_eqb v i j) r).
  { clear IH V. unfold xyz_mem. revert s M. induction r as [|i r IH]; intros [|b s] M; cbn in *; try discriminate; [reflexivity|].
    injection M as E M. rewrite (IH _ M). f_equal. unfold same_of. now rewrite <- E, Ha. }
  rewrite E. destruct (existsb _ r) eqn:X.
  - apply IH; [|exact M]. intros i I. apply V. rewrite in_app_iff in *. cbn. tauto.
  - apply IH.
    + intros i I. apply V. rewrite !in_app_iff in *. cbn in *. tauto.
    + rewrite !map_app, M. cbn. now rewrite Ha.
Qed.

Lemma visit_order_perm : forall sh n s, permutes sh -> Permutation (visit_order sh n s) (iota n).
Proof. intros sh n s H. unfold visit_order. destruct (s =? 0); [reflexivity|apply H]. Qed.

Lemma visit_order_In : forall sh n s i, permutes sh -> (In i (visit_order sh n s) <-> 0 <= i < Z.of_nat n).
Proof.
  intros sh n s i H. rewrite <- iota_In. split; apply Permutation_in; [|symmetry]; now apply visit_order_perm.
Qed.

Lemma visit_order_nodup : forall sh n s, permutes sh -> NoDup (visit_order sh n s).
Proof. intros. eapply Permutation_NoDup; [symmetry; now apply visit_order_perm|apply iota_nodup]. Qed.

Lemma pt_eqb_iff : forall a b, pt_eqb a b = true <->
  d_eqb (px a) (px b) = true /\ d_eqb (py a) (py b) = true /\ d_eqb (pz a) (pz b) = true.
Proof.
  intros a b. unfold pt_eqb, d_neb.
  destruct (d_eqb (px a) (px b)), (d_eqb (py a) (py b)), (d_eqb (pz a) (pz b)); cbn; intuition congruence.
Qed.

Lemma pt_eqb_sym : forall a b, pt_eqb a b = pt_eqb b a.
Proof.
  intros a b. apply eq_true_iff_eq. rewrite !pt_eqb_iff.
  rewrite (d_eqb_sym (px b)), (d_eqb_sym (py b)), (d_eqb_sym (pz b)). tauto.
Qed.

Lemma pt_eqb_trans : forall a b c, pt_eqb a b = true -> pt_eqb b c = true -> pt_eqb a c = true.
Proof.
  intros a b c. rewrite !pt_eqb_iff. intros (A1 & A2 & A3) (B1 & B2 & B3). repeat split; eapply d_eqb_trans; eassumption.
Qed.
