(** Lemmas about the summaries of spoc_info: sorting, ranks, minima and maxima. *)
From Coq Require Import String ZArith List Bool Lia Sorted Permutation.
From Verif.Model Require Import Base Double Arith AppUtils TileApp Json InfoApp.
From Verif.Spec Require Import Text Reports.
From Verif.Proofs Require Import BaseFacts OrderFacts TileFacts CountFacts.
Import ListNotations.
Open Scope Z_scope.
Open Scope outcome_scope.

(** ** The order by an integer key *)

Definition col_key (k : column) (a : Z) : Z := match k with col_double => d_key a | _ => a end.
Definition numb (k : column) (a : Z) : Prop := match k with col_double => d_is_nan a = false | _ => True end.

Lemma all_numbers_numb : forall k x, all_numbers k x -> Forall (numb k) x.
Proof. intros [| | |] x H; cbn in *; try exact H; apply Forall_forall; intros; exact I. Qed.

Lemma col_ltb_key : forall k a b, numb k a -> numb k b -> (col_ltb k a b = true <-> col_key k a < col_key k b).
Proof. intros [| | |] a b A B; cbn in *; try apply Z.ltb_lt. now apply d_ltb_key. Qed.
Lemma at_most_key : forall k a b, numb k a -> numb k b -> (at_most k a b <-> col_key k a <= col_key k b).
Proof. intros [| | |] a b A B; cbn in *; try reflexivity. now apply d_leb_key. Qed.
Lemma at_mostb_iff : forall k a b, at_mostb k a b = true <-> at_most k a b.
Proof. intros [| | |] a b; cbn; try apply Z.leb_le. reflexivity. Qed.
Lemma at_mostb_key : forall k a b, numb k a -> numb k b -> at_mostb k a b = (col_key k a <=? col_key k b).
Proof.
  intros k a b A B. apply eq_true_iff_eq. rewrite at_mostb_iff, Z.leb_le. now apply at_most_key.
Qed.

Lemma filter_ext_In : forall {A} (f g : A -> bool) l, (forall a, In a l -> f a = g a) -> filter f l = filter g l.
Proof.
  intros A f g l H. induction l as [|a l IH]; [reflexivity|]. cbn [filter]. rewrite H by now left.
  rewrite IH; [reflexivity|]. intros b I. apply H. now right.
Qed.

Lemma filter_perm : forall {A} (f : A -> bool) l l', Permutation l l' -> Permutation (filter f l) (filter f l').
Proof.
  intros A f l l' P. induction P; cbn [filter].
  - constructor.
  - destruct (f x); [now constructor|assumption].
  - destruct (f x), (f y); try apply Permutation_refl. apply perm_swap.
  - now apply Permutation_trans with (filter f l').
Qed.

Lemma filter_zlen_perm : forall {A} (f : A -> bool) l l', Permutation l l' -> zlen (filter f l) = zlen (filter f l').
Proof. intros A f l l' P. unfold zlen. f_equal. apply Permutation_length. now apply filter_perm. Qed.

Lemma filter_zlen_le : forall {A} (f : A -> bool) l, 0 <= zlen (filter f l) <= zlen l.
Proof. intros A f l. unfold zlen. induction l as [|a l IH]; cbn [filter List.length]; [lia|]. destruct (f a); cbn [List.length]; lia. Qed.

Lemma filter_none : forall {A} (f : A -> bool) l, (forall a, In a l -> f a = false) -> filter f l = [].
Proof. intros A f l H. induction l as [|a l IH]; [reflexivity|]. cbn [filter]. rewrite H by now left. apply IH. intros b I. apply H. now right. Qed.
Lemma filter_all : forall {A} (f : A -> bool) l, (forall a, In a l -> f a = true) -> filter f l = l.
Proof. intros A f l H. induction l as [|a l IH]; [reflexivity|]. cbn [filter]. rewrite H by now left. f_equal. apply IH. intros b I. apply H. now right. Qed.

Lemma zlen_app' : forall {A} (a b : list A), zlen (a ++ b) = zlen a + zlen b.
Proof. intros. unfold zlen. rewrite app_length. lia. Qed.
Lemma zlen_cons' : forall {A} (a : A) b, zlen (a :: b) = 1 + zlen b.
Proof. intros. unfold zlen. cbn [List.length]. lia. Qed.
Lemma zlen_nonneg' : forall {A} (a : list A), 0 <= zlen a.
Proof. intros. unfold zlen. lia. Qed.

Lemma znth_split : forall {A} (l : list A) n a, znth l n = Some a -> exists l1 l2, l = l1 ++ a :: l2 /\ zlen l1 = n.
Proof.
  intros A. induction l as [|b l IH]; intros n a E; cbn [znth] in E; [discriminate|].
  destruct (Z.eqb_spec n 0) as [->|N].
  - injection E as ->. now exists [], l.
  - destruct (n <? 0); [discriminate|]. destruct (IH _ _ E) as (l1 & l2 & -> & L).
    exists (b :: l1), l2. split; [reflexivity|]. rewrite zlen_cons'. lia.
Qed.

Definition key_sorted (k : column) : list Z -> Prop := StronglySorted (fun a b => col_key k a <= col_key k b).

Lemma sorted_app : forall {A} (R : A -> A -> Prop) l1 l2, StronglySorted R (l1 ++ l2) -> forall a b, In a l1 -> In b l2 -> R a b.
Proof.
  intros A R. induction l1 as [|c l1 IH]; intros l2 S a b Ia Ib; [destruct Ia|].
  cbn [app] in S. inversion S as [|? ? S' F]; subst. destruct Ia as [<-|Ia]; [|now apply (IH l2)].
  rewrite Forall_forall in F. apply F. apply in_or_app. now right.
Qed.
Lemma sorted_app_r : forall {A} (R : A -> A -> Prop) l1 l2, StronglySorted R (l1 ++ l2) -> StronglySorted R l2.
Proof. intros A R. induction l1 as [|c l1 IH]; intros l2 S; [exact S|]. inversion S; subst. now apply IH. Qed.

(** The element at place [r] of the sorted list has rank [r]. *)
Lemma sorted_rank : forall k x y r a, Forall (numb k) x -> Permutation x y -> key_sorted k y -> znth y r = Some a -> rank k x r a.
Proof.
  intros k x y r a F P S E. destruct (znth_split _ _ _ E) as (l1 & l2 & -> & L).
  assert (Ia : In a x) by (eapply Permutation_in; [apply Permutation_sym; exact P|apply in_or_app; right; now left]).
  assert (Fy : forall b, In b (l1 ++ a :: l2) -> numb k b).
  { intros b Ib. rewrite Forall_forall in F. apply F. eapply Permutation_in; [apply Permutation_sym; exact P|exact Ib]. }
  assert (Na : numb k a) by (apply Fy; apply in_or_app; right; now left).
  pose proof (sorted_app _ _ _ S) as S1. pose proof (sorted_app_r _ _ _ S) as S2. inversion S2 as [|? ? S3 F2]; subst. rewrite Forall_forall in F2.
  split; [exact Ia|]. rewrite !(filter_zlen_perm _ _ _ P), !filter_app, !zlen_app'. cbn [filter].
  rewrite !at_mostb_key by assumption. rewrite Z.leb_refl. cbn [negb].
  rewrite (filter_none (fun b => negb (at_mostb k a b)) l2), (filter_all (fun b => at_mostb k b a) l1).
  - rewrite zlen_cons'. pose proof (filter_zlen_le (fun b => negb (at_mostb k a b)) l1).
    pose proof (filter_zlen_le (fun b => at_mostb k b a) l2). change (zlen (@nil Z)) with 0. lia.
  - intros b Ib. rewrite at_mostb_key; [|apply Fy; apply in_or_app; now left|exact Na].
    apply Z.leb_le. apply S1; [exact Ib|now left].
  - intros b Ib. rewrite at_mostb_key; [|exact Na|apply Fy; apply in_or_app; right; now right].
    apply negb_false_iff. apply Z.leb_le. now apply F2.
Qed.

(** Values of the same rank are equal. *)
Lemma rank_unique : forall k x r a b, Forall (numb k) x -> rank k x r a -> rank k x r b -> col_key k a = col_key k b.
Proof.
  assert (G : forall k x r a b, Forall (numb k) x -> rank k x r a -> rank k x r b -> ~ col_key k a < col_key k b).
  { intros k x r a b F (Ia & A1 & A2) (Ib & B1 & B2) L. rewrite Forall_forall in F.
    assert (X : zlen (filter (fun c => at_mostb k c a) x) <= zlen (filter (fun c => negb (at_mostb k b c)) x)).
    { pose proof (F a Ia) as Na. pose proof (F b Ib) as Nb. clear - F Na Nb L.
      induction x as [|c x IH]; [cbn; lia|]. cbn [filter].
      rewrite at_mostb_key by (auto; apply F; now left). rewrite at_mostb_key by (auto; apply F; now left).
      specialize (IH (fun d I => F d (or_intror I))).
      destruct (Z.leb_spec (col_key k c) (col_key k a)), (Z.leb_spec (col_key k b) (col_key k c)); cbn [negb]; rewrite ?zlen_cons'; lia. }
    lia. }
  intros k x r a b F A B. pose proof (G k x r a b F A B). pose proof (G k x r b a F B A). lia.
Qed.

Lemma rank_perm : forall k x x' r a, Permutation x x' -> rank k x r a -> rank k x' r a.
Proof.
  intros k x x' r a P (I & H). split; [now apply (Permutation_in _ P)|]. now rewrite <- !(filter_zlen_perm _ _ _ P).
Qed.

Lemma rank_least : forall k x a, Forall (numb k) x -> rank k x 0 a -> least k x a.
Proof.
  intros k x a F (Ia & L & _). split; [exact Ia|]. intros b Ib. apply at_mostb_iff.
  destruct (at_mostb k a b) eqn:E; [reflexivity|]. exfalso.
  assert (I : In b (filter (fun b => negb (at_mostb k a b)) x)) by (apply filter_In; split; [exact Ib|now rewrite E]).
  destruct (filter _ x); [destruct I|]. unfold zlen in L. cbn [List.length] in L. lia.
Qed.

Lemma rank_greatest : forall k x a, Forall (numb k) x -> rank k x (zlen x - 1) a -> greatest k x a.
Proof.
  intros k x a F (Ia & _ & L). split; [exact Ia|]. intros b Ib. apply at_mostb_iff.
  destruct (at_mostb k b a) eqn:E; [reflexivity|]. exfalso.
  apply in_split in Ib as (l1 & l2 & ->). rewrite filter_app, !zlen_app' in L. cbn [filter] in L. rewrite E, zlen_cons' in L.
  pose proof (filter_zlen_le (fun b => at_mostb k b a) l1). pose proof (filter_zlen_le (fun b => at_mostb k b a) l2). lia.
Qed.

Lemma rank_mono : forall k x r s a b, Forall (numb k) x -> rank k x r a -> rank k x s b -> r <= s -> at_most k a b.
Proof.
  intros k x r s a b F (Ia & A1 & A2) (Ib & B1 & B2) L. rewrite Forall_forall in F.
  apply at_most_key; auto. destruct (Z_le_gt_dec (col_key k a) (col_key k b)) as [|G]; [assumption|exfalso].
  assert (X : zlen (filter (fun c => at_mostb k c b) x) <= zlen (filter (fun c => negb (at_mostb k a c)) x)).
  { pose proof (F a Ia) as Na. pose proof (F b Ib) as Nb. clear - F Na Nb G.
    induction x as [|c x IH]; [cbn; lia|]. cbn [filter].
    rewrite at_mostb_key by (auto; apply F; now left). rewrite at_mostb_key by (auto; apply F; now left).
    specialize (IH (fun d I => F d (or_intror I))).
    destruct (Z.leb_spec (col_key k c) (col_key k b)), (Z.leb_spec (col_key k a) (col_key k c)); cbn [negb]; rewrite ?zlen_cons'; lia. }
  lia.
Qed.

(** ** Sorting *)

Lemma insert_key_le : forall k l, StronglySorted Z.le l -> StronglySorted Z.le (insert_key k l).
Proof.
  intros k. induction l as [|j l IH]; intros S; cbn [insert_key]; [repeat constructor|].
  inversion S as [|? ? S' F]; subst. destruct (Z.leb_spec k j) as [L|L].
  - constructor; [exact S|]. constructor; [exact L|]. eapply Forall_impl; [|exact F]. intros; lia.
  - constructor; [now apply IH|]. apply Forall_forall. intros a Ia.
    apply (Permutation_in _ (insert_key_perm k l)) in Ia. destruct Ia as [<-|Ia]; [lia|]. rewrite Forall_forall in F. now apply F.
Qed.

Lemma sort_keys_le : forall l, StronglySorted Z.le (sort_keys l).
Proof. induction l as [|k l IH]; [constructor|]. unfold sort_keys. cbn [fold_right]. now apply insert_key_le. Qed.

Lemma StronglySorted_impl_In : forall {A} (R Q : A -> A -> Prop) l, (forall a b, In a l -> In b l -> R a b -> Q a b) ->
  StronglySorted R l -> StronglySorted Q l.
Proof.
  intros A R Q l. induction l as [|a l IH]; intros H S; [constructor|]. inversion S as [|? ? S' F]; subst. constructor.
  - apply IH; [|exact S']. intros x y Ix Iy. apply H; now right.
  - rewrite Forall_forall in *. intros b Ib. apply H; [now left|now right|auto].
Qed.

Lemma col_sort_spec : forall srt k x, sorts srt -> all_numbers k x ->
  exists y, col_sort srt k x = Ret y /\ Permutation x y /\ key_sorted k y.
Proof.
  intros srt k x Hs N. pose proof (all_numbers_numb k x N) as F.
  assert (Ints : k <> col_double -> exists y, Ret (sort_keys x) = Ret y /\ Permutation x y /\ key_sorted k y).
  { intros K. exists (sort_keys x). split; [reflexivity|]. split; [apply Permutation_sym, sort_keys_perm|].
    destruct k; [congruence| | |]; exact (sort_keys_le x). }
  destruct k; try (apply Ints; discriminate). cbn [col_sort].
  assert (En : existsb d_is_nan x = false).
  { apply not_true_is_false. intros E. apply existsb_exists in E as (a & Ia & Ea). cbn in N. rewrite Forall_forall in N. specialize (N a Ia). congruence. }
  rewrite En. cbn [andb]. destruct (Hs x) as (P & S).
  { intros (E & _). apply Exists_exists in E as (a & Ia & Ea). cbn in N. rewrite Forall_forall in N. specialize (N a Ia). cbn in N. congruence. }
  exists (srt x). split; [reflexivity|]. split; [exact P|]. eapply StronglySorted_impl_In; [|exact S].
  intros a b Ia Ib H. rewrite Forall_forall in F.
  assert (Na : numb col_double a) by (apply F; eapply Permutation_in; [apply Permutation_sym; exact P|exact Ia]).
  assert (Nb : numb col_double b) by (apply F; eapply Permutation_in; [apply Permutation_sym; exact P|exact Ib]).
  destruct (Z_le_gt_dec (col_key col_double a) (col_key col_double b)) as [|G]; [assumption|exfalso].
  pose proof (proj2 (d_ltb_key b a Nb Na)) as X. cbn [col_key] in G. specialize (X ltac:(lia)). cbv beta in H. congruence.
Qed.

(** ** Minimum and maximum *)

Lemma min_element_spec : forall k t a, Forall (numb k) (a :: t) -> least k (a :: t) (min_element k a t).
Proof.
  intros k. unfold min_element. induction t as [|b t IH]; intros a F; cbn [fold_left].
  - split; [now left|]. intros b [<-|[]]. inversion F; subst. apply at_most_key; auto. lia.
  - inversion F as [|? ? Na F']; subst. inversion F' as [|? ? Nb Ft]; subst.
    destruct (col_ltb k b a) eqn:E.
    + apply col_ltb_key in E; auto. destruct (IH b F') as (I & L). split; [now right|].
      intros c [<-|Ic]; [|now apply L]. assert (Nm : numb k (fold_left (fun m b => if col_ltb k b m then b else m) t b)) by (rewrite Forall_forall in F'; now apply F').
      apply at_most_key; auto. pose proof (L b (or_introl eq_refl)) as X. apply at_most_key in X; auto. lia.
    + destruct (IH a) as (I & L); [now constructor|]. split; [destruct I as [<-|I]; [now left|right; now right]|].
      intros c [<-|[<-|Ic]]; [apply L; now left| |apply L; now right].
      assert (Nm : numb k (fold_left (fun m b => if col_ltb k b m then b else m) t a)).
      { destruct I as [<-|I]; [exact Na|]. rewrite Forall_forall in Ft; now apply Ft. }
      apply at_most_key; auto. pose proof (L a (or_introl eq_refl)) as X. apply at_most_key in X; auto.
      assert (~ col_key k b < col_key k a) by (intros Y; apply col_ltb_key in Y; auto; congruence). lia.
Qed.

Lemma max_element_spec : forall k t a, Forall (numb k) (a :: t) -> greatest k (a :: t) (max_element k a t).
Proof.
  intros k. unfold max_element. induction t as [|b t IH]; intros a F; cbn [fold_left].
  - split; [now left|]. intros b [<-|[]]. inversion F; subst. apply at_most_key; auto. lia.
  - inversion F as [|? ? Na F']; subst. inversion F' as [|? ? Nb Ft]; subst.
    destruct (col_ltb k a b) eqn:E.
    + apply col_ltb_key in E; auto. destruct (IH b F') as (I & L). split; [now right|].
      intros c [<-|Ic]; [|now apply L]. assert (Nm : numb k (fold_left (fun m b => if col_ltb k m b then b else m) t b)) by (rewrite Forall_forall in F'; now apply F').
      apply at_most_key; auto. pose proof (L b (or_introl eq_refl)) as X. apply at_most_key in X; auto. lia.
    + destruct (IH a) as (I & L); [now constructor|]. split; [destruct I as [<-|I]; [now left|right; now right]|].
      intros c [<-|[<-|Ic]]; [apply L; now left| |apply L; now right].
      assert (Nm : numb k (fold_left (fun m b => if col_ltb k m b then b else m) t a)).
      { destruct I as [<-|I]; [exact Na|]. rewrite Forall_forall in Ft; now apply Ft. }
      apply at_most_key; auto. pose proof (L a (or_introl eq_refl)) as X. apply at_most_key in X; auto.
      assert (~ col_key k a < col_key k b) by (intros Y; apply col_ltb_key in Y; auto; congruence). lia.
Qed.

(** NaNs after the first element are ignored. *)
Lemma min_element_nan : forall t a, d_is_nan a = false ->
  min_element col_double a t = min_element col_double a (filter (fun b => negb (d_is_nan b)) t).
Proof.
  unfold min_element. induction t as [|b t IH]; intros a Na; [reflexivity|]. cbn [fold_left filter].
  destruct (d_is_nan b) eqn:Nb; cbn [negb].
  - cbn [col_ltb]. rewrite d_ltb_nan_l by exact Nb. now apply IH.
  - cbn [fold_left]. destruct (col_ltb col_double b a); now apply IH.
Qed.
Lemma max_element_nan : forall t a, d_is_nan a = false ->
  max_element col_double a t = max_element col_double a (filter (fun b => negb (d_is_nan b)) t).
Proof.
  unfold max_element. induction t as [|b t IH]; intros a Na; [reflexivity|]. cbn [fold_left filter].
  destruct (d_is_nan b) eqn:Nb; cbn [negb].
  - cbn [col_ltb]. rewrite d_ltb_nan_r by exact Nb. now apply IH.
  - cbn [fold_left]. destruct (col_ltb col_double a b); now apply IH.
Qed.
Lemma min_element_first_nan : forall t a, d_is_nan a = true -> min_element col_double a t = a.
Proof.
  unfold min_element. induction t as [|b t IH]; intros a Na; [reflexivity|]. cbn [fold_left col_ltb].
  rewrite d_ltb_nan_r by exact Na. now apply IH.
Qed.
Lemma max_element_first_nan : forall t a, d_is_nan a = true -> max_element col_double a t = a.
Proof.
  unfold max_element. induction t as [|b t IH]; intros a Na; [reflexivity|]. cbn [fold_left col_ltb].
  rewrite d_ltb_nan_l by exact Na. now apply IH.
Qed.

(** ** Differences *)

Lemma col_sub_difference : forall k a b, in_column k a -> in_column k b -> at_most k b a -> col_sub k a b = difference k a b.
Proof.
  intros [| | |] a b A B L; cbn in *; try reflexivity.
  - unfold to_u32, two32. apply Z.mod_small. lia.
  - unfold to_u64, two64. apply Z.mod_small. lia.
Qed.

Lemma col_value_json : forall k a, col_value k a = json_of k a.
Proof. now intros [| | |] a. Qed.
Lemma col_range_json : forall k a, col_range k a = json_of_difference k a.
Proof. now intros [| | |] a. Qed.

Lemma col_text_shown : forall fmt k a, shown_as fmt k a (col_text fmt k a).
Proof. intros fmt [| | |] a; cbn [shown_as col_text]; try apply put_int_spec. reflexivity. Qed.
Lemma shown_as_text : forall fmt k a t, shown_as fmt k a t -> t = col_text fmt k a.
Proof.
  intros fmt [| | |] a t; cbn [shown_as col_text]; try (intros H; eapply int_text_unique; [exact H|apply put_int_spec]). auto.
Qed.
