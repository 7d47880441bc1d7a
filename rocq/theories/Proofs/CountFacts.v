(** Lemmas about the class counts of spoc_info. *)
From Coq Require Import String ZArith List Bool Lia Sorted Permutation.
From Verif.Model Require Import Base AppUtils Json InfoApp.
From Verif.Spec Require Import Text Reports.
From Verif.Proofs Require Import BaseFacts TextFacts MapFacts.
Import ListNotations.
Open Scope Z_scope.

(** ** Decimal texts are unique *)

Lemma number_lt : forall ds, Forall digit ds -> number ds < 10 ^ Z.of_nat (List.length ds).
Proof.
  induction 1 as [|d t D F IH]; cbn [number List.length]; [lia|]. unfold digit in D.
  rewrite Nat2Z.inj_succ, Z.pow_succ_r by lia. nia.
Qed.

Lemma number_inj : forall a b, Forall digit a -> Forall digit b -> List.length a = List.length b -> number a = number b -> a = b.
Proof.
  induction a as [|x a IH]; intros [|y b] A B L E; try discriminate; [reflexivity|].
  inversion A as [|? ? Da Fa]; inversion B as [|? ? Db Fb]; subst. injection L as L. cbn [number] in E. rewrite L in E.
  pose proof (number_lt a Fa) as Ua. pose proof (number_lt b Fb) as Ub. rewrite L in Ua.
  pose proof (number_nonneg a Fa). pose proof (number_nonneg b Fb).
  assert (x = y) by nia. subst y. f_equal. apply IH; auto. lia.
Qed.

Lemma decimal_length : forall a b, Forall digit a -> Forall digit b -> hd 0 a <> 48 -> (List.length b < List.length a)%nat -> number b < number a.
Proof.
  intros [|x a] b A B N L; [cbn in L; lia|]. inversion A as [|? ? D F]; subst. cbn [hd] in N. unfold digit in D.
  pose proof (number_lt b B) as U. cbn [number]. pose proof (number_nonneg a F).
  assert (10 ^ Z.of_nat (List.length b) <= 10 ^ Z.of_nat (List.length a)) by (apply Z.pow_le_mono_r; cbn in L; lia).
  assert (0 < 10 ^ Z.of_nat (List.length a)) by (apply Z.pow_pos_nonneg; lia). nia.
Qed.

Lemma decimal_zero : forall n a, decimal n a -> (hd 0 a = 48 <-> n = 0).
Proof.
  intros n a (N & F & V & Z). split.
  - intros E. rewrite (Z E) in V. now rewrite <- V.
  - intros ->. destruct (Z.eq_dec (hd 0 a) 48) as [|X]; [assumption|]. exfalso.
    destruct a as [|x a]; [congruence|]. destruct a as [|y a].
    + inversion F; subst. unfold digit in *. cbn in V, X. lia.
    + pose proof (decimal_length (x :: y :: a) [48] F ltac:(repeat constructor; unfold digit; lia) X ltac:(cbn; lia)) as H.
      change (number [48]) with 0 in H. rewrite V in H. lia.
Qed.

Lemma decimal_unique : forall n a b, decimal n a -> decimal n b -> a = b.
Proof.
  intros n a b A B. pose proof (decimal_zero n a A) as Ha. pose proof (decimal_zero n b B) as Hb.
  destruct A as (Na & Fa & Va & Za), B as (Nb & Fb & Vb & Zb).
  destruct (Z.eq_dec n 0) as [E|E]; [rewrite Za, Zb by tauto; reflexivity|].
  apply number_inj; auto; [|congruence].
  destruct (lt_eq_lt_dec (List.length a) (List.length b)) as [[H|H]|H]; [|exact H|].
  - pose proof (decimal_length b a Fb Fa ltac:(tauto) H). lia.
  - pose proof (decimal_length a b Fa Fb ltac:(tauto) H). lia.
Qed.

Lemma int_text_unique : forall n a b, int_text n a -> int_text n b -> a = b.
Proof.
  intros n a b. unfold int_text. destruct (n <? 0).
  - intros (u & -> & U) (w & -> & W). f_equal. eapply decimal_unique; eauto.
  - apply decimal_unique.
Qed.

Lemma put_int_spec : forall n, int_text n (put_int n).
Proof.
  intros n. unfold int_text, put_int. destruct (Z.ltb_spec n 0); [eexists; split; [reflexivity|]|]; apply put_uint_spec; lia.
Qed.

Lemma put_uint_text : forall n, 0 <= n -> int_text n (put_uint n).
Proof. intros n H. unfold int_text. destruct (Z.ltb_spec n 0); [lia|]. now apply put_uint_spec. Qed.

(** ** Labels *)

Lemma class_label_padded : forall k, padded (put_int k) (class_label k).
Proof.
  intros k. unfold class_label, padded, zrepeat, zlen. set (u := put_int k).
  exists (Z.to_nat (3 - Z.of_nat (List.length u))). split; [reflexivity|].
  destruct (le_lt_dec 3 (List.length u)); [left|right]; [split; lia|]. rewrite app_length, repeat_length. lia.
Qed.

Lemma padded_unique : forall u s t, padded u s -> padded u t -> s = t.
Proof.
  intros u s t (j & -> & J) (k & -> & K). rewrite !app_length, !repeat_length in *. f_equal. f_equal. lia.
Qed.

Lemma to_i32_u32 : forall v, 0 <= v < 2 ^ 32 -> to_i32 v = if v <? 2 ^ 31 then v else v - 2 ^ 32.
Proof. intros v H. unfold to_i32, two32, two31. rewrite Z.mod_small by lia. reflexivity. Qed.

Lemma to_i32_inj : forall v w, 0 <= v < 2 ^ 32 -> 0 <= w < 2 ^ 32 -> to_i32 v = to_i32 w -> v = w.
Proof.
  intros v w V W. rewrite !to_i32_u32 by assumption. destruct (Z.ltb_spec v (2 ^ 31)), (Z.ltb_spec w (2 ^ 31)); lia.
Qed.

Lemma label_of_class : forall v t, 0 <= v < 2 ^ 32 -> (label_of v t <-> t = class_label (to_i32 v)).
Proof.
  intros v t H. rewrite to_i32_u32 by assumption. unfold label_of. set (k := if v <? 2 ^ 31 then v else v - 2 ^ 32). split.
  - intros (u & U & P). apply (padded_unique u); [exact P|]. rewrite (int_text_unique _ _ _ U (put_int_spec k)). apply class_label_padded.
  - intros ->. exists (put_int k). split; [apply put_int_spec|apply class_label_padded].
Qed.

Definition minus (c : Z) : bool := c =? 45.

Lemma zeros_number : forall k ds, number (repeat 48 k ++ ds) = number ds.
Proof. induction k as [|k IH]; intros ds; cbn [repeat app number]; [reflexivity|]. rewrite IH. lia. Qed.

Lemma digits_no_minus : forall ds, Forall digit ds -> existsb minus ds = false /\ filter (fun c => negb (minus c)) ds = ds.
Proof.
  induction 1 as [|d t D F (IH1 & IH2)]; [split; reflexivity|]. cbn [existsb filter]. unfold minus at 1 3.
  assert (E : (d =? 45) = false) by (apply Z.eqb_neq; unfold digit in D; lia). rewrite E. cbn [negb orb]. now rewrite IH1, IH2.
Qed.

Lemma zeros_digits : forall k, Forall digit (repeat 48 k).
Proof. induction k; constructor; auto. unfold digit. lia. Qed.

Lemma label_value : forall k, k = let t := class_label k in
  let n := number (filter (fun c => negb (minus c)) t) in if existsb minus t then - n else n.
Proof.
  intros k. cbn zeta. destruct (class_label_padded k) as (j & -> & _). pose proof (put_int_spec k) as P. unfold int_text in P.
  rewrite existsb_app, filter_app. destruct (digits_no_minus _ (zeros_digits j)) as (-> & ->). cbn [orb]. rewrite zeros_number.
  destruct (Z.ltb_spec k 0) as [L|L].
  - destruct P as (u & -> & _ & F & V & _). destruct (digits_no_minus _ F) as (_ & E). cbn [existsb filter].
    change (minus 45) with true. cbn [negb orb]. rewrite E. lia.
  - destruct P as (_ & F & V & _). destruct (digits_no_minus _ F) as (-> & ->). lia.
Qed.

Lemma class_label_inj : forall k j, class_label k = class_label j -> k = j.
Proof. intros k j E. rewrite (label_value k), (label_value j), E. reflexivity. Qed.

(** ** Counting *)

Lemma count_one_keys : forall k m x, In x (map fst (count_one k m)) <-> x = k \/ In x (map fst m).
Proof.
  intros k m x. induction m as [|(j, n) m IH]; cbn [count_one map fst In]; [intuition|].
  destruct (Z.eqb_spec k j) as [->|]; cbn [map fst In]; [intuition|]. rewrite IH. intuition.
Qed.

Lemma count_one_nodup : forall k m, NoDup (map fst m) -> NoDup (map fst (count_one k m)).
Proof.
  intros k m. induction m as [|(j, n) m IH]; cbn [count_one map fst]; intros N; [repeat constructor; auto|].
  inversion N; subst. destruct (Z.eqb_spec k j) as [->|]; cbn [map fst]; [exact N|]. constructor; [|auto].
  rewrite count_one_keys. intros [->|]; auto.
Qed.

Definition counted (m : list (Z * Z)) (l : list Z) : Prop :=
  forall k n, In (k, n) m <-> n = occurrences k l /\ 0 < n.

Lemma occurrences_snoc : forall v l a, occurrences v (l ++ [a]) = occurrences v l + (if Z.eq_dec a v then 1 else 0).
Proof.
  intros v l a. unfold occurrences. rewrite count_occ_app. cbn [count_occ]. destruct (Z.eq_dec a v); lia.
Qed.

Lemma count_one_counted : forall a m l, NoDup (map fst m) -> counted m l -> counted (count_one a m) (l ++ [a]).
Proof.
  intros a m l N C k n. rewrite occurrences_snoc.
  assert (G : forall m, NoDup (map fst m) -> (In (k, n) (count_one a m) <->
            if Z.eq_dec a k then (In (k, n - 1) m \/ n = 1 /\ ~ In k (map fst m)) else In (k, n) m)).
  { clear. induction m as [|(j, c) m IH]; intros N; cbn [count_one].
    - cbn [In map]. destruct (Z.eq_dec a k) as [->|Y]; split.
      + intros [E|[]]. injection E as ->. right. split; [reflexivity|tauto].
      + intros [[]|(-> & _)]. now left.
      + intros [E|[]]. injection E as -> _. congruence.
      + intros [].
    - inversion N; subst. destruct (Z.eqb_spec a j) as [->|X]; cbn [In map fst].
      + destruct (Z.eq_dec j k) as [->|Y].
        * split.
          -- intros [E|I]; [injection E as E; left; left; f_equal; lia|]. exfalso. apply H1. now apply (in_map fst) in I.
          -- intros [[E|I]|(E & I)]; [injection E as E; left; f_equal; lia| |tauto].
             exfalso. apply H1. now apply (in_map fst) in I.
        * split; (intros [E|I]; [injection E as -> _; congruence|now right]).
      + rewrite IH by assumption. destruct (Z.eq_dec a k) as [->|Y]; split.
        * intros [E|[I|(E & I)]]; [injection E as -> _; congruence|auto|]. right. split; [exact E|]. intros [->|]; auto.
        * intros [[E|I]|(E & I)]; [injection E as -> _; congruence|auto|]. right. right. split; [exact E|]. tauto.
        * auto.
        * auto. }
  rewrite (G m N). clear G.
  assert (Nn : forall k, ~ In k (map fst m) <-> occurrences k l = 0).
  { intros x. split.
    - intros H. destruct (Z.eq_dec (occurrences x l) 0) as [|X]; [assumption|]. exfalso. apply H.
      assert (I : In (x, occurrences x l) m) by (apply C; split; [reflexivity|unfold occurrences in *; lia]). now apply (in_map fst) in I.
    - intros H I. apply in_map_iff in I as ((y, c) & E & I). cbn [fst] in E. subst y. apply C in I. lia. }
  assert (0 <= occurrences k l) by (unfold occurrences; lia).
  destruct (Z.eq_dec a k) as [->|].
  - rewrite (C k (n - 1)), Nn. lia.
  - rewrite (C k n), Z.add_0_r. reflexivity.
Qed.

Lemma count_classes_spec : forall c, NoDup (map fst (count_classes c)) /\ counted (count_classes c) (map to_i32 c).
Proof.
  intros c. unfold count_classes. induction c as [|a c (IH1 & IH2)] using rev_ind.
  - split; [constructor|]. intros k n. cbn. unfold occurrences. cbn. lia.
  - rewrite fold_left_app, map_app. cbn [fold_left map]. split; [now apply count_one_nodup|]. now apply count_one_counted.
Qed.

Lemma count_classes_total : forall c, total (map snd (count_classes c)) = zlen c.
Proof.
  assert (G : forall k m, total (map snd (count_one k m)) = total (map snd m) + 1).
  { intros k. induction m as [|(j, n) m IH]; cbn [count_one map snd total]; [lia|].
    destruct (k =? j); cbn [map snd total]; [lia|]. rewrite IH. lia. }
  intros c. unfold count_classes, zlen. induction c as [|a c IH] using rev_ind; [reflexivity|].
  rewrite fold_left_app, app_length. cbn [fold_left List.length]. rewrite G, IH. lia.
Qed.

(** ** The map of labels *)

Lemma label_counts_snoc : forall m i, label_counts (m ++ [i]) = map_set (class_label (fst i)) (snd i) (label_counts m).
Proof. intros m i. unfold label_counts. now rewrite fold_left_app. Qed.

Lemma label_counts_order : forall m, in_order (label_counts m).
Proof.
  intros m. induction m as [|i m IH] using rev_ind; [constructor|]. rewrite label_counts_snoc. now apply map_set_order.
Qed.

Lemma NoDup_snoc : forall {A} (l : list A) a, NoDup (l ++ [a]) -> NoDup l /\ ~ In a l.
Proof.
  intros A l a N. apply NoDup_remove in N. now rewrite app_nil_r in N.
Qed.

Lemma label_counts_spec : forall m t n, NoDup (map fst m) ->
  (map_get t (label_counts m) = Some n <-> exists k, t = class_label k /\ In (k, n) m).
Proof.
  intros m t n. induction m as [|(j, c) m IH] using rev_ind; intros N.
  - cbn. split; [discriminate|]. now intros (k & _ & []).
  - rewrite map_app in N. cbn [map fst] in N. apply NoDup_snoc in N as (N & J).
    rewrite label_counts_snoc, map_get_set by apply label_counts_order. cbn [fst snd].
    destruct (list_eq_dec Z.eq_dec t (class_label j)) as [->|X].
    + split.
      * intros [= ->]. exists j. split; [reflexivity|]. apply in_or_app. right. now left.
      * intros (k & E & I). apply class_label_inj in E. subst k. apply in_app_or in I as [I|[E|[]]].
        -- exfalso. apply J. now apply (in_map fst) in I.
        -- injection E as ->. reflexivity.
    + rewrite IH by exact N. split; intros (k & -> & I); exists k; (split; [reflexivity|]).
      * apply in_or_app. now left.
      * apply in_app_or in I as [I|[E|[]]]; [exact I|]. injection E as -> ->. congruence.
Qed.

Lemma label_counts_total : forall m, NoDup (map fst m) -> total (map snd (label_counts m)) = total (map snd m).
Proof.
  assert (G : forall t (n : Z) m, ~ In t (map fst m) -> total (map snd (map_set t n m)) = total (map snd m) + n).
  { intros t n. induction m as [|(j, w) m IH]; cbn [map_set map snd fst In total]; [lia|]. intros H.
    destruct (str_ltb t j) eqn:A; [cbn [map snd total]; lia|]. destruct (str_ltb j t) eqn:B.
    - cbn [map snd total]. rewrite IH by tauto. lia.
    - exfalso. apply H. left. symmetry. now apply str_ltb_total. }
  assert (T : forall a b, total (a ++ b) = total a + total b).
  { induction a; intros b; cbn [app total]; [lia|]. rewrite IHa. lia. }
  intros m. induction m as [|(j, c) m IH] using rev_ind; intros N; [reflexivity|].
  rewrite map_app in N. cbn [map fst] in N. apply NoDup_snoc in N as (N & J).
  rewrite label_counts_snoc, map_app, T. cbn [map snd fst total]. rewrite G; [rewrite IH by exact N; lia|].
  intros I. apply in_map_iff in I as ((t, n) & E & I). cbn [fst] in E. subst t.
  apply map_get_In in I; [|apply label_counts_order]. apply label_counts_spec in I as (k & E & I); [|exact N].
  apply class_label_inj in E. subst k. apply J. now apply (in_map fst) in I.
Qed.

Lemma occurrences_i32 : forall v c, 0 <= v < 2 ^ 32 -> Forall (fun w => 0 <= w < 2 ^ 32) c ->
  occurrences (to_i32 v) (map to_i32 c) = occurrences v c.
Proof.
  intros v c V F. unfold occurrences. f_equal. induction F as [|w c W F IH]; [reflexivity|]. cbn [map count_occ].
  destruct (Z.eq_dec (to_i32 w) (to_i32 v)) as [E|E], (Z.eq_dec w v) as [E'|E']; auto; [|congruence].
  apply to_i32_inj in E; auto. congruence.
Qed.
