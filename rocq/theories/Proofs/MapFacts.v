(** Lemmas about the order of strings, and maps from strings. *)
From Coq Require Import String ZArith List Bool Lia Sorted Permutation.
From Verif.Model Require Import Base Json.
From Verif.Spec Require Import Reports.
Import ListNotations.
Open Scope Z_scope.

Lemma str_ltb_cons : forall x a y b, str_ltb (x :: a) (y :: b) = if x =? y then str_ltb a b else x <? y.
Proof. reflexivity. Qed.

Lemma str_ltb_irrefl : forall a, str_ltb a a = false.
Proof. induction a as [|x a IH]; [reflexivity|]. rewrite str_ltb_cons, Z.eqb_refl. exact IH. Qed.

Lemma str_ltb_trans : forall a b c, str_ltb a b = true -> str_ltb b c = true -> str_ltb a c = true.
Proof.
  induction a as [|x a IH]; intros [|y b] [|w c]; try (cbn; congruence).
  rewrite !str_ltb_cons.
  destruct (Z.eqb_spec x y), (Z.eqb_spec y w), (Z.eqb_spec x w); subst; intros H1 H2; try congruence;
    try (apply Z.ltb_lt in H1); try (apply Z.ltb_lt in H2); try lia; try (apply Z.ltb_lt; lia).
  now apply IH with b.
Qed.

Lemma str_ltb_total : forall a b, str_ltb a b = false -> str_ltb b a = false -> a = b.
Proof.
  induction a as [|x a IH]; intros [|y b]; try (cbn; congruence).
  rewrite !str_ltb_cons.
  destruct (Z.eqb_spec x y), (Z.eqb_spec y x); subst; intros H1 H2; try congruence.
  - f_equal. now apply IH.
  - apply Z.ltb_ge in H1. apply Z.ltb_ge in H2. lia.
Qed.

Lemma str_ltb_before : forall a b, str_ltb a b = true <-> before a b.
Proof.
  induction a as [|x a IH]; intros [|y b].
  - split; [discriminate|]. intros [(c & u & E)|(p & x & y & u & w & E & _)]; [discriminate|destruct p; discriminate].
  - split; [|reflexivity]. intros _. left. now exists y, b.
  - split; [discriminate|]. intros [(c & u & E)|(p & x' & y & u & w & _ & E & _)]; [discriminate|destruct p; discriminate].
  - rewrite str_ltb_cons. destruct (Z.eqb_spec x y) as [->|N].
    + rewrite IH. split.
      * intros [(c & u & ->)|(p & x' & y' & u & w & -> & -> & L)]; [left; now exists c, u|].
        right. now exists (y :: p), x', y', u, w.
      * intros [(c & u & E)|(p & x' & y' & u & w & E1 & E2 & L)].
        -- injection E as ->. left. now exists c, u.
        -- right. destruct p as [|z p]; cbn [app] in *; inversion E1; inversion E2; subst; [lia|].
           now exists p, x', y', u, w.
    + split.
      * intros L. apply Z.ltb_lt in L. right. now exists [], x, y, a, b.
      * intros [(c & u & E)|(p & x' & y' & u & w & E1 & E2 & L)].
        -- injection E as -> ->. congruence.
        -- destruct p as [|z p]; cbn [app] in *; inversion E1; inversion E2; subst; [now apply Z.ltb_lt|congruence].
Qed.

Lemma before_irrefl : forall a, ~ before a a.
Proof. intros a H. apply str_ltb_before in H. rewrite str_ltb_irrefl in H. discriminate. Qed.

Lemma before_trans : forall a b c, before a b -> before b c -> before a c.
Proof. intros a b c. rewrite <- !str_ltb_before. apply str_ltb_trans. Qed.

Lemma map_set_keys : forall {V} k (v : V) m x, In x (map fst (map_set k v m)) <-> x = k \/ In x (map fst m).
Proof.
  intros V k v m x. induction m as [|(j, w) m IH]; cbn [map_set map fst In].
  - intuition.
  - destruct (str_ltb k j) eqn:A; cbn [map fst In]; [intuition|].
    destruct (str_ltb j k) eqn:B; cbn [map fst In]; [rewrite IH; intuition|].
    rewrite (str_ltb_total _ _ A B). intuition.
Qed.

Lemma map_set_order : forall {V} k (v : V) m, in_order m -> in_order (map_set k v m).
Proof.
  intros V k v m. unfold in_order. induction m as [|(j, w) m IH]; cbn [map_set map fst]; intros S.
  - repeat constructor.
  - inversion S as [|? ? S' F]; subst.
    destruct (str_ltb k j) eqn:A; cbn [map fst].
    + apply str_ltb_before in A. constructor; [exact S|]. constructor; [exact A|].
      eapply Forall_impl; [|exact F]. intros x. now apply before_trans.
    + destruct (str_ltb j k) eqn:B; cbn [map fst].
      * constructor; [now apply IH|]. rewrite Forall_forall in *. intros x I. apply map_set_keys in I as [->|I]; [|auto].
        now apply str_ltb_before.
      * rewrite (str_ltb_total _ _ A B) in *. exact S.
Qed.

Lemma map_get_set : forall {V} x k (v : V) m, in_order m -> map_get x (map_set k v m) = if list_eq_dec Z.eq_dec x k then Some v else map_get x m.
Proof.
  intros V x k v m. induction m as [|(j, w) m IH]; intros S; cbn [map_set map_get].
  - destruct (list_eq_dec Z.eq_dec x k) as [->|N]; [now rewrite str_ltb_irrefl|].
    destruct (str_ltb x k) eqn:A; [reflexivity|]. destruct (str_ltb k x) eqn:B; [reflexivity|].
    now rewrite (str_ltb_total _ _ A B) in N.
  - inversion S as [|? ? S' F]; subst.
    assert (key : forall y, str_ltb x y = false -> str_ltb y x = false -> x = y) by (intros; now apply str_ltb_total).
    destruct (str_ltb k j) eqn:A; cbn [map_get].
    + destruct (list_eq_dec Z.eq_dec x k) as [->|N]; [now rewrite str_ltb_irrefl|].
      destruct (str_ltb x k) eqn:C; [now rewrite (str_ltb_trans _ _ _ C A)|].
      destruct (str_ltb k x) eqn:D; [reflexivity|]. now rewrite (key _ C D) in N.
    + destruct (str_ltb j k) eqn:B; cbn [map_get].
      * rewrite IH by exact S'. destruct (list_eq_dec Z.eq_dec x k) as [->|N]; [|reflexivity].
        rewrite A, B. reflexivity.
      * destruct (list_eq_dec Z.eq_dec x k) as [->|N]; [now rewrite A, B|].
        destruct (str_ltb x j) eqn:C; [reflexivity|]. destruct (str_ltb j x) eqn:D; [reflexivity|].
        exfalso. apply N. rewrite (key _ C D). symmetry. now apply str_ltb_total.
Qed.

Lemma map_get_In : forall {V} x (v : V) m, in_order m -> (map_get x m = Some v <-> In (x, v) m).
Proof.
  intros V x v m. induction m as [|(j, w) m IH]; intros S; [cbn; split; [discriminate|tauto]|].
  inversion S as [|? ? S' F]; subst. cbn [map_get In].
  destruct (str_ltb x j) eqn:A.
  - split; [discriminate|]. intros [E|I].
    + injection E as -> ->. rewrite str_ltb_irrefl in A. discriminate.
    + rewrite Forall_forall in F. specialize (F x (in_map fst _ _ I)). apply str_ltb_before in F.
      pose proof (str_ltb_irrefl x). pose proof (str_ltb_trans _ _ _ A F). congruence.
  - destruct (str_ltb j x) eqn:B.
    + rewrite IH by exact S'. split; [auto|]. intros [E|I]; [|exact I]. injection E as -> ->. rewrite str_ltb_irrefl in B. discriminate.
    + rewrite (str_ltb_total _ _ A B). split.
      * intros [= ->]. now left.
      * intros [E|I]; [now injection E as ->|].
        rewrite Forall_forall in F. specialize (F j (in_map fst _ _ I)). now apply before_irrefl in F.
Qed.

(** Two maps that agree on every key are the same. *)
Lemma map_ext_order : forall {V} (m n : str_map V), in_order m -> in_order n -> (forall x, map_get x m = map_get x n) -> m = n.
Proof.
  intros V. induction m as [|(j, w) m IH]; intros [|(i, u) n] Sm Sn E; [reflexivity| | |].
  - specialize (E i). cbn [map_get] in E. rewrite str_ltb_irrefl in E. discriminate.
  - specialize (E j). cbn [map_get] in E. rewrite str_ltb_irrefl in E. discriminate.
  - inversion Sm as [|? ? Sm' Fm]; inversion Sn as [|? ? Sn' Fn]; subst. rewrite Forall_forall in *.
    assert (Eij : j = i).
    { apply str_ltb_total.
      - destruct (str_ltb j i) eqn:A; [|reflexivity]. specialize (E j). cbn [map_get] in E.
        rewrite A, str_ltb_irrefl in E. discriminate.
      - destruct (str_ltb i j) eqn:A; [|reflexivity]. specialize (E i). cbn [map_get] in E.
        rewrite A, str_ltb_irrefl in E. discriminate. }
    subst i. pose proof (E j) as E0. cbn [map_get] in E0. rewrite str_ltb_irrefl in E0. injection E0 as ->.
    f_equal. apply IH; auto. intros x. specialize (E x). cbn [map_get] in E.
    destruct (str_ltb x j) eqn:A.
    + assert (H : forall p : str_map V, in_order p -> (forall y, In y (map fst p) -> before j y) -> map_get x p = None).
      { intros p So F. destruct (map_get x p) eqn:G; [|reflexivity]. apply map_get_In in G; [|exact So].
        specialize (F x (in_map fst _ _ G)). apply str_ltb_before in F. pose proof (str_ltb_trans _ _ _ A F) as X.
        rewrite str_ltb_irrefl in X. discriminate. }
      now rewrite !H.
    + destruct (str_ltb j x) eqn:B; [exact E|]. rewrite (str_ltb_total _ _ A B) in *.
      assert (H : forall p : str_map V, in_order p -> (forall y, In y (map fst p) -> before j y) -> map_get j p = None).
      { intros p So F. destruct (map_get j p) eqn:G; [|reflexivity]. apply map_get_In in G; [|exact So].
        specialize (F j (in_map fst _ _ G)). now apply before_irrefl in F. }
      now rewrite !H.
Qed.
