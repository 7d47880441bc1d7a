(** Comparisons, minima and maxima of doubles that are not NaN (no axioms). *)
From Coq Require Import ZArith List Bool Permutation Lia.
From Verif.Model Require Import Base Double.
Import ListNotations.
Open Scope Z_scope.

Lemma d_eqb_key : forall a b, d_is_nan a = false -> d_is_nan b = false ->
  (d_eqb a b = true <-> d_key a = d_key b).
Proof. intros a b Ha Hb. unfold d_eqb. rewrite Ha, Hb. cbn. apply Z.eqb_eq. Qed.
Lemma d_ltb_key : forall a b, d_is_nan a = false -> d_is_nan b = false ->
  (d_ltb a b = true <-> d_key a < d_key b).
Proof. intros a b Ha Hb. unfold d_ltb. rewrite Ha, Hb. cbn. apply Z.ltb_lt. Qed.
Lemma d_leb_key : forall a b, d_is_nan a = false -> d_is_nan b = false ->
  (d_leb a b = true <-> d_key a <= d_key b).
Proof. intros a b Ha Hb. unfold d_leb. rewrite Ha, Hb. cbn. apply Z.leb_le. Qed.

Lemma d_ltb_nan_l : forall a b, d_is_nan a = true -> d_ltb a b = false.
Proof. intros a b H. unfold d_ltb. now rewrite H. Qed.
Lemma d_ltb_nan_r : forall a b, d_is_nan b = true -> d_ltb a b = false.
Proof. intros a b H. unfold d_ltb. rewrite H. now destruct (d_is_nan a). Qed.
Lemma d_eqb_nan_l : forall a b, d_is_nan a = true -> d_eqb a b = false.
Proof. intros a b H. unfold d_eqb. now rewrite H. Qed.
Lemma d_eqb_nan_r : forall a b, d_is_nan b = true -> d_eqb a b = false.
Proof. intros a b H. unfold d_eqb. rewrite H. now destruct (d_is_nan a). Qed.

Lemma d_eqb_not_nan : forall a b, d_eqb a b = true -> d_is_nan a = false /\ d_is_nan b = false.
Proof.
  intros a b. unfold d_eqb. rewrite !andb_true_iff, !negb_true_iff. tauto.
Qed.

Lemma d_eqb_sym : forall a b, d_eqb a b = d_eqb b a.
Proof.
  intros a b. unfold d_eqb. rewrite (Z.eqb_sym (d_key a)). f_equal. apply andb_comm.
Qed.

Lemma d_eqb_trans : forall a b c, d_eqb a b = true -> d_eqb b c = true -> d_eqb a c = true.
Proof.
  intros a b c H1 H2. destruct (d_eqb_not_nan _ _ H1), (d_eqb_not_nan _ _ H2).
  apply d_eqb_key in H1; auto. apply d_eqb_key in H2; auto. apply d_eqb_key; auto. congruence.
Qed.

Lemma d_eqb_refl : forall a, d_eqb a a = true <-> d_is_nan a = false.
Proof.
  intros a. split; [now intros H; apply d_eqb_not_nan in H|].
  intros H. now apply d_eqb_key.
Qed.

Lemma d_min_nan : forall a b, d_is_nan a = false -> d_is_nan b = false -> d_is_nan (d_min a b) = false.
Proof. intros a b Ha Hb. unfold d_min. now destruct (d_ltb b a). Qed.
Lemma d_max2_nan : forall a b, d_is_nan a = false -> d_is_nan b = false -> d_is_nan (d_max2 a b) = false.
Proof. intros a b Ha Hb. unfold d_max2. now destruct (d_ltb a b). Qed.

Lemma d_min_key : forall a b, d_is_nan a = false -> d_is_nan b = false ->
  d_key (d_min a b) = Z.min (d_key a) (d_key b).
Proof.
  intros a b Ha Hb. unfold d_min. pose proof (d_ltb_key b a Hb Ha) as H.
  destruct (d_ltb b a); [assert (d_key b < d_key a) by (now apply H); lia|].
  assert (~ d_key b < d_key a) by (intros X; apply H in X; discriminate). lia.
Qed.
Lemma d_max2_key : forall a b, d_is_nan a = false -> d_is_nan b = false ->
  d_key (d_max2 a b) = Z.max (d_key a) (d_key b).
Proof.
  intros a b Ha Hb. unfold d_max2. pose proof (d_ltb_key a b Ha Hb) as H.
  destruct (d_ltb a b); [assert (d_key a < d_key b) by (now apply H); lia|].
  assert (~ d_key a < d_key b) by (intros X; apply H in X; discriminate). lia.
Qed.

Lemma d_min_or : forall a b, d_min a b = a \/ d_min a b = b.
Proof. intros a b. unfold d_min. destruct (d_ltb b a); auto. Qed.
Lemma d_max2_or : forall a b, d_max2 a b = a \/ d_max2 a b = b.
Proof. intros a b. unfold d_max2. destruct (d_ltb a b); auto. Qed.

(** Running minima and maxima of a column *)
Definition run_min (xs : list double) (m : double) : double := fold_left (fun m x => d_min x m) xs m.
Definition run_max (xs : list double) (m : double) : double := fold_left (fun m x => d_max2 x m) xs m.

Definition no_nan (xs : list double) : Prop := Forall (fun x => d_is_nan x = false) xs.

Lemma run_min_key : forall xs m, no_nan xs -> d_is_nan m = false ->
  d_is_nan (run_min xs m) = false
  /\ d_key (run_min xs m) = fold_right Z.min (d_key m) (map d_key xs).
Proof.
  induction xs as [|x t IH]; intros m Hn Hm; [auto|]. inversion Hn; subst. change (run_min (x :: t) m) with (run_min t (d_min x m)). cbn [map fold_right].
  destruct (IH (d_min x m)) as [I1 I2]; auto using d_min_nan. split; [exact I1|].
  rewrite I2, d_min_key by assumption. clear. induction t as [|y t IH]; cbn; lia.
Qed.
Lemma run_max_key : forall xs m, no_nan xs -> d_is_nan m = false ->
  d_is_nan (run_max xs m) = false
  /\ d_key (run_max xs m) = fold_right Z.max (d_key m) (map d_key xs).
Proof.
  induction xs as [|x t IH]; intros m Hn Hm; [auto|]. inversion Hn; subst. change (run_max (x :: t) m) with (run_max t (d_max2 x m)). cbn [map fold_right].
  destruct (IH (d_max2 x m)) as [I1 I2]; auto using d_max2_nan. split; [exact I1|].
  rewrite I2, d_max2_key by assumption. clear. induction t as [|y t IH]; cbn; lia.
Qed.

Lemma fold_min_le : forall l m, fold_right Z.min m l <= m /\ forall x, In x l -> fold_right Z.min m l <= x.
Proof.
  induction l as [|y l IH]; intros m; cbn; [split; [lia|intros x []]|].
  destruct (IH m) as [A B]. split; [lia|]. intros x [->|H]; [lia|]. specialize (B x H). lia.
Qed.
Lemma fold_max_le : forall l m, m <= fold_right Z.max m l /\ forall x, In x l -> x <= fold_right Z.max m l.
Proof.
  induction l as [|y l IH]; intros m; cbn; [split; [lia|intros x []]|].
  destruct (IH m) as [A B]. split; [lia|]. intros x [->|H]; [lia|]. specialize (B x H). lia.
Qed.

Lemma run_min_In : forall xs m, run_min xs m = m \/ In (run_min xs m) xs.
Proof.
  induction xs as [|x t IH]; intros m; cbn; [now left|].
  destruct (IH (d_min x m)) as [E|E]; [|auto].
  unfold run_min in E. rewrite E. destruct (d_min_or x m) as [->| ->]; auto.
Qed.
Lemma run_max_In : forall xs m, run_max xs m = m \/ In (run_max xs m) xs.
Proof.
  induction xs as [|x t IH]; intros m; cbn; [now left|].
  destruct (IH (d_max2 x m)) as [E|E]; [|auto].
  unfold run_max in E. rewrite E. destruct (d_max2_or x m) as [->| ->]; auto.
Qed.

Lemma fold_min_perm : forall l l' m, Permutation l l' -> fold_right Z.min m l = fold_right Z.min m l'.
Proof. intros l l' m H. induction H; cbn; lia. Qed.
Lemma fold_max_perm : forall l l' m, Permutation l l' -> fold_right Z.max m l = fold_right Z.max m l'.
Proof. intros l l' m H. induction H; cbn; lia. Qed.

(** After a NaN the running minimum starts again. *)
Lemma run_min_after_nan : forall xs n ys m, d_is_nan n = true -> ys <> [] -> no_nan ys ->
  run_min (xs ++ n :: ys) m = match ys with y :: t => run_min t y | [] => m end.
Proof.
  intros xs n [|y t] m Hn Hy Hys; [congruence|]. unfold run_min. rewrite fold_left_app. cbn.
  f_equal. inversion Hys; subst.
  assert (E : forall m, d_min n m = n). { intros. unfold d_min. now rewrite d_ltb_nan_r. }
  rewrite E. unfold d_min. now rewrite d_ltb_nan_l.
Qed.
Lemma run_max_after_nan : forall xs n ys m, d_is_nan n = true -> ys <> [] -> no_nan ys ->
  run_max (xs ++ n :: ys) m = match ys with y :: t => run_max t y | [] => m end.
Proof.
  intros xs n [|y t] m Hn Hy Hys; [congruence|]. unfold run_max. rewrite fold_left_app. cbn.
  f_equal. inversion Hys; subst.
  assert (E : forall m, d_max2 n m = n). { intros. unfold d_max2. now rewrite d_ltb_nan_l. }
  rewrite E. unfold d_max2. now rewrite d_ltb_nan_r.
Qed.

Lemma run_min_ends_nan : forall xs n m, d_is_nan n = true -> run_min (xs ++ [n]) m = n.
Proof.
  intros xs n m Hn. unfold run_min. rewrite fold_left_app. cbn. unfold d_min. now rewrite d_ltb_nan_r.
Qed.
Lemma run_max_ends_nan : forall xs n m, d_is_nan n = true -> run_max (xs ++ [n]) m = n.
Proof.
  intros xs n m Hn. unfold run_max. rewrite fold_left_app. cbn. unfold d_max2. now rewrite d_ltb_nan_l.
Qed.

(** Finite patterns lie between lowest and max. *)
Lemma d_finite_key : forall d, d_ok d -> d_is_finite d = true -> d_key d_lowest <= d_key d <= d_key d_max.
Proof.
  intros d [H0 H1] Hf. unfold d_is_finite in Hf. apply Z.ltb_lt in Hf.
  change (d_key d_lowest) with (- (d_inf - 1)). change (d_key d_max) with (d_inf - 1).
  unfold d_key, d_mag in *. destruct (Z.ltb_spec d two63).
  - rewrite Z.mod_small in Hf by lia. unfold d_inf in *. lia.
  - replace d with ((d - two63) + 1 * two63) in Hf by lia. rewrite Z.mod_add in Hf by (unfold two63; lia).
    rewrite Z.mod_small in Hf by (unfold two63, two64 in *; lia). unfold d_inf in *. lia.
Qed.
