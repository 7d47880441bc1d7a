(** Lemmas about fields of records and the operations of spoc_transform. *)
From Coq Require Import String ZArith List Bool Lia.
From Verif.Model Require Import Base Double Arith PointRecord Par AppUtils TransformApp.
From Verif.Spec Require Import Text Fields.
From Verif.Proofs Require Import BaseFacts TextFacts.
From Verif.Props Require Import TextProps.
Import ListNotations.
Open Scope Z_scope.
Open Scope outcome_scope.

Lemma names_accepted : forall t, (exists f, names f t) <-> check_field_name t = true.
Proof.
  intros t. rewrite C73_accepted. cbn [map In]. split.
  - intros (f & N). destruct f as [| | | | | | | | |k]; cbn [names] in N; try (left; subst; tauto).
    destruct N as (B & u & E & R). right. exists u, k. auto.
  - intros [I|(u & n & E & R & B)]; [|exists (FE n); cbn [names]; eauto].
    destruct I as [<-|[<-|[<-|[<-|[<-|[<-|[<-|[<-|[<-|[]]]]]]]]]].
    + now exists FX. + now exists FY. + now exists FZ. + now exists FC. + now exists FP.
    + now exists FI. + now exists FR. + now exists FG. + now exists FB.
Qed.

(** The [case] label of a field *)
Definition label (f : field) : Z :=
  match f with
  | FX => ch_x | FY => ch_y | FZ => ch_z | FC => ch_c | FP => ch_p | FI => ch_i
  | FR => ch_r | FG => ch_g | FB => ch_b | FE _ => ch_e
  end.

Lemma names_label : forall f t, names f t -> first_char t = label f.
Proof.
  intros f t N. destruct f; cbn [names] in N; try (subst; reflexivity). destruct N as (_ & u & -> & _). reflexivity.
Qed.

Lemma names_index : forall k t e, names (FE k) t -> field_index t e = k.
Proof.
  intros k t e (B & u & -> & R). unfold field_index. change (chars "e" ++ u) with (101 :: u).
  cbn [is_extra_field Z.eqb Pos.eqb]. unfold get_extra_index. cbn [is_extra_field Z.eqb Pos.eqb negb].
  rewrite zdrop_1. cbn [tl]. apply strtol_reads_as in R as (n & R). unfold stoi. rewrite R.
  destruct (Z.leb_spec (- two31) k); [|unfold two31 in *; lia].
  destruct (Z.ltb_spec k two31); [|unfold two31 in *; lia]. cbn [andb]. unfold to_u64, two64. rewrite Z.mod_small by lia. reflexivity.
Qed.

Lemma value_extra : forall k p, 0 <= k -> value (FE k) p = znth (rextra p) k.
Proof.
  intros k p H. cbn [value]. destruct (Z.ltb_spec k 0); [lia|]. now rewrite znth_nth_error.
Qed.

Lemma znth_zdrop_cons : forall {A} (l : list A) k w, znth l k = Some w -> zdrop k l = w :: zdrop (k + 1) l.
Proof.
  intros A l. induction l as [|x l IH]; intros k w H; cbn [znth] in H; [discriminate H|].
  destruct (Z.eqb_spec k 0) as [->|N].
  - injection H as ->. cbn. now destruct l.
  - destruct (Z.ltb_spec k 0); [discriminate H|]. apply IH in H. cbn [zdrop].
    destruct (Z.leb_spec k 0); [lia|]. destruct (Z.leb_spec (k + 1) 0); [lia|].
    replace (k + 1 - 1) with (k - 1 + 1) by lia. exact H.
Qed.

(** A store into a field that is there. *)
Lemma put_extra_ok : forall k v p w, 0 <= k -> value (FE k) p = Some w ->
  exists p', put_extra k v p = Ret p' /\ assigned (FE k) v p p'.
Proof.
  intros k v p w K V. rewrite value_extra in V by exact K. pose proof (znth_Some_range _ _ _ V) as B.
  unfold put_extra, vec_set. rewrite (zset_spec _ _ v B). cbn [bind]. eexists. split; [reflexivity|].
  assert (L : zlen (ztake k (rextra p)) = k) by (rewrite zlen_ztake; lia). split.
  - rewrite value_extra by exact K. cbn [rextra set_extra].
    rewrite znth_app_r by lia. rewrite L, Z.sub_diag. reflexivity.
  - split.
    { assert (Q : zlen (ztake k (rextra p) ++ v :: zdrop (k + 1) (rextra p)) = zlen (rextra p)).
      { rewrite zlen_app, zlen_cons, zlen_zdrop, L. lia. }
      unfold zlen in Q. cbn [set_extra rextra]. lia. }
    intros g G. destruct g as [| | | | | | | | |n]; try reflexivity.
    destruct (Z_lt_ge_dec n 0) as [N|N].
    { cbn [value]. destruct (Z.ltb_spec n 0); [reflexivity|lia]. }
    rewrite !value_extra by lia. cbn [rextra set_extra].
    assert (n <> k) by (intros ->; apply G; now left).
    rewrite <- (ztake_zdrop k (rextra p)) at 3.
    destruct (Z_lt_ge_dec n k).
    + rewrite !znth_app_l by lia. reflexivity.
    + rewrite !znth_app_r by lia. rewrite L.
      assert (E : exists x, zdrop k (rextra p) = x :: zdrop (k + 1) (rextra p)).
      { exists w. apply znth_zdrop_cons; assumption. }
      destruct E as (x & ->). cbn [znth]. destruct (Z.eqb_spec (n - k) 0); [lia|]. reflexivity.
Qed.

Lemma check_extra_cases : forall k p, 0 <= k ->
  match value (FE k) p with
  | Some v => check_extra k p = Ret tt /\ vec_get (rextra p) k = Ret v
  | None => check_extra k p = Throw (runtime_error "Invalid extra field specification")
  end.
Proof.
  intros k p K. rewrite value_extra by exact K. unfold check_extra, vec_get.
  destruct (znth (rextra p) k) as [v|] eqn:E.
  - apply znth_Some_range in E as B. destruct (Z.leb_spec (zlen (rextra p)) k); [lia|]. auto.
  - apply znth_None_range in E. destruct (Z.leb_spec (zlen (rextra p)) k); [reflexivity|lia].
Qed.

(** Stores into the other fields. *)
Definition put_value (f : field) (v : Z) (p : point_record) : point_record :=
  match f with
  | FX => set_x v p | FY => set_y v p | FZ => set_z v p | FC => set_c v p | FP => set_p v p | FI => set_i v p
  | FR => set_r v p | FG => set_g v p | FB => set_b v p | FE _ => p
  end.

Lemma put_value_ok : forall f v p, (forall k, f <> FE k) -> assigned f v p (put_value f v p).
Proof.
  intros f v p F. split.
  - destruct f; try reflexivity. now destruct (F k).
  - split; [destruct f; reflexivity|]. intros g G. destruct f, g; cbn [In] in G; try reflexivity; try (exfalso; tauto).
Qed.

Lemma only_refl : forall fs p, only fs p p.
Proof. intros fs p. split; reflexivity. Qed.

Lemma only_trans : forall fs gs p q r, only fs p q -> only gs q r -> only (fs ++ gs) p r.
Proof.
  intros fs gs p q r [L1 H1] [L2 H2]. split; [congruence|]. intros g G. rewrite (H2 g), (H1 g); [reflexivity| |]; intros I; apply G, in_or_app; auto.
Qed.

Lemma only_incl : forall fs gs p q, (forall f, In f fs -> In f gs) -> only fs p q -> only gs p q.
Proof. intros fs gs p q I [L H]. split; [exact L|]. intros g G. apply H. intros F. now apply G, I. Qed.

(** A record is its fields. *)
Lemma value_ext : forall p q, (forall g, value g p = value g q) -> p = q.
Proof.
  intros p q H.
  assert (E : rextra p = rextra q).
  { assert (N : forall n, nth_error (rextra p) n = nth_error (rextra q) n).
    { intros n. specialize (H (FE (Z.of_nat n))). cbn [value] in H.
      destruct (Z.ltb_spec (Z.of_nat n) 0); [lia|]. now rewrite Nat2Z.id in H. }
    clear H. revert N. generalize (rextra p) (rextra q). induction l as [|a l IH]; intros [|b m] N; [reflexivity| | |].
    - specialize (N 0%nat). discriminate N.
    - specialize (N 0%nat). discriminate N.
    - pose proof (N 0%nat) as N0. cbn in N0. injection N0 as ->. f_equal. apply IH. intros n. apply (N (S n)). }
  pose proof (H FX) as X. pose proof (H FY) as Y. pose proof (H FZ) as Z. pose proof (H FC) as C. pose proof (H FP) as P.
  pose proof (H FI) as I. pose proof (H FR) as R. pose proof (H FG) as G. pose proof (H FB) as B. clear H.
  destruct p, q. cbn in *. congruence.
Qed.

Lemma assigned_unique : forall f v p q r, assigned f v p q -> assigned f v p r -> q = r.
Proof.
  intros f v p q r [Q1 [_ Q2]] [R1 [_ R2]]. apply value_ext. intros g.
  assert (D : {g = f} + {g <> f}) by (decide equality; apply Z.eq_dec). destruct D as [->|N].
  - congruence.
  - rewrite Q2, R2; [reflexivity| |]; intros [I|[]]; congruence.
Qed.

(** The fields that a valid record holds values of *)
Lemma value_range : forall f p v, pr_ok p -> integer_field f -> value f p = Some v -> 0 <= v < range f.
Proof.
  intros f p v [] F V. unfold u16_ok, u32_ok, two16, two32 in *.
  destruct f; cbn [value range] in *; try (injection V as <-; lia); try (exfalso; apply F; cbn; tauto).
  destruct (k <? 0); [discriminate V|]. apply nth_error_In in V. rewrite Forall_forall in ok_extra.
  apply ok_extra in V. exact V.
Qed.

Lemma consume_name : forall f name tail, names f name -> Forall alphanumeric name -> not_first alphanumeric tail ->
  consume_field_name (name ++ tail) = Ret (name, tl tail).
Proof.
  intros f name tail N A T. apply (C73_consume (name ++ tail) name tail eq_refl A T). apply names_accepted. eauto.
Qed.

Lemma consume_name_inv : forall s name rest, consume_field_name s = Ret (name, rest) ->
  exists tail f, s = name ++ tail /\ rest = tl tail /\ Forall alphanumeric name /\ not_first alphanumeric tail /\ names f name.
Proof.
  intros s name rest H. unfold consume_field_name in H. destruct (span is_alnum s) as [n tail] eqn:S.
  apply (span_spec is_alnum alphanumeric is_alnum_iff) in S as (-> & A & T).
  destruct (check_field_name n) eqn:C; cbn [negb] in H; [|discriminate H]. injection H as <- <-.
  apply names_accepted in C as (f & N). exists tail, f. rewrite zdrop_1. auto.
Qed.

(** Reading a field *)
Lemma copy_source_cases : forall f name e p, names f name -> integer_field f ->
  match value f p with
  | Some v => copy_source name (field_index name e) p = Ret v
  | None => copy_source name (field_index name e) p = Throw (runtime_error "Invalid extra field specification")
  end.
Proof.
  intros f name e p N F. unfold copy_source. rewrite (names_label f name N).
  destruct f; try reflexivity; try (exfalso; apply F; cbn; tauto).
  rewrite (names_index k name e N). pose proof (check_extra_cases k p ltac:(destruct N; lia)) as C.
  cbn [label]. change (ch_e =? ch_c) with false. change (ch_e =? ch_p) with false. change (ch_e =? ch_i) with false.
  change (ch_e =? ch_r) with false. change (ch_e =? ch_g) with false. change (ch_e =? ch_b) with false.
  change (ch_e =? ch_e) with true. cbv iota.
  destruct (value (FE k) p) as [v|]; [destruct C as [-> ->]|rewrite C]; reflexivity.
Qed.

Lemma refuse_xyz_ok : forall what f name, names f name -> integer_field f -> refuse_xyz what name = Ret tt.
Proof.
  intros what f name N F. unfold refuse_xyz. rewrite (names_label f name N).
  destruct f; try reflexivity; exfalso; apply F; cbn; tauto.
Qed.

Lemma refuse_xyz_bad : forall what f name, names f name -> ~ integer_field f -> refuse_xyz what name = Throw (runtime_error what).
Proof.
  intros what f name N F. unfold refuse_xyz. rewrite (names_label f name N).
  destruct f; try reflexivity; exfalso; apply F; intros [H|[H|[H|[]]]]; discriminate H.
Qed.

Lemma integer_dec : forall f, integer_field f \/ ~ integer_field f.
Proof.
  intros f. unfold integer_field. destruct f; cbn [In]; try (right; tauto); left; intros [H|[H|[H|[]]]]; discriminate H.
Qed.
