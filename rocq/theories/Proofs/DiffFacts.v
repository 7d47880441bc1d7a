(** Facts about spoc_diff. *)
From Coq Require Import String ZArith List Bool Lia.
From Verif.Model Require Import Base Double Header PointRecord File Compression IO DiffApp.
From Verif.Spec Require Import Format Files Fields Diffs.
From Verif.Proofs Require Import BaseFacts HeaderFacts PointRecordFacts FileFacts FieldFacts.
Import ListNotations.
Open Scope Z_scope.
Open Scope outcome_scope.

Lemma same_double_eqb : forall a b, d_ok a -> d_ok b -> (d_eqb a b = true <-> same_double a b).
Proof.
  intros a b Ha Hb. unfold d_eqb, same_double. rewrite !andb_true_iff, !negb_true_iff, Z.eqb_eq.
  assert (K : d_key a = d_key b <-> a = b \/ is_zero_double a /\ is_zero_double b).
  { unfold d_key, is_zero_double, d_ok in *. change (2 ^ 63) with two63. unfold two63, two64 in *.
    destruct (Z.ltb_spec a 9223372036854775808), (Z.ltb_spec b 9223372036854775808); lia. }
  tauto.
Qed.

Lemma vec_eqb_sym : forall {A} (eqb : A -> A -> bool) a b, (forall x y, eqb x y = eqb y x) -> vec_eqb eqb a b = vec_eqb eqb b a.
Proof.
  intros A eqb a b H. revert b. induction a as [|x a IH]; intros [|y b]; cbn; try reflexivity.
  now rewrite H, IH.
Qed.

Lemma vec_eqb_map : forall {A B} (eqb : B -> B -> bool) (sel : A -> B) a b,
  vec_eqb eqb (map sel a) (map sel b) = true <-> Forall2 (fun p q => eqb (sel p) (sel q) = true) a b.
Proof.
  intros A B eqb sel a. induction a as [|x a IH]; intros [|y b]; cbn; try (split; [discriminate|intros H; inversion H]).
  - split; [constructor|reflexivity].
  - rewrite andb_true_iff, IH. split; [intros [H1 H2]; now constructor|intros H; inversion H; auto].
Qed.

Lemma Forall2_iff_in : forall {A B} (R S : A -> B -> Prop) a b, (forall x y, In x a -> In y b -> (R x y <-> S x y)) ->
  (Forall2 R a b <-> Forall2 S a b).
Proof.
  intros A B R S a. induction a as [|x a IH]; intros b H; split; intros F; inversion F as [|? y ? b' F1 F2]; subst; constructor.
  1,3: apply H; cbn; auto. all: apply (IH b'); auto; intros u v U V; apply H; cbn; auto.
Qed.

Lemma Forall2_all : forall {A B I} (R : I -> A -> B -> Prop) (i : I) a b,
  (forall i, Forall2 (R i) a b) <-> Forall2 (fun x y => forall i, R i x y) a b.
Proof.
  intros A B I R i a. induction a as [|x a IH]; intros b; split; intros H.
  - specialize (H i). inversion H. constructor.
  - inversion H. intros j. constructor.
  - pose proof (H i) as H0. inversion H0 as [|? y ? b' _ _]; subst. constructor.
    + intros j. specialize (H j). now inversion H.
    + apply IH. intros j. specialize (H j). now inversion H.
  - inversion H; subst. intros j. constructor; [auto|]. now apply IH.
Qed.

Lemma Forall2_length' : forall {A B} (R : A -> B -> Prop) a b, Forall2 R a b -> List.length a = List.length b.
Proof. intros A B R a b H. induction H; cbn; congruence. Qed.

Lemma Forall2_trivial : forall {A B} (R : A -> B -> Prop) a b, List.length a = List.length b ->
  (forall x y, In x a -> In y b -> R x y) -> Forall2 R a b.
Proof.
  intros A B R a. induction a as [|x a IH]; intros [|y b] L H; try discriminate L; constructor; [apply H; cbn; auto|].
  apply IH; [now injection L|]. intros u v U V. apply H; cbn; auto.
Qed.

Lemma same_extra_length : forall p q, (forall k, value (FE k) p = value (FE k) q) -> List.length (rextra p) = List.length (rextra q).
Proof.
  intros p q H.
  assert (N : forall n, nth_error (rextra p) n = nth_error (rextra q) n).
  { intros n. specialize (H (Z.of_nat n)). cbn [value] in H. destruct (Z.ltb_spec (Z.of_nat n) 0); [lia|].
    now rewrite Nat2Z.id in H. }
  pose proof (N (List.length (rextra p))) as A. pose proof (N (List.length (rextra q))) as B.
  rewrite (proj2 (nth_error_None _ _)) in A by lia. symmetry in A. apply nth_error_None in A.
  rewrite (proj2 (nth_error_None (rextra q) _)) in B by lia. apply nth_error_None in B. lia.
Qed.

Lemma doubles_column : forall f sel a b, In (f, sel) [(FX, rx); (FY, ry); (FZ, rz)] ->
  Forall pr_ok a -> Forall pr_ok b ->
  (doubles_differ (map sel a) (map sel b) = false <-> same_column f a b).
Proof.
  intros f sel a b I Ha Hb. unfold doubles_differ, same_column. rewrite negb_false_iff, vec_eqb_map.
  rewrite Forall_forall in Ha, Hb. apply Forall2_iff_in. intros p q P Q. apply Ha in P. apply Hb in Q.
  destruct P as [P1 P2 P3 _ _ _ _ _ _ _], Q as [Q1 Q2 Q3 _ _ _ _ _ _ _].
  cbn [In] in I. destruct I as [[= <- <-]|[[= <- <-]|[[= <- <-]|[]]]]; now apply same_double_eqb.
Qed.

Lemma ints_column : forall f sel a b, In (f, sel) [(FC, rc); (FP, rp); (FI, ri); (FR, rr); (FG, rg); (FB, rb)] ->
  (ints_differ (map sel a) (map sel b) = false <-> same_column f a b).
Proof.
  intros f sel a b I. unfold ints_differ, same_column. rewrite negb_false_iff, vec_eqb_map.
  apply Forall2_iff_in. intros p q _ _. rewrite Z.eqb_eq.
  cbn [In] in I. repeat (destruct I as [[= <- <-]|I]; [cbn [same_field value]; split; congruence|]). destruct I.
Qed.

Lemma extras_size : forall a, get_extra_fields_size a = extras_of a.
Proof. intros [|p a]; reflexivity. Qed.

Lemma extras_of_nonneg : forall a, 0 <= extras_of a.
Proof. intros [|p a]; cbn; lia. Qed.

Lemma uniform_extras : forall a, uniform a -> forall p, In p a -> zlen (rextra p) = extras_of a.
Proof. intros [|p0 a] U p P; [destruct P|]. unfold zlen. cbn. f_equal. apply U; cbn; auto. Qed.

Lemma get_extra_ok : forall k a, uniform a -> 0 <= k < extras_of a ->
  get_extra k a = Ret (map (fun p => nth (Z.to_nat k) (rextra p) 0) a).
Proof.
  intros k a U K. unfold get_extra. apply mapM_Ret. intros p P. pose proof (uniform_extras a U p P) as L.
  unfold vec_get. rewrite znth_nth_error by lia.
  rewrite (nth_error_nth' (rextra p) 0) by (unfold zlen in L; lia). reflexivity.
Qed.

Lemma extra_column : forall k a b, uniform a -> uniform b -> 0 <= k < extras_of a -> k < extras_of b ->
  (ints_differ (map (fun p => nth (Z.to_nat k) (rextra p) 0) a) (map (fun p => nth (Z.to_nat k) (rextra p) 0) b) = false
   <-> same_column (FE k) a b).
Proof.
  intros k a b Ua Ub Ka Kb. unfold ints_differ, same_column. rewrite negb_false_iff, vec_eqb_map.
  apply Forall2_iff_in. intros p q P Q. rewrite Z.eqb_eq. cbn [same_field value].
  destruct (Z.ltb_spec k 0); [lia|].
  pose proof (uniform_extras a Ua p P). pose proof (uniform_extras b Ub q Q). unfold zlen in *.
  rewrite (nth_error_nth' (rextra p) 0), (nth_error_nth' (rextra q) 0) by lia. split; congruence.
Qed.

Lemma extras_differ_ok : forall a b, uniform a -> uniform b -> extras_of a = extras_of b ->
  forall n k, 0 <= k -> k + Z.of_nat n = extras_of a -> exists d, extras_differ n k a b = Ret d
  /\ (d = false <-> forall j, k <= j < extras_of a -> same_column (FE j) a b).
Proof.
  intros a b Ua Ub E. induction n as [|n IH]; intros k K S; cbn [extras_differ].
  - exists false. split; [reflexivity|]. split; [intros _ j J; lia|reflexivity].
  - destruct (IH (k + 1) ltac:(lia) ltac:(lia)) as (d & D & H).
    rewrite (get_extra_ok k a), (get_extra_ok k b) by (auto; lia). cbn [bind]. rewrite D. cbn [bind].
    eexists. split; [reflexivity|]. rewrite orb_false_iff, H, extra_column by (auto; lia). split.
    + intros [H1 H2] j J. destruct (Z.eq_dec j k) as [->|]; [exact H1|apply H2; lia].
    + intros A. split; [apply A; lia|intros j J; apply A; lia].
Qed.

Lemma data_differ_ok : forall f g, Forall pr_ok (f_prs f) -> Forall pr_ok (f_prs g) ->
  uniform (f_prs f) -> uniform (f_prs g) ->
  exists d, data_differ f g = Ret d /\ (d = false <-> same_records (f_prs f) (f_prs g)).
Proof.
  intros f g. unfold data_differ. generalize (f_prs f) as a, (f_prs g) as b. intros a b Ha Hb Ua Ub.
  assert (S : same_records a b <-> forall f, same_column f a b).
  { symmetry. apply (Forall2_all same_field FX). }
  assert (D : forall f sel d, In (f, sel) [(FX, rx); (FY, ry); (FZ, rz)] -> doubles_differ (map sel a) (map sel b) = d ->
    (d = false <-> same_column f a b)) by (intros h sel d I <-; now apply doubles_column).
  assert (N : forall f sel d, In (f, sel) [(FC, rc); (FP, rp); (FI, ri); (FR, rr); (FG, rg); (FB, rb)] -> ints_differ (map sel a) (map sel b) = d ->
    (d = false <-> same_column f a b)) by (intros h sel d I <-; now apply ints_column).
  unfold get_x, get_y, get_z, get_c, get_p, get_i, get_r, get_g, get_b.
  destruct (doubles_differ (map rx a) (map rx b)) eqn:EX; [exists true; split; [reflexivity|]; split; [discriminate|]; intros R; apply (D FX rx true); [cbn; auto 8|assumption|now apply S]|].
  destruct (doubles_differ (map ry a) (map ry b)) eqn:EY; [exists true; split; [reflexivity|]; split; [discriminate|]; intros R; apply (D FY ry true); [cbn; auto 8|assumption|now apply S]|].
  destruct (doubles_differ (map rz a) (map rz b)) eqn:EZ; [exists true; split; [reflexivity|]; split; [discriminate|]; intros R; apply (D FZ rz true); [cbn; auto 8|assumption|now apply S]|].
  destruct (ints_differ (map rc a) (map rc b)) eqn:EC; [exists true; split; [reflexivity|]; split; [discriminate|]; intros R; apply (N FC rc true); [cbn; auto 8|assumption|now apply S]|].
  destruct (ints_differ (map rp a) (map rp b)) eqn:EP; [exists true; split; [reflexivity|]; split; [discriminate|]; intros R; apply (N FP rp true); [cbn; auto 8|assumption|now apply S]|].
  destruct (ints_differ (map ri a) (map ri b)) eqn:EI; [exists true; split; [reflexivity|]; split; [discriminate|]; intros R; apply (N FI ri true); [cbn; auto 8|assumption|now apply S]|].
  destruct (ints_differ (map rr a) (map rr b)) eqn:ER; [exists true; split; [reflexivity|]; split; [discriminate|]; intros R; apply (N FR rr true); [cbn; auto 8|assumption|now apply S]|].
  destruct (ints_differ (map rg a) (map rg b)) eqn:EG; [exists true; split; [reflexivity|]; split; [discriminate|]; intros R; apply (N FG rg true); [cbn; auto 8|assumption|now apply S]|].
  destruct (ints_differ (map rb a) (map rb b)) eqn:EB; [exists true; split; [reflexivity|]; split; [discriminate|]; intros R; apply (N FB rb true); [cbn; auto 8|assumption|now apply S]|].
  apply D with (f := FX) in EX; [|cbn; auto]. apply D with (f := FY) in EY; [|cbn; auto]. apply D with (f := FZ) in EZ; [|cbn; auto].
  apply N with (f := FC) in EC; [|cbn; auto]. apply N with (f := FP) in EP; [|cbn; auto 6]. apply N with (f := FI) in EI; [|cbn; auto 6].
  apply N with (f := FR) in ER; [|cbn; auto 6]. apply N with (f := FG) in EG; [|cbn; auto 8]. apply N with (f := FB) in EB; [|cbn; auto 8].
  rewrite (extras_size a), (extras_size b). destruct (Z.eqb_spec (extras_of a) (extras_of b)) as [E|E]; cbn [negb].
  - destruct (extras_differ_ok a b Ua Ub E (Z.to_nat (extras_of a)) 0) as (d & -> & H); [lia|pose proof (extras_of_nonneg a); lia|].
    exists d. split; [reflexivity|]. rewrite H, S. split; [|intros A j _; apply A].
    intros A h. destruct h as [| | | | | | | | |k]; [now apply EX|now apply EY|now apply EZ|now apply EC|now apply EP|now apply EI|now apply ER|now apply EG|now apply EB|].
    assert (L : List.length a = List.length b) by (eapply Forall2_length'; apply EX; reflexivity).
    destruct (Z_lt_le_dec k 0) as [K|K]; [|destruct (Z_lt_le_dec k (extras_of a)) as [K'|K']; [apply A; lia|]].
    + apply Forall2_trivial; [exact L|]. intros p q P Q. cbn [same_field value]. destruct (Z.ltb_spec k 0); [reflexivity|lia].
    + apply Forall2_trivial; [exact L|]. intros p q P Q. cbn [same_field value]. destruct (Z.ltb_spec k 0); [lia|].
      pose proof (uniform_extras a Ua p P). pose proof (uniform_extras b Ub q Q). unfold zlen in *.
      rewrite (proj2 (nth_error_None (rextra p) _)), (proj2 (nth_error_None (rextra q) _)) by lia. reflexivity.
  - exists true. split; [reflexivity|]. split; [discriminate|]. intros R. exfalso. apply E. clear - R.
    destruct R as [|p q a b R _]; [reflexivity|]. cbn. f_equal. apply same_extra_length. intros k. apply (R (FE k)).
Qed.

Lemma headers_differ_ok : forall f g, good_file f -> good_file g -> get_extra_fields f <= 255 -> get_extra_fields g <= 255 ->
  exists d, headers_differ f g = Ret d /\ (d = false <-> same_header f g).
Proof.
  intros f g Hf Hg Ef Eg. unfold headers_differ.
  destruct (get_header_spec f Hf Ef) as (h1 & -> & G1 & W1 & X1 & T1 & C1 & S1).
  destruct (get_header_spec g Hg Eg) as (h2 & -> & G2 & W2 & X2 & T2 & C2 & S2). cbn [bind].
  eexists. split; [reflexivity|]. unfold header_neb, same_header.
  destruct G1 as [_ A1 B1 _ _ _ _ _], G2 as [_ A2 B2 _ _ _ _ _].
  destruct Hf as [M1 N1 _ _ _ _ _], Hg as [M2 N2 _ _ _ _ _].
  rewrite S1, S2, A1, A2, B1, B2, W1, W2, X1, X2, T1, T2, C1, C2, M1, M2, N1, N2.
  rewrite beq_bytes_refl. cbn [negb]. rewrite !Z.eqb_refl. cbn [negb].
  change (get_extra_fields f) with (extras_of (f_prs f)). change (get_extra_fields g) with (extras_of (f_prs g)).
  destruct (beq_bytes (f_wkt f) (f_wkt g)) eqn:EW; cbn [negb].
  2: { split; [discriminate|]. intros (_ & _ & W & _). rewrite W, beq_bytes_refl in EW. discriminate EW. }
  apply beq_bytes_eq in EW.
  destruct (Z.eqb_spec (extras_of (f_prs f)) (extras_of (f_prs g))) as [EX|EX]; cbn [negb].
  2: { split; [discriminate|]. intros (_ & _ & _ & _ & _ & X). contradiction. }
  unfold zlen. destruct (Z.eqb_spec (Z.of_nat (List.length (f_prs f))) (Z.of_nat (List.length (f_prs g)))) as [ET|ET]; cbn [negb].
  2: { split; [discriminate|]. intros (_ & _ & _ & _ & T & _). lia. }
  destruct (Z.eqb_spec (b2z (f_compressed f)) (b2z (f_compressed g))) as [EC|EC]; cbn [negb].
  2: { split; [discriminate|]. intros (_ & _ & _ & C & _). congruence. }
  split; [intros _|reflexivity]. repeat split; auto; [|lia]. destruct (f_compressed f), (f_compressed g); auto; discriminate EC.
Qed.

Lemma field_differs_ok : forall h c f g, letter h c -> Forall pr_ok (f_prs f) -> Forall pr_ok (f_prs g) ->
  uniform (f_prs f) -> uniform (f_prs g) ->
  exists d, field_differs c f g = Ret d
  /\ (d = false <-> (in_both h (f_prs f) (f_prs g) -> same_column h (f_prs f) (f_prs g))).
Proof.
  intros h c f g. unfold field_differs. generalize (f_prs f) as a, (f_prs g) as b. intros a b L Ha Hb Ua Ub.
  assert (T : forall P Q : Prop, (P <-> Q) -> (P <-> (True -> Q))) by tauto.
  destruct h as [| | | | | | | | |k]; cbn [letter] in L; [subst c|subst c|subst c|subst c|subst c|subst c|subst c|subst c|subst c|].
  1-9: repeat match goal with |- context [?x =? ?y] => let v := eval vm_compute in (x =? y) in change (x =? y) with v end; cbv iota.
  1-9: eexists; split; [reflexivity|]; cbn [in_both]; apply T.
  1: apply (doubles_column FX rx); cbn; auto.
  1: apply (doubles_column FY ry); cbn; auto.
  1: apply (doubles_column FZ rz); cbn; auto.
  1: apply (ints_column FC rc); cbn; auto.
  1: apply (ints_column FP rp); cbn; auto.
  1: apply (ints_column FI ri); cbn; auto 8.
  1: apply (ints_column FR rr); cbn; auto 8.
  1: apply (ints_column FG rg); cbn; auto 8.
  1: apply (ints_column FB rb); cbn; auto 8.
  destruct L as [K ->].
  do 9 (match goal with |- context [?x =? ?y] => destruct (Z.eqb_spec x y); [lia|] end).
  rewrite (proj2 (Z.leb_le _ _)), (proj2 (Z.leb_le _ _)) by lia. cbn [andb].
  replace (48 + k - 48) with k by lia. rewrite (extras_size a), (extras_size b). cbn [in_both].
  destruct (Z.ltb_spec k (extras_of a)) as [A|A]; cbn [andb].
  2: { eexists. split; [reflexivity|]. split; [intros _ [? ?]; lia|reflexivity]. }
  destruct (Z.ltb_spec k (extras_of b)) as [B|B].
  2: { eexists. split; [reflexivity|]. split; [intros _ [? ?]; lia|reflexivity]. }
  rewrite (get_extra_ok k a), (get_extra_ok k b) by (auto; lia). cbn [bind].
  eexists. split; [reflexivity|]. rewrite extra_column by (auto; lia). tauto.
Qed.

Lemma field_differs_unknown : forall c f g, (forall h, ~ letter h c) -> exists what, field_differs c f g = Throw (runtime_error what).
Proof.
  intros c f g H. unfold field_differs.
  destruct (Z.eqb_spec c 120) as [E|_]; [destruct (H FX E)|].
  destruct (Z.eqb_spec c 121) as [E|_]; [destruct (H FY E)|].
  destruct (Z.eqb_spec c 122) as [E|_]; [destruct (H FZ E)|].
  destruct (Z.eqb_spec c 99) as [E|_]; [destruct (H FC E)|].
  destruct (Z.eqb_spec c 112) as [E|_]; [destruct (H FP E)|].
  destruct (Z.eqb_spec c 105) as [E|_]; [destruct (H FI E)|].
  destruct (Z.eqb_spec c 114) as [E|_]; [destruct (H FR E)|].
  destruct (Z.eqb_spec c 103) as [E|_]; [destruct (H FG E)|].
  destruct (Z.eqb_spec c 98) as [E|_]; [destruct (H FB E)|].
  destruct (Z.leb_spec 48 c); cbn [andb]; [|eauto]. destruct (Z.leb_spec c 57); [|eauto].
  exfalso. apply (H (FE (c - 48))). cbn [letter]. lia.
Qed.

Lemma fields_differ_ok : forall hs cs f g, Forall2 letter hs cs -> Forall pr_ok (f_prs f) -> Forall pr_ok (f_prs g) ->
  uniform (f_prs f) -> uniform (f_prs g) ->
  exists d, fields_differ cs f g = Ret d
  /\ (d = false <-> forall h, In h hs -> in_both h (f_prs f) (f_prs g) -> same_column h (f_prs f) (f_prs g)).
Proof.
  intros hs cs f g L Ha Hb Ua Ub. induction L as [|h c hs cs L1 L2 (d & D & H)]; cbn [fields_differ].
  - exists false. split; [reflexivity|]. split; [intros _ h []|reflexivity].
  - destruct (field_differs_ok h c f g) as (d1 & -> & H1); auto. cbn [bind]. destruct d1.
    + exists true. split; [reflexivity|]. split; [discriminate|]. intros A. apply H1. intros B. apply A; [now left|exact B].
    + exists d. split; [exact D|]. rewrite H. split.
      * intros A j [<-|J] B; [now apply H1|now apply A].
      * intros A j J. apply A. now right.
Qed.

Lemma d_eqb_sym : forall a b, d_eqb a b = d_eqb b a.
Proof. intros a b. unfold d_eqb. rewrite (Z.eqb_sym (d_key a)). now destruct (d_is_nan a), (d_is_nan b). Qed.

Lemma doubles_differ_sym : forall a b, doubles_differ a b = doubles_differ b a.
Proof. intros a b. unfold doubles_differ. f_equal. apply vec_eqb_sym, d_eqb_sym. Qed.

Lemma ints_differ_sym : forall a b, ints_differ a b = ints_differ b a.
Proof. intros a b. unfold ints_differ. f_equal. apply vec_eqb_sym, Z.eqb_sym. Qed.

Lemma get_extra_cases : forall k a, (exists l, get_extra k a = Ret l) \/ get_extra k a = UB ub_index.
Proof.
  intros k a. unfold get_extra. induction a as [|p a IH]; [left; now exists []|]. cbn [mapM].
  unfold vec_get at 1 3. destruct (znth (rextra p) k) as [x|]; cbn [bind]; [|now right].
  destruct IH as [(l & ->)| ->]; cbn [bind]; [left; eauto|now right].
Qed.

Lemma extras_differ_sym : forall n k a b, extras_differ n k a b = extras_differ n k b a.
Proof.
  induction n as [|n IH]; intros k a b; cbn [extras_differ]; [reflexivity|].
  destruct (get_extra_cases k a) as [(l & ->)| ->], (get_extra_cases k b) as [(m & ->)| ->]; cbn [bind]; try reflexivity.
  rewrite IH, ints_differ_sym. reflexivity.
Qed.

Lemma data_differ_sym : forall f g, data_differ f g = data_differ g f.
Proof.
  intros f g. unfold data_differ. rewrite !(doubles_differ_sym (_ (f_prs f))), !(ints_differ_sym (_ (f_prs f))).
  rewrite (Z.eqb_sym (get_extra_fields_size (f_prs f))), extras_differ_sym.
  destruct (Z.eqb_spec (get_extra_fields_size (f_prs g)) (get_extra_fields_size (f_prs f))) as [->|]; reflexivity.
Qed.

Lemma beq_bytes_sym : forall a b, beq_bytes a b = beq_bytes b a.
Proof.
  intros a b. destruct (beq_bytes a b) eqn:E; symmetry.
  - apply beq_bytes_eq in E as ->. apply beq_bytes_refl.
  - destruct (beq_bytes b a) eqn:E'; [|reflexivity]. apply beq_bytes_eq in E' as ->. rewrite beq_bytes_refl in E. discriminate E.
Qed.

Lemma header_neb_sym : forall a b, header_neb a b = header_neb b a.
Proof.
  intros a b. unfold header_neb.
  rewrite (beq_bytes_sym (h_sig a)), (beq_bytes_sym (h_wkt a)), (Z.eqb_sym (h_major a)), (Z.eqb_sym (h_minor a)),
    (Z.eqb_sym (h_extra a)), (Z.eqb_sym (h_total a)), (Z.eqb_sym (h_compressed a)). reflexivity.
Qed.

Lemma headers_differ_sym : forall f g, headers_differ f g = headers_differ g f.
Proof.
  intros f g. unfold headers_differ.
  assert (C : forall f, (exists h, get_header f = Ret h) \/ get_header f = Throw (runtime_error "The OGC WKT length may not exceed 65535")).
  { intros h. unfold get_header, header_ctor. destruct (_ <? _); [now right|left; eauto]. }
  destruct (C f) as [(h & ->)| ->], (C g) as [(h' & ->)| ->]; cbn [bind]; try reflexivity. now rewrite header_neb_sym.
Qed.

Lemma field_differs_sym : forall c f g, field_differs c f g = field_differs c g f.
Proof.
  intros c f g. unfold field_differs. rewrite !(doubles_differ_sym (_ (f_prs f))), !(ints_differ_sym (_ (f_prs f))).
  rewrite (andb_comm (_ <? get_extra_fields_size (f_prs f))).
  repeat match goal with |- context [if ?b then _ else _] => destruct b end; try reflexivity.
  destruct (get_extra_cases (c - 48) (f_prs f)) as [(l & ->)| ->], (get_extra_cases (c - 48) (f_prs g)) as [(m & ->)| ->]; cbn [bind]; try reflexivity.
  now rewrite ints_differ_sym.
Qed.

Lemma fields_differ_sym : forall cs f g, fields_differ cs f g = fields_differ cs g f.
Proof.
  induction cs as [|c cs IH]; intros f g; cbn [fields_differ]; [reflexivity|]. rewrite field_differs_sym.
  destruct (field_differs c g f) as [[]| | |]; cbn [bind]; auto.
Qed.
