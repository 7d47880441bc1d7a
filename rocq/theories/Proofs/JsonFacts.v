(** Lemmas about the JSON printers, and the reader of Spec/Reports.v. *)
From Coq Require Import String ZArith List Bool Lia.
From Verif.Model Require Import Base Double AppUtils Json InfoApp.
From Verif.Spec Require Import Text Reports.
From Verif.Proofs Require Import BaseFacts TextFacts CountFacts.
Import ListNotations.
Open Scope Z_scope.

(** ** Induction on values *)

Definition leaf (v : value) : Prop := match v with v_array _ | v_object _ => False | _ => True end.

Section value_induction.
  Context (P : value -> Prop).
  Context (Hl : forall v, leaf v -> P v).
  Context (Ha : forall a, Forall P a -> P (v_array a)).
  Context (Ho : forall o, Forall (fun m => P (snd m)) o -> P (v_object o)).
  Fixpoint value_induct (v : value) : P v.
  Proof.
    destruct v as [n|n|n|n|n|f|b|d|s|s|a|o|name]; try (apply Hl; exact I).
    - apply Ha. induction a as [|w a IH]; constructor; [apply value_induct|exact IH].
    - apply Ho. induction o as [|m o IH]; constructor; [apply value_induct|exact IH].
  Defined.
End value_induction.

Lemma print_leaf_eq : forall fmt v, leaf v -> print fmt v = print_leaf fmt v.
Proof. now intros fmt [] H. Qed.
Lemma pretty_leaf_eq : forall fmt v i, leaf v -> pretty_print fmt v i = print_leaf fmt v.
Proof. now intros fmt [] i H. Qed.

(** ** What the printers write *)

Definition blank (s : list Z) : Prop := Forall (fun c => is_white c = true) s.

(** Texts of a value: the value's tokens, with white space between them. *)
Inductive written (fmt : number_format) : value -> list Z -> Prop :=
| wr_leaf : forall v, leaf v -> written fmt v (print_leaf fmt v)
| wr_array : forall a s, elements fmt a s -> written fmt (v_array a) (91 :: s ++ [93])
| wr_object : forall o s, members fmt o s -> written fmt (v_object o) (123 :: s ++ [125])
with elements (fmt : number_format) : list value -> list Z -> Prop :=
| el_none : forall w, blank w -> elements fmt [] w
| el_one : forall v s w1 w2, blank w1 -> blank w2 -> written fmt v s -> elements fmt [v] (w1 ++ s ++ w2)
| el_more : forall v s w1 w2 a t, blank w1 -> blank w2 -> a <> [] -> written fmt v s -> elements fmt a t ->
    elements fmt (v :: a) (w1 ++ s ++ w2 ++ 44 :: t)
with members (fmt : number_format) : str_map value -> list Z -> Prop :=
| me_none : forall w, blank w -> members fmt [] w
| me_one : forall k v s w1 w2 w3 w4, blank w1 -> blank w2 -> blank w3 -> blank w4 -> written fmt v s ->
    members fmt [(k, v)] (w1 ++ quoted k ++ w2 ++ 58 :: w3 ++ s ++ w4)
| me_more : forall k v s w1 w2 w3 w4 o t, blank w1 -> blank w2 -> blank w3 -> blank w4 -> o <> [] -> written fmt v s -> members fmt o t ->
    members fmt ((k, v) :: o) (w1 ++ quoted k ++ w2 ++ 58 :: w3 ++ s ++ w4 ++ 44 :: t).

Scheme written_mut := Induction for written Sort Prop
  with elements_mut := Induction for elements Sort Prop
  with members_mut := Induction for members Sort Prop.
Combined Scheme written_ind3 from written_mut, elements_mut, members_mut.

Lemma blank_nil : blank []. Proof. constructor. Qed.
Lemma blank_app : forall a b, blank a -> blank b -> blank (a ++ b).
Proof. intros a b A B. apply Forall_app. now split. Qed.
Lemma blank_space : blank [32]. Proof. repeat constructor. Qed.
Lemma blank_newline : blank [10]. Proof. repeat constructor. Qed.
Lemma blank_indents : forall i, blank (print_indents i).
Proof.
  intros i. unfold print_indents. induction (Z.to_nat i) as [|n IH]; cbn [repeat flat_map]; [constructor|].
  apply blank_app; [repeat constructor|exact IH].
Qed.

Lemma elements_front : forall fmt a s w, blank w -> elements fmt a s -> elements fmt a (w ++ s).
Proof.
  intros fmt a s w W H. destruct H as [w1|v s w1 w2|v s w1 w2 a t].
  - constructor. now apply blank_app.
  - rewrite app_assoc. constructor; auto. now apply blank_app.
  - rewrite app_assoc. constructor; auto. now apply blank_app.
Qed.
Lemma elements_back : forall fmt a s w, blank w -> elements fmt a s -> elements fmt a (s ++ w).
Proof.
  intros fmt a s w W H. revert w W. induction H as [w1|v s w1 w2|v s w1 w2 a t A B N Hw He IH]; intros w W.
  - constructor. now apply blank_app.
  - rewrite <- !app_assoc. constructor; auto. now apply blank_app.
  - rewrite <- !app_assoc. cbn [app]. constructor; auto.
Qed.
Lemma members_front : forall fmt o s w, blank w -> members fmt o s -> members fmt o (w ++ s).
Proof.
  intros fmt o s w W H. destruct H.
  - constructor. now apply blank_app.
  - rewrite app_assoc. constructor; auto. now apply blank_app.
  - rewrite app_assoc. constructor; auto. now apply blank_app.
Qed.
Lemma members_back : forall fmt o s w, blank w -> members fmt o s -> members fmt o (s ++ w).
Proof.
  intros fmt o s w W H. revert w W. induction H; intros w' W'.
  - constructor. now apply blank_app.
  - replace ((w1 ++ quoted k ++ w2 ++ 58 :: w3 ++ s ++ w4) ++ w') with (w1 ++ quoted k ++ w2 ++ 58 :: w3 ++ s ++ (w4 ++ w'))
      by (repeat rewrite <- app_assoc; cbn [app]; repeat rewrite <- app_assoc; reflexivity).
    constructor; auto. now apply blank_app.
  - replace ((w1 ++ quoted k ++ w2 ++ 58 :: w3 ++ s ++ w4 ++ 44 :: t) ++ w') with (w1 ++ quoted k ++ w2 ++ 58 :: w3 ++ s ++ w4 ++ 44 :: (t ++ w'))
      by (repeat rewrite <- app_assoc; cbn [app]; repeat rewrite <- app_assoc; cbn [app]; reflexivity).
    constructor; auto.
Qed.

Lemma print_elements_written : forall fmt (f : value -> list Z) a, Forall (fun v => written fmt v (f v)) a ->
  elements fmt a (print_elements (map f a)).
Proof.
  intros fmt f a H. induction H as [|v a Hv Ha IH]; [constructor; constructor|].
  cbn [map print_elements]. destruct a as [|w a].
  - pose proof (el_one fmt v (f v) [] [] blank_nil blank_nil Hv) as X. cbn [app] in X. now rewrite app_nil_r in X.
  - cbn [map] in IH |- *. pose proof (el_more fmt v (f v) [] [] (w :: a) _ blank_nil blank_nil ltac:(discriminate) Hv
      (elements_front _ _ _ [32] blank_space IH)) as X. exact X.
Qed.

Lemma print_object_written : forall fmt (f : value -> list Z) o, Forall (fun m => written fmt (snd m) (f (snd m))) o ->
  members fmt o (print_elements (map (fun m => quoted (fst m) ++ chars " : " ++ f (snd m)) o)).
Proof.
  intros fmt f o H. induction H as [|(k, v) o Hv Ho IH]; [constructor; constructor|].
  cbn [map print_elements fst snd] in *. destruct o as [|m o].
  - pose proof (me_one fmt k v (f v) [] [32] [32] [] blank_nil blank_space blank_space blank_nil Hv) as X. cbn [app] in X.
    rewrite app_nil_r in X. exact X.
  - cbn [map] in IH |- *.
    pose proof (me_more fmt k v (f v) [] [32] [32] [] (m :: o) _ blank_nil blank_space blank_space blank_nil ltac:(discriminate) Hv
      (members_front _ _ _ [32] blank_space IH)) as X. cbn [app] in X.
    rewrite <- !app_assoc. exact X.
Qed.

Lemma print_members_written : forall fmt (f : value -> list Z) i o, Forall (fun m => written fmt (snd m) (f (snd m))) o ->
  members fmt o (print_members (map (fun m => print_indents i ++ quoted (fst m) ++ chars " : " ++ f (snd m)) o)).
Proof.
  intros fmt f i o H. induction H as [|(k, v) o Hv Ho IH]; [constructor; constructor|].
  cbn [map print_members fst snd] in *. destruct o as [|m o].
  - pose proof (me_one fmt k v (f v) (print_indents i) [32] [32] [10] (blank_indents i) blank_space blank_space blank_newline Hv) as X. cbn [app] in X.
    rewrite <- !app_assoc. exact X.
  - cbn [map] in IH |- *.
    pose proof (me_more fmt k v (f v) (print_indents i) [32] [32] [] (m :: o) _ (blank_indents i) blank_space blank_space blank_nil ltac:(discriminate) Hv
      (members_front _ _ _ [10] blank_newline IH)) as X. cbn [app] in X.
    rewrite <- !app_assoc. exact X.
Qed.

Lemma print_written : forall fmt v, written fmt v (print fmt v).
Proof.
  intros fmt v. induction v as [v L|a IH|o IH] using value_induct.
  - rewrite print_leaf_eq by exact L. now constructor.
  - pose proof (wr_array fmt a _ (elements_front _ _ _ [32] blank_space (elements_back _ _ _ [32] blank_space (print_elements_written fmt (print fmt) a IH)))) as X.
    cbn [print]. rewrite <- !app_assoc in X. exact X.
  - pose proof (wr_object fmt o _ (members_front _ _ _ [32] blank_space (members_back _ _ _ [32] blank_space (print_object_written fmt (print fmt) o IH)))) as X.
    cbn [print]. rewrite <- !app_assoc in X. exact X.
Qed.

Lemma pretty_print_written : forall fmt v i, written fmt v (pretty_print fmt v i).
Proof.
  intros fmt v. induction v as [v L|a IH|o IH] using value_induct; intros i.
  - rewrite pretty_leaf_eq by exact L. now constructor.
  - assert (IH' : Forall (fun v => written fmt v ((fun w => pretty_print fmt w i) v)) a) by (eapply Forall_impl; [|exact IH]; intros w H; apply H).
    pose proof (wr_array fmt a _ (elements_front _ _ _ [32] blank_space (elements_back _ _ _ [32] blank_space (print_elements_written fmt _ a IH')))) as X.
    cbn [pretty_print]. rewrite <- !app_assoc in X. exact X.
  - assert (IH' : Forall (fun m => written fmt (snd m) ((fun w => pretty_print fmt w (i + 1)) (snd m))) o) by (eapply Forall_impl; [|exact IH]; intros w H; apply H).
    pose proof (wr_object fmt o _ (members_front _ _ _ [10] blank_newline (members_back _ _ _ _ (blank_indents i) (print_members_written fmt _ (i + 1) o IH')))) as X.
    cbn [pretty_print]. rewrite <- !app_assoc in X. exact X.
Qed.

(** ** Reading *)

Lemma scan_app : forall f a b, Forall (fun c => f c = true) a -> match b with [] => True | c :: _ => f c = false end -> scan f (a ++ b) = (a, b).
Proof.
  intros f a b A B. induction A as [|c a C A IH]; cbn [app scan].
  - destruct b as [|c b]; [reflexivity|]. cbn [scan]. now rewrite B.
  - now rewrite C, IH.
Qed.

Lemma skip_app : forall w c t, blank w -> is_white c = false -> skip (w ++ c :: t) = c :: t.
Proof. intros w c t W C. unfold skip. rewrite scan_app; auto. Qed.
Lemma skip_blank : forall w, blank w -> skip w = [].
Proof. intros w W. unfold skip. pose proof (scan_app is_white w [] W I) as E. rewrite app_nil_r in E. now rewrite E. Qed.

Definition ends (s : list Z) : Prop := match s with [] => True | c :: _ => is_word_char c = false end.

Lemma blank_ends : forall w s, blank w -> ends s -> ends (w ++ s).
Proof. intros [|c w] s W E; [exact E|]. inversion W; subst. cbn. unfold is_word_char. now rewrite H1. Qed.

Lemma digit_word : forall c, digit c -> is_word_char c = true.
Proof.
  intros c D. unfold digit in D. unfold is_word_char, is_white, is_special. cbn [existsb].
  repeat match goal with |- context [c =? ?x] => destruct (Z.eqb_spec c x); [lia|] end. reflexivity.
Qed.

Lemma decimal_word : forall n t, decimal n t -> word t.
Proof. intros n t (N & F & _). split; [exact N|]. eapply Forall_impl; [|exact F]. apply digit_word. Qed.
Lemma int_text_word : forall n t, int_text n t -> word t.
Proof.
  intros n t. unfold int_text. destruct (n <? 0); [|apply decimal_word]. intros (u & -> & D).
  destruct (decimal_word _ _ D) as (_ & F). split; [discriminate|]. constructor; [reflexivity|exact F].
Qed.

(** A leaf is a word or a string. *)
Lemma leaf_text : forall fmt v, shows_words fmt -> leaf v -> no_quotes v -> well_typed v -> ~ has_unknown v ->
  (exists s, print_leaf fmt v = s /\ word s /\ data fmt v (t_word s))
  \/ (exists s, print_leaf fmt v = quoted s /\ quote_free s /\ data fmt v (t_text s)).
Proof.
  intros fmt v (Wd & Wf) L Q T U. destruct v; cbn [print_leaf no_quotes well_typed has_unknown leaf] in *; try tauto.
  - left. eexists. split; [reflexivity|]. split; [eapply int_text_word, put_int_spec|constructor; apply put_int_spec].
  - left. eexists. split; [reflexivity|]. split; [eapply int_text_word, put_int_spec|constructor; apply put_int_spec].
  - left. eexists. split; [reflexivity|]. split; [eapply int_text_word, put_int_spec|constructor; apply put_int_spec].
  - left. eexists. split; [reflexivity|]. split; [eapply int_text_word, put_uint_text, T|constructor; now apply put_uint_text].
  - left. eexists. split; [reflexivity|]. split; [eapply int_text_word, put_uint_text, T|constructor; now apply put_uint_text].
  - left. eexists. split; [reflexivity|]. split; [apply Wf|constructor].
  - left. destruct b; (eexists; split; [reflexivity|]; split; [split; [discriminate|repeat constructor]|constructor]).
  - left. eexists. split; [reflexivity|]. split; [apply Wd|constructor].
  - right. exists s. split; [reflexivity|]. split; [exact Q|constructor].
  - right. exists s. split; [reflexivity|]. split; [exact Q|constructor].
Qed.

(** The first character of a text. *)
Definition starts (s : list Z) : Prop := exists c t, s = c :: t /\ is_white c = false /\ c <> 93 /\ c <> 125 /\ c <> 44 /\ c <> 58.

Lemma word_starts : forall s, word s -> starts s /\ exists c t, s = c :: t /\ is_word_char c = true /\ c <> 39 /\ c <> 91 /\ c <> 123.
Proof.
  intros [|c t] (N & F); [congruence|]. inversion F as [|? ? C _]; subst. unfold is_word_char in C. apply andb_true_iff in C as (W & S).
  apply negb_true_iff in W, S. assert (X : forall x, In x [39; 44; 58; 91; 93; 123; 125] -> c <> x).
  { intros x I ->. unfold is_special in S. rewrite <- not_true_iff_false in S. apply S. apply existsb_exists. exists x. split; [exact I|apply Z.eqb_refl]. }
  split.
  - exists c, t. repeat split; auto; apply X; cbn; auto 10.
  - exists c, t. unfold is_word_char. rewrite W, S. repeat split; auto; apply X; cbn; auto 10.
Qed.

Lemma read_quoted_ok : forall s r, quote_free s -> read_quoted (quoted s ++ r) = Some (s, r).
Proof.
  intros s r Q. unfold quoted. change (chars "'") with [39]. cbn [app read_quoted]. rewrite Z.eqb_refl, <- app_assoc.
  rewrite scan_app; [reflexivity| |reflexivity]. apply Forall_forall. intros c I. apply negb_true_iff, Z.eqb_neq. intros ->. now apply Q.
Qed.

Lemma quoted_starts : forall s, starts (quoted s).
Proof. intros s. unfold quoted. change (chars "'") with [39]. exists 39, (s ++ [39]). repeat split; discriminate. Qed.

Definition good (v : value) : Prop := no_quotes v /\ well_typed v /\ ~ has_unknown v.

Lemma good_array : forall v a, good (v_array (v :: a)) -> good v /\ good (v_array a).
Proof. intros v a (Q & T & U). cbn [no_quotes well_typed has_unknown fold_right] in *. unfold good. cbn [no_quotes well_typed has_unknown]. tauto. Qed.
Lemma good_object : forall k v o, good (v_object ((k, v) :: o)) -> quote_free k /\ good v /\ good (v_object o).
Proof. intros k v a (Q & T & U). cbn [no_quotes well_typed has_unknown fold_right fst snd] in *. unfold good. cbn [no_quotes well_typed has_unknown]. tauto. Qed.

Lemma written_starts : forall fmt v s, shows_words fmt -> good v -> written fmt v s -> starts s.
Proof.
  intros fmt v s Sw (Q & T & U) H. destruct H.
  - destruct (leaf_text fmt v Sw H Q T U) as [(s & -> & W & _)|(s & -> & _ & _)]; [now apply word_starts|apply quoted_starts].
  - exists 91, (s ++ [93]). repeat split; discriminate.
  - exists 123, (s ++ [125]). repeat split; discriminate.
Qed.

Definition len (s : list Z) : nat := List.length s.

Lemma read_list_stop : forall n w rest, (len w < n)%nat -> blank w -> read_list n (w ++ 93 :: rest) = Some ([], rest).
Proof. intros [|n] w rest L W; [lia|]. cbn [read_list]. now rewrite skip_app by auto. Qed.
Lemma read_dict_stop : forall n w rest, (len w < n)%nat -> blank w -> read_dict n (w ++ 125 :: rest) = Some ([], rest).
Proof. intros [|n] w rest L W; [lia|]. cbn [read_dict]. now rewrite skip_app by auto. Qed.

Lemma read_written : forall fmt, shows_words fmt ->
  (forall v s, written fmt v s -> good v -> exists tr, data fmt v tr
     /\ forall n w rest, (len s <= n)%nat -> blank w -> ends rest -> read_tree n (w ++ s ++ rest) = Some (tr, rest))
  /\ (forall a s, elements fmt a s -> good (v_array a) -> exists l, Forall2 (data fmt) a l
     /\ forall n rest, (len s < n)%nat -> read_list n (s ++ 93 :: rest) = Some (l, rest))
  /\ (forall o s, members fmt o s -> good (v_object o) -> exists l, Forall2 (fun m n => fst m = fst n /\ data fmt (snd m) (snd n)) o l
     /\ forall n rest, (len s < n)%nat -> read_dict n (s ++ 125 :: rest) = Some (l, rest)).
Proof.
  intros fmt Sw. apply written_ind3.
  - intros v L (Q & T & U). destruct (leaf_text fmt v Sw L Q T U) as [(s & -> & W & D)|(s & -> & Qs & D)].
    + exists (t_word s). split; [exact D|]. intros n w rest Ln Bw E.
      destruct (word_starts s W) as ((c & t & Es & Cw & _) & (c' & t' & Es' & Cc & N1 & N2 & N3)).
      assert (c' = c /\ t' = t) as (-> & ->) by (rewrite Es in Es'; now injection Es' as -> ->). rewrite Es in *.
      destruct n as [|n]; [cbn in Ln; lia|]. cbn [read_tree app]. rewrite skip_app by auto.
      destruct (Z.eqb_spec c 39); [congruence|]. destruct (Z.eqb_spec c 91); [congruence|]. destruct (Z.eqb_spec c 123); [congruence|].
      change (c :: t ++ rest) with ((c :: t) ++ rest). rewrite scan_app; [reflexivity|apply W|]. destruct rest; [exact I|exact E].
    + exists (t_text s). split; [exact D|]. intros n w rest Ln Bw E.
      assert (Hq : exists u, quoted s ++ rest = 39 :: u) by (unfold quoted; change (chars "'") with [39]; cbn [app]; eauto).
      pose proof (read_quoted_ok s rest Qs) as R. destruct Hq as (u & Hq). rewrite Hq in *.
      destruct n as [|n]; [unfold len, quoted in Ln; rewrite app_length in Ln; cbn in Ln; lia|].
      cbn [read_tree]. rewrite skip_app by auto. cbn [Z.eqb Pos.eqb]. now rewrite R.
  - intros a s He IH G. destruct (IH G) as (l & D & R). exists (t_list l). split; [now constructor|]. intros n w rest Ln Bw E.
    destruct n as [|n]; [cbn in Ln; lia|]. cbn [read_tree app]. rewrite skip_app by auto. cbn [Z.eqb Pos.eqb].
    rewrite <- app_assoc. cbn [app]. rewrite R; [reflexivity|]. unfold len in *. cbn [List.length] in Ln. rewrite app_length in Ln. cbn in Ln. lia.
  - intros o s He IH G. destruct (IH G) as (l & D & R). exists (t_dict l). split; [now constructor|]. intros n w rest Ln Bw E.
    destruct n as [|n]; [cbn in Ln; lia|]. cbn [read_tree app]. rewrite skip_app by auto. cbn [Z.eqb Pos.eqb].
    rewrite <- app_assoc. cbn [app]. rewrite R; [reflexivity|]. unfold len in *. cbn [List.length] in Ln. rewrite app_length in Ln. cbn in Ln. lia.
  - intros w W G. exists []. split; [constructor|]. intros n rest L. now apply read_list_stop.
  - intros v s w1 w2 W1 W2 Hv IH G. apply good_array in G as (G & _). destruct (IH G) as (tr & D & R). exists [tr]. split; [repeat constructor; exact D|].
    intros n rest L. destruct (written_starts fmt v s Sw G Hv) as (c & t & Es & Cw & N1 & _).
    destruct n as [|n]; [lia|]. cbn [read_list]. rewrite <- !app_assoc.
    unfold len in L. rewrite !app_length in L.
    pose proof (R n [] (w2 ++ 93 :: rest) ltac:(unfold len; lia) blank_nil (blank_ends w2 (93 :: rest) W2 (eq_refl : is_word_char 93 = false))) as R'. cbn [app] in R'.
    rewrite Es in R' |- *. cbn [app] in R' |- *. rewrite skip_app by auto.
    destruct (Z.eqb_spec c 93); [congruence|]. rewrite R', skip_app by auto. reflexivity.
  - intros v s w1 w2 a t W1 W2 Na Hv IHv Ha IHa G. apply good_array in G as (G & Ga). destruct (IHv G) as (tr & D & R). destruct (IHa Ga) as (l & Dl & Rl).
    exists (tr :: l). split; [now constructor|].
    intros n rest L. destruct (written_starts fmt v s Sw G Hv) as (c & u & Es & Cw & N1 & _).
    destruct n as [|n]; [lia|]. cbn [read_list]. rewrite <- !app_assoc. cbn [app].
    unfold len in L. rewrite !app_length in L. cbn [List.length] in L.
    pose proof (R n [] (w2 ++ 44 :: t ++ 93 :: rest) ltac:(unfold len; lia) blank_nil (blank_ends w2 (44 :: t ++ 93 :: rest) W2 (eq_refl : is_word_char 44 = false))) as R'. cbn [app] in R'.
    rewrite Es in R' |- *. cbn [app] in R' |- *. rewrite skip_app by auto.
    destruct (Z.eqb_spec c 93); [congruence|]. rewrite R', skip_app by auto. cbn [Z.eqb Pos.eqb]. rewrite Rl; [reflexivity|unfold len; lia].
  - intros w W G. exists []. split; [constructor|]. intros n rest L. now apply read_dict_stop.
  - intros k v s w1 w2 w3 w4 W1 W2 W3 W4 Hv IH G. apply good_object in G as (Qk & G & _). destruct (IH G) as (tr & D & R).
    exists [(k, tr)]. split; [repeat constructor; exact D|].
    intros n rest L. destruct n as [|n]; [lia|]. cbn [read_dict].
    unfold len in L. repeat (rewrite !app_length in L; cbn [List.length] in L).
    assert (E : (w1 ++ quoted k ++ w2 ++ 58 :: w3 ++ s ++ w4) ++ 125 :: rest = w1 ++ quoted k ++ (w2 ++ 58 :: (w3 ++ s ++ (w4 ++ 125 :: rest)))).
    { repeat rewrite <- app_assoc; cbn [app]; repeat rewrite <- app_assoc; reflexivity. }
    rewrite E. clear E.
    pose proof (read_quoted_ok k (w2 ++ 58 :: (w3 ++ s ++ (w4 ++ 125 :: rest))) Qk) as Rq.
    assert (Hq : exists u, quoted k ++ (w2 ++ 58 :: (w3 ++ s ++ (w4 ++ 125 :: rest))) = 39 :: u) by (unfold quoted; change (chars "'") with [39]; cbn [app]; eauto).
    destruct Hq as (u & Hq). rewrite Hq in *. rewrite skip_app by auto. cbn [Z.eqb Pos.eqb]. rewrite Rq, skip_app by auto. cbn [Z.eqb Pos.eqb negb].
    rewrite R; [|unfold len; lia|exact W3|now apply blank_ends]. rewrite skip_app by auto. reflexivity.
  - intros k v s w1 w2 w3 w4 o t W1 W2 W3 W4 No Hv IHv Ho IHo G. apply good_object in G as (Qk & G & Go). destruct (IHv G) as (tr & D & R). destruct (IHo Go) as (l & Dl & Rl).
    exists ((k, tr) :: l). split; [constructor; [split; [reflexivity|exact D]|exact Dl]|].
    intros n rest L. destruct n as [|n]; [lia|]. cbn [read_dict].
    unfold len in L. repeat (rewrite !app_length in L; cbn [List.length] in L).
    assert (E : (w1 ++ quoted k ++ w2 ++ 58 :: w3 ++ s ++ w4 ++ 44 :: t) ++ 125 :: rest = w1 ++ quoted k ++ (w2 ++ 58 :: (w3 ++ s ++ (w4 ++ 44 :: (t ++ 125 :: rest))))).
    { repeat rewrite <- app_assoc; cbn [app]; repeat rewrite <- app_assoc; cbn [app]; reflexivity. }
    rewrite E. clear E.
    pose proof (read_quoted_ok k (w2 ++ 58 :: (w3 ++ s ++ (w4 ++ 44 :: (t ++ 125 :: rest)))) Qk) as Rq.
    assert (Hq : exists u, quoted k ++ (w2 ++ 58 :: (w3 ++ s ++ (w4 ++ 44 :: (t ++ 125 :: rest)))) = 39 :: u) by (unfold quoted; change (chars "'") with [39]; cbn [app]; eauto).
    destruct Hq as (u & Hq). rewrite Hq in *. rewrite skip_app by auto. cbn [Z.eqb Pos.eqb]. rewrite Rq, skip_app by auto. cbn [Z.eqb Pos.eqb negb].
    rewrite R; [|unfold len; lia|exact W3|now apply blank_ends]. rewrite skip_app by auto. cbn [Z.eqb Pos.eqb].
    rewrite Rl; [reflexivity|unfold len; lia].
Qed.

Lemma read_text_written : forall fmt v s, shows_words fmt -> good v -> written fmt v s -> exists tr, data fmt v tr /\ read_text s = Some tr.
Proof.
  intros fmt v s Sw G H. destruct (proj1 (read_written fmt Sw) v s H G) as (tr & D & R). exists tr. split; [exact D|].
  unfold read_text. pose proof (R (S (List.length s)) [] [] ltac:(unfold len; lia) blank_nil I) as X. cbn [app] in X. rewrite app_nil_r in X.
  now rewrite X.
Qed.

(** ** White space *)

Definition ink (s : list Z) : list Z := filter (fun c => negb (is_white c)) s.

Lemma ink_app : forall a b, ink (a ++ b) = ink a ++ ink b.
Proof. intros. apply filter_app. Qed.
Lemma ink_blank : forall w, blank w -> ink w = [].
Proof. induction 1 as [|c w C W IH]; [reflexivity|]. cbn [ink filter]. rewrite C. exact IH. Qed.

Lemma ink_elements : forall l l', map ink l = map ink l' -> ink (print_elements l) = ink (print_elements l').
Proof.
  induction l as [|s l IH]; intros [|s' l'] E; try discriminate; [reflexivity|]. cbn [map] in E. injection E as E1 E2.
  specialize (IH l' E2). destruct l as [|x l], l' as [|x' l']; try discriminate; cbn [print_elements].
  - exact E1.
  - rewrite !ink_app, E1. cbn [print_elements] in IH. now rewrite IH.
Qed.
Lemma ink_members : forall l l', map ink l = map ink l' -> ink (print_elements l) = ink (print_members l').
Proof.
  induction l as [|s l IH]; intros [|s' l'] E; try discriminate; [reflexivity|]. cbn [map] in E. injection E as E1 E2.
  specialize (IH l' E2). destruct l as [|x l], l' as [|x' l']; try discriminate; cbn [print_elements print_members].
  - now rewrite !ink_app, E1, app_nil_r.
  - rewrite !ink_app, E1. cbn [print_elements print_members] in IH. now rewrite IH.
Qed.

Lemma ink_same : forall fmt v i, ink (print fmt v) = ink (pretty_print fmt v i).
Proof.
  intros fmt v. induction v as [v L|a IH|o IH] using value_induct; intros i.
  - now rewrite print_leaf_eq, pretty_leaf_eq by exact L.
  - cbn [print pretty_print]. rewrite !ink_app. do 2 f_equal. apply ink_elements. rewrite !map_map.
    apply map_ext_Forall. eapply Forall_impl; [|exact IH]. intros w H. apply H.
  - cbn [print pretty_print]. rewrite !ink_app, (ink_blank _ (blank_indents i)). cbn [app].
    change (ink (chars "{ ")) with [123]. change (ink (chars "{")) with [123]. change (ink [10]) with (@nil Z).
    change (ink (chars " }")) with (ink (chars "}")). cbn [app]. do 2 f_equal. apply ink_members. rewrite !map_map.
    apply map_ext_Forall. eapply Forall_impl; [|exact IH]. intros w H. rewrite !ink_app, (ink_blank _ (blank_indents (i + 1))). cbn [app].
    now rewrite (H (i + 1)).
Qed.

(** ** Values of an unknown type *)

Lemma has_unknown_dec : forall v, has_unknown v \/ ~ has_unknown v.
Proof.
  intros v. induction v as [v L|a IH|o IH] using value_induct.
  - destruct v; cbn in *; tauto.
  - induction IH as [|w a Hw Ha IHa]; cbn [has_unknown fold_right] in *; tauto.
  - induction IH as [|w a Hw Ha IHa]; cbn [has_unknown fold_right] in *; tauto.
Qed.

Definition fine (v : value) : Prop := no_quotes v /\ well_typed v.
Lemma fine_array : forall v a, fine (v_array (v :: a)) -> fine v /\ fine (v_array a).
Proof. intros v a (Q & T). cbn [no_quotes well_typed fold_right] in *. unfold fine. cbn [no_quotes well_typed]. tauto. Qed.
Lemma fine_object : forall k v o, fine (v_object ((k, v) :: o)) -> quote_free k /\ fine v /\ fine (v_object o).
Proof. intros k v a (Q & T). cbn [no_quotes well_typed fold_right fst snd] in *. unfold fine. cbn [no_quotes well_typed]. tauto. Qed.
Lemma fine_good : forall v, fine v -> ~ has_unknown v -> good v.
Proof. intros v (Q & T) U. now repeat split. Qed.

Lemma written_starts' : forall fmt v s, shows_words fmt -> fine v -> written fmt v s -> starts s.
Proof.
  intros fmt v s Sw F H. destruct (has_unknown_dec v) as [U|U]; [|now apply (written_starts fmt v s Sw (fine_good v F U))].
  destruct H.
  - destruct v; cbn in U, H; try tauto. cbn [print_leaf]. exists 117, (chars "nknown type: " ++ name). repeat split; discriminate.
  - exists 91, (s ++ [93]). repeat split; discriminate.
  - exists 123, (s ++ [125]). repeat split; discriminate.
Qed.

(** What the reader makes of the text of a value of unknown type: the word "unknown". *)
Definition unread (n : nat) (s : list Z) : Prop :=
  read_tree n s = None \/ exists rest, read_tree n s = Some (t_word (chars "unknown"), 32 :: 116 :: rest).

Lemma read_unknown : forall fmt, shows_words fmt ->
  (forall v s, written fmt v s -> fine v -> has_unknown v ->
     forall n w rest, (len s <= n)%nat -> blank w -> ends rest -> unread n (w ++ s ++ rest) /\ (~ leaf v -> read_tree n (w ++ s ++ rest) = None))
  /\ (forall a s, elements fmt a s -> fine (v_array a) -> has_unknown (v_array a) ->
     forall n rest, (len s < n)%nat -> read_list n (s ++ 93 :: rest) = None)
  /\ (forall o s, members fmt o s -> fine (v_object o) -> has_unknown (v_object o) ->
     forall n rest, (len s < n)%nat -> read_dict n (s ++ 125 :: rest) = None).
Proof.
  intros fmt Sw. destruct (read_written fmt Sw) as (RW & _). apply written_ind3.
  - intros v L F U n w rest Ln W E. split; [|tauto]. destruct v; cbn in U, L; try tauto. right. cbn [print_leaf].
    cbn [print_leaf] in Ln. destruct n as [|n]; [unfold len in Ln; rewrite app_length in Ln; cbn in Ln; lia|].
    exists (chars "ype: " ++ name ++ rest). cbn [read_tree]. rewrite <- app_assoc.
    change (chars "unknown type: " ++ name ++ rest) with (117 :: (chars "nknown type: " ++ name ++ rest)).
    rewrite skip_app by auto. cbn [Z.eqb Pos.eqb].
    change (117 :: chars "nknown type: " ++ name ++ rest) with (chars "unknown" ++ 32 :: 116 :: chars "ype: " ++ name ++ rest).
    rewrite scan_app; [reflexivity|repeat constructor|reflexivity].
  - intros a s He IH F U n w rest Ln W E. assert (X : read_tree n (w ++ (91 :: s ++ [93]) ++ rest) = None).
    { unfold len in Ln. cbn [List.length] in Ln. rewrite app_length in Ln. cbn in Ln. destruct n as [|n]; [lia|].
      cbn [read_tree app]. rewrite skip_app by auto. cbn [Z.eqb Pos.eqb]. rewrite <- app_assoc. cbn [app]. rewrite IH; auto. unfold len. lia. }
    split; [now left|auto].
  - intros o s He IH F U n w rest Ln W E. assert (X : read_tree n (w ++ (123 :: s ++ [125]) ++ rest) = None).
    { unfold len in Ln. cbn [List.length] in Ln. rewrite app_length in Ln. cbn in Ln. destruct n as [|n]; [lia|].
      cbn [read_tree app]. rewrite skip_app by auto. cbn [Z.eqb Pos.eqb]. rewrite <- app_assoc. cbn [app]. rewrite IH; auto. unfold len. lia. }
    split; [now left|auto].
  - intros w W F U. cbn in U. tauto.
  - intros v s w1 w2 W1 W2 Hv IH F U n rest L. apply fine_array in F as (F & _). cbn [has_unknown fold_right] in U.
    assert (U' : has_unknown v) by tauto. clear U.
    destruct (written_starts' fmt v s Sw F Hv) as (c & t & Es & Cw & N1 & _).
    destruct n as [|n]; [lia|]. cbn [read_list]. rewrite <- !app_assoc.
    unfold len in L. rewrite !app_length in L.
    destruct (IH F U' n [] (w2 ++ 93 :: rest) ltac:(unfold len; lia) blank_nil (blank_ends w2 (93 :: rest) W2 (eq_refl : is_word_char 93 = false))) as (R' & _).
    unfold unread in R'. cbn [app] in R'.
    rewrite Es in R' |- *. cbn [app] in R' |- *. rewrite skip_app by auto.
    destruct (Z.eqb_spec c 93); [congruence|]. destruct R' as [->|(r & ->)]; [reflexivity|].
    change (skip (32 :: 116 :: r)) with (skip ([32] ++ 116 :: r)). now rewrite skip_app by (auto using blank_space).
  - intros v s w1 w2 a t W1 W2 Na Hv IHv Ha IHa F U n rest L. apply fine_array in F as (F & Fa). cbn [has_unknown fold_right] in U.
    destruct (written_starts' fmt v s Sw F Hv) as (c & u & Es & Cw & N1 & _).
    destruct n as [|n]; [lia|]. cbn [read_list]. rewrite <- !app_assoc. cbn [app].
    unfold len in L. rewrite !app_length in L. cbn [List.length] in L.
    pose proof (blank_ends w2 (44 :: t ++ 93 :: rest) W2 (eq_refl : is_word_char 44 = false)) as En.
    destruct (has_unknown_dec v) as [Uv|Uv].
    + destruct (IHv F Uv n [] (w2 ++ 44 :: t ++ 93 :: rest) ltac:(unfold len; lia) blank_nil En) as (R' & _).
      unfold unread in R'. cbn [app] in R'.
      rewrite Es in R' |- *. cbn [app] in R' |- *. rewrite skip_app by auto.
      destruct (Z.eqb_spec c 93); [congruence|]. destruct R' as [->|(r & ->)]; [reflexivity|].
      change (skip (32 :: 116 :: r)) with (skip ([32] ++ 116 :: r)). now rewrite skip_app by (auto using blank_space).
    + assert (Ua : has_unknown (v_array a)) by tauto.
      destruct (RW v s Hv (fine_good v F Uv)) as (tr & _ & R).
      pose proof (R n [] (w2 ++ 44 :: t ++ 93 :: rest) ltac:(unfold len; lia) blank_nil En) as R'. cbn [app] in R'.
      rewrite Es in R' |- *. cbn [app] in R' |- *. rewrite skip_app by auto.
      destruct (Z.eqb_spec c 93); [congruence|]. rewrite R', skip_app by auto. cbn [Z.eqb Pos.eqb].
      rewrite (IHa Fa Ua); [reflexivity|unfold len; lia].
  - intros w W F U. cbn in U. tauto.
  - intros k v s w1 w2 w3 w4 W1 W2 W3 W4 Hv IH F U n rest L. apply fine_object in F as (Qk & F & _). cbn [has_unknown fold_right snd] in U.
    assert (U' : has_unknown v) by tauto. clear U.
    destruct n as [|n]; [lia|]. cbn [read_dict].
    unfold len in L. repeat (rewrite !app_length in L; cbn [List.length] in L).
    assert (E : (w1 ++ quoted k ++ w2 ++ 58 :: w3 ++ s ++ w4) ++ 125 :: rest = w1 ++ quoted k ++ (w2 ++ 58 :: (w3 ++ s ++ (w4 ++ 125 :: rest)))).
    { repeat rewrite <- app_assoc; cbn [app]; repeat rewrite <- app_assoc; reflexivity. }
    rewrite E. clear E.
    pose proof (read_quoted_ok k (w2 ++ 58 :: (w3 ++ s ++ (w4 ++ 125 :: rest))) Qk) as Rq.
    assert (Hq : exists u, quoted k ++ (w2 ++ 58 :: (w3 ++ s ++ (w4 ++ 125 :: rest))) = 39 :: u) by (unfold quoted; change (chars "'") with [39]; cbn [app]; eauto).
    destruct Hq as (u & Hq). rewrite Hq in *. rewrite skip_app by auto. cbn [Z.eqb Pos.eqb]. rewrite Rq, skip_app by auto. cbn [Z.eqb Pos.eqb negb].
    destruct (IH F U' n w3 (w4 ++ 125 :: rest) ltac:(unfold len; lia) W3 (blank_ends w4 (125 :: rest) W4 (eq_refl : is_word_char 125 = false))) as ([->|(r & ->)] & _); [reflexivity|].
    change (skip (32 :: 116 :: r)) with (skip ([32] ++ 116 :: r)). now rewrite skip_app by (auto using blank_space).
  - intros k v s w1 w2 w3 w4 o t W1 W2 W3 W4 No Hv IHv Ho IHo F U n rest L. apply fine_object in F as (Qk & F & Fo). cbn [has_unknown fold_right snd] in U.
    destruct n as [|n]; [lia|]. cbn [read_dict].
    unfold len in L. repeat (rewrite !app_length in L; cbn [List.length] in L).
    assert (E : (w1 ++ quoted k ++ w2 ++ 58 :: w3 ++ s ++ w4 ++ 44 :: t) ++ 125 :: rest = w1 ++ quoted k ++ (w2 ++ 58 :: (w3 ++ s ++ (w4 ++ 44 :: (t ++ 125 :: rest))))).
    { repeat rewrite <- app_assoc; cbn [app]; repeat rewrite <- app_assoc; cbn [app]; reflexivity. }
    rewrite E. clear E.
    pose proof (read_quoted_ok k (w2 ++ 58 :: (w3 ++ s ++ (w4 ++ 44 :: (t ++ 125 :: rest)))) Qk) as Rq.
    assert (Hq : exists u, quoted k ++ (w2 ++ 58 :: (w3 ++ s ++ (w4 ++ 44 :: (t ++ 125 :: rest)))) = 39 :: u) by (unfold quoted; change (chars "'") with [39]; cbn [app]; eauto).
    destruct Hq as (u & Hq). rewrite Hq in *. rewrite skip_app by auto. cbn [Z.eqb Pos.eqb]. rewrite Rq, skip_app by auto. cbn [Z.eqb Pos.eqb negb].
    pose proof (blank_ends w4 (44 :: t ++ 125 :: rest) W4 (eq_refl : is_word_char 44 = false)) as En.
    destruct (has_unknown_dec v) as [Uv|Uv].
    + destruct (IHv F Uv n w3 (w4 ++ 44 :: t ++ 125 :: rest) ltac:(unfold len; lia) W3 En) as ([->|(r & ->)] & _); [reflexivity|].
      change (skip (32 :: 116 :: r)) with (skip ([32] ++ 116 :: r)). now rewrite skip_app by (auto using blank_space).
    + assert (Uo : has_unknown (v_object o)) by tauto.
      destruct (RW v s Hv (fine_good v F Uv)) as (tr & _ & R).
      rewrite R; [|unfold len; lia|exact W3|exact En]. rewrite skip_app by auto. cbn [Z.eqb Pos.eqb].
      rewrite (IHo Fo Uo); [reflexivity|unfold len; lia].
Qed.

Lemma read_text_unknown : forall fmt v s, shows_words fmt -> fine v -> has_unknown v -> written fmt v s -> read_text s = None.
Proof.
  intros fmt v s Sw F U H. destruct (proj1 (read_unknown fmt Sw) v s H F U (S (List.length s)) [] [] ltac:(unfold len; lia) blank_nil I) as ([X|(r & X)] & _);
    cbn [app] in X; rewrite app_nil_r in X; unfold read_text; rewrite X; [reflexivity|].
  change (skip (32 :: 116 :: r)) with (skip ([32] ++ 116 :: r)). now rewrite skip_app by (auto using blank_space).
Qed.
