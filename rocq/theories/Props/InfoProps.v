(** C70, C75: class names and class counts of spoc_info. *)
From Coq Require Import String ZArith List Bool Lia Sorted Permutation.
From Verif.Model Require Import Base PointRecord AppUtils Asprs Json InfoApp.
From Verif.Spec Require Import Format Streams Text Reports.
From Verif.Proofs Require Import BaseFacts HeaderCutFacts TextFacts MapFacts CountFacts.
Import ListNotations.
Open Scope Z_scope.
Open Scope outcome_scope.

(** ** C75 Class names *)

Lemma class_fill_find : forall n from s m k,
  class_find k (class_fill n from s m) = if (from <=? k) && (k <? from + Z.of_nat n) then Some s else class_find k m.
Proof.
  induction n as [|n IH]; intros from s m k; cbn [class_fill].
  - destruct (Z.leb_spec from k), (Z.ltb_spec k (from + Z.of_nat 0)); cbn [andb]; try reflexivity; lia.
  - rewrite IH. cbn [class_set class_find].
    destruct (Z.leb_spec (from + 1) k), (Z.ltb_spec k (from + 1 + Z.of_nat n)), (Z.eqb_spec k from),
      (Z.leb_spec from k), (Z.ltb_spec k (from + Z.of_nat (S n))); cbn [andb]; try reflexivity; lia.
Qed.

Definition first_names : class_names := rev (combine (map Z.of_nat (seq 0 23)) (map chars class_list)).

Lemma class_map_find : forall k, class_find k get_asprs_class_map =
  if (64 <=? k) && (k <? 256) then Some (chars "user_defined")
  else if (23 <=? k) && (k <? 64) then Some (chars "reserved")
  else class_find k first_names.
Proof.
  intros k. unfold get_asprs_class_map. rewrite !class_fill_find.
  change (Z.of_nat (256 - 64)) with 192. change (Z.of_nat (64 - 23)) with 41. reflexivity.
Qed.

Lemma first_names_find : forall k s, 0 <= k -> nth_error class_list (Z.to_nat k) = Some s ->
  class_find k first_names = Some (chars s).
Proof.
  intros k s K E. assert (L : (Z.to_nat k < 23)%nat) by (apply (nth_error_Some class_list); now rewrite E).
  rewrite <- (Z2Nat.id k K). set (n := Z.to_nat k) in *. clearbody n. clear k K.
  do 23 (destruct n as [|n]; [cbn [nth_error class_list] in E; injection E as <-; reflexivity|]). lia.
Qed.

Lemma first_names_none : forall k, k < 0 \/ 22 < k -> class_find k first_names = None.
Proof.
  intros k H. change first_names with (combine (map Z.of_nat (rev (seq 0 23))) (rev (map chars class_list))).
  cbn [seq rev app map class_list combine class_find].
  repeat match goal with |- context [k =? ?x] => destruct (Z.eqb_spec k x) as [E|_]; [cbn in E; lia|] end. reflexivity.
Qed.

(** The table is complete, and nothing else is in it. *)
Theorem C75_names : forall v s, named v s -> class_find v get_asprs_class_map = Some (chars s).
Proof.
  intros v s N. rewrite class_map_find. destruct N as [(V & E)|[(V & ->)|(V & ->)]].
  - assert (L : (Z.to_nat v < 23)%nat) by (apply (nth_error_Some class_list); now rewrite E).
    destruct (Z.leb_spec 64 v); [lia|]. destruct (Z.leb_spec 23 v); [lia|]. cbn [andb]. now apply first_names_find.
  - destruct (Z.leb_spec 64 v); [lia|]. destruct (Z.leb_spec 23 v); [|lia]. destruct (Z.ltb_spec v 64); [|lia]. reflexivity.
  - destruct (Z.leb_spec 64 v); [|lia]. destruct (Z.ltb_spec v 256); [|lia]. reflexivity.
Qed.

Theorem C75_defined : forall v, (exists s, named v s) <-> class_find v get_asprs_class_map <> None.
Proof.
  intros v. split.
  - intros (s & N). rewrite (C75_names v s N). discriminate.
  - intros H. rewrite class_map_find in H.
    destruct (Z_lt_le_dec v 0) as [A|A].
    { destruct (Z.leb_spec 64 v); [lia|]. destruct (Z.leb_spec 23 v); [lia|]. cbn [andb] in H. rewrite first_names_none in H by lia. congruence. }
    destruct (Z_lt_le_dec v 23) as [B|B].
    { destruct (nth_error class_list (Z.to_nat v)) as [s|] eqn:E; [exists s; now left|].
      apply nth_error_None in E. cbn in E. lia. }
    destruct (Z_lt_le_dec v 64) as [C|C]; [exists "reserved"%string; right; left; split; [lia|reflexivity]|].
    destruct (Z_lt_le_dec v 256) as [D|D]; [exists "user_defined"%string; right; right; split; [lia|reflexivity]|].
    destruct (Z.ltb_spec v 256); [lia|]. destruct (Z.ltb_spec v 64); [lia|]. rewrite !andb_false_r, first_names_none in H by lia. congruence.
Qed.

Theorem C75_codes : forall v, class_find v get_asprs_class_map <> None <-> 0 <= v <= 255.
Proof.
  intros v. rewrite <- C75_defined. split.
  - intros (s & [(V & E)|[(V & _)|(V & _)]]); [|lia|lia].
    assert (L : (Z.to_nat v < 23)%nat) by (apply (nth_error_Some class_list); now rewrite E). lia.
  - intros V. destruct (Z_lt_le_dec v 23) as [B|B].
    { destruct (nth_error class_list (Z.to_nat v)) as [s|] eqn:E; [exists s; left; split; [lia|exact E]|].
      apply nth_error_None in E. cbn in E. lia. }
    destruct (Z_lt_le_dec v 64) as [C|C]; [exists "reserved"%string; right; left; split; [lia|reflexivity]|].
    exists "user_defined"%string; right; right; split; [lia|reflexivity].
Qed.

Example C75_example : class_find 2 get_asprs_class_map = Some (chars "ground")
  /\ class_find 40 get_asprs_class_map = Some (chars "reserved")
  /\ class_find 255 get_asprs_class_map = Some (chars "user_defined")
  /\ class_find 256 get_asprs_class_map = None.
Proof. repeat split; reflexivity. Qed.

(** ** C70 Class counts *)

Definition u32s (c : list Z) : Prop := Forall (fun v => 0 <= v < 2 ^ 32) c.

(** Every class is reported with its exact number of records; a class that no record has
    is not reported. *)
Theorem C70_counts : forall c v t, u32s c -> 0 <= v < 2 ^ 32 -> label_of v t ->
  map_get t (get_class_count_map c) = if occurrences v c =? 0 then None else Some (occurrences v c).
Proof.
  intros c v t F V L. apply label_of_class in L; [|exact V]. subst t. unfold get_class_count_map.
  destruct (count_classes_spec c) as (N & C).
  assert (O : 0 <= occurrences v c) by (unfold occurrences; lia).
  assert (G : forall n, map_get (class_label (to_i32 v)) (label_counts (count_classes c)) = Some n <-> n = occurrences v c /\ 0 < n).
  { intros n. rewrite label_counts_spec by exact N. rewrite <- (occurrences_i32 v c V F), <- (C (to_i32 v) n). split.
    - intros (k & E & I). apply class_label_inj in E. now subst k.
    - intros I. now exists (to_i32 v). }
  destruct (Z.eqb_spec (occurrences v c) 0) as [E|E].
  - destruct (map_get _ _) as [n|] eqn:M; [|reflexivity]. destruct (proj1 (G n) eq_refl). lia.
  - apply G. lia.
Qed.

(** Nothing else is reported, and the counts add up to the number of records. *)
Theorem C70_only : forall c t n, u32s c -> In (t, n) (get_class_count_map c) ->
  exists v, In v c /\ label_of v t /\ n = occurrences v c.
Proof.
  intros c t n F I. destruct (count_classes_spec c) as (N & C). unfold get_class_count_map in I.
  apply map_get_In in I; [|apply label_counts_order]. apply label_counts_spec in I as (k & -> & I); [|exact N].
  apply C in I as (E & P). assert (Ik : In k (map to_i32 c)).
  { apply (count_occ_In Z.eq_dec). unfold occurrences in E. lia. }
  apply in_map_iff in Ik as (v & <- & Iv). exists v. unfold u32s in F. rewrite Forall_forall in F.
  pose proof (F v Iv) as V. split; [exact Iv|]. split; [now apply label_of_class|].
  rewrite E. apply occurrences_i32; [exact V|]. now apply Forall_forall.
Qed.

Theorem C70_total : forall c, total (map snd (get_class_count_map c)) = zlen c.
Proof.
  intros c. destruct (count_classes_spec c) as (N & _). unfold get_class_count_map.
  rewrite label_counts_total by exact N. apply count_classes_total.
Qed.

(** The labels are distinct, and in the order of strings (so "1000" comes before "256"). *)
Theorem C70_in_order : forall c, in_order (get_class_count_map c).
Proof. intros c. apply label_counts_order. Qed.

(** Different classes have different labels. *)
Theorem C70_labels : forall v w t, 0 <= v < 2 ^ 32 -> 0 <= w < 2 ^ 32 -> label_of v t -> label_of w t -> v = w.
Proof.
  intros v w t V W Lv Lw. apply label_of_class in Lv, Lw; try assumption. subst t.
  apply class_label_inj in Lw. now apply to_i32_inj.
Qed.

(** The report does not depend on the order of the records, and not on the order in which
    the program visits its hash table. *)
Theorem C70_order : forall c c', Permutation c c' -> get_class_count_map c = get_class_count_map c'.
Proof.
  intros c c' P. destruct (count_classes_spec c) as (N & C), (count_classes_spec c') as (N' & C').
  apply map_ext_order; try apply C70_in_order. intros t. unfold get_class_count_map.
  assert (G : forall n, map_get t (label_counts (count_classes c)) = Some n <-> map_get t (label_counts (count_classes c')) = Some n).
  { intros n. rewrite !label_counts_spec by assumption.
    assert (I : forall k, In (k, n) (count_classes c) <-> In (k, n) (count_classes c')).
    { intros k. rewrite (C k n), (C' k n). unfold occurrences.
      rewrite (Permutation_count_occ Z.eq_dec) in P.
      assert (E : count_occ Z.eq_dec (map to_i32 c) k = count_occ Z.eq_dec (map to_i32 c') k).
      { apply Permutation_count_occ. apply Permutation_map. now apply (Permutation_count_occ Z.eq_dec). }
      now rewrite E. }
    split; intros (k & E & H); exists k; (split; [exact E|]); now apply I. }
  destruct (map_get t (label_counts (count_classes c))) as [n|] eqn:E.
  - symmetry. now apply G.
  - destruct (map_get t (label_counts (count_classes c'))) as [n|] eqn:E2; [|reflexivity]. now specialize (proj2 (G n) eq_refl).
Qed.

Theorem C70_hash_order : forall c m, Permutation (count_classes c) m -> label_counts m = get_class_count_map c.
Proof.
  intros c m P. destruct (count_classes_spec c) as (N & _).
  assert (Nm : NoDup (map fst m)) by (eapply Permutation_NoDup; [apply Permutation_map; exact P|exact N]).
  apply map_ext_order; try apply label_counts_order. intros t. unfold get_class_count_map.
  assert (G : forall n, map_get t (label_counts m) = Some n <-> map_get t (label_counts (count_classes c)) = Some n).
  { intros n. rewrite !label_counts_spec by assumption.
    split; intros (k & E & H); exists k; (split; [exact E|]); (eapply Permutation_in; [|exact H]); [now apply Permutation_sym|exact P]. }
  destruct (map_get t (label_counts m)) as [n|] eqn:E.
  - symmetry. now apply G.
  - destruct (map_get t (label_counts (count_classes c))) as [n|] eqn:E'; [|reflexivity]. now specialize (proj2 (G n) eq_refl).
Qed.

(** What [stoi] makes of a label. *)
Lemma strtol_intro : forall sg ds junk, In sg [[]; [43]; [45]] -> ds <> [] -> Forall digit ds -> not_first digit junk ->
  strtol (sg ++ ds ++ junk) = Some (if list_eq_dec Z.eq_dec sg [45] then - number ds else number ds, zlen sg + zlen ds).
Proof.
  intros sg ds junk G N F J. apply strtol_spec. exists [], sg, ds, junk. repeat split; auto.
Qed.

Lemma stoi_label : forall v, 0 <= v < 2 ^ 32 ->
  exists n, stoi (class_label (to_i32 v)) = Ret (if v <? 2 ^ 32 - 9 then to_i32 v else 0, n).
Proof.
  intros v V. pose proof (to_i32_u32 v V) as E. set (k := to_i32 v) in *. clearbody k.
  destruct (class_label_padded k) as (j & -> & J). pose proof (put_int_spec k) as P. unfold int_text in P.
  unfold stoi. change (- two31) with (-2147483648). change two31 with 2147483648. destruct (Z.ltb_spec k 0) as [K|K].
  - destruct P as (u & Eu & U). rewrite Eu in *. pose proof U as (Nu & Fu & Vu & Zu).
    rewrite app_length, repeat_length in J. cbn [List.length] in J.
    destruct (Z.ltb_spec v (2 ^ 31)); [lia|].
    assert (Lu : (2 <= List.length u)%nat <-> 10 <= - k).
    { split.
      - intros L. destruct u as [|a [|b u]]; cbn in L; try lia. pose proof (number_nonneg u) as Nn. inversion Fu as [|? ? Da Fu']; subst.
        inversion Fu' as [|? ? Db Fu'']; subst. specialize (Nn Fu''). rewrite <- Vu. cbn [number List.length].
        assert (a <> 48) by (intros ->; specialize (Zu eq_refl); discriminate).
        assert (10 <= 10 ^ Z.of_nat (S (List.length u))).
        { replace 10 with (10 ^ 1) at 1 by reflexivity. apply Z.pow_le_mono_r; lia. }
        assert (0 < 10 ^ Z.of_nat (List.length u)) by (apply Z.pow_pos_nonneg; lia). unfold digit in *. nia.
      - intros L. destruct u as [|a [|b u]]; [congruence| |cbn; lia]. inversion Fu; subst. unfold digit in *. cbn in Vu. lia. }
    destruct (Z.ltb_spec v (2 ^ 32 - 9)) as [B|B].
    + assert (Ej : j = 0%nat) by lia. subst j. cbn [repeat app]. pose proof (strtol_intro [45] u [] ltac:(cbn; auto) Nu Fu) as S.
      rewrite app_nil_r in S. cbn [app] in S. rewrite S by (intros c w X; discriminate X).
      destruct (list_eq_dec Z.eq_dec [45] [45]); [|congruence]. rewrite Vu, Z.opp_involutive.
      destruct (Z.leb_spec (-2147483648) k); [|lia]. destruct (Z.ltb_spec k 2147483648); [|lia]. cbn [andb].
      eexists. reflexivity.
    + destruct u as [|a [|b u]]; [congruence| |cbn in Lu; lia].
      assert (Ej : j = 1%nat) by (cbn in J; lia). subst j. cbn [repeat app].
      pose proof (strtol_intro [] [48] [45; a] ltac:(cbn; auto) ltac:(discriminate) ltac:(repeat constructor; unfold digit; lia)) as S.
      cbn [app] in S. rewrite S by (intros c w X; injection X as <- <-; unfold digit; lia).
      destruct (list_eq_dec Z.eq_dec [] [45]); [discriminate|]. change (number [48]) with 0. eexists. reflexivity.
  - pose proof P as (Nu & Fu & Vu & Zu). pose proof (strtol_intro [] (repeat 48 j ++ put_int k) []) as S.
    rewrite app_nil_r in S. cbn [app] in S. rewrite S; clear S.
    + destruct (list_eq_dec Z.eq_dec [] [45]); [discriminate|]. rewrite zeros_number, Vu.
      destruct (Z.ltb_spec v (2 ^ 31)); [|lia].
      destruct (Z.leb_spec (-2147483648) k); [|lia]. destruct (Z.ltb_spec k 2147483648); [|lia]. cbn [andb].
      destruct (Z.ltb_spec v (2 ^ 32 - 9)); [|lia]. eexists. reflexivity.
    + cbn; auto.
    + destruct (repeat 48 j); cbn [app]; [exact Nu|discriminate].
    + apply Forall_app. split; [apply zeros_digits|exact Fu].
    + intros c w X. discriminate X.
Qed.

Lemma shown_name_exists : forall v, 0 <= v < 2 ^ 32 -> exists s, shown_name v s
  /\ chars s = match class_find (if v <? 2 ^ 32 - 9 then to_i32 v else 0) get_asprs_class_map with None => chars "undefined" | Some s => s end.
Proof.
  intros v V. unfold shown_name. rewrite to_i32_u32 by exact V.
  destruct (Z.leb_spec v 255) as [A|A].
  - assert (D : class_find v get_asprs_class_map <> None) by (apply C75_codes; lia).
    apply C75_defined in D as (s & N). exists s. split; [exact N|].
    destruct (Z.ltb_spec v (2 ^ 32 - 9)); [|lia]. destruct (Z.ltb_spec v (2 ^ 31)); [|lia]. now rewrite (C75_names v s N).
  - destruct (Z.ltb_spec v (2 ^ 32 - 9)) as [B|B].
    + exists "undefined"%string. split; [reflexivity|].
      destruct (class_find _ _) eqn:E; [|reflexivity]. exfalso.
      assert (D : class_find (if v <? 2 ^ 31 then v else v - 2 ^ 32) get_asprs_class_map <> None) by congruence.
      apply C75_codes in D. destruct (Z.ltb_spec v (2 ^ 31)); lia.
    + exists "unclassified"%string. split; reflexivity.
Qed.

(** The text report: one line for each class that occurs, in the order of the labels, with
    its label, its count and its name. *)
Theorem C70_lines : forall p, u32s (get_c p) ->
  exists classes lines, appends (class_lines p) (List.concat lines)
    /\ Forall2 (fun v l => class_line v (occurrences v (get_c p)) l) classes lines
    /\ NoDup classes
    /\ (forall v, In v classes <-> In v (get_c p))
    /\ Forall2 (fun v m => label_of v (fst m)) classes (get_class_count_map (get_c p)).
Proof.
  intros p F. set (c := get_c p) in *.
  assert (G : forall m, (forall e, In e m -> In e (get_class_count_map c)) ->
    exists classes lines,
      emits (w_iter (fun i : list Z * Z =>
            w_bind (w_lift (stoi (fst i))) (fun j =>
              let l := match class_find (fst j) get_asprs_class_map with None => chars "undefined" | Some s => s end in
              w_put (line [chars "cls_"; fst i; tab; put_uint (snd i); tab; l]))) m) (List.concat lines) tt
      /\ Forall2 (fun v l => class_line v (occurrences v c) l) classes lines
      /\ Forall (fun v => In v c) classes
      /\ Forall2 (fun v m => label_of v (fst m)) classes m).
  { induction m as [|(t, n) m IH]; intros H.
    - exists [], []. split; [apply emits_ret|]. repeat constructor.
    - destruct IH as (cs & ls & E & L & I & K); [intros e He; apply H; now right|].
      destruct (C70_only c t n F (H _ (or_introl eq_refl))) as (v & Iv & Lv & On).
      assert (V : 0 <= v < 2 ^ 32) by (unfold u32s in F; rewrite Forall_forall in F; now apply F).
      destruct (shown_name_exists v V) as (s & Sn & Es).
      pose proof Lv as Lt. apply label_of_class in Lt; [|exact V]. destruct (stoi_label v V) as (q & Q).
      exists (v :: cs), ((chars "cls_" ++ t ++ [9] ++ put_uint n ++ [9] ++ chars s ++ [10]) :: ls).
      split; [|split; [|split]].
      + cbn [w_iter List.concat]. apply emits_seq; [|exact E].
        eapply emits_lift; [cbn [fst]; rewrite Lt; exact Q|]. cbn [fst snd]. rewrite <- Es. unfold line, tab. cbn [List.concat].
        rewrite app_nil_r, <- !app_assoc. apply emits_put.
      + constructor; [|exact L]. exists t, (put_uint n), s. rewrite <- On. split; [exact Lv|]. split; [|split; [exact Sn|reflexivity]].
        apply put_uint_spec. rewrite On. unfold occurrences. lia.
      + now constructor.
      + now constructor. }
  destruct (G (get_class_count_map c) (fun e H => H)) as (cs & ls & E & L & I & K).
  exists cs, ls. split; [now apply emits_appends|]. split; [exact L|].
  rewrite Forall_forall in I. assert (B : forall v, In v c -> 0 <= v < 2 ^ 32) by (unfold u32s in F; now rewrite Forall_forall in F).
  assert (X : forall (m : list (list Z * Z)) cs, in_order m -> (forall v, In v cs -> In v c) -> Forall2 (fun v m => label_of v (fst m)) cs m ->
     NoDup cs /\ forall v, In v cs <-> In v c /\ exists n, In (class_label (to_i32 v), n) m).
  { clear - B. induction m as [|(t, n) m IH]; intros cs S I K; inversion K as [|v ? cs' ? Lv K']; subst.
    - split; [constructor|]. intros v. split; [intros []|]. intros (_ & n & []).
    - inversion S as [|? ? S' Fm]; subst. destruct (IH cs' S' (fun w H => I w (or_intror H)) K') as (N & A).
      assert (Iv : In v c) by (apply I; now left).
      cbn [fst] in Lv. apply label_of_class in Lv; [|now apply B]. split.
      + constructor; [|exact N]. intros H. apply A in H as (_ & n' & H). rewrite <- Lv in H.
        rewrite Forall_forall in Fm. specialize (Fm t (in_map fst _ _ H)). now apply before_irrefl in Fm.
      + intros w. cbn [In]. rewrite A. split.
        * intros [<-|(Iw & n' & H)]; [split; [exact Iv|exists n; left; now rewrite Lv]|]. split; [exact Iw|]. exists n'. now right.
        * intros (Iw & n' & [H|H]); [|right; split; [exact Iw|now exists n']]. left. injection H as H _.
          subst t. apply class_label_inj in H. apply to_i32_inj in H; auto. }
  destruct (X _ cs (C70_in_order c) I K) as (N & A). split; [exact N|]. split; [|exact K].
  intros v. rewrite A. split; [tauto|]. intros Iv. split; [exact Iv|]. exists (occurrences v c).
  apply map_get_In; [apply C70_in_order|].
  rewrite (C70_counts c v) by (auto; now apply label_of_class; auto).
  destruct (Z.eqb_spec (occurrences v c) 0) as [E0|]; [|reflexivity]. exfalso.
  apply (count_occ_In Z.eq_dec) in Iv. unfold occurrences in E0. lia.
Qed.

(** Class 4294967291 is reported as "0-5", and named "unclassified": a finding. *)
Example C70_large_class : label_of 4294967291 (chars "0-5") /\ shown_name 4294967291 "unclassified"
  /\ label_of 2 (chars "002") /\ label_of 1000 (chars "1000") /\ label_of 4294967196 (chars "-100").
Proof.
  split; [|split; [reflexivity|split; [|split]]]; (apply label_of_class; [lia|reflexivity]).
Qed.

Example C70_example : get_class_count_map [2; 2; 4294967291; 256; 2; 1000]
  = [(chars "0-5", 1); (chars "002", 3); (chars "1000", 1); (chars "256", 1)].
Proof. reflexivity. Qed.

Print Assumptions C75_names.
Print Assumptions C75_defined.
Print Assumptions C75_codes.
Print Assumptions C70_counts.
Print Assumptions C70_only.
Print Assumptions C70_total.
Print Assumptions C70_in_order.
Print Assumptions C70_labels.
Print Assumptions C70_order.
Print Assumptions C70_hash_order.
Print Assumptions C70_lines.
