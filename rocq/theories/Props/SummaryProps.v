(** C71: the column summaries of spoc_info. *)
From Coq Require Import String ZArith List Bool Lia Sorted Permutation.
From Verif.Model Require Import Base Double Arith PointRecord AppUtils TileApp Json InfoApp.
From Verif.Spec Require Import Text Reports.
From Verif.Proofs Require Import BaseFacts OrderFacts MapFacts CountFacts SummaryFacts.
Import ListNotations.
Open Scope Z_scope.
Open Scope outcome_scope.

(** The five values behind both forms of a summary with quartiles. *)
Definition quartile_values (k : column) (x : list Z) (q0 q1 q2 q3 q4 : Z) : Prop :=
  let n := zlen x in
  least k x q0 /\ rank k x (n / 4) q1 /\ rank k x (n / 2) q2 /\ rank k x (3 * n / 4) q3 /\ greatest k x q4
  /\ at_most k q0 q1 /\ at_most k q1 q2 /\ at_most k q2 q3 /\ at_most k q3 q4.

Lemma quartile_places : forall n, 0 < n < 2 ^ 62 ->
  0 <= n / 4 < n /\ n / 4 <= n / 2 < n /\ n / 2 <= to_u64 (3 * n) / 4 <= n - 1 /\ to_u64 (3 * n) = 3 * n.
Proof.
  intros n H. assert (E : to_u64 (3 * n) = 3 * n) by (unfold to_u64, two64; apply Z.mod_small; lia).
  rewrite E. split; [|split; [|split]]; try reflexivity.
  - split; [apply Z.div_pos; lia|apply Z.div_lt; lia].
  - split; [|apply Z.div_lt; lia]. apply Z.div_le_lower_bound; [lia|]. pose proof (Z.mul_div_le n 4 ltac:(lia)). lia.
  - split.
    + apply Z.div_le_lower_bound; [lia|]. pose proof (Z.mul_div_le n 2 ltac:(lia)). lia.
    + enough (3 * n / 4 < n) by lia. apply Z.div_lt_upper_bound; lia.
Qed.

Lemma sorted_values : forall srt k x, sorts srt -> all_numbers k x -> x <> [] -> zlen x < 2 ^ 62 ->
  exists y q0 q1 q2 q3 q4, col_sort srt k x = Ret y /\ front y = Ret q0 /\ back y = Ret q4
    /\ vec_get y (zlen x / 4) = Ret q1 /\ vec_get y (zlen x / 2) = Ret q2 /\ vec_get y (to_u64 (3 * zlen x) / 4) = Ret q3
    /\ quartile_values k x q0 q1 q2 q3 q4
    /\ rank k x 0 q0 /\ rank k x (zlen x - 1) q4.
Proof.
  intros srt k x Hs N Ne L. pose proof (all_numbers_numb k x N) as F.
  destruct (col_sort_spec srt k x Hs N) as (y & E & P & S).
  assert (Ly : zlen y = zlen x) by (unfold zlen; f_equal; apply Permutation_length; now apply Permutation_sym).
  assert (L0 : 0 < zlen x) by (destruct x; [congruence|unfold zlen; cbn [List.length]; lia]).
  destruct (quartile_places (zlen x) (conj L0 L)) as (A1 & A2 & A3 & A4).
  assert (G : forall r, 0 <= r < zlen x -> exists a, vec_get y r = Ret a /\ rank k x r a).
  { intros r R. destruct (znth_in_range y r) as (a & Ea); [lia|]. exists a. unfold vec_get. rewrite Ea. split; [reflexivity|].
    now apply sorted_rank with y. }
  destruct (G 0 ltac:(lia)) as (q0 & E0 & R0). destruct (G (zlen x / 4) ltac:(lia)) as (q1 & E1 & R1).
  destruct (G (zlen x / 2) ltac:(lia)) as (q2 & E2 & R2). destruct (G (to_u64 (3 * zlen x) / 4) ltac:(lia)) as (q3 & E3 & R3).
  destruct (G (zlen x - 1) ltac:(lia)) as (q4 & E4 & R4).
  exists y, q0, q1, q2, q3, q4. unfold front, back. rewrite Ly. repeat (split; [assumption|]). split; [|split; assumption].
  assert (M : forall r s a b, rank k x r a -> rank k x s b -> r <= s -> at_most k a b) by (intros; eapply rank_mono; eauto).
  unfold quartile_values. rewrite A4 in R3, A3. split; [now apply rank_least|]. split; [exact R1|]. split; [exact R2|]. split; [exact R3|].
  split; [now apply rank_greatest|]. split; [|split; [|split]]; (eapply M; [eassumption|eassumption|lia]).
Qed.

Lemma quartile_columns : forall k x q0 q1 q2 q3 q4, Forall (in_column k) x -> all_numbers k x -> quartile_values k x q0 q1 q2 q3 q4 ->
  in_column k q0 /\ in_column k q1 /\ in_column k q2 /\ in_column k q3 /\ in_column k q4 /\ at_most k q0 q4.
Proof.
  intros k x q0 q1 q2 q3 q4 F N (L & R1 & R2 & R3 & G & _). rewrite Forall_forall in F.
  repeat split; try apply F; try apply L; try apply R1; try apply R2; try apply R3; try apply G.
Qed.

(** With quartiles: five values of the column, in order, the first the minimum, the last
    the maximum, and the others the values of rank n/4, n/2 and 3n/4.  The JSON object and
    the two forms of text show these values and their differences. *)
Theorem C71_quartiles : forall srt k x, sorts srt -> Forall (in_column k) x -> all_numbers k x -> x <> [] -> zlen x < 2 ^ 62 ->
  exists q0 q1 q2 q3 q4, quartile_values k x q0 q1 q2 q3 q4
    /\ get_summary_object srt k x true
       = Ret [(chars "q0", json_of k q0); (chars "q1", json_of k q1); (chars "q2", json_of k q2);
              (chars "q3", json_of k q3); (chars "q4", json_of k q4); (chars "range", json_of_difference k (difference k q4 q0))]
    /\ forall fmt txt count label, (forall a, shown_as fmt k a (txt a)) -> decimal (zlen x) count ->
       get_summary_string fmt srt k label x true true
         = Ret (text_line [label; chars "range="; txt (difference k q4 q0); chars ", "; txt q0;
                           chars " + "; txt (difference k q1 q0); chars " + "; txt (difference k q2 q1);
                           chars " + "; txt (difference k q3 q2); chars " + "; txt (difference k q4 q3);
                           chars " = "; txt q4])
       /\ get_summary_string fmt srt k label x false true
         = Ret (text_line [label; count] ++ text_line [chars "range"; [9]; txt (difference k q4 q0)]
                ++ text_line [chars "q0"; [9]; txt q0] ++ text_line [chars "q1"; [9]; txt q1] ++ text_line [chars "q2"; [9]; txt q2]
                ++ text_line [chars "q3"; [9]; txt q3] ++ text_line [chars "q4"; [9]; txt q4]).
Proof.
  intros srt k x Hs Fc N Ne L. destruct (sorted_values srt k x Hs N Ne L) as (y & q0 & q1 & q2 & q3 & q4 & E & E0 & E4 & E1 & E2 & E3 & Q & _).
  exists q0, q1, q2, q3, q4. split; [exact Q|].
  destruct (quartile_columns k x q0 q1 q2 q3 q4 Fc N Q) as (C0 & C1 & C2 & C3 & C4 & L04).
  assert (D40 : col_sub k q4 q0 = difference k q4 q0) by now apply col_sub_difference.
  destruct Q as (_ & _ & _ & _ & _ & L01 & L12 & L23 & L34).
  assert (D10 : col_sub k q1 q0 = difference k q1 q0) by now apply col_sub_difference.
  assert (D21 : col_sub k q2 q1 = difference k q2 q1) by now apply col_sub_difference.
  assert (D32 : col_sub k q3 q2 = difference k q3 q2) by now apply col_sub_difference.
  assert (D43 : col_sub k q4 q3 = difference k q4 q3) by now apply col_sub_difference.
  destruct x as [|a t]; [congruence|]. split.
  - cbn [get_summary_object]. rewrite E. cbn [bind]. rewrite E0. cbn [bind]. rewrite E4. cbn [bind]. rewrite E1. cbn [bind].
    rewrite E2. cbn [bind]. rewrite E3. cbn [bind]. rewrite D40, !col_value_json, col_range_json. reflexivity.
  - intros fmt txt count label T Hc.
    assert (Ec : put_uint (zlen (a :: t)) = count).
    { eapply decimal_unique; [|exact Hc]. apply TextFacts.put_uint_spec. apply zlen_nonneg'. }
    assert (Et : forall b, col_text fmt k b = txt b) by (intros b; symmetry; apply shown_as_text, T).
    split; cbn [get_summary_string]; rewrite E; cbn [bind]; rewrite E0; cbn [bind]; rewrite E4; cbn [bind]; rewrite E1; cbn [bind];
      rewrite E2; cbn [bind]; rewrite E3; cbn [bind]; rewrite ?D40, ?D10, ?D21, ?D32, ?D43, !Et, ?Ec; reflexivity.
Qed.

(** Without quartiles: the minimum, the maximum and their difference. *)
Theorem C71_range : forall srt k x, Forall (in_column k) x -> all_numbers k x -> x <> [] ->
  exists mn mx, least k x mn /\ greatest k x mx
    /\ get_summary_object srt k x false
       = Ret [(chars "max", json_of k mx); (chars "min", json_of k mn); (chars "range", json_of_difference k (difference k mx mn))]
    /\ forall fmt txt count label, (forall a, shown_as fmt k a (txt a)) -> decimal (zlen x) count ->
       get_summary_string fmt srt k label x true false
         = Ret (text_line [label; chars "range="; txt (difference k mx mn); chars ", min="; txt mn; chars ", max="; txt mx])
       /\ get_summary_string fmt srt k label x false false
         = Ret (text_line [label; count] ++ text_line [chars "range"; [9]; txt (difference k mx mn)]
                ++ text_line [chars "min"; [9]; txt mn] ++ text_line [chars "max"; [9]; txt mx]).
Proof.
  intros srt k [|a t] Fc N Ne; [congruence|]. pose proof (all_numbers_numb k _ N) as F.
  pose proof (min_element_spec k t a F) as Mn. pose proof (max_element_spec k t a F) as Mx.
  exists (min_element k a t), (max_element k a t). split; [exact Mn|]. split; [exact Mx|].
  assert (D : col_sub k (max_element k a t) (min_element k a t) = difference k (max_element k a t) (min_element k a t)).
  { rewrite Forall_forall in Fc. apply col_sub_difference; [apply Fc, Mx|apply Fc, Mn|]. apply Mn, Mx. }
  split.
  - cbn [get_summary_object]. rewrite D, !col_value_json, col_range_json. reflexivity.
  - intros fmt txt count label T Hc.
    assert (Ec : put_uint (zlen (a :: t)) = count).
    { eapply decimal_unique; [|exact Hc]. apply TextFacts.put_uint_spec. apply zlen_nonneg'. }
    assert (Et : forall b, col_text fmt k b = txt b) by (intros b; symmetry; apply shown_as_text, T).
    split; cbn [get_summary_string]; rewrite ?D, !Et, ?Ec; reflexivity.
Qed.

(** An empty column: everything is 0, and the compact text is empty. *)
Theorem C71_empty : forall srt k quartiles,
  get_summary_object srt k [] quartiles = Ret [(chars "max", v_int 0); (chars "min", v_int 0); (chars "size", v_int 0)]
  /\ forall fmt label, get_summary_string fmt srt k label [] true quartiles = Ret []
     /\ get_summary_string fmt srt k label [] false quartiles
        = Ret (text_line [label; chars "0"] ++ text_line [chars "size"; [9]; chars "0"]
               ++ text_line [chars "min"; [9]; chars "0"] ++ text_line [chars "max"; [9]; chars "0"]).
Proof. intros srt k quartiles. repeat split. Qed.

(** The order of the records does not matter.  For the integer columns the summaries are
    identical; for doubles, the values are equal, where 0 and -0 count as equal. *)
Theorem C71_order_integers : forall srt srt' k x x' quartiles, k <> col_double -> Forall (in_column k) x ->
  zlen x < 2 ^ 62 -> Permutation x x' ->
  get_summary_object srt k x quartiles = get_summary_object srt' k x' quartiles
  /\ forall fmt label compact, get_summary_string fmt srt k label x compact quartiles = get_summary_string fmt srt' k label x' compact quartiles.
Proof.
  intros srt srt' k x x' quartiles K Fc L P.
  assert (Fc' : Forall (in_column k) x') by (eapply Permutation_Forall; eauto).
  assert (N : all_numbers k x) by now destruct k. assert (N' : all_numbers k x') by now destruct k.
  assert (F : Forall (numb k) x) by now apply all_numbers_numb. assert (F' : Forall (numb k) x') by now apply all_numbers_numb.
  assert (Key : forall a b, col_key k a = col_key k b -> a = b) by (intros a b; destruct k; [congruence| | |]; auto).
  assert (Lx : zlen x = zlen x') by (unfold zlen; f_equal; now apply Permutation_length).
  destruct x as [|a t].
  { apply Permutation_nil in P. subst x'. split; reflexivity. }
  destruct x' as [|a' t']; [apply Permutation_sym, Permutation_nil in P; discriminate|].
  destruct quartiles.
  - assert (Es : col_sort srt k (a :: t) = col_sort srt' k (a' :: t')).
    { assert (Sq : sort_keys (a :: t) = sort_keys (a' :: t')).
      { assert (X : forall y, zlen (sort_keys y) = zlen y) by (intros y; unfold zlen; f_equal; apply Permutation_length, TileFacts.sort_keys_perm).
        apply znth_ext; [now rewrite !X|].
        intros r _. destruct (znth (sort_keys (a :: t)) r) as [u|] eqn:U.
        - pose proof (znth_Some_range _ _ _ U) as R. rewrite X, Lx, <- X in R. destruct (znth_in_range _ _ R) as (w & W). rewrite W. f_equal.
          apply Key. apply (rank_unique k (a :: t) r); [exact F| |].
          + apply sorted_rank with (sort_keys (a :: t)); auto; [apply Permutation_sym, TileFacts.sort_keys_perm|].
            destruct k; [congruence| | |]; apply sort_keys_le.
          + apply rank_perm with (a' :: t'); [now apply Permutation_sym|].
            apply sorted_rank with (sort_keys (a' :: t')); auto; [apply Permutation_sym, TileFacts.sort_keys_perm|].
            destruct k; [congruence| | |]; apply sort_keys_le.
        - apply znth_None_range in U. rewrite X, Lx, <- X in U. symmetry. now apply znth_None_range. }
      destruct k; [congruence| | |]; cbn [col_sort]; now rewrite Sq. }
    split; [|intros fmt label compact]; cbn [get_summary_object get_summary_string]; now rewrite Es, Lx.
  - assert (Em : min_element k a t = min_element k a' t').
    { destruct (min_element_spec k t a F) as (I1 & L1), (min_element_spec k t' a' F') as (I2 & L2).
      apply (Permutation_in _ P) in I1 as J1. apply (Permutation_in _ (Permutation_sym P)) in I2 as J2.
      pose proof (L1 _ J2) as A. pose proof (L2 _ J1) as B. rewrite Forall_forall in F. apply Key.
      apply at_most_key in A; auto. apply at_most_key in B; auto. lia. }
    assert (Ex : max_element k a t = max_element k a' t').
    { destruct (max_element_spec k t a F) as (I1 & L1), (max_element_spec k t' a' F') as (I2 & L2).
      apply (Permutation_in _ P) in I1 as J1. apply (Permutation_in _ (Permutation_sym P)) in I2 as J2.
      pose proof (L1 _ J2) as A. pose proof (L2 _ J1) as B. rewrite Forall_forall in F. apply Key.
      apply at_most_key in A; auto. apply at_most_key in B; auto. lia. }
    split; [|intros fmt label compact]; cbn [get_summary_object get_summary_string]; now rewrite Em, Ex, ?Lx.
Qed.

Theorem C71_order_doubles : forall srt srt' (x x' : list Z) quartiles, sorts srt -> sorts srt' -> Forall d_ok x -> all_numbers col_double x -> x <> [] ->
  zlen x < 2 ^ 62 -> Permutation x x' ->
  exists o o', get_summary_object srt col_double x quartiles = Ret o /\ get_summary_object srt' col_double x' quartiles = Ret o'
    /\ map fst o = map fst o'
    /\ forall key a, key <> chars "range" -> In (key, v_double a) o ->
       exists a', In (key, v_double a') o' /\ d_eqb a a' = true.
Proof.
  intros srt srt' x x' quartiles Hs Hs' Fc N Ne L P. pose proof (all_numbers_numb _ _ N) as F.
  assert (N' : all_numbers col_double x') by (cbn in *; eapply Permutation_Forall; eauto). pose proof (all_numbers_numb _ _ N') as F'.
  assert (Lx : zlen x = zlen x') by (unfold zlen; f_equal; now apply Permutation_length).
  assert (L' : zlen x' < 2 ^ 62) by (rewrite <- Lx; exact L).
  assert (Ne' : x' <> []) by (intros ->; apply Permutation_sym, Permutation_nil in P; congruence).
  assert (Eq : forall a b, In a x -> In b x' -> col_key col_double a = col_key col_double b -> d_eqb a b = true).
  { intros a b Ia Ib K. apply d_eqb_key; auto.
    - rewrite Forall_forall in F. now apply F.
    - rewrite Forall_forall in F'. now apply F'. }
  assert (Rq : forall r a b, rank col_double x r a -> rank col_double x' r b -> d_eqb a b = true).
  { intros r a b Ra Rb. apply Eq; [apply Ra|apply Rb|]. apply (rank_unique col_double x r); auto.
    eapply rank_perm; [apply Permutation_sym; exact P|exact Rb]. }
  destruct quartiles.
  - destruct (sorted_values srt col_double x Hs N Ne L) as (y & q0 & q1 & q2 & q3 & q4 & E & E0 & E4 & E1 & E2 & E3 & Q & R0 & R4).
    destruct (sorted_values srt' col_double x' Hs' N' Ne' L') as (y' & p0 & p1 & p2 & p3 & p4 & D & D0 & D4 & D1 & D2 & D3 & Q' & R0' & R4').
    destruct Q as (_ & R1 & R2 & R3 & _), Q' as (_ & R1' & R2' & R3' & _). rewrite <- Lx in *.
    destruct x as [|a t]; [congruence|]. destruct x' as [|a' t']; [congruence|].
    eexists. eexists. split; [cbn [get_summary_object]; rewrite E; cbn [bind]; rewrite E0; cbn [bind]; rewrite E4; cbn [bind]; rewrite E1; cbn [bind];
      rewrite E2; cbn [bind]; rewrite E3; cbn [bind]; reflexivity|].
    split; [cbn [get_summary_object]; rewrite <- Lx, D; cbn [bind]; rewrite D0; cbn [bind]; rewrite D4; cbn [bind]; rewrite D1; cbn [bind];
      rewrite D2; cbn [bind]; rewrite D3; cbn [bind]; reflexivity|].
    split; [reflexivity|]. intros key b Nk I. cbn [col_value col_range] in *.
    destruct I as [H|[H|[H|[H|[H|[H|[]]]]]]]; injection H as <- <-; try (exfalso; apply Nk; reflexivity).
    + exists p0. split; [now left|]. now apply (Rq 0).
    + exists p1. split; [right; now left|]. eapply Rq; eassumption.
    + exists p2. split; [do 2 right; now left|]. eapply Rq; eassumption.
    + exists p3. split; [do 3 right; now left|]. eapply Rq; eassumption.
    + exists p4. split; [do 4 right; now left|]. eapply Rq; eassumption.
  - destruct x as [|a t]; [congruence|]. destruct x' as [|a' t']; [congruence|].
    eexists. eexists. split; [reflexivity|]. split; [reflexivity|]. split; [reflexivity|].
    intros key b Nk I. cbn [col_value col_range] in *.
    destruct I as [H|[H|[H|[]]]]; injection H as <- <-; try (exfalso; apply Nk; reflexivity).
    + exists (max_element col_double a' t'). split; [now left|].
      destruct (max_element_spec col_double t a F) as (I1 & L1), (max_element_spec col_double t' a' F') as (I2 & L2).
      apply Eq; auto. apply (Permutation_in _ P) in I1 as J1. apply (Permutation_in _ (Permutation_sym P)) in I2 as J2.
      pose proof (L1 _ J2) as A. pose proof (L2 _ J1) as B. rewrite Forall_forall in F. apply at_most_key in A; auto. apply at_most_key in B; auto. lia.
    + exists (min_element col_double a' t'). split; [right; now left|].
      destruct (min_element_spec col_double t a F) as (I1 & L1), (min_element_spec col_double t' a' F') as (I2 & L2).
      apply Eq; auto. apply (Permutation_in _ P) in I1 as J1. apply (Permutation_in _ (Permutation_sym P)) in I2 as J2.
      pose proof (L1 _ J2) as A. pose proof (L2 _ J1) as B. rewrite Forall_forall in F. apply at_most_key in A; auto. apply at_most_key in B; auto. lia.
Qed.

(** Findings: what a NaN does.  With quartiles, a NaN beside two different numbers is
    undefined behaviour. *)
Theorem C71_nan_quartiles : forall srt x n a b, In n x -> d_is_nan n = true -> In a x -> In b x -> d_ltb a b = true ->
  get_summary_object srt col_double x true = UB ub_sort
  /\ forall fmt label compact, get_summary_string fmt srt col_double label x compact true = UB ub_sort.
Proof.
  intros srt x n a b In_ Nn Ia Ib L.
  assert (E : col_sort srt col_double x = UB ub_sort).
  { cbn [col_sort]. assert (E1 : existsb d_is_nan x = true) by (apply existsb_exists; now exists n).
    assert (E2 : existsb (fun a => existsb (d_ltb a) x) x = true).
    { apply existsb_exists. exists a. split; [exact Ia|]. apply existsb_exists. now exists b. }
    now rewrite E1, E2. }
  destruct x as [|c t]; [destruct In_|]. split; [|intros fmt label compact]; cbn [get_summary_object get_summary_string]; now rewrite E.
Qed.

(** Without quartiles, a NaN in the first record hides all the others; a NaN elsewhere is
    ignored. *)
Theorem C71_nan_first : forall srt n t, d_is_nan n = true ->
  get_summary_object srt col_double (n :: t) false
  = Ret [(chars "max", v_double n); (chars "min", v_double n); (chars "range", v_double (d_sub n n))].
Proof.
  intros srt n t H. cbn [get_summary_object]. rewrite min_element_first_nan, max_element_first_nan by exact H. reflexivity.
Qed.

Theorem C71_nan_later : forall srt a t, d_is_nan a = false ->
  get_summary_object srt col_double (a :: t) false
  = get_summary_object srt col_double (a :: filter (fun b => negb (d_is_nan b)) t) false.
Proof.
  intros srt a t H. cbn [get_summary_object]. now rewrite min_element_nan, max_element_nan by exact H.
Qed.

(** The hypotheses are met: a sorting function, and columns of each kind. *)
Fixpoint insert_double (a : double) (l : list double) : list double :=
  match l with
  | [] => [a]
  | b :: t => if d_ltb b a then b :: insert_double a t else a :: l
  end.
Definition insertion_sort : sorter := fold_right insert_double [].

Lemma insert_double_perm : forall a l, Permutation (a :: l) (insert_double a l).
Proof.
  intros a. induction l as [|b l IH]; [apply Permutation_refl|]. cbn [insert_double]. destruct (d_ltb b a); [|apply Permutation_refl].
  eapply perm_trans; [apply perm_swap|]. now constructor.
Qed.

Lemma insertion_sort_perm : forall l, Permutation l (insertion_sort l).
Proof.
  induction l as [|a l IH]; [constructor|]. unfold insertion_sort. cbn [fold_right].
  eapply perm_trans; [|apply insert_double_perm]. now constructor.
Qed.

Lemma insertion_sort_sorts : sorts insertion_sort.
Proof.
  intros x H. split; [apply insertion_sort_perm|].
  destruct (existsb d_is_nan x) eqn:En.
  - (* no two values differ *)
    assert (A : forall a b, In a x -> In b x -> d_ltb a b = false).
    { intros a b Ia Ib. destruct (d_ltb a b) eqn:E; [|reflexivity]. exfalso. apply H. split; [|now exists a, b].
      apply existsb_exists in En as (n & I & Nn). apply Exists_exists. now exists n. }
    assert (B : forall a b, In a (insertion_sort x) -> In b (insertion_sort x) -> d_ltb b a = false).
    { intros a b Ia Ib. apply A; (eapply Permutation_in; [apply Permutation_sym, insertion_sort_perm|assumption]). }
    clear - B. induction (insertion_sort x) as [|a l IH]; constructor.
    + apply IH. intros; apply B; now right.
    + apply Forall_forall. intros b Ib. apply B; [now left|now right].
  - assert (F : Forall (fun a => d_is_nan a = false) x).
    { apply Forall_forall. intros a Ia. destruct (d_is_nan a) eqn:E; [|reflexivity].
      assert (existsb d_is_nan x = true) by (apply existsb_exists; now exists a). congruence. }
    clear H En. induction F as [|a x Na F IH]; [constructor|]. unfold insertion_sort. cbn [fold_right]. fold (insertion_sort x).
    assert (Fs : Forall (fun a => d_is_nan a = false) (insertion_sort x)) by (eapply Permutation_Forall; [apply insertion_sort_perm|exact F]).
    revert IH Fs. generalize (insertion_sort x) as l. clear x F. induction l as [|b l IHl]; intros S Fs; cbn [insert_double]; [repeat constructor|].
    inversion S as [|? ? S' Fb]; inversion Fs as [|? ? Nb Fs']; subst. destruct (d_ltb b a) eqn:E.
    + constructor; [now apply IHl|]. apply Forall_forall. intros c Ic.
      apply (Permutation_in _ (Permutation_sym (insert_double_perm a l))) in Ic. destruct Ic as [<-|Ic].
      * apply d_ltb_key in E; auto. apply not_true_is_false. intros X. apply d_ltb_key in X; auto. lia.
      * rewrite Forall_forall in Fb. now apply Fb.
    + constructor; [exact S|]. constructor; [exact E|]. apply Forall_forall. intros c Ic. rewrite Forall_forall in Fb, Fs'.
      specialize (Fb c Ic). specialize (Fs' c Ic). apply not_true_is_false. intros X. apply d_ltb_key in X; auto.
      assert (~ d_key b < d_key a) by (intros Y; apply d_ltb_key in Y; auto; congruence).
      assert (~ d_key c < d_key b) by (intros Y; apply d_ltb_key in Y; auto; congruence). lia.
Qed.

Example C71_example : exists q0 q1 q2 q3 q4, quartile_values col_u16 [5; 3; 9; 3; 7] q0 q1 q2 q3 q4
  /\ (q0, q1, q2, q3, q4) = (3, 3, 5, 7, 9).
Proof.
  exists 3, 3, 5, 7, 9. split; [|reflexivity]. unfold quartile_values, least, greatest, rank, zlen. cbn.
  repeat split; try lia; try (intros b H; cbn in H; lia); auto 10.
Qed.

Example C71_example_json : get_summary_object insertion_sort col_u16 [5; 3; 9; 3; 7] true
  = Ret [(chars "q0", v_u16 3); (chars "q1", v_u16 3); (chars "q2", v_u16 5); (chars "q3", v_u16 7); (chars "q4", v_u16 9);
         (chars "range", v_int 6)].
Proof. reflexivity. Qed.

Example C71_example_double : Forall d_ok [d_one; d_zero; d_nzero] /\ all_numbers col_double [d_one; d_zero; d_nzero]
  /\ get_summary_object insertion_sort col_double [d_one; d_zero; d_nzero] false
     = Ret [(chars "max", v_double d_one); (chars "min", v_double d_zero); (chars "range", v_double d_one)].
Proof.
  split; [repeat constructor; discriminate|]. split; [repeat constructor|]. vm_compute. reflexivity.
Qed.

(** The sign of a zero does depend on the order of the records. *)
Example C71_zero_sign :
  get_summary_object insertion_sort col_double [d_zero; d_nzero] false <> get_summary_object insertion_sort col_double [d_nzero; d_zero] false.
Proof. vm_compute. discriminate. Qed.

Print Assumptions C71_quartiles.
Print Assumptions C71_range.
Print Assumptions C71_empty.
Print Assumptions C71_order_integers.
Print Assumptions C71_order_doubles.
Print Assumptions C71_nan_quartiles.
Print Assumptions C71_nan_first.
Print Assumptions C71_nan_later.
