(** C72: the JSON output of spoc_info can be read back, except for the summaries. *)
From Coq Require Import String ZArith List Bool Lia.
From Verif.Model Require Import Base Double Arith Header PointRecord Point Voxel File Compression IO AppUtils AppConvert TileApp SrsApp Json InfoApp.
From Verif.Spec Require Import Format Files Streams Text Reports.
From Verif.Proofs Require Import BaseFacts HeaderCutFacts FileFacts FileMoreFacts TextFacts MapFacts CountFacts SummaryFacts JsonFacts.
From Verif.Props Require Import InfoProps.
Import ListNotations.
Open Scope Z_scope.
Open Scope outcome_scope.

(** ** Values *)

Lemma data_unique : forall fmt v t t', data fmt v t -> data fmt v t' -> t = t'.
Proof.
  intros fmt v. induction v as [v L|a IH|o IH] using value_induct; intros t t' D D'.
  - destruct v; cbn in L; try tauto; inversion D; inversion D'; subst; try congruence; f_equal; eapply int_text_unique; eassumption.
  - inversion D as [| | | | | | | | | | |? l F|]; inversion D' as [| | | | | | | | | | |? l' F'|]; subst. f_equal. clear D D'.
    revert l l' F F'. induction IH as [|v a Hv Ha IHa]; intros l l' F F'; inversion F; inversion F'; subst; [reflexivity|]. f_equal; auto.
  - inversion D as [| | | | | | | | | | | |? l F]; inversion D' as [| | | | | | | | | | | |? l' F']; subst. f_equal. clear D D'.
    revert l l' F F'. induction IH as [|v a Hv Ha IHa]; intros l l' F F'; inversion F as [|? (k1, t1) ? ? (K1 & D1)]; inversion F' as [|? (k2, t2) ? ? (K2 & D2)]; subst; [reflexivity|].
    cbn [fst snd] in *. f_equal; [|auto]. f_equal; [congruence|eauto].
Qed.

(** The compact and the indented printout of a value differ only in white space. *)
Theorem C72_white_space : forall fmt v indents,
  filter (fun c => negb (is_white c)) (print fmt v) = filter (fun c => negb (is_white c)) (pretty_print fmt v indents).
Proof. exact ink_same. Qed.

(** Both can be read back, and yield the data of the value: numbers, strings, lists and
    dictionaries, unless there is a quote in a string or a value of an unknown type. *)
Theorem C72_readable : forall fmt v indents, shows_words fmt -> no_quotes v -> well_typed v -> ~ has_unknown v ->
  exists t, data fmt v t /\ (forall t', data fmt v t' -> t' = t)
    /\ read_text (print fmt v) = Some t /\ read_text (pretty_print fmt v indents) = Some t.
Proof.
  intros fmt v i Sw Q T U. assert (G : good v) by (split; [exact Q|now split]).
  destruct (read_text_written fmt v _ Sw G (print_written fmt v)) as (t & D & R).
  destruct (read_text_written fmt v _ Sw G (pretty_print_written fmt v i)) as (t' & D' & R').
  exists t. split; [exact D|]. split; [intros u Du; eapply data_unique; eassumption|]. split; [exact R|].
  now rewrite (data_unique fmt v t t' D D').
Qed.

(** With a value of an unknown type anywhere, neither can be read back. *)
Theorem C72_unreadable : forall fmt v indents, shows_words fmt -> no_quotes v -> well_typed v -> has_unknown v ->
  read_text (print fmt v) = None /\ read_text (pretty_print fmt v indents) = None.
Proof.
  intros fmt v i Sw Q T U. split; eapply read_text_unknown; try eassumption; try (now split); [apply print_written|apply pretty_print_written].
Qed.

(** ** The report *)

Lemma process_json : forall prt args f j, ia_json args = true -> info_object prt args f = Ret j ->
  emits (process prt args f) (if ia_compact args then print (p_os prt) (v_object j) else pretty_print (p_os prt) (v_object j) 0) tt.
Proof. intros prt args f j J E. unfold process. rewrite J. eapply emits_lift; [exact E|]. apply emits_put. Qed.

Lemma object_written : forall prt args j, written (p_os prt) (v_object j) (if ia_compact args then print (p_os prt) (v_object j) else pretty_print (p_os prt) (v_object j) 0).
Proof. intros prt args j. destruct (ia_compact args); [apply print_written|apply pretty_print_written]. Qed.

Lemma good_Forall : forall o, (forall m, In m o -> quote_free (fst m) /\ good (snd m)) -> good (v_object o).
Proof.
  induction o as [|m o IH]; intros H; [repeat split; auto|]. destruct (H m (or_introl eq_refl)) as (Qk & Q & T & U).
  destruct IH as (Q' & T' & U'); [intros n Hn; apply H; now right|]. unfold good. cbn [no_quotes well_typed has_unknown fold_right].
  cbn [no_quotes well_typed has_unknown] in Q', T', U'. tauto.
Qed.

Lemma map_set_In : forall {V} k (v : V) m e, In e (map_set k v m) -> e = (k, v) \/ In e m.
Proof.
  intros V k v m e. induction m as [|(j, w) m IH]; cbn [map_set In]; [intuition|].
  destruct (str_ltb k j) eqn:A; [cbn [In]; intuition|]. destruct (str_ltb j k) eqn:B; cbn [In]; [intuition|].
  rewrite (str_ltb_total _ _ A B) in *. intuition.
Qed.

Lemma as_object_eq : forall {V} (f : V -> value) m, in_order m -> as_object f m = map (fun e => (fst e, f (snd e))) m.
Proof.
  intros V f m S. apply map_ext_order.
  - unfold as_object. assert (G : forall l a, in_order a -> in_order (fold_left (fun c i => map_set (fst i) (f (snd i)) c) l a)).
    { induction l as [|e l IH]; intros a A; [exact A|]. cbn [fold_left]. apply IH. now apply map_set_order. }
    apply G. constructor.
  - unfold in_order in *. rewrite map_map. cbn [fst]. exact S.
  - assert (Si : in_order (map (fun e => (fst e, f (snd e))) m)) by (unfold in_order in *; rewrite map_map; cbn [fst]; exact S).
    assert (G : forall l a x, in_order a -> (forall e, In e l -> ~ In (fst e) (map fst a)) -> NoDup (map fst l) ->
      forall v, map_get x (fold_left (fun c i => map_set (fst i) (f (snd i)) c) l a) = Some v <-> map_get x a = Some v \/ In (x, v) (map (fun e => (fst e, f (snd e))) l)).
    { induction l as [|e l IH]; intros a x A D N v; cbn [fold_left map In]; [tauto|].
      inversion N as [|? ? Ne N']; subst. rewrite IH; [| |  |exact N'].
      - rewrite map_get_set by exact A. destruct (list_eq_dec Z.eq_dec x (fst e)) as [->|X].
        + split.
          * intros [H|H]; [right; left; congruence|now right; right].
          * intros [H|[H|H]]; [exfalso; apply (D e (or_introl eq_refl)); apply map_get_In in H; [apply (in_map fst) in H; exact H|exact A]| |now right].
            left. now injection H as ->.
        + split.
          * intros [H|H]; [now left|now right; right].
          * intros [H|[H|H]]; [now left| |now right]. exfalso. injection H as H _. congruence.
      - now apply map_set_order.
      - intros e' I K. apply map_set_keys in K as [K|K]; [|now apply (D e' (or_intror I))]. apply Ne. rewrite <- K. now apply in_map. }
    assert (N : NoDup (map fst m)).
    { clear - S. unfold in_order in S. induction S as [|k l S IH F]; [constructor|]. constructor; [|exact IH]. intros I. rewrite Forall_forall in F. specialize (F k I). now apply before_irrefl in F. }
    intros x. specialize (G m [] x (Sorted.SSorted_nil _) (fun e _ H => H) N).
    destruct (map_get x (as_object f m)) as [v|] eqn:E1; destruct (map_get x (map (fun e => (fst e, f (snd e))) m)) as [w|] eqn:E2; auto.
    + apply G in E1 as [E1|E1]; [discriminate|]. apply map_get_In in E1; [congruence|exact Si].
    + apply G in E1 as [E1|E1]; [discriminate|]. apply map_get_In in E1; [congruence|exact Si].
    + apply map_get_In in E2; [|exact Si]. assert (X : map_get x (as_object f m) = Some w) by (apply G; now right). congruence.
Qed.

Lemma data_object : forall fmt o l, Forall2 (fun m n => fst m = fst n /\ data fmt (snd m) (snd n)) o l -> data fmt (v_object o) (t_dict l).
Proof. intros. now constructor. Qed.

(** The value has the data [t], and can be read back. *)
Definition has_data (fmt : number_format) (v : value) (t : tree) : Prop := good v /\ data fmt v t.

Lemma has_data_object : forall fmt o l, Forall2 (fun m n => fst m = fst n /\ quote_free (fst m) /\ has_data fmt (snd m) (snd n)) o l -> has_data fmt (v_object o) (t_dict l).
Proof.
  intros fmt o l F. split.
  - apply good_Forall. induction F as [|m n o l (_ & Q & G & _) F IH]; intros e []; subst; auto.
  - constructor. induction F as [|m n o l (E & _ & _ & D) F IH]; constructor; auto.
Qed.

Lemma Forall2_map_same : forall {A B C} (R : B -> C -> Prop) (f : A -> B) (g : A -> C) l, (forall a, In a l -> R (f a) (g a)) -> Forall2 R (map f l) (map g l).
Proof. intros A B C R f g l H. induction l as [|a l IH]; cbn [map]; constructor; [apply H; now left|]. apply IH. intros b I. apply H. now right. Qed.

Lemma u8_data : forall fmt n t, int_text n t -> has_data fmt (v_u8 n) (t_word t).
Proof. intros. split; [repeat split; auto|now constructor]. Qed.
Lemma u64_data : forall fmt n, 0 <= n -> has_data fmt (v_u64 n) (t_word (put_uint n)).
Proof. intros. split; [repeat split; auto|constructor; now apply put_uint_text]. Qed.
Lemma double_data : forall fmt d, has_data fmt (v_double d) (t_word (show_double fmt d)).
Proof. intros. split; [repeat split; auto|constructor]. Qed.
Lemma string_data : forall fmt s, quote_free s -> has_data fmt (v_string s) (t_text s).
Proof. intros. split; [repeat split; auto|constructor]. Qed.

Ltac quotes := unfold quote_free; cbn; intuition discriminate.
Ltac rows := repeat apply Forall2_cons; try apply Forall2_nil; (split; [reflexivity|split; [quotes|cbn [fst snd]]]).

Lemma header_data : forall fmt f h, good_file f -> get_header f = Ret h -> quote_free (f_wkt f) ->
  exists t, header_tree f t /\ has_data fmt (v_object (header_object h)) t.
Proof.
  intros fmt f h G H Q. destruct (get_header_any f G) as (h' & H' & Gh & W & _ & T & C). rewrite H in H'. injection H' as <-.
  pose proof (gh_major h Gh) as Ma. pose proof (gh_minor h Gh) as Mi.
  eexists. split; [exists (put_uint (zlen (f_prs f))); split; [apply put_uint_spec; unfold zlen; lia|reflexivity]|].
  unfold header_object. rewrite Ma, Mi, W, T, C.
  change (map_set (chars "compressed") (v_u8 (b2z (f_compressed f))) _) with
    [(chars "compressed", v_u8 (b2z (f_compressed f))); (chars "major_version", v_u8 0); (chars "minor_version", v_u8 1);
     (chars "total_points", v_u64 (zlen (f_prs f))); (chars "wkt", v_string (f_wkt f))].
  apply has_data_object. rows.
  - apply u8_data. destruct (f_compressed f); apply put_int_spec.
  - apply u8_data. apply (put_int_spec 0).
  - apply u8_data. apply (put_int_spec 1).
  - apply u64_data. unfold zlen. lia.
  - now apply string_data.
Qed.

Lemma occurrences_pos : forall v c, In v c <-> 0 < occurrences v c.
Proof. intros v c. unfold occurrences. rewrite (count_occ_In Z.eq_dec). lia. Qed.

Lemma label_exists : forall v, 0 <= v < 2 ^ 32 -> exists t, label_of v t.
Proof. intros v V. exists (class_label (to_i32 v)). now apply label_of_class. Qed.

Lemma label_quotes : forall v t, 0 <= v < 2 ^ 32 -> label_of v t -> quote_free t.
Proof.
  intros v t V (u & U & k & -> & _) I. apply in_app_iff in I as [I|I].
  - apply repeat_spec in I. discriminate.
  - apply int_text_word in U as (_ & F). rewrite Forall_forall in F. now specialize (F 39 I).
Qed.

Lemma class_data : forall fmt c, u32s c ->
  exists t, class_tree c t /\ has_data fmt (v_object (as_object v_u64 (get_class_count_map c))) t.
Proof.
  intros fmt c U. pose proof (C70_in_order c) as S. pose proof U as U'. unfold u32s in U'. rewrite Forall_forall in U'.
  exists (t_dict (map (fun e => (fst e, t_word (put_uint (snd e)))) (get_class_count_map c))). split.
  - eexists. split; [reflexivity|]. split; [unfold in_order in *; rewrite map_map; exact S|]. intros label u. rewrite in_map_iff. split.
    + intros ((k, n) & E & I). cbn [fst snd] in E. injection E as <- <-. destruct (C70_only c k n U I) as (v & Iv & L & ->).
      exists v, (put_uint (occurrences v c)). split; [exact Iv|]. split; [exact L|]. split; [|reflexivity]. apply put_uint_spec. apply occurrences_pos in Iv. lia.
    + intros (v & n & Iv & L & D & ->). pose proof (C70_counts c v label U (U' v Iv) L) as G. apply occurrences_pos in Iv.
      destruct (Z.eqb_spec (occurrences v c) 0); [lia|]. apply map_get_In in G; [|exact S]. exists (label, occurrences v c). split; [|exact G].
      cbn [fst snd]. do 2 f_equal. eapply decimal_unique; [|exact D]. apply put_uint_spec. lia.
  - rewrite as_object_eq by exact S. apply has_data_object. apply Forall2_map_same. intros (k, n) I. cbn [fst snd].
    destruct (C70_only c k n U I) as (v & Iv & L & ->). split; [reflexivity|]. split; [apply (label_quotes v); auto|]. apply u64_data. apply occurrences_pos in Iv. lia.
Qed.

Lemma metric_data : forall fmt p m, get_metric_values p = Ret m ->
  exists t, metric_tree fmt m t /\ has_data fmt (v_object (as_object v_double m)) t.
Proof.
  intros fmt p m H. eexists. split; [reflexivity|].
  assert (X : exists a b c, m = [(chars "extent_point_density", a); (chars "grid_point_density", b); (chars "voxel_point_density", c)]).
  { unfold get_metric_values in H. destruct (get_voxel_indexes_ext _ _ _) as [vs| | |]; try discriminate. cbn [bind] in H. injection H as <-. eexists _, _, _. reflexivity. }
  destruct X as (a & b & c & ->). change (as_object v_double _) with [(chars "extent_point_density", v_double a); (chars "grid_point_density", v_double b); (chars "voxel_point_density", v_double c)].
  cbn [map fst snd]. apply has_data_object. rows; apply double_data.
Qed.

Lemma empty_summary_data : forall fmt srt q, exists s, summary_object srt [] q = Ret s /\ has_data fmt (v_object s) no_records_tree.
Proof.
  intros fmt srt q. eexists. split; [reflexivity|].
  assert (D : has_data fmt (v_object [(chars "max", v_int 0); (chars "min", v_int 0); (chars "size", v_int 0)])
    (t_dict [(chars "max", t_word (chars "0")); (chars "min", t_word (chars "0")); (chars "size", t_word (chars "0"))])).
  { apply has_data_object. rows; (split; [repeat split; auto|constructor; apply (put_int_spec 0)]). }
  assert (N : has_data fmt (v_array []) (t_list [])) by (split; [repeat split; auto|repeat constructor]).
  apply has_data_object. rows; first [exact D|exact N].
Qed.

Lemma data_reads : forall prt args j t, shows_words (p_os prt) -> has_data (p_os prt) (v_object j) t ->
  read_text (if ia_compact args then print (p_os prt) (v_object j) else pretty_print (p_os prt) (v_object j) 0) = Some t.
Proof.
  intros prt args j t Sw (G & D). destruct (read_text_written _ _ _ Sw G (object_written prt args j)) as (t' & D' & ->).
  f_equal. eapply data_unique; eassumption.
Qed.

(** The report of a file: if the coordinate system has no quote in it, the metrics are
    defined and no summary of records is asked for, the text can be read back.  It has
    exactly the sections asked for, with the contents above. *)
Theorem C72_report : forall prt args f,
  ia_json args = true -> shows_words (p_os prt) -> good_file f ->
  (ia_header args = true -> quote_free (f_wkt f)) ->
  (ia_metrics args = true -> exists m, get_metric_values (f_prs f) = Ret m) ->
  (ia_summary args = true -> f_prs f = []) ->
  exists text tc th tm, appends (process prt args f) text
    /\ read_text text = Some (t_dict (section (ia_classes args) "classifications" tc ++ section (ia_header args) "header" th
                                      ++ section (ia_metrics args) "metrics" tm ++ section (ia_summary args) "summary" no_records_tree))
    /\ class_tree (get_c (f_prs f)) tc /\ (ia_header args = true -> header_tree f th)
    /\ (ia_metrics args = true -> exists m, get_metric_values (f_prs f) = Ret m /\ metric_tree (p_os prt) m tm).
Proof.
  intros prt args f J Sw G Q M S. set (fmt := p_os prt) in *.
  assert (U : u32s (get_c (f_prs f))).
  { unfold u32s, get_c. apply Forall_map. eapply Forall_impl; [|exact (gf_prs f G)]. intros p P. apply P. }
  destruct (class_data fmt _ U) as (tc & Tc & Dc). destruct (get_header_any f G) as (h & Eh & _).
  assert (Xh : exists th, ia_header args = true -> header_tree f th /\ has_data fmt (v_object (header_object h)) th).
  { destruct (ia_header args) eqn:E; [|now exists tc]. destruct (header_data fmt f h G Eh (Q eq_refl)) as (th & Th). now exists th. }
  assert (Xm : exists m tm, ia_metrics args = true -> get_metric_values (f_prs f) = Ret m /\ metric_tree fmt m tm /\ has_data fmt (v_object (as_object v_double m)) tm).
  { destruct (ia_metrics args) eqn:E; [|now exists [], tc]. destruct (M eq_refl) as (m & Em). destruct (metric_data fmt _ m Em) as (tm & Tm). now exists m, tm. }
  assert (Xs : exists s, ia_summary args = true -> summary_object (p_sort prt) (f_prs f) (ia_quartiles args) = Ret s /\ has_data fmt (v_object s) no_records_tree).
  { destruct (ia_summary args) eqn:E; [|now exists []]. rewrite (S eq_refl). destruct (empty_summary_data fmt (p_sort prt) (ia_quartiles args)) as (s & Es). now exists s. }
  destruct Xh as (th & Th). destruct Xm as (m & tm & Tm). destruct Xs as (s & Ts).
  set (j := section (ia_classes args) "classifications" (v_object (as_object v_u64 (get_class_count_map (get_c (f_prs f)))))
            ++ section (ia_header args) "header" (v_object (header_object h)) ++ section (ia_metrics args) "metrics" (v_object (as_object v_double m))
            ++ section (ia_summary args) "summary" (v_object s)).
  assert (E : info_object prt args f = Ret j).
  { unfold info_object, when, j. rewrite Eh. revert Tm Ts. generalize (summary_object (p_sort prt) (f_prs f) (ia_quartiles args)), (get_metric_values (f_prs f)). intros os om Tm Ts.
    destruct (ia_metrics args); [destruct (Tm eq_refl) as (-> & _)|]; (destruct (ia_summary args); [destruct (Ts eq_refl) as (-> & _)|]);
      destruct (ia_header args), (ia_classes args); reflexivity. }
  eexists _, tc, th, tm. split; [apply emits_appends, process_json; eassumption|]. split; [|split; [exact Tc|split]].
  - apply data_reads; [exact Sw|]. apply has_data_object. unfold j, section.
    repeat apply Forall2_app.
    + destruct (ia_classes args); rows. exact Dc.
    + destruct (ia_header args); rows. exact (proj2 (Th eq_refl)).
    + destruct (ia_metrics args); rows. exact (proj2 (proj2 (Tm eq_refl))).
    + destruct (ia_summary args); rows. exact (proj2 (Ts eq_refl)).
  - intros H. exact (proj1 (Th H)).
  - intros H. exists m. split; [exact (proj1 (Tm H))|exact (proj1 (proj2 (Tm H)))].
Qed.

(** *** Summaries *)

Lemma fine_Forall : forall o, (forall m, In m o -> quote_free (fst m) /\ fine (snd m)) -> fine (v_object o).
Proof.
  induction o as [|m o IH]; intros H; [now split|]. destruct (H m (or_introl eq_refl)) as (Qk & Q & T).
  destruct IH as (Q' & T'); [intros n Hn; apply H; now right|]. unfold fine. cbn [no_quotes well_typed fold_right]. cbn [no_quotes well_typed] in Q', T'. tauto.
Qed.
Lemma fine_list : forall a, (forall v, In v a -> fine v) -> fine (v_array a).
Proof.
  induction a as [|v a IH]; intros H; [now split|]. destruct (H v (or_introl eq_refl)) as (Q & T).
  destruct IH as (Q' & T'); [intros n Hn; apply H; now right|]. unfold fine. cbn [no_quotes well_typed fold_right]. cbn [no_quotes well_typed] in Q', T'. tauto.
Qed.
Lemma unknown_member : forall o m, In m o -> has_unknown (snd m) -> has_unknown (v_object o).
Proof. induction o as [|n o IH]; intros m I U; [destruct I|]; destruct I as [->|I]; cbn [has_unknown fold_right]; [now left|]. right. now apply (IH m). Qed.

Definition unsigned (k : column) (a : Z) : Prop := match k with col_u16 | col_u64 => 0 <= a | _ => True end.

Lemma col_value_fine : forall k a, unsigned k a -> fine (col_value k a).
Proof. intros [| | |] a A; split; cbn in *; auto. Qed.
Lemma col_range_fine : forall k a b, fine (col_range k (col_sub k a b)).
Proof. intros [| | |] a b; split; cbn; auto. unfold to_u64, two64. apply Z.mod_pos_bound. lia. Qed.

Lemma element_In : forall (f : Z -> Z -> bool) t a, In (fold_left (fun m b => if f m b then b else m) t a) (a :: t).
Proof.
  intros f. induction t as [|b t IH]; intros a; [now left|]. cbn [fold_left]. destruct (f a b).
  - right. apply IH.
  - destruct (IH a) as [E|I]; [now left|right; now right].
Qed.

Lemma fine_members : forall k o keys, Forall2 (fun key m => fst m = chars key /\ ((exists a, unsigned k a /\ snd m = col_value k a) \/ exists a b, snd m = col_range k (col_sub k a b))) keys o ->
  Forall (fun key => quote_free (chars key)) keys -> fine (v_object o) /\ (k = col_u32 -> o <> [] -> has_unknown (v_object o)).
Proof.
  intros k o keys F Q. split.
  - apply fine_Forall. induction F as [|key m keys o (E & V) F IH]; intros n []; [subst n|inversion Q; subst; auto]. inversion Q; subst. rewrite E. split; [assumption|].
    destruct V as [(a & A & ->)|(a & b & ->)]; [now apply col_value_fine|apply col_range_fine].
  - intros -> N. destruct F as [|key m keys o (E & V) F]; [congruence|]. apply (unknown_member _ m); [now left|]. destruct V as [(a & A & ->)|(a & b & ->)]; exact I.
Qed.

Ltac keys := repeat apply Forall_cons; try apply Forall_nil; quotes.

Lemma summary_fine : forall srt k x q o, Forall (in_column k) x -> get_summary_object srt k x q = Ret o ->
  fine (v_object o) /\ (k = col_u32 -> x <> [] -> has_unknown (v_object o)).
Proof.
  intros srt k x q o F H. rewrite Forall_forall in F. assert (U : forall a, In a x -> unsigned k a) by (intros a I; specialize (F a I); destruct k; cbn in *; auto; lia).
  unfold get_summary_object in H. destruct x as [|a t].
  { injection H as <-. split; [|congruence]. change (map_set _ _ _) with [(chars "max", v_int 0); (chars "min", v_int 0); (chars "size", v_int 0)].
    apply fine_Forall. intros m [<-|[<-|[<-|[]]]]; (split; [quotes|now split]). }
  destruct q.
  - destruct (col_sort srt k (a :: t)) as [y| | |] eqn:Ey; try discriminate. cbn [bind] in H.
    assert (Y : forall b, In b y -> unsigned k b).
    { intros b I. destruct k; cbn in *; auto; injection Ey as <-; apply (U b); apply (Permutation.Permutation_in b (TileFacts.sort_keys_perm (a :: t)) I). }
    unfold front, back in H.
    assert (V : forall n b, vec_get y n = Ret b -> unsigned k b).
    { intros n b E. apply Y. apply SubsampleFacts.vec_get_znth in E. destruct (znth_split _ _ _ E) as (l1 & l2 & -> & _). apply in_app_iff. right. now left. }
    destruct (vec_get y 0) as [q0| | |] eqn:E0; try discriminate. cbn [bind] in H.
    destruct (vec_get y (zlen y - 1)) as [q4| | |] eqn:E4; try discriminate. cbn [bind] in H.
    destruct (vec_get y (zlen (a :: t) / 4)) as [q1| | |] eqn:E1; try discriminate. cbn [bind] in H.
    destruct (vec_get y (zlen (a :: t) / 2)) as [q2| | |] eqn:E2; try discriminate. cbn [bind] in H.
    destruct (vec_get y (to_u64 (3 * zlen (a :: t)) / 4)) as [q3| | |] eqn:E3; try discriminate. cbn [bind] in H.
    apply V in E0, E1, E2, E3, E4. injection H as <-.
    change (map_set _ _ _) with [(chars "q0", col_value k q0); (chars "q1", col_value k q1); (chars "q2", col_value k q2); (chars "q3", col_value k q3); (chars "q4", col_value k q4); (chars "range", col_range k (col_sub k q4 q0))].
    destruct (fine_members k [(chars "q0", col_value k q0); (chars "q1", col_value k q1); (chars "q2", col_value k q2); (chars "q3", col_value k q3); (chars "q4", col_value k q4); (chars "range", col_range k (col_sub k q4 q0))] ["q0"; "q1"; "q2"; "q3"; "q4"; "range"]%string) as (A & B).
    { repeat apply Forall2_cons; try apply Forall2_nil; (split; [reflexivity|]); cbn [snd]; try (left; eexists; split; [|reflexivity]; assumption). right. eexists _, _. reflexivity. }
    { keys. }
    split; [exact A|]. intros K _. apply B; [exact K|discriminate].
  - injection H as <-. set (mn := min_element k a t). set (mx := max_element k a t).
    assert (Un : unsigned k mn) by (apply U, (element_In (fun m b => col_ltb k b m))).
    assert (Ux : unsigned k mx) by (apply U, (element_In (fun m b => col_ltb k m b))).
    change (map_set _ _ _) with [(chars "max", col_value k mx); (chars "min", col_value k mn); (chars "range", col_range k (col_sub k mx mn))].
    destruct (fine_members k [(chars "max", col_value k mx); (chars "min", col_value k mn); (chars "range", col_range k (col_sub k mx mn))] ["max"; "min"; "range"]%string) as (A & B).
    { repeat apply Forall2_cons; try apply Forall2_nil; (split; [reflexivity|]); cbn [snd]; try (left; eexists; split; [|reflexivity]; assumption). right. eexists _, _. reflexivity. }
    { keys. }
    split; [exact A|]. intros K _. apply B; [exact K|discriminate].
Qed.

Lemma columns_ok : forall p, Forall pr_ok p -> Forall (fun c : string * column * list Z => Forall (in_column (snd (fst c))) (snd c)) (columns p).
Proof.
  intros p F. assert (G : forall k (g : point_record -> Z), (forall r, pr_ok r -> in_column k (g r)) -> Forall (in_column k) (map g p)).
  { intros k g H. apply Forall_map. eapply Forall_impl; [|exact F]. exact H. }
  unfold columns.
  constructor; [apply (G col_double rx ok_x)|]. constructor; [apply (G col_double ry ok_y)|]. constructor; [apply (G col_double rz ok_z)|].
  constructor; [apply (G col_u32 rc ok_c)|]. constructor; [apply (G col_u32 rp ok_p)|].
  constructor; [apply (G col_u16 ri ok_i)|]. constructor; [apply (G col_u16 rr ok_r)|]. constructor; [apply (G col_u16 rg ok_g)|].
  constructor; [apply (G col_u16 rb ok_b)|]. constructor.
Qed.

Lemma summary_object_fine : forall srt p q s, Forall pr_ok p -> summary_object srt p q = Ret s ->
  fine (v_object s) /\ (p <> [] -> has_unknown (v_object s)).
Proof.
  intros srt p q s F H. pose proof (columns_ok p F) as C. unfold summary_object in H.
  match type of H with bind ?m _ = _ => destruct m as [cols| | |] eqn:Ec; try discriminate end. cbn [bind] in H.
  match type of H with bind ?m _ = _ => destruct m as [a| | |] eqn:Ea; try discriminate end. cbn [bind] in H. injection H as <-.
  assert (A : fine (v_array a)).
  { apply fine_list. apply mapM_Ret_inv in Ea. induction Ea as [|k v l a E Ea IH]; intros w []; [subst w|auto].
    destruct (get_extra k p) as [x| | |] eqn:Ex; try discriminate. cbn [bind] in E.
    destruct (get_summary_object srt col_u64 x q) as [o| | |] eqn:Eo; try discriminate. cbn [bind] in E. injection E as <-.
    eapply summary_fine; [|exact Eo]. apply mapM_Ret_inv in Ex. clear - F Ex. induction Ex as [|r b p x E Ex IH]; constructor.
    - inversion F as [|? ? R F']; subst. apply SubsampleFacts.vec_get_znth in E. destruct (znth_split _ _ _ E) as (l1 & l2 & L & _).
      pose proof (ok_extra r R) as X. rewrite L in X. apply Forall_app in X as (_ & X). inversion X; subst. assumption.
    - inversion F; subst. auto. }
  unfold columns in Ec, C. cbn [foldM] in Ec.
  repeat match type of C with Forall _ (_ :: _) => let C1 := fresh "C" in let C2 := fresh "C" in inversion_clear C as [|? ? C1 C2]; rename C2 into C; cbn [fst snd] in C1 end.
  repeat match type of Ec with
  | context [get_summary_object srt ?k ?x q] => let E := fresh "E" in let o := fresh "o" in destruct (get_summary_object srt k x q) as [o| | |] eqn:E; try discriminate; cbn [bind] in Ec;
      apply summary_fine in E; [|assumption]
  end.
  assert (Xc : cols = [(chars "b", v_object o7); (chars "c", v_object o2); (chars "g", v_object o6); (chars "i", v_object o4); (chars "p", v_object o3);
       (chars "r", v_object o5); (chars "x", v_object o); (chars "y", v_object o0); (chars "z", v_object o1)]) by (injection Ec as <-; reflexivity).
  clear Ec. subst cols.
  match goal with |- fine (v_object ?m) /\ _ => replace m with
      [(chars "b", v_object o7); (chars "c", v_object o2); (chars "extra", v_array a); (chars "g", v_object o6); (chars "i", v_object o4); (chars "p", v_object o3);
       (chars "r", v_object o5); (chars "x", v_object o); (chars "y", v_object o0); (chars "z", v_object o1)] by reflexivity end.
  split.
  - apply fine_Forall. intros m I. repeat (destruct I as [<-|I]; [split; [quotes|cbn [snd]; first [exact A|apply E|apply E0|apply E1|apply E2|apply E3|apply E4|apply E5|apply E6|apply E7]]|]). destruct I.
  - intros N. apply (unknown_member _ (chars "c", v_object o2)); [right; now left|]. cbn [snd]. apply E2; [reflexivity|]. destruct p; [congruence|discriminate].
Qed.

Lemma process_inv : forall prt args f text, ia_json args = true -> appends (process prt args f) text ->
  exists j, info_object prt args f = Ret j /\ text = if ia_compact args then print (p_os prt) (v_object j) else pretty_print (p_os prt) (v_object j) 0.
Proof.
  intros prt args f text J H. destruct (info_object prt args f) as [j|e|u|] eqn:E.
  - exists j. split; [reflexivity|]. destruct (H (mk_ostream [] None false)) as (os' & E1 & _ & B1); [split; reflexivity|].
    destruct (emits_appends _ _ (process_json prt args f j J E) (mk_ostream [] None false)) as (os2 & E2 & _ & B2); [split; reflexivity|].
    rewrite E1 in E2. injection E2 as <-. cbn [o_bytes app] in B1, B2. congruence.
  - exfalso. destruct (H (mk_ostream [] None false)) as (os' & E1 & _); [split; reflexivity|].
    unfold process in E1. rewrite J in E1. unfold w_bind, w_lift in E1. rewrite E in E1. discriminate.
  - exfalso. destruct (H (mk_ostream [] None false)) as (os' & E1 & _); [split; reflexivity|].
    unfold process in E1. rewrite J in E1. unfold w_bind, w_lift in E1. rewrite E in E1. discriminate.
  - exfalso. destruct (H (mk_ostream [] None false)) as (os' & E1 & _); [split; reflexivity|].
    unfold process in E1. rewrite J in E1. unfold w_bind, w_lift in E1. rewrite E in E1. discriminate.
Qed.

(** The report with the summaries of a file that has records: whatever is printed cannot
    be read back, because the types of two columns are unknown to the printers. *)
Theorem C72_summary_unreadable : forall prt args f text,
  ia_json args = true -> ia_summary args = true -> shows_words (p_os prt) -> good_file f ->
  (ia_header args = true -> quote_free (f_wkt f)) -> f_prs f <> [] ->
  appends (process prt args f) text -> read_text text = None.
Proof.
  intros prt args f text J S Sw G Q N H. destruct (process_inv prt args f text J H) as (j & E & ->).
  assert (X : fine (v_object j) /\ has_unknown (v_object j)); [|eapply read_text_unknown; [exact Sw|apply X|apply X|apply object_written]].
  assert (U : u32s (get_c (f_prs f))).
  { unfold u32s, get_c. apply Forall_map. eapply Forall_impl; [|exact (gf_prs f G)]. intros p P. apply P. }
  destruct (class_data (p_os prt) _ U) as (tc & _ & (Dc & _)). destruct (get_header_any f G) as (h & Eh & _).
  unfold info_object, when in E. rewrite S, Eh in E.
  destruct (summary_object (p_sort prt) (f_prs f) (ia_quartiles args)) as [s| | |] eqn:Es; [|destruct (ia_header args); discriminate|destruct (ia_header args); discriminate|destruct (ia_header args); discriminate].
  destruct (summary_object_fine _ _ _ _ (gf_prs f G) Es) as (Fs & Us). specialize (Us N).
  assert (Fh : ia_header args = true -> fine (v_object (header_object h))).
  { intros Hh. destruct (header_data (p_os prt) f h G Eh (Q Hh)) as (th & _ & ((A & B & _) & _)). now split. }
  assert (Fc : fine (v_object (as_object v_u64 (get_class_count_map (get_c (f_prs f)))))) by (destruct Dc as (A & B & _); now split).
  assert (Fm : forall m, get_metric_values (f_prs f) = Ret m -> fine (v_object (as_object v_double m))).
  { intros m Em. destruct (metric_data (p_os prt) _ m Em) as (tm & _ & ((A & B & _) & _)). now split. }
  set (vc := v_object (as_object v_u64 (get_class_count_map (get_c (f_prs f))))) in *. set (vh := v_object (header_object h)) in *. set (vs := v_object s) in *.
  assert (Xj : exists vm, (ia_metrics args = true -> fine vm) /\ j = section (ia_classes args) "classifications" vc ++ section (ia_header args) "header" vh
            ++ section (ia_metrics args) "metrics" vm ++ [(chars "summary", vs)]).
  { revert E Fm. generalize (get_metric_values (f_prs f)). intros om E Fm. clear - E Fm.
    destruct (ia_metrics args).
    - destruct om as [m| | |].
      + exists (v_object (as_object v_double m)). split; [intros _; now apply Fm|]. destruct (ia_header args), (ia_classes args); cbn [bind] in E; injection E as <-; reflexivity.
      + destruct (ia_header args), (ia_classes args); discriminate.
      + destruct (ia_header args), (ia_classes args); discriminate.
      + destruct (ia_header args), (ia_classes args); discriminate.
    - exists vc. split; [discriminate|]. destruct (ia_header args), (ia_classes args); cbn [bind] in E; injection E as <-; reflexivity. }
  destruct Xj as (vm & Fm' & ->). clear - Fs Us Fh Fc Fm'. clearbody vc vh vs. split.
  - apply fine_Forall. intros m I. unfold section in I. rewrite !in_app_iff in I. destruct I as [I|[I|[I|[<-|[]]]]].
    + destruct (ia_classes args); [destruct I as [<-|[]]|destruct I]. split; [quotes|exact Fc].
    + destruct (ia_header args); [destruct I as [<-|[]]|destruct I]. split; [quotes|exact (Fh eq_refl)].
    + destruct (ia_metrics args); [destruct I as [<-|[]]|destruct I]. split; [quotes|exact (Fm' eq_refl)].
    + split; [quotes|exact Fs].
  - apply (unknown_member _ (chars "summary", vs)); [|exact Us]. rewrite !in_app_iff. right. right. right. now left.
Qed.

(** ** Examples *)

(** A format that shows words. *)
Definition hex_format : number_format := mk_format (fun d => chars "0x" ++ put_int d) (fun f => chars "0x" ++ put_int f).
Lemma hex_words : shows_words hex_format.
Proof.
  assert (G : forall n, word (chars "0x" ++ put_int n)).
  { intros n. pose proof (int_text_word _ _ (put_int_spec n)) as (_ & F). split; [discriminate|]. apply Forall_app. split; [repeat constructor|exact F]. }
  split; intros; apply G.
Qed.
Definition json_printing : printing := mk_printing hex_format hex_format (fun x => x).
Definition json_pr : point_record := mk_pr 0 0 0 2 7 5 0 0 0 [9].
Definition json_file : spoc_file := mk_file 0 1 (chars "EPSG:2193") false [json_pr; json_pr].
Lemma json_file_good : good_file json_file.
Proof.
  constructor; try reflexivity; try (cbn; lia).
  - repeat constructor; cbn; lia.
  - repeat constructor; cbn; unfold d_ok, u32_ok, u16_ok, u64_ok, two64, two32, two16; cbn; lia.
  - intros p q P Q. cbn in P, Q. intuition congruence.
Qed.

(** Header and classes of a file with two records. *)
Example C72_example :
  let args := mk_info_args true true false true false true false [] in
  appends (process json_printing args json_file)
    (chars "{ 'classifications' : { '002' : 2 }, 'header' : { 'compressed' : 0, 'major_version' : 0, 'minor_version' : 1, 'total_points' : 2, 'wkt' : 'EPSG:2193' } }")
  /\ read_text (chars "{ 'classifications' : { '002' : 2 }, 'header' : { 'compressed' : 0, 'major_version' : 0, 'minor_version' : 1, 'total_points' : 2, 'wkt' : 'EPSG:2193' } }")
     = Some (t_dict [(chars "classifications", t_dict [(chars "002", t_word (chars "2"))]);
                     (chars "header", t_dict [(chars "compressed", t_word (chars "0")); (chars "major_version", t_word (chars "0")); (chars "minor_version", t_word (chars "1"));
                        (chars "total_points", t_word (chars "2")); (chars "wkt", t_text (chars "EPSG:2193"))])]).
Proof.
  split; [|vm_compute; reflexivity]. apply emits_appends.
  match goal with |- emits (process _ ?a _) _ _ => assert (E : exists j, info_object json_printing a json_file = Ret j /\ print hex_format (v_object j) = chars "{ 'classifications' : { '002' : 2 }, 'header' : { 'compressed' : 0, 'major_version' : 0, 'minor_version' : 1, 'total_points' : 2, 'wkt' : 'EPSG:2193' } }") end.
  { eexists. split; [reflexivity|vm_compute; reflexivity]. }
  destruct E as (j & Ej & <-). eapply process_json in Ej; [exact Ej|reflexivity].
Qed.

(** The same file with a summary: the text is not readable, though the program ends well. *)
Example C72_summary_example :
  let args := mk_info_args true false true false false true false [] in
  exists text, appends (process json_printing args json_file) text /\ read_text text = None.
Proof.
  cbv zeta. set (args := mk_info_args _ _ _ _ _ _ _ _).
  assert (E : exists j, info_object json_printing args json_file = Ret j) by (eexists; vm_compute; reflexivity). destruct E as (j & Ej).
  eexists. assert (A : appends (process json_printing args json_file) (print hex_format (v_object j))) by (apply emits_appends; exact (process_json json_printing args json_file j eq_refl Ej)).
  split; [exact A|]. apply (C72_summary_unreadable json_printing args json_file _ eq_refl eq_refl hex_words json_file_good); [discriminate|discriminate|exact A].
Qed.

Example C72_value_example : let v := v_object [(chars "a", v_array [v_int (-3); v_bool true]); (chars "b", v_cstr (chars "it, is: {ok}"))] in
  no_quotes v /\ well_typed v /\ ~ has_unknown v
  /\ read_text (pretty_print hex_format v 2) = Some (t_dict [(chars "a", t_list [t_word (chars "-3"); t_word (chars "true")]); (chars "b", t_text (chars "it, is: {ok}"))]).
Proof.
  split; [cbn; unfold quote_free; cbn; intuition discriminate|]. split; [cbn; auto|]. split; [cbn; intuition|vm_compute; reflexivity].
Qed.

Print Assumptions C72_white_space.
Print Assumptions C72_readable.
Print Assumptions C72_unreadable.
Print Assumptions C72_report.
Print Assumptions C72_summary_unreadable.
