(** The options of each program *)
From Coq Require Import String ZArith List Bool Lia.
From Verif.Model Require Import Base Double AppUtils FilterApp MergeApp TileApp TransformApp DiffApp ToolApp SrsApp InfoApp GetOpt Commands.
From Verif.Spec Require Import CommandLines.
From Verif.Proofs Require Import BaseFacts CommandFacts.
Import ListNotations.
Open Scope Z_scope.

Lemma convert_tables : implements convert_options common_longs common_shorts (val_of common_longs).
Proof. apply check_ok. vm_compute. reflexivity. Qed.
Lemma filter_tables : implements filter_options (common_longs ++ filter_longs) (common_shorts ++ filter_shorts) (val_of (common_longs ++ filter_longs)).
Proof. apply check_ok. vm_compute. reflexivity. Qed.
Lemma transform_tables : implements transform_options (common_longs ++ transform_longs) common_shorts (val_of (common_longs ++ transform_longs)).
Proof. apply check_ok. vm_compute. reflexivity. Qed.
Lemma diff_tables : implements diff_options (common_longs ++ diff_longs) (common_shorts ++ diff_shorts) (val_of (common_longs ++ diff_longs)).
Proof. apply check_ok. vm_compute. reflexivity. Qed.
Lemma tool_tables : implements tool_options (common_longs ++ tool_longs) (common_shorts ++ tool_shorts) (val_of (common_longs ++ tool_longs)).
Proof. apply check_ok. vm_compute. reflexivity. Qed.
Lemma tile_tables : implements tile_options (common_longs ++ tile_longs) (common_shorts ++ tile_shorts) (val_of (common_longs ++ tile_longs)).
Proof. apply check_ok. vm_compute. reflexivity. Qed.
Lemma merge_tables : implements merge_options (common_longs ++ merge_longs) (common_shorts ++ merge_shorts) (val_of (common_longs ++ merge_longs)).
Proof. apply check_ok. vm_compute. reflexivity. Qed.
Lemma srs_tables : implements srs_options (common_longs ++ srs_longs) (common_shorts ++ srs_shorts) (val_of (common_longs ++ srs_longs)).
Proof. apply check_ok. vm_compute. reflexivity. Qed.
Lemma info_tables : implements info_options (common_longs ++ info_longs) (common_shorts ++ info_shorts) (val_of (common_longs ++ info_longs)).
Proof. apply check_ok. vm_compute. reflexivity. Qed.

Ltac step_options :=
  match goal with
  | IH : _, D : Forall (declared _) (?s :: ?es), H : given "help" (?s :: ?es) = false |- _ =>
    let Ds := fresh "Ds" in let D' := fresh "D'" in
    inversion_clear D as [|? ? Ds D']; rewrite given_cons in H; apply orb_false_iff in H as [? H];
    rewrite options_cons; destruct s as [n o]; destruct Ds as (e & I & N & A); cbn [fst snd] in *; subst n;
    vm_compute in I; repeat (destruct I as [<-|I]); [..|destruct I]; cbn [e_name e_arg] in *
  end;
  try (subst; match goal with K : String.eqb _ _ = false |- _ => discriminate K end);
  match goal with
  | A : ?o <> None |- _ => destruct o as [v|]; [clear A|now destruct A]
  | A : ?o = None |- _ => subst o
  end;
  repeat match goal with
  | |- context [val_of ?l ?n] => let v := eval vm_compute in (val_of l n) in change (val_of l n) with v
  end;
  repeat (rewrite given_cons || rewrite arguments_cons || rewrite !final_cons || rewrite !toggled_cons); cbn [fst snd];
  repeat match goal with
  | |- context [String.eqb ?a ?b] => let v := eval vm_compute in (String.eqb a b) in change (String.eqb a b) with v
  end;
  cbn -[given arguments final toggled chosen map get_options chars atoi atol to_u64 to_u32];
  try match goal with IH : forall _ _, _ -> _ -> _ = _ |- _ => rewrite IH by assumption end.

Ltac finish_options :=
  rewrite ?orb_false_r, ?app_nil_r, ?orb_true_r; cbn -[given arguments final toggled chosen get_options chars atoi atol to_u64 to_u32];
  rewrite ?orb_false_r, ?app_nil_r, ?orb_true_r, <- ?app_assoc; cbn [app]; try reflexivity.

Lemma convert_settings es : Forall (declared convert_options) es -> given "help" es = false -> forall c a,
  get_options (fun _ _ => None) (map (sev (val_of common_longs)) es) c a =
  Ret (mk_common (c_help c) (c_verbose c || given "verbose" es) (c_version c || given "version" es), a : unit).
Proof.
  induction es as [|s es IH]; intros D H c a.
  - cbn. rewrite !orb_false_r. now destruct c.
  - specialize (fun c a D H => IH D H c a). step_options. all: finish_options.
Qed.

Lemma filter_settings atof es : Forall (declared filter_options) es -> given "help" es = false -> forall c a,
  get_options (filter_case atof) (map (sev (val_of (common_longs ++ filter_longs))) es) c a =
  Ret (mk_common (c_help c) (c_verbose c || given "verbose" es) (c_version c || given "version" es),
       mk_filter_args (fa_keep a ++ map atoi (arguments "keep-class" es)) (final (fun s => to_u64 (atol s)) "random-seed" es (fa_seed a))
         (fa_remove a ++ map atoi (arguments "remove-class" es)) (fa_unique a || given "unique-xyz" es)
         (final atof "subsample" es (fa_subsample a)) (final (fun s => s) "remove-coords" es (fa_coords a))).
Proof.
  induction es as [|s es IH]; intros D H c a.
  - cbn. rewrite !orb_false_r, !app_nil_r. now destruct c, a.
  - specialize (fun c a D H => IH D H c a). step_options. all: finish_options.
Qed.

Lemma diff_settings es : Forall (declared diff_options) es -> given "help" es = false -> forall c a,
  get_options diff_case (map (sev (val_of (common_longs ++ diff_longs))) es) c a =
  Ret (mk_common (c_help c) (c_verbose c || given "verbose" es) (c_version c || given "version" es),
       mk_diff_args (da_header_only a || given "header-only" es) (da_data_only a || given "data-only" es)
         (da_fields a ++ map to_char (List.concat (arguments "field" es))) (da_reverse a || given "reverse" es)).
Proof.
  induction es as [|s es IH]; intros D H c a.
  - cbn. rewrite !orb_false_r, !app_nil_r. now destruct c, a.
  - specialize (fun c a D H => IH D H c a). step_options. all: finish_options.
    rewrite map_app. reflexivity.
Qed.

Lemma tile_settings atof es : Forall (declared tile_options) es -> given "help" es = false -> forall c a,
  get_options (tile_case atof) (map (sev (val_of (common_longs ++ tile_longs))) es) c a =
  Ret (mk_common (c_help c) (c_verbose c || given "verbose" es) (c_version c || given "version" es),
       mk_tile_args (ta_force a || given "force" es) (final (fun s => to_u32 (atoi s)) "tiles" es (ta_tiles a))
         (final (fun s => to_u32 (atoi s)) "digits" es (ta_digits a)) (final atof "tile-size" es (ta_size a))
         (final atof "tile-size-x" es (ta_size_x a)) (final atof "tile-size-y" es (ta_size_y a))
         (final (fun s => s) "prefix" es (ta_prefix a)) (ta_fn a)).
Proof.
  induction es as [|s es IH]; intros D H c a.
  - cbn. rewrite !orb_false_r. now destruct c, a.
  - specialize (fun c a D H => IH D H c a). step_options. all: finish_options.
Qed.

Lemma merge_settings es : Forall (declared merge_options) es -> given "help" es = false -> forall c a,
  get_options merge_case (map (sev (val_of (common_longs ++ merge_longs))) es) c a =
  Ret (mk_common (c_help c) (c_verbose c || given "verbose" es) (c_version c || given "version" es),
       mk_merge_args (toggled "quiet" es (ma_quiet a)) (final atoi "point-id" es (ma_point_id a))).
Proof.
  induction es as [|s es IH]; intros D H c a.
  - cbn. unfold toggled. cbn. rewrite !orb_false_r, xorb_false_r. now destruct c, a.
  - specialize (fun c a D H => IH D H c a). step_options. all: finish_options.
Qed.

Lemma srs_settings es : Forall (declared srs_options) es -> given "help" es = false -> forall c a,
  get_options srs_case (map (sev (val_of (common_longs ++ srs_longs))) es) c a =
  Ret (mk_common (c_help c) (c_verbose c || given "verbose" es) (c_version c || given "version" es),
       mk_srs_args (final (fun s => s) "srs" es (sa_srs a)) (sa_set a || given "srs" es) (sa_fns a)).
Proof.
  induction es as [|s es IH]; intros D H c a.
  - cbn. rewrite !orb_false_r. now destruct c, a.
  - specialize (fun c a D H => IH D H c a). step_options. all: finish_options.
Qed.

Lemma info_settings es : Forall (declared info_options) es -> given "help" es = false -> forall c a,
  get_options info_case (map (sev (val_of (common_longs ++ info_longs))) es) c a =
  Ret (mk_common (c_help c) (c_verbose c || given "verbose" es) (c_version c || given "version" es),
       mk_info_args (toggled "json" es (ia_json a)) (toggled "header-info" es (ia_header a)) (toggled "summary-info" es (ia_summary a))
         (toggled "classification-info" es (ia_classes a)) (toggled "metric-info" es (ia_metrics a)) (toggled "compact" es (ia_compact a))
         (toggled "quartiles" es (ia_quartiles a)) (ia_fns a)).
Proof.
  induction es as [|s es IH]; intros D H c a.
  - cbn. unfold toggled. cbn. rewrite !orb_false_r, !xorb_false_r. now destruct c, a.
  - specialize (fun c a D H => IH D H c a). step_options. all: finish_options.
Qed.

Lemma chosen_cons l s es :
  chosen l (s :: es) = (if existsb (String.eqb (fst s)) l then [(fst s, match snd s with Some v => v | None => [] end)] else [])
                       ++ chosen l es.
Proof. reflexivity. Qed.

Definition as_command (x : string * list Z) : command := mk_command (chars (fst x)) (snd x).

Ltac eval_chosen :=
  rewrite ?chosen_cons; cbn [fst snd];
  repeat match goal with
  | |- context [existsb (String.eqb ?a) ?b] => let v := eval vm_compute in (existsb (String.eqb a) b) in change (existsb (String.eqb a) b) with v
  end; cbn [app map].

Lemma transform_settings es : Forall (declared transform_options) es -> given "help" es = false -> forall c a,
  get_options transform_case (map (sev (val_of (common_longs ++ transform_longs))) es) c a =
  match chosen noise_options es with
  | [] => Ret (mk_common (c_help c) (c_verbose c || given "verbose" es) (c_version c || given "version" es),
            mk_transform_args (xa_commands a ++ map as_command (chosen transform_commands es))
              (final (fun s => to_u64 (atol s)) "random-seed" es (xa_seed a)))
  | _ => Throw invalid_option
  end.
Proof.
  induction es as [|s es IH]; intros D H c a.
  - cbn. rewrite !orb_false_r, !app_nil_r. now destruct c, a.
  - specialize (fun c a D H => IH D H c a). step_options. all: eval_chosen; try reflexivity.
    all: destruct (chosen noise_options es); try reflexivity.
    all: finish_options.
Qed.

Definition command_names : list string := map e_name tool_commands.

Lemma tool_settings atof es : Forall (declared tool_options) es -> given "help" es = false -> forall c a,
  get_options (tool_case atof) (map (sev (val_of (common_longs ++ tool_longs))) es) c a =
  match (if no_chars (cmd_name (ta_command a)) then [] else [ta_command a]) ++ map as_command (chosen command_names es) with
  | [] => Ret (mk_common (c_help c) (c_verbose c || given "verbose" es) (c_version c || given "version" es),
            mk_targs (ta_command a) (final (fun s => s) "field-filename" es (ta_field_fn a)) (final atof "resolution" es (ta_resolution a)))
  | [x] => Ret (mk_common (c_help c) (c_verbose c || given "verbose" es) (c_version c || given "version" es),
            mk_targs x (final (fun s => s) "field-filename" es (ta_field_fn a)) (final atof "resolution" es (ta_resolution a)))
  | _ => Throw (runtime_error "You can only specify one command at a time")
  end.
Proof.
  induction es as [|s es IH]; intros D H c a.
  - cbn. rewrite !orb_false_r, !app_nil_r. destruct (no_chars _); now destruct c, a.
  - specialize (fun c a D H => IH D H c a). step_options. all: eval_chosen; try reflexivity.
    all: destruct (no_chars (cmd_name (ta_command a))); try reflexivity.
    all: try (cbn [negb bind]; rewrite IH by assumption).
    all: cbn [app map ta_command cmd_name]; try (destruct (map as_command (chosen command_names es)) as [|x [|y l]]); try reflexivity.
    all: finish_options.
Qed.

(** ** Help and mistakes *)

Definition quiet_case {A} (case_of : Z -> list Z -> option (A -> outcome A)) : Prop :=
  forall v s f a, case_of v s = Some f -> (exists a', f a = Ret a') \/ (exists e, f a = Throw e).

Lemma options_cases {A} (case_of : Z -> list Z -> option (A -> outcome A)) l c a : quiet_case case_of ->
  (exists r, get_options case_of l c a = Ret r) \/ (exists e, get_options case_of l c a = Throw e).
Proof.
  intros Q. revert c a; induction l as [|[v o|] l IH]; intros c a; cbn; eauto.
  destruct (v =? ch_h); [eauto|]. destruct (v =? ch_v); [eauto|]. destruct (v =? ch_e); [eauto|].
  destruct (case_of v _) as [f|] eqn:E; [|eauto].
  destruct (Q _ _ _ a E) as [(a' & ->)|(e & ->)]; cbn; eauto.
Qed.

Lemma options_invalid {A} (case_of : Z -> list Z -> option (A -> outcome A)) l c a c' a' : In E_invalid l ->
  get_options case_of l c a = Ret (c', a') -> c_help c' = true.
Proof.
  revert c a; induction l as [|[v o|] l IH]; intros c a I; cbn; [destruct I| |discriminate].
  destruct I as [I|I]; [discriminate I|].
  destruct (v =? ch_h); [intros [= <- _]; reflexivity|]. destruct (v =? ch_v); [eauto|]. destruct (v =? ch_e); [eauto|].
  destruct (case_of v _) as [f|]; [|discriminate]. destruct (f a) as [a1| | |]; cbn; try discriminate. eauto.
Qed.

Lemma options_help {A} (case_of : Z -> list Z -> option (A -> outcome A)) l1 o l2 c a c1 a1 :
  get_options case_of l1 c a = Ret (c1, a1) -> (forall v o, In (E_option v o) l1 -> v <> ch_h) ->
  get_options case_of (l1 ++ E_option ch_h o :: l2) c a = Ret (mk_common true (c_verbose c1) (c_version c1), a1).
Proof.
  revert c a; induction l1 as [|[v o'|] l IH]; intros c a; cbn [app get_options].
  - intros [= <- <-] _. now rewrite Z.eqb_refl.
  - intros G N. assert (v <> ch_h) by (apply (N v o'); now left). apply Z.eqb_neq in H. rewrite H in *.
    assert (N' : forall v o, In (E_option v o) l -> v <> ch_h) by (intros ? ? I; apply (N _ _ (or_intror I))).
    destruct (v =? ch_v); [now apply IH|]. destruct (v =? ch_e); [now apply IH|].
    destruct (case_of v _) as [f|]; [|discriminate]. destruct (f a) as [x| | |]; cbn in *; try discriminate. now apply IH.
  - discriminate.
Qed.

(** Events without mistakes are options *)
Lemma all_options l : ~ In E_invalid l -> exists es, l = map ev es.
Proof.
  induction l as [|[v o|] l IH]; intros N.
  - now exists [].
  - destruct IH as (es & ->); [intros I; apply N; now right|]. now exists ((v, o) :: es).
  - exfalso. apply N. now left.
Qed.

Lemma invalid_dec l : {In E_invalid l} + {~ In E_invalid l}.
Proof.
  apply in_dec. intros [v o|] [v' o'|]; try (right; discriminate); [|now left].
  destruct (Z.eq_dec v v') as [->|N]; [|right; congruence].
  destruct o as [o|], o' as [o'|]; try (right; discriminate); [|now left].
  destruct (list_eq_dec Z.eq_dec o o') as [->|N]; [now left | right; congruence].
Qed.

Section program.
  Context {A B : Type} (t : list entry) (longs : list long_option) (shorts : short_options)
    (case_of : Z -> list Z -> option (A -> outcome A)) (start : A) (operands : A -> list (list Z) -> outcome B) (none : A -> B)
    (M : implements t (common_longs ++ longs) (common_shorts ++ shorts) (val_of (common_longs ++ longs))).

  Lemma args_line argv es ops : command_line t argv es ops ->
    get_args longs shorts case_of start operands none argv =
    bind (get_options case_of (map (sev (val_of (common_longs ++ longs))) es) no_common start) (fun x =>
      let '(c, a) := x in if c_help c then Ret (c, none a) else bind (operands a ops) (fun b => Ret (c, b))).
  Proof. intros L. unfold get_args. now rewrite (getopt_line _ _ _ _ _ _ _ M L). Qed.

  Lemma args_malformed argv c b : get_args longs shorts case_of start operands none argv = Ret (c, b) ->
    (exists es ops, command_line t argv es ops) \/ c_help c = true.
  Proof.
    unfold get_args. destruct (getopt (common_longs ++ longs) (common_shorts ++ shorts) argv) as [l ops] eqn:G.
    destruct (invalid_dec l) as [I|N].
    - destruct (get_options case_of l no_common start) as [[c1 a1]| | |] eqn:O; cbn; try discriminate.
      rewrite (options_invalid _ _ _ _ _ _ I O). intros [= <- _]. right. now apply (options_invalid _ _ _ _ _ _ I O).
    - intros _. left. apply all_options in N as (es & ->). destruct (line_getopt _ _ _ _ _ _ _ M G) as (es' & L & _). eauto.
  Qed.

  (** A line without mistakes that asks for help *)
  Lemma args_help es1 o es2 ops argv c1 a1 : command_line t argv (es1 ++ ("help"%string, o) :: es2) ops ->
    val_of (common_longs ++ longs) "help" = ch_h ->
    given "help" es1 = false ->
    get_options case_of (map (sev (val_of (common_longs ++ longs))) es1) no_common start = Ret (c1, a1) ->
    get_args longs shorts case_of start operands none argv = Ret (mk_common true (c_verbose c1) (c_version c1), none a1).
  Proof.
    intros L V H O. rewrite (args_line _ _ _ L), map_app. cbn [map].
    change (sev (val_of (common_longs ++ longs)) ("help"%string, o)) with (E_option (val_of (common_longs ++ longs) "help") o). rewrite V.
    rewrite (options_help _ _ _ _ _ _ _ _ O); [reflexivity|].
    intros v o' I. apply in_map_iff in I as ((n & x) & E & I). injection E as <- _. intros Q. change (val_of (common_longs ++ longs) n = ch_h) in Q.
    assert (D : Forall (declared t) es1). { apply line_declared in L. now apply Forall_app in L. }
    rewrite Forall_forall in D. destruct (D _ I) as (e & Ie & N & _). cbn in N. subst n.
    assert (exists h, In h t /\ e_name h = "help"%string) as (h & Ih & Nh).
    { apply line_declared in L. apply Forall_app in L as [_ L]. inversion_clear L as [|? ? Dh _].
      destruct Dh as (h & Ih & Nh & _). cbn in Nh. eauto. }
    assert (e = h) by (apply (im_val _ _ _ _ M); auto; rewrite Nh; congruence). subst h.
    assert (given "help" es1 = true); [|congruence]. apply existsb_exists. exists (e_name e, x). split; [exact I|].
    cbn. rewrite Nh. apply String.eqb_refl.
  Qed.

  Lemma args_total argv : quiet_case case_of -> (forall a ops, (exists b, operands a ops = Ret b) \/ (exists e, operands a ops = Throw e)) ->
    (exists r, get_args longs shorts case_of start operands none argv = Ret r) \/
    (exists e, get_args longs shorts case_of start operands none argv = Throw e).
  Proof.
    intros Q QO. unfold get_args. destruct (getopt _ _ argv) as [l ops].
    destruct (options_cases case_of l no_common start Q) as [((c & a) & ->)|(e & ->)]; cbn; [|eauto].
    destruct (c_help c); [eauto|]. destruct (QO a ops) as [(b & ->)|(e & ->)]; cbn; eauto.
  Qed.
End program.
