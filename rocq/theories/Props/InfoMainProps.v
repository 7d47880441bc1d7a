(** C80 from the command line: what spoc_info prints, for named files and for standard input; and
    C74: what is left after a number. *)
From Coq Require Import String ZArith List Bool Lia.
From Verif.Model Require Import Base Double Arith Header PointRecord Point File Compression IO AppUtils AppConvert FilterApp MergeApp TileApp
  Asprs Json InfoApp GetOpt Commands Programs.
From Verif.Spec Require Import Text Streams Files Apps ZlibContract Format CommandLines Reports.
From Verif.Proofs Require Import BaseFacts HistoryFacts FileMoreFacts CountFacts SummaryFacts DiffFacts JsonFacts TextFacts MapFacts StoreFacts OptionFacts ProgramFacts ToyZlib.
From Verif.Props Require Import SrsProps TileProps JsonProps InfoProgramProps CommandProps ProgramProps PipeProps ScenarioProps.
Import ListNotations.
Open Scope Z_scope.

(** What the options ask for *)
Definition info_settings_of (es : list (string * option (list Z))) (names : list (list Z)) : info_args :=
  mk_info_args (toggled "json" es false) (toggled "header-info" es true) (toggled "summary-info" es true)
    (toggled "classification-info" es true) (toggled "metric-info" es true) (toggled "compact" es true) (toggled "quartiles" es false) names.

(** Without file names: the report on the file in standard input, and status 0. *)
Theorem C80_program_stdin : forall z prt acc argv es input f text fs os, asks info_options argv es [] ->
  file_of (read_spoc_file z) input f -> appends (process prt (info_settings_of es []) f) text -> healthy os ->
  exists os', spoc_info z prt acc argv input os fs = (os', fs, Ret 0) /\ healthy os' /\ o_bytes os' = o_bytes os ++ text.
Proof.
  intros z prt acc argv es input f text fs os (L & H & V) R T Ho. unfold spoc_info.
  rewrite (program_runs _ _ _ _ _ _ _ (C84_info _ _ _ L H)) by assumption || reflexivity. fold (info_settings_of es []).
  destruct (C80_stdin z prt acc (info_settings_of es []) fs input f text eq_refl R T os Ho) as (os' & E & Ho' & B).
  exists os'. unfold to_cout. rewrite E. now split.
Qed.

(** With file names: their reports one after the other, and status 0; standard input is not read. *)
Theorem C80_program_files : forall z prt acc argv es names input files texts fs os, asks info_options argv es names -> names <> [] ->
  Forall2 (holds z acc fs) names files -> Forall2 (fun f t => appends (process prt (info_settings_of es names) f) t) files texts -> healthy os ->
  exists os', spoc_info z prt acc argv input os fs = (os', fs, Ret 0) /\ healthy os' /\ o_bytes os' = o_bytes os ++ List.concat texts.
Proof.
  intros z prt acc argv es names input fl texts fs os (L & H & V) N R T Ho. unfold spoc_info.
  rewrite (program_runs _ _ _ _ _ _ _ (C84_info _ _ _ L H)) by assumption || reflexivity. fold (info_settings_of es names).
  destruct (C80_files z prt acc (info_settings_of es names) fs input fl texts N R T os Ho) as (os' & E & Ho' & B).
  exists os'. unfold to_cout. rewrite E. now split.
Qed.

(** A number is consumed with the one character after it, whatever that is; if nothing follows,
    nothing is left. *)
Theorem C74_number : forall stod text rest v, stod (text ++ rest) = Some (v, zlen text) ->
  exists left, consume_double stod (text ++ rest) = Ret (v, left)
  /\ match rest with [] => left = [] | _ :: r => left = r end.
Proof.
  intros stod text rest v S. unfold consume_double. rewrite S. eexists. split; [reflexivity|].
  destruct rest as [|c r].
  - rewrite app_nil_r. apply zdrop_all. lia.
  - change (c :: r) with ([c] ++ r). rewrite app_assoc. apply zdrop_app_exact. now rewrite zlen_app.
Qed.
Theorem C74_no_number : forall stod s, stod s = None -> exists what, consume_double stod s = Throw (runtime_error what).
Proof. intros stod s E. unfold consume_double. rewrite E. now eexists. Qed.

(** spoc_info -sm (header and classes only) on standard input, and on the files a and b. *)
Lemma example_asks names : Forall operand names ->
  asks info_options (chars "-sm" :: names) [("summary-info"%string, None); ("metric-info"%string, None)] names.
Proof.
  intros O. split; [|split; reflexivity]. apply (Line_option info_options [chars "-sm"] [("summary-info"%string, None); ("metric-info"%string, None)] names [] names).
  - apply (Use_flags info_options (chars "sm")); [discriminate|]. constructor; [|constructor; [|constructor]].
    + exists (mk_entry "summary-info"%string "s"%string false). repeat split; cbn; tauto.
    + exists (mk_entry "metric-info"%string "m"%string false). repeat split; cbn; tauto.
  - induction O; now constructor.
Qed.
Example C80_program_example :
  let es := [("summary-info"%string, None); ("metric-info"%string, None)] in
  let acc := mk_access (fun _ => true) (fun _ => false) in
  asks info_options [chars "-sm"] es [] /\ asks info_options [chars "-sm"; chars "a"; chars "b"] es [chars "a"; chars "b"]
  /\ exists bytes, file_of (read_spoc_file toy) bytes json_file
  /\ Forall2 (holds toy acc (fun _ => Some bytes)) [chars "a"; chars "b"] [json_file; json_file]
  /\ (forall names, appends (process json_printing (info_settings_of es names) json_file) example_report).
Proof.
  cbv zeta. split; [apply (example_asks []); constructor|]. split; [apply (example_asks [chars "a"; chars "b"]); constructor; [|constructor; [|constructor]]; right; discriminate|].
  destruct (storable_one toy _ false json_file toy_ok json_file_storable) as (bytes & f1 & W & _ & K & R).
  assert (f1 = json_file) by exact K. subst f1. exists bytes.
  assert (F : file_of (read_spoc_file toy) bytes json_file) by (eexists; rewrite <- (app_nil_r bytes); apply R; constructor).
  split; [exact F|]. split; [repeat constructor; now exists bytes|]. intros names.
  destruct (C80_header json_file json_file_good) as (n & Dn & H).
  assert (n = chars "2") by (eapply decimal_unique; [exact Dn|apply (put_uint_spec 2); lia]). subst n.
  assert (C : appends (class_lines (f_prs json_file)) (text_line [chars "cls_002"; [9]; chars "2"; [9]; chars "ground"] ++ [])).
  { unfold class_lines. change (get_class_count_map (get_c (f_prs json_file))) with [(chars "002", 2)]. cbn [w_iter fst snd].
    apply appends_seq; [|apply appends_nil]. eapply appends_lift; [vm_compute; reflexivity|]. cbn [fst].
    change (class_find 2 get_asprs_class_map) with (Some (chars "ground")). apply appends_put. }
  exact (C80_sections json_printing (info_settings_of [("summary-info"%string, None); ("metric-info"%string, None)] names) json_file _ [] _ [] eq_refl (fun _ => H)
    ltac:(discriminate) (fun _ => C) ltac:(discriminate)).
Qed.

(** "2,3": the number 2, and "3" is left *)
Definition one_digit : stod_fn := fun s => match s with 50 :: _ => Some (d_ten, 1) | _ => None end.
Example C74_number_example : consume_double one_digit (chars "2,3") = Ret (d_ten, chars "3") /\ consume_double one_digit (chars "2") = Ret (d_ten, [])
  /\ one_digit (chars "2" ++ chars ",3") = Some (d_ten, zlen (chars "2")) /\ one_digit (chars "x") = None.
Proof. repeat split; vm_compute; reflexivity. Qed.

Print Assumptions C80_program_stdin.
Print Assumptions C80_program_files.
Print Assumptions C74_number.
Print Assumptions C74_no_number.
