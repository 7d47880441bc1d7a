(** The programs with files and with pipes, and one after another. *)
From Coq Require Import String ZArith List Bool Lia.
From Verif.Model Require Import Base Double Arith Header PointRecord Point File Subsampling Compression IO Affine AppConvert AppUtils FilterApp
  MergeApp TileApp TransformApp DiffApp ToolApp SrsApp Asprs Json InfoApp GetOpt Commands Programs.
From Verif.Spec Require Import Text Streams Files History Apps ZlibContract Format CommandLines Tools Sampling Fields.
From Verif.Proofs Require Import BaseFacts TextFacts CommandFacts OptionFacts FileIOFacts FilterFacts StoreFacts ProgramFacts ToyZlib.
From Verif.Props Require Import FileProps FilterProps MergeProps TileProps TransformProps DiffProps ToolProps ToolProgramProps SrsProps CommandProps
  ProgramProps.
Import ListNotations.
Open Scope Z_scope.

(** ** C87: files and pipes *)

(** Naming the input file is the same as sending its contents to standard input, and
    naming an output file is the same as sending standard output to a file that is then put
    in its place: when [may] permits it. *)
Definition pipes (acc : access_rights) (t : list entry) (may : list setting -> list Z -> list Z -> Prop) (p : app) : Prop :=
  forall es i o fs bytes, given "help" es = false -> given "version" es = false -> i <> [] -> o <> [] ->
  fs i = Some bytes -> can_read acc i = true -> can_write acc o = true ->
  forall piped, command_line t piped es [] ->
  (forall argv input os, command_line t argv es [i] -> p argv input os fs = p piped bytes os fs) /\
  (forall argv input os, command_line t argv es [i; o] -> may es i o ->
     let run := p piped bytes o_open fs in
     status_of (p argv input os fs) = status_of run /\
     (status_of run = Ret 0 -> p argv input os fs = (os, file_put o (o_bytes (stdout_of run)) fs, Ret 0))).

Definition always (es : list setting) (i o : list Z) : Prop := True.

Lemma input_file acc i input fs bytes : i <> [] -> fs i = Some bytes -> can_read acc i = true -> input_stream acc i input fs = Ret bytes.
Proof. intros N E R. destruct i; [now elim N|]. now apply open_input_ok. Qed.

(** How programs go on after a command line without -h and -v *)
Lemma program_runs {A} (get : list (list Z) -> outcome (common * A)) body argv os fs c a : get argv = Ret (c, a) ->
  c_help c = false -> c_version c = false ->
  program get body argv os fs = let '(os, fs, r) := body a os fs in (os, fs, exit_status r).
Proof. intros G H V. unfold program. now rewrite G, V, H. Qed.

Lemma output_pipe acc o w os fs : o <> [] -> can_write acc o = true ->
  let run := output_stream acc [] w o_open fs in
  output_stream acc o w os fs = (os, file_put o (o_bytes (stdout_of run)) fs, status_of run).
Proof.
  intros N W. unfold output_stream. destruct o; [now elim N|]. rewrite W. cbn [negb]. now destruct (w o_open) as [s r].
Qed.

Lemma exit_twice e : status_of (let '(os, fs, r) := e in (os, fs, exit_status r) : effect Z) = exit_status (status_of e).
Proof. now destruct e as [[os fs] r]. Qed.
Lemma exit_stdout e : stdout_of (let '(os, fs, r) := e in (os, fs, exit_status r) : effect Z) = stdout_of e.
Proof. now destruct e as [[os fs] r]. Qed.
Lemma exit_files e : files_of (let '(os, fs, r) := e in (os, fs, exit_status r) : effect Z) = files_of e.
Proof. now destruct e as [[os fs] r]. Qed.

Lemma convert_file acc i work input os fs bytes : i <> [] -> fs i = Some bytes -> can_read acc i = true ->
  convert acc (mk_io i []) work input os fs = convert acc (mk_io [] []) work bytes os fs.
Proof. intros N E R. unfold convert. cbn [io_input io_output]. now rewrite (input_file acc i input fs bytes N E R). Qed.

Lemma convert_pipe acc i o work input os fs bytes : i <> [] -> fs i = Some bytes -> can_read acc i = true -> o <> [] -> can_write acc o = true ->
  let run := convert acc (mk_io [] []) work bytes o_open fs in
  status_of (convert acc (mk_io i o) work input os fs) = status_of run /\
  (status_of run = Ret 0 -> convert acc (mk_io i o) work input os fs = (os, file_put o (o_bytes (stdout_of run)) fs, Ret 0)).
Proof.
  intros N E R No W run. subst run. unfold convert. cbn [io_input io_output]. rewrite (input_file acc i input fs bytes N E R).
  cbn [input_stream bind]. destruct (work bytes) as [w| | |]; try (now split).
  rewrite (output_pipe acc o w os fs No W). split; [reflexivity|]. cbv zeta. now intros ->.
Qed.

Lemma exit_pipe (a b : effect Z) os fs : 
  status_of a = status_of b /\ (status_of b = Ret 0 -> a = (os, fs (stdout_of b), Ret 0)) ->
  let out (e : effect Z) : effect Z := let '(os, fs, r) := e in (os, fs, exit_status r) in
  status_of (out a) = status_of (out b) /\ (status_of (out b) = Ret 0 -> out a = (os, fs (stdout_of (out b)), Ret 0)).
Proof.
  intros [E F] out. unfold out. rewrite !exit_twice, exit_stdout, E. split; [reflexivity|]. intros S.
  rewrite F; [reflexivity|]. destruct (status_of b); cbn in S; congruence.
Qed.

Lemma pipes_ok {A} acc t (get : list (list Z) -> outcome (common * (A * io_names))) (body : A -> io_names -> list Z -> ostream -> files -> effect Z)
    (may : list setting -> list Z -> list Z -> Prop) (ok : list setting -> option A) :
  (forall argv es ops, command_line t argv es ops -> given "help" es = false ->
     match ok es with Some a => get argv = with_names es a ops | None => exists e, get argv = Throw e end) ->
  (forall es a i input os fs bytes, ok es = Some a -> i <> [] -> fs i = Some bytes -> can_read acc i = true ->
     body a (mk_io i []) input os fs = body a (mk_io [] []) bytes os fs) ->
  (forall es a i o input os fs bytes, ok es = Some a -> may es i o -> i <> [] -> fs i = Some bytes -> can_read acc i = true -> o <> [] -> can_write acc o = true ->
     let run := body a (mk_io [] []) bytes o_open fs in
     status_of (body a (mk_io i o) input os fs) = status_of run /\
     (status_of run = Ret 0 -> body a (mk_io i o) input os fs = (os, file_put o (o_bytes (stdout_of run)) fs, Ret 0))) ->
  pipes acc t may (fun argv input => program get (fun '(a, io) => body a io input) argv).
Proof.
  intros G F P es i o fs bytes H V Ni No Ei Ri Wo piped Lp.
  pose proof (G _ _ _ Lp H) as Gp. destruct (ok es) as [a|] eqn:K.
  - cbn in Gp. split.
    + intros argv input os L. pose proof (G _ _ _ L H) as Ga. rewrite K in Ga. cbn in Ga.
      rewrite (program_runs _ _ _ _ _ _ _ Ga) by assumption || reflexivity.
      rewrite (program_runs _ _ _ _ _ _ _ Gp) by assumption || reflexivity. now rewrite (F es a i input os fs bytes).
    + intros argv input os L M. pose proof (G _ _ _ L H) as Ga. rewrite K in Ga. cbn in Ga. cbv zeta.
      rewrite (program_runs _ _ _ _ _ _ _ Ga) by assumption || reflexivity.
      rewrite (program_runs _ _ _ _ _ _ _ Gp) by assumption || reflexivity.
      exact (exit_pipe _ _ os (fun s => file_put o (o_bytes s) fs) (P es a i o input os fs bytes K M Ni Ei Ri No Wo)).
  - destruct Gp as (e & Gp). split.
    + intros argv input os L. pose proof (G _ _ _ L H) as Ga. rewrite K in Ga. destruct Ga as (e' & Ga). unfold program. now rewrite Ga, Gp.
    + intros argv input os L M. pose proof (G _ _ _ L H) as Ga. rewrite K in Ga. destruct Ga as (e' & Ga). unfold program. rewrite Ga, Gp.
      cbn. split; [reflexivity|discriminate].
Qed.

Theorem C87_pipes z debug acc :
  pipes acc convert_options always (spoc_compress z debug acc) /\
  pipes acc convert_options always (spoc_decompress z debug acc) /\
  (forall sh stod atof, pipes acc filter_options always (spoc_filter z sh stod atof debug acc)) /\
  (forall stod t noise, pipes acc transform_options (fun _ i o => i <> o) (spoc_transform stod t noise acc)) /\
  (forall show rd atof, pipes acc tool_options (fun es _ _ => given "get-field" es = false) (spoc_tool z show rd atof debug acc)).
Proof.
  repeat apply conj.
  - refine (pipes_ok acc _ convert_get_args (fun _ io => convert acc io _) _ (fun _ => Some tt) C84_convert _ _); intros.
    + now apply convert_file.
    + now apply convert_pipe.
  - refine (pipes_ok acc _ convert_get_args (fun _ io => convert acc io _) _ (fun _ => Some tt) C84_convert _ _); intros.
    + now apply convert_file.
    + now apply convert_pipe.
  - intros sh stod atof.
    refine (pipes_ok acc _ (filter_get_args atof) (fun a io => convert acc io _) _ (fun _ => Some _) (C84_filter atof) _ _); intros.
    + now apply convert_file.
    + now apply convert_pipe.
  - intros stod t noise.
    refine (pipes_ok acc _ transform_get_args (transform_body stod t noise acc) _
      (fun es => if existsb (fun s : setting => existsb (String.eqb (fst s)) noise_options) es then None else Some _) _ _ _).
    + intros argv es ops L H. pose proof (C84_transform argv es ops L H) as T. destruct (existsb _ es); [eauto|exact T].
    + intros es a i input os fs bytes _ N E R. unfold transform_body. cbn [io_input io_output].
      rewrite (input_file acc i input fs bytes N E R). cbn [input_stream]. destruct (xa_commands a); [reflexivity|]. cbn [nonempty andb].
      replace (beq_bytes i []) with false by (now destruct i). now rewrite andb_false_r.
    + intros es a i o input os fs bytes _ D N E R No W. unfold transform_body. cbn [io_input io_output].
      rewrite (input_file acc i input fs bytes N E R). cbn [input_stream]. destruct (xa_commands a) as [|c cs]; [now split|]. cbn [nonempty andb].
      destruct (beq_bytes i o) eqn:B; [apply beq_bytes_eq in B; congruence|]. rewrite andb_false_r.
      rewrite (output_pipe acc o _ os fs No W). split; [reflexivity|]. cbv zeta. now intros ->.
  - intros show rd atof.
    refine (pipes_ok acc _ (tool_get_args atof) (tool_body z show rd debug acc) _
      (fun es => match one_command es with Some c => Some _ | None => None end) _ _ _).
    + intros argv es ops L H. pose proof (tool_line atof argv es ops L H) as T. destruct (one_command es); exact T.
    + intros es a i input os fs bytes _ N E R. unfold tool_body. cbn [io_input]. rewrite (input_file acc i input fs bytes N E R).
      cbn [input_stream]. destruct (no_chars _); [reflexivity|]. destruct (beq_bytes _ _); [reflexivity|]. now apply convert_file.
    + intros es a i o input os fs bytes K D N E R No W. destruct (one_command es) as [c|] eqn:O; [|discriminate K]. injection K as <-.
      unfold tool_body. cbn [ta_command]. destruct (no_chars _); [now split|]. destruct (beq_bytes _ (chars "get-field")) eqn:B.
      * apply beq_bytes_eq in B. apply (one_get_field es c O) in B. congruence.
      * now apply convert_pipe.
Qed.

(** ** Example *)

(** In place: "b" is decompressed onto itself, and through a pipe. *)
Example C87_example :
  let piped := spoc_decompress toy false all_rights [] (sp_bytes (p_file true)) at_start p_fs in
  let named := spoc_decompress toy false all_rights (words ["b"; "b"]%string) [] at_start p_fs in
  command_line convert_options [] [] [] /\ command_line convert_options (words ["b"; "b"]%string) [] (words ["b"; "b"]%string)
  /\ p_fs (chars "b") = Some (sp_bytes (p_file true)) /\ status_of piped = Ret 0
  /\ o_bytes (stdout_of piped) = sp_bytes (p_file false) /\ files_of named (chars "b") = Some (sp_bytes (p_file false)).
Proof.
  cbv zeta. split; [constructor|]. split; [apply plain_line; operands|]. split; [now vm_compute|]. split; [now vm_compute|].
  split; now vm_compute.
Qed.

Print Assumptions C87_pipes.
