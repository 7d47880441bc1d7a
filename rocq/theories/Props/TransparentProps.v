(** C116: whether the input is compressed makes no difference to what programs do. *)
From Coq Require Import String ZArith List Bool Lia Permutation.
From Verif.Model Require Import Base Double Arith Header PointRecord Point File Subsampling Compression IO Affine AppConvert AppUtils FilterApp
  MergeApp TileApp TransformApp DiffApp ToolApp SrsApp Asprs Json InfoApp GetOpt Commands Programs Extent Voxel.
From Verif.Spec Require Import Text Streams Files History Apps ZlibContract Format CommandLines Tools Sampling Fields Diffs Tiles.
From Verif.Proofs Require Import BaseFacts HeaderFacts HeaderCutFacts TextFacts CommandFacts OptionFacts FileIOFacts FilterFacts StoreFacts ProgramFacts ToyZlib.
From Verif.Props Require Import FileProps FilterProps MergeProps TileProps TransformProps DiffProps ToolProps ToolProgramProps SrsProps CommandProps
  ProgramProps PipeProps ScenarioProps BuildProps InfoProgramProps.
Import ListNotations.
Open Scope Z_scope.
Open Scope outcome_scope.

(** ** The flag is carried along *)

Definition omap {A B} (f : A -> B) (m : outcome A) : outcome B := x <- m ;; Ret (f x).

Section Flag.
Variable c : bool.
Notation sc := (set_compressed c).

Lemma bind_omap {A B} (m : outcome A) (s : A -> A) (k k' : A -> outcome B) (t : B -> B) :
  (forall a, k (s a) = omap t (k' a)) -> bind (omap s m) k = omap t (bind m k').
Proof. intros H. destruct m; cbn; auto. Qed.

Lemma bind_const {A B} (m : outcome A) (k k' : A -> outcome B) (t : B -> B) :
  (forall a, k a = omap t (k' a)) -> bind m k = omap t (bind m k').
Proof. intros H. destruct m; cbn; auto. Qed.

Lemma omap_if {A} (b : bool) (x y x' y' : outcome A) t : x = omap t x' -> y = omap t y' -> (if b then x else y) = omap t (if b then x' else y').
Proof. now destruct b. Qed.

Lemma clone_flag f : clone_empty (sc f) = omap sc (clone_empty f).
Proof. reflexivity. Qed.

Lemma copy_flag f : file_copy (sc f) = omap sc (file_copy f).
Proof. unfold file_copy, file_ctor. cbn [f_prs set_compressed f_major f_minor f_wkt f_compressed]. now destruct (negb _). Qed.

Lemma push_flag p g : after (push_back p) (sc g) = omap sc (after (push_back p) g).
Proof.
  unfold after, push_back, m_then, m_throw_if, m_update. cbn [f_prs set_compressed].
  now destruct (match f_prs g with [] => false | p0 :: _ => negb (zlen (rextra p) =? zlen (rextra p0)) end).
Qed.

Lemma records_flag prs g : after (set_point_records prs) (sc g) = omap sc (after (set_point_records prs) g).
Proof. unfold after, set_point_records, m_then, m_throw_if, m_update. now destruct (negb _). Qed.

Lemma push_if_flag keep prs : forall g, push_if keep prs (sc g) = omap sc (push_if keep prs g).
Proof.
  induction prs as [|p t IH]; intros g; [reflexivity|]. cbn [push_if]. destruct (keep p); [|apply IH].
  rewrite push_flag. now apply bind_omap.
Qed.

Lemma push_at_flag prs is : forall g, push_at prs is (sc g) = omap sc (push_at prs is g).
Proof.
  induction is as [|i t IH]; intros g; [reflexivity|]. cbn [push_at]. apply bind_const. intros p. rewrite push_flag. now apply bind_omap.
Qed.

Lemma assign_flag flag f e e' : e = omap sc e' -> assign_if flag (sc f) e = omap sc (assign_if flag f e').
Proof. intros ->. unfold assign_if. destruct flag; [|reflexivity]. apply bind_omap. intros g. apply copy_flag. Qed.

Lemma process_flag sh stod args f : filter_process sh stod args (sc f) = omap sc (filter_process sh stod args f).
Proof.
  unfold filter_process. rewrite (assign_flag _ f _ (keep_classes f (fa_keep args))).
  2: { unfold keep_classes. rewrite clone_flag. apply bind_omap. intros g. apply push_if_flag. }
  apply bind_omap. intros f1. rewrite (assign_flag _ f1 _ (remove_classes f1 (fa_remove args))).
  2: { unfold remove_classes. rewrite clone_flag. apply bind_omap. intros g. apply push_if_flag. }
  apply bind_omap. intros f2. rewrite (assign_flag _ f2 _ (unique_xyz sh f2 (fa_seed args))).
  2: { unfold unique_xyz. rewrite clone_flag. apply bind_omap. intros g. apply bind_const. intros is. apply push_at_flag. }
  apply bind_omap. intros f3. rewrite (assign_flag _ f3 _ (subsample_file sh f3 (fa_subsample args) (fa_seed args))).
  2: { unfold subsample_file. rewrite clone_flag. apply bind_omap. intros g. apply bind_const. intros is. apply records_flag. }
  apply bind_omap. intros f4. apply assign_flag.
  unfold remove_coords. rewrite clone_flag. apply bind_omap. intros g.
  destruct (split_blank (fa_coords args)) as [|a [|o [|v [|]]]]; try reflexivity.
  apply bind_const. intros value. apply bind_const. intros compare. destruct (stod v) as [[w n]|]; [|reflexivity]. apply push_if_flag.
Qed.

Lemma points_flag f prs : with_points (sc f) prs = omap sc (with_points f prs).
Proof. unfold with_points. rewrite clone_flag. apply bind_omap. intros g. apply records_flag. Qed.

Lemma resize_flag n g : after (resize_extra_fields n) (sc g) = omap sc (after (resize_extra_fields n) g).
Proof.
  unfold after, resize_extra_fields, resize_extra_fields_alloc. cbn [f_prs set_compressed].
  destruct (resize_loop (fun _ => true) n 0 (f_prs g)) as [prs [x|e|u|]]; reflexivity.
Qed.

Definition is_upsample (args : tool_args) : bool := beq_bytes (cmd_name (ta_command args)) (chars "upsample-classifications").

Lemma tool_flag z rd debug fs args f : is_upsample args = false ->
  tool_command z rd debug fs args (sc f) = omap sc (tool_command z rd debug fs args f).
Proof.
  intros N. unfold is_upsample in N. unfold tool_command. rewrite N.
  match goal with |- bind ?m _ = omap _ (bind ?m' _) => assert (E : m = omap sc m') end.
  { repeat apply omap_if.
    - unfold recenter. apply bind_const. intros _. apply points_flag.
    - unfold recenter. apply bind_const. intros _. apply points_flag.
    - apply bind_const. intros [n r]. repeat apply omap_if; try reflexivity. unfold resize_extra. apply bind_const. intros _. apply bind_const. intros _.
      rewrite copy_flag. apply bind_omap. intros g. apply resize_flag.
    - reflexivity.
    - apply bind_const. intros text. apply bind_const. intros [l r]. unfold set_field. apply bind_const. intros _. apply bind_const. intros _.
      apply bind_const. intros vs. apply bind_const. intros prs. apply points_flag.
    - unfold subtract_min. apply bind_const. intros _. apply points_flag.
    - unfold subtract_min. apply bind_const. intros _. apply points_flag.
    - reflexivity. }
  rewrite E. apply bind_omap. apply copy_flag.
Qed.

Lemma upsample_loop_flag debug vmh l : forall vl i h, upsample_loop debug vmh (sc l) i vl h = upsample_loop debug vmh l i vl h.
Proof.
  induction vl as [|v t IH]; intros i h; [reflexivity|]. cbn [upsample_loop]. destruct (map_find v vmh) as [is|]; [|apply IH].
  change (f_prs (sc l)) with (f_prs l). destruct (vec_get (f_prs l) i) as [p|e|u|]; cbn [bind]; [|reflexivity..].
  destruct (assign_class debug (rc p) is h) as [h'|e|u|]; cbn [bind]; [apply IH|reflexivity..].
Qed.

Lemma upsample_flag z rd debug fs args f : is_upsample args = true ->
  tool_command z rd debug fs args (sc f) = tool_command z rd debug fs args f.
Proof.
  intros N. unfold is_upsample in N. apply beq_bytes_eq in N. unfold tool_command. rewrite N.
  repeat match goal with |- context [beq_bytes (chars ?x) (chars ?y)] =>
    let v := eval vm_compute in (beq_bytes (chars x) (chars y)) in change (beq_bytes (chars x) (chars y)) with v; cbv iota end.
  f_equal. destruct (d_leb _ _); [reflexivity|].
  destruct (open_text fs (cmd_params (ta_command args))) as [bytes|e|u|]; cbn [bind]; [|reflexivity..].
  destruct (read_spoc_file z (i_open bytes)) as [[g s]|e|u|]; cbn [bind]; [|reflexivity..].
  unfold upsample_classifications. change (require_valid debug (sc f)) with (require_valid debug f). change (f_prs (sc f)) with (f_prs f).
  destruct (require_valid debug f); cbn [bind]; [|reflexivity..]. destruct (require_valid debug g); cbn [bind]; [|reflexivity..].
  destruct (require debug _); cbn [bind]; [|reflexivity..]. destruct (file_copy g) as [h|e|u|]; cbn [bind]; [|reflexivity..].
  destruct (get_voxel_indexes _ _) as [vh|e|u|]; cbn [bind]; [|reflexivity..].
  destruct (get_voxel_indexes_ext _ _ _) as [vl|e|u|]; cbn [bind]; [|reflexivity..]. apply upsample_loop_flag.
Qed.

Lemma numbers_flag args f : tile_numbers args (sc f) = tile_numbers args f.
Proof. reflexivity. Qed.

Lemma get_field_flag show debug f l : get_field show debug (sc f) l = get_field show debug f l.
Proof. reflexivity. Qed.

Lemma process_info_flag prt args f : ia_header args = false -> process prt args (sc f) = process prt args f.
Proof. intros H. unfold process, info_object. now rewrite H. Qed.
End Flag.

(** ** The programs *)

(** Two runs on files that are the same but for the flag: either both write their file,
    and these are the same but for the flag, or both end alike and change nothing. *)
Definition runs_alike (z : zlib) (debug c : bool) (os : ostream) (fs : files) (b b' : list Z) (run run' : effect Z) : Prop :=
  (exists fs1 fs2 g, run = (os, fs1, Ret 0) /\ run' = (os, fs2, Ret 0)
     /\ stored z debug fs1 b g /\ stored z debug fs2 b' (set_compressed c g)
     /\ (forall n, n <> b -> fs1 n = fs n) /\ (forall n, n <> b' -> fs2 n = fs n))
  \/ exists r, r <> Ret 0 /\ run = (os, fs, r) /\ run' = (os, fs, r).

Lemma convert_alike z debug c acc a a' b b' work work' input input' os fs bytes bytes' m :
  may_read acc a -> may_read acc a' -> may_write acc b -> may_write acc b' -> fs a = Some bytes -> fs a' = Some bytes' ->
  work bytes = (g <- m ;; Ret (write_spoc_file z debug g)) -> work' bytes' = (g <- omap (set_compressed c) m ;; Ret (write_spoc_file z debug g)) ->
  (forall w, work bytes = Ret w -> exists bs, emits w bs tt) -> (forall w, work' bytes' = Ret w -> exists bs, emits w bs tt) ->
  runs_alike z debug c os fs b b'
    (let '(os, fs, r) := convert acc (mk_io a b) work input os fs in (os, fs, exit_status r))
    (let '(os, fs, r) := convert acc (mk_io a' b') work' input' os fs in (os, fs, exit_status r)).
Proof.
  intros Ra Ra' Wb Wb' Ea Ea' W W' T T'. destruct m as [g|e|u|]; cbn [bind omap] in W, W'.
  - left. destruct (T _ W) as (out & A). destruct (T' _ W') as (out' & A'). apply emits_appends in A, A'.
    rewrite (convert_run _ _ _ _ _ input os fs _ _ Ra Wb Ea W A), (convert_run _ _ _ _ _ input' os fs _ _ Ra' Wb' Ea' W' A').
    exists (file_put b out fs), (file_put b' out' fs), g. split; [reflexivity|]. split; [reflexivity|].
    split; [exists out; split; [apply put_same|exact A]|]. split; [exists out'; split; [apply put_same|exact A']|].
    split; intros n N; now apply put_other.
  - right. rewrite (convert_throws _ _ _ _ _ input os fs _ Ra Ea W), (convert_throws _ _ _ _ _ input' os fs _ Ra' Ea' W'). now exists (Ret (-1)).
  - right. exists (UB u). split; [discriminate|]. destruct Ra as [Na Ra], Ra' as [Na' Ra']. unfold convert. cbn [io_input].
    rewrite (input_file acc a input fs bytes Na Ea Ra), (input_file acc a' input' fs bytes' Na' Ea' Ra'). cbn [bind]. now rewrite W, W'.
  - right. exists Hang. split; [discriminate|]. destruct Ra as [Na Ra], Ra' as [Na' Ra']. unfold convert. cbn [io_input].
    rewrite (input_file acc a input fs bytes Na Ea Ra), (input_file acc a' input' fs bytes' Na' Ea' Ra'). cbn [bind]. now rewrite W, W'.
Qed.

(** spoc_filter with the same options on a file and on the same file compressed *)
Theorem C116_filter : forall z ZS sh stod atof debug acc f c fs a a' b b' argv argv' es input input' os, zlib_ok z ZS -> permutes sh -> all_bytes fs ->
  reads z fs a f -> reads z fs a' (set_compressed c f) -> may_read acc a -> may_read acc a' -> may_write acc b -> may_write acc b' ->
  asks filter_options argv es [a; b] -> asks filter_options argv' es [a'; b'] ->
  runs_alike z debug c os fs b b' (spoc_filter z sh stod atof debug acc argv input os fs) (spoc_filter z sh stod atof debug acc argv' input' os fs).
Proof.
  intros z ZS sh stod atof debug acc f c fs a a' b b' argv argv' es input input' os Hz P B (bytes & Ea & s & R) (bytes' & Ea' & s' & R') Ra Ra' Wb Wb'
    (L & H & V) (L' & H' & V'). unfold spoc_filter.
  rewrite (program_runs _ _ _ _ _ _ _ (C84_filter atof _ _ _ L H)) by assumption || reflexivity.
  rewrite (program_runs _ _ _ _ _ _ _ (C84_filter atof _ _ _ L' H')) by assumption || reflexivity.
  match goal with |- context [filter_work z sh stod debug ?x] => set (args := x) end.
  eapply convert_alike with (m := filter_process sh stod args f); try eassumption.
  - unfold filter_work. now rewrite R.
  - unfold filter_work. rewrite R'. cbn [bind]. now rewrite process_flag.
  - intros w. apply (filter_writes z ZS Hz); [exact P|]. eapply B; eassumption.
  - intros w. apply (filter_writes z ZS Hz); [exact P|]. eapply B; eassumption.
Qed.

Lemma one_upsample es c : one_command es = Some c -> (cmd_name c = chars "upsample-classifications" <-> given "upsample-classifications" es = true).
Proof.
  unfold one_command.
  assert (K : given "upsample-classifications" es = existsb (fun x : string * list Z => String.eqb (fst x) "upsample-classifications") (chosen (map e_name tool_commands) es)).
  { clear. induction es as [|[n o] es IH]; [reflexivity|]. rewrite chosen_cons, existsb_app, <- IH. unfold given at 1. cbn [existsb fst snd].
    change (existsb (fun e : setting => String.eqb (fst e) "upsample-classifications") es) with (given "upsample-classifications" es). f_equal.
    destruct (String.eqb_spec n "upsample-classifications") as [->|N]; [reflexivity|]. destruct (existsb (String.eqb n) _); [|reflexivity].
    cbn. apply String.eqb_neq in N. now rewrite N. }
  assert (C : Forall (fun x : string * list Z => In (fst x) (map e_name tool_commands)) (chosen (map e_name tool_commands) es)).
  { clear. apply Forall_forall. intros x I. unfold chosen in I. apply in_flat_map in I as (s & _ & I).
    destruct (existsb (String.eqb (fst s)) _) eqn:X; [|destruct I]. destruct I as [<-|[]]. apply existsb_exists in X as (y & Iy & Ey).
    apply String.eqb_eq in Ey. cbn [fst]. now rewrite Ey. }
  rewrite K. destruct (chosen (map e_name tool_commands) es) as [|[n v] [|]]; [| |discriminate].
  - intros [= <-]. cbn. split; discriminate.
  - intros [= <-]. cbn [existsb fst cmd_name]. inversion_clear C as [|? ? C1 _]. cbn [fst] in C1.
    repeat (destruct C1 as [<-|C1]; [split; intros X; solve [reflexivity | discriminate X | vm_compute in X; discriminate X]|]). destruct C1.
Qed.

(** The commands of spoc_tool that change the file *)
Theorem C116_tool : forall z ZS show rd atof debug acc f c fs a a' b b' argv argv' es input input' os, zlib_ok z ZS -> reads_bits rd -> all_bytes fs ->
  reads z fs a f -> reads z fs a' (set_compressed c f) -> may_read acc a -> may_read acc a' -> may_write acc b -> may_write acc b' ->
  asks tool_options argv es [a; b] -> asks tool_options argv' es [a'; b'] -> given "get-field" es = false -> given "upsample-classifications" es = false ->
  runs_alike z debug c os fs b b' (spoc_tool z show rd atof debug acc argv input os fs) (spoc_tool z show rd atof debug acc argv' input' os fs).
Proof.
  intros z ZS show rd atof debug acc f c fs a a' b b' argv argv' es input input' os Hz Rd B (bytes & Ea & s & R) (bytes' & Ea' & s' & R') Ra Ra' Wb Wb'
    (L & H & V) (L' & H' & V') NG NU. unfold spoc_tool.
  pose proof (tool_line atof _ _ _ L H) as G. pose proof (tool_line atof _ _ _ L' H') as G'.
  destruct (one_command es) as [cmd|] eqn:O.
  2: { destruct G as (e & G), G' as (e' & G'). right. exists (Ret (-1)). unfold program. rewrite G, G'. split; [discriminate|now split]. }
  cbn [with_names input_and_output] in G, G'.
  rewrite (program_runs _ _ _ _ _ _ _ G) by assumption || reflexivity. rewrite (program_runs _ _ _ _ _ _ _ G') by assumption || reflexivity.
  match goal with |- context [tool_body z show rd debug acc ?x] => set (args := x) end.
  unfold tool_body. destruct (no_chars (cmd_name (ta_command args))).
  { right. exists (Ret (-1)). now split. }
  replace (beq_bytes (cmd_name (ta_command args)) (chars "get-field")) with false.
  2: { symmetry. apply not_true_is_false. intros X. apply beq_bytes_eq in X. apply (one_get_field es cmd O) in X. congruence. }
  eapply convert_alike with (m := tool_command z rd debug (readable acc fs) args f); try eassumption.
  - unfold tool_work. now rewrite R.
  - unfold tool_work. rewrite R'. cbn [bind]. rewrite tool_flag; [reflexivity|]. apply not_true_is_false. intros X. apply beq_bytes_eq in X. apply (one_upsample es cmd O) in X. congruence.
  - intros w. apply (tool_writes z ZS Hz); [exact Rd|now apply readable_bytes|]. eapply B; eassumption.
  - intros w. apply (tool_writes z ZS Hz); [exact Rd|now apply readable_bytes|]. eapply B; eassumption.
Qed.

(** Printing a field, and taking the classifications of another file from this one: what
    comes out does not depend on the flag at all *)
Theorem C116_tool_same : forall z show rd atof debug acc f c fs a a' rest argv argv' es input input' os,
  reads z fs a f -> reads z fs a' (set_compressed c f) -> may_read acc a -> may_read acc a' ->
  asks tool_options argv es (a :: rest) -> asks tool_options argv' es (a' :: rest) -> given "get-field" es || given "upsample-classifications" es = true ->
  spoc_tool z show rd atof debug acc argv input os fs = spoc_tool z show rd atof debug acc argv' input' os fs.
Proof.
  intros z show rd atof debug acc f c fs a a' rest argv argv' es input input' os (bytes & Ea & s & R) (bytes' & Ea' & s' & R') Ra Ra'
    (L & H & V) (L' & H' & V') C. unfold spoc_tool.
  pose proof (tool_line atof _ _ _ L H) as G. pose proof (tool_line atof _ _ _ L' H') as G'.
  destruct (one_command es) as [cmd|] eqn:O.
  2: { destruct G as (e & G), G' as (e' & G'). unfold program. now rewrite G, G'. }
  set (args := mk_targs cmd (final (fun s => s) "field-filename" es []) (final atof "resolution" es d_zero)) in *. destruct Ra as [Na Ra], Ra' as [Na' Ra'].
  assert (K : forall b, tool_body z show rd debug acc args (mk_io a b) input os fs = tool_body z show rd debug acc args (mk_io a' b) input' os fs).
  { intros b. unfold tool_body. destruct (no_chars (cmd_name (ta_command args))); [reflexivity|].
    destruct (beq_bytes (cmd_name (ta_command args)) (chars "get-field")) eqn:Gf.
    - cbn [io_input]. rewrite (input_file acc a input fs bytes Na Ea Ra), (input_file acc a' input' fs bytes' Na' Ea' Ra'). cbn [bind]. rewrite R, R'.
      unfold to_cout, w_bind, w_lift. destruct (consume_field_name (cmd_params (ta_command args))) as [[l r]|e|u|]; cbn [bind]; reflexivity.
    - unfold convert. cbn [io_input io_output]. rewrite (input_file acc a input fs bytes Na Ea Ra), (input_file acc a' input' fs bytes' Na' Ea' Ra'). cbn [bind].
      unfold tool_work. rewrite R, R'. cbn [bind]. rewrite upsample_flag; [reflexivity|].
      destruct (given "upsample-classifications" es) eqn:U.
      + unfold is_upsample. replace (cmd_name (ta_command args)) with (chars "upsample-classifications"); [apply beq_bytes_refl|]. symmetry. now apply (one_upsample es cmd O).
      + rewrite orb_false_r in C. apply (one_get_field es cmd O) in C. cbn [args ta_command] in Gf. rewrite C, beq_bytes_refl in Gf. discriminate Gf. }
  destruct rest as [|b [|b' rest]]; cbn [with_names input_and_output] in G, G'.
  - rewrite (program_runs _ _ _ _ _ _ _ G) by assumption || reflexivity. rewrite (program_runs _ _ _ _ _ _ _ G') by assumption || reflexivity. cbv beta iota. now rewrite K.
  - rewrite (program_runs _ _ _ _ _ _ _ G) by assumption || reflexivity. rewrite (program_runs _ _ _ _ _ _ _ G') by assumption || reflexivity. cbv beta iota. now rewrite K.
  - unfold program. now rewrite G, G'.
Qed.

(** spoc_info without the header's part, on any number of files *)
Definition alike (z : zlib) (acc : access_rights) (fs : files) (a a' : list Z) : Prop :=
  exists f c, reads z fs a f /\ reads z fs a' (set_compressed c f) /\ may_read acc a /\ may_read acc a'.

Theorem C116_info : forall z prt acc fs names names' argv argv' es input os, Forall2 (alike z acc fs) names names' ->
  asks info_options argv es names -> asks info_options argv' es names' -> toggled "header-info" es true = false ->
  spoc_info z prt acc argv input os fs = spoc_info z prt acc argv' input os fs.
Proof.
  intros z prt acc fs names names' argv argv' es input os A (L & H & V) (L' & H' & V') N. unfold spoc_info.
  rewrite (program_runs _ _ _ _ _ _ _ (C84_info _ _ _ L H)) by assumption || reflexivity.
  rewrite (program_runs _ _ _ _ _ _ _ (C84_info _ _ _ L' H')) by assumption || reflexivity.
  match goal with |- context [info_main z prt acc (mk_info_args ?a1 ?a2 ?a3 ?a4 ?a5 ?a6 ?a7 names)] => set (args := mk_info_args a1 a2 a3 a4 a5 a6 a7) end.
  assert (P : forall c f, process prt (args names') (set_compressed c f) = process prt (args names) f) 
    by (intros c f; rewrite process_info_flag by exact N; reflexivity).
  unfold to_cout, info_main. cbn [args ia_fns]. change (mk_info_args _ _ _ _ _ _ _ names) with (args names). change (mk_info_args _ _ _ _ _ _ _ names') with (args names').
  assert (K : forall w, w_iter (fun fn => w_bind (w_lift (open_input acc fs fn)) (fun bytes => from_input (read_spoc_file z (i_open bytes)) (process prt (args names)))) names w
    = w_iter (fun fn => w_bind (w_lift (open_input acc fs fn)) (fun bytes => from_input (read_spoc_file z (i_open bytes)) (process prt (args names')))) names' w).
  { clear - A P. revert P. generalize (args names) as x, (args names') as y. intros x y P.
    induction A as [|a a' l l' (f & c & (bytes & Ea & s & R) & (bytes' & Ea' & s' & R') & (_ & Ra) & (_ & Ra')) A IH]; intros w; [reflexivity|].
    cbn [w_iter]. unfold w_seq, w_bind, w_lift, from_input, open_input, w_bind, w_lift in IH |- *. rewrite Ea, Ea', Ra, Ra', R, R', P.
    destruct (process prt x f w) as [w' [[]|e|u|]]; [apply IH|reflexivity..]. }
  destruct A as [|a a' l l' A1 A]; [reflexivity|]. now rewrite K.
Qed.

(** "a" and "b" differ by compression only. *)
Example C116_example sh stod atof prt :
  let run l := spoc_filter toy sh stod atof false all_rights (words l) [] at_start p_fs in
  let info l := spoc_info toy prt all_rights (words l) [] at_start p_fs in
  reads toy p_fs (chars "a") (p_file false) /\ reads toy p_fs (chars "b") (set_compressed true (p_file false))
  /\ asks filter_options (words ["--keep-class=3"; "a"; "c"]%string) [("keep-class"%string, Some (chars "3"))] (words ["a"; "c"]%string)
  /\ asks filter_options (words ["--keep-class=3"; "b"; "d"]%string) [("keep-class"%string, Some (chars "3"))] (words ["b"; "d"]%string)
  /\ option_map (fun f => (f_compressed f, map rc (f_prs f))) (seen (files_of (run ["--keep-class=3"; "a"; "c"]%string)) "c") = Some (false, [3])
  /\ option_map (fun f => (f_compressed f, map rc (f_prs f))) (seen (files_of (run ["--keep-class=3"; "b"; "d"]%string)) "d") = Some (true, [3])
  /\ files_of (run ["--keep-class=3"; "a"; "c"]%string) (chars "c") <> files_of (run ["--keep-class=3"; "b"; "d"]%string) (chars "d")
  /\ Forall2 (alike toy all_rights p_fs) (words ["a"; "b"]%string) (words ["b"; "a"]%string).
Proof.
  cbv zeta. split; [apply p_reads|]. split; [exact (proj2 p_reads)|].
  split; [option_asked "keep-class"%string "k"%string "3"%string ["a"; "c"]%string|]. split; [option_asked "keep-class"%string "k"%string "3"%string ["b"; "d"]%string|].
  split; [now vm_compute|]. split; [now vm_compute|]. split; [vm_compute; discriminate|].
  repeat constructor.
  - exists (p_file false), true. split; [apply p_reads|]. split; [exact (proj2 p_reads)|]. split; apply p_rights; discriminate.
  - exists (p_file true), false. split; [apply p_reads|]. split; [exact (proj1 p_reads)|]. split; apply p_rights; discriminate.
Qed.

Print Assumptions C116_filter.
Print Assumptions C116_tool.
Print Assumptions C116_tool_same.
Print Assumptions C116_info.
