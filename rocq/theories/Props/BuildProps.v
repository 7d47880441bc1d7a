(** C111: a debug build and a release build of the programs do the same; the
    contracts ([REQUIRE], [ENSURE]) hold, whatever the input. *)
From Coq Require Import String ZArith List Bool Lia.
From Verif.Model Require Import Base Double Arith Header PointRecord Point Extent Voxel File Compression IO GetOpt Commands
  AppUtils Par AppConvert FilterApp MergeApp TileApp SrsApp ToolApp TransformApp Programs Subsampling.
From Verif.Spec Require Import Format Streams Files Fields.
From Verif.Proofs Require Import BaseFacts OrderFacts HeaderFacts FileFacts HistoryFacts FileIOFacts FieldFacts SubsampleFacts ToyZlib.
Import ListNotations.
Open Scope Z_scope.
Open Scope outcome_scope.

(** ** Headers *)

Theorem C111_header_valid : forall h, header_is_valid h = true <->
  h_sig h = [83; 80; 79; 67] /\ Z.of_nat (List.length (h_wkt h)) <= 65535.
Proof.
  intros h. unfold header_is_valid, check_signature. rewrite andb_true_iff, negb_true_iff, Z.ltb_ge, beq_bytes_eq. reflexivity.
Qed.

(** Every header that was read from bytes or constructed is valid: the contracts of
    spoc_transform hold. *)
Theorem C111_headers : (forall s h s', is_bytes (i_rest s) -> read_header s = Ret (h, s') -> header_is_valid h = true)
  /\ (forall major minor wkt e n c h, header_ctor major minor wkt e n c = Ret h -> header_is_valid h = true)
  /\ header_is_valid header_default = true.
Proof.
  split; [|split].
  - intros s h s' B H. apply C111_header_valid. destruct (read_header_good s h s' B H) as [[G1 G2 G3 G4 G5 G6 G7 G8] _].
    unfold zlen in *. auto.
  - intros major minor wkt e n c h H. unfold header_ctor in H. destruct (Z.ltb_spec 65535 (zlen wkt)); [discriminate H|].
    injection H as <-. apply C111_header_valid. cbn [h_sig h_wkt]. unfold zlen in *. split; [reflexivity|lia].
  - reflexivity.
Qed.

(** ** The files are valid *)

Lemma ctor_uniform : forall a b w c prs f, file_ctor a b w c prs = Ret f -> uniform (f_prs f).
Proof.
  intros a b w c prs f H. unfold file_ctor in H. destruct (all_same_size_extra prs) eqn:E; cbn [negb] in H; [|discriminate H].
  injection H as <-. now apply all_same_size_uniform.
Qed.

Lemma copy_uniform : forall f g, file_copy f = Ret g -> uniform (f_prs g).
Proof. intros f g. apply ctor_uniform. Qed.

Lemma read_uniform : forall z s f s', read_spoc_file z s = Ret (f, s') -> uniform (f_prs f).
Proof.
  intros z s f s' H. unfold read_spoc_file in H. apply bind_Ret_inv in H as ([h s1] & _ & H).
  apply bind_Ret_inv in H as ([prs s2] & _ & H). apply bind_Ret_inv in H as (g & G & H). injection H as <- _.
  exact (ctor_uniform _ _ _ _ _ _ G).
Qed.

Lemma read_u_uniform : forall s f s', read_spoc_file_uncompressed s = Ret (f, s') -> uniform (f_prs f).
Proof.
  intros s f s' H. unfold read_spoc_file_uncompressed in H. apply bind_Ret_inv in H as ([h s1] & _ & H).
  destruct (negb _); [discriminate H|].
  apply bind_Ret_inv in H as ([prs s2] & _ & H). apply bind_Ret_inv in H as (g & G & H). injection H as <- _.
  exact (ctor_uniform _ _ _ _ _ _ G).
Qed.

Lemma read_c_uniform : forall z s f s', read_spoc_file_compressed z s = Ret (f, s') -> uniform (f_prs f).
Proof.
  intros z s f s' H. unfold read_spoc_file_compressed in H. apply bind_Ret_inv in H as ([h s1] & _ & H).
  destruct (h_compressed h =? 0); [discriminate H|].
  apply bind_Ret_inv in H as ([prs s2] & _ & H). apply bind_Ret_inv in H as (g & G & H). injection H as <- _.
  exact (ctor_uniform _ _ _ _ _ _ G).
Qed.

Lemma push_uniform : forall p g g', uniform (f_prs g) -> after (push_back p) g = Ret g' -> uniform (f_prs g').
Proof.
  intros p g g' U H. unfold after, push_back, m_then, m_throw_if, m_update in H.
  destruct (match f_prs g with [] => false | p0 :: _ => negb (zlen (rextra p) =? zlen (rextra p0)) end) eqn:C; [discriminate H|].
  injection H as <-. cbn [f_prs with_prs]. now apply uniform_push.
Qed.

Lemma push_at_uniform : forall prs is g g', uniform (f_prs g) -> push_at prs is g = Ret g' -> uniform (f_prs g').
Proof.
  intros prs. induction is as [|i t IH]; intros g g' U H; cbn [push_at] in H.
  - now injection H as <-.
  - apply bind_Ret_inv in H as (p & _ & H). apply bind_Ret_inv in H as (g1 & G & H).
    eapply IH; [|exact H]. eapply push_uniform; eassumption.
Qed.

Lemma append_uniform : forall id prs g g', uniform (f_prs g) -> append_loop id prs g = Ret g' -> uniform (f_prs g').
Proof.
  intros id. induction prs as [|p t IH]; intros g g' U H; cbn [append_loop] in H.
  - now injection H as <-.
  - apply bind_Ret_inv in H as (g1 & G & H). eapply IH; [|exact H]. eapply push_uniform; eassumption.
Qed.

Lemma merge_uniform : forall z args inputs i g w g' w', uniform (f_prs g) ->
  merge_loop z args i inputs g w = Ret (g', w') -> uniform (f_prs g').
Proof.
  intros z args. induction inputs as [|[bytes|] t IH]; intros i g w g' w' U H; cbn [merge_loop] in H; [|
    |discriminate H].
  - now injection H as <- _.
  - apply bind_Ret_inv in H as ([f s] & _ & H). apply bind_Ret_inv in H as ([g1 w1] & G & H).
    eapply IH; [|exact H]. unfold append in G. apply bind_Ret_inv in G as (w2 & _ & G).
    apply bind_Ret_inv in G as (g2 & G & E). injection E as <- _. eapply append_uniform; [|exact G].
    destruct (i =? 0), (f_compressed f); exact U.
Qed.

Lemma assign_uniform : forall flag f e g, uniform (f_prs f) -> assign_if flag f e = Ret g -> uniform (f_prs g).
Proof.
  intros flag f e g U H. unfold assign_if in H. destruct flag; [|now injection H as <-].
  apply bind_Ret_inv in H as (h & _ & H). eapply copy_uniform; exact H.
Qed.

Lemma process_uniform : forall sh stod args f g, uniform (f_prs f) -> filter_process sh stod args f = Ret g -> uniform (f_prs g).
Proof.
  intros sh stod args f g U H. unfold filter_process in H.
  apply bind_Ret_inv in H as (f1 & E1 & H). apply assign_uniform in E1; [|exact U].
  apply bind_Ret_inv in H as (f2 & E2 & H). apply assign_uniform in E2; [|exact E1].
  apply bind_Ret_inv in H as (f3 & E3 & H). apply assign_uniform in E3; [|exact E2].
  apply bind_Ret_inv in H as (f4 & E4 & H). apply assign_uniform in E4; [|exact E3].
  exact (assign_uniform _ _ _ _ E4 H).
Qed.

(** ** Writing *)

Lemma write_same : forall z f, uniform (f_prs f) -> write_spoc_file z true f = write_spoc_file z false f.
Proof.
  intros z f U. unfold write_spoc_file, write_spoc_file_compressed, write_spoc_file_uncompressed.
  now rewrite !require_valid_good.
Qed.
Lemma write_c_same : forall z f, uniform (f_prs f) -> write_spoc_file_compressed z true f = write_spoc_file_compressed z false f.
Proof. intros z f U. unfold write_spoc_file_compressed. now rewrite !require_valid_good. Qed.
Lemma write_u_same : forall f, uniform (f_prs f) -> write_spoc_file_uncompressed true f = write_spoc_file_uncompressed false f.
Proof. intros f U. unfold write_spoc_file_uncompressed. now rewrite !require_valid_good. Qed.

Lemma convert_same : forall acc io work work' input os fs, (forall bytes, work bytes = work' bytes) ->
  convert acc io work input os fs = convert acc io work' input os fs.
Proof.
  intros acc io work work' input os fs H. unfold convert.
  destruct (input_stream acc (io_input io) input fs) as [b|e|u|]; cbn [bind]; try reflexivity. now rewrite H.
Qed.

Lemma program_same : forall {A} (get : list (list Z) -> outcome (common * A)) body body' argv os fs,
  (forall c a, get argv = Ret (c, a) -> body a os fs = body' a os fs) -> program get body argv os fs = program get body' argv os fs.
Proof.
  intros A get body body' argv os fs H. unfold program. destruct (get argv) as [[c a]|e|u|]; try reflexivity.
  now rewrite (H c a eq_refl).
Qed.

(** ** Programs whose contracts never fire *)

(** Standard output, the files and the exit status are the same in both builds. *)
Theorem C111_builds : forall z sh stod atof acc argv input os fs,
  spoc_compress z true acc argv input os fs = spoc_compress z false acc argv input os fs
  /\ spoc_decompress z true acc argv input os fs = spoc_decompress z false acc argv input os fs
  /\ spoc_filter z sh stod atof true acc argv input os fs = spoc_filter z sh stod atof false acc argv input os fs
  /\ spoc_tile z atof true acc argv input os fs = spoc_tile z atof false acc argv input os fs
  /\ spoc_merge z true acc argv os fs = spoc_merge z false acc argv os fs
  /\ spoc_srs z true acc argv input os fs = spoc_srs z false acc argv input os fs.
Proof.
  intros z sh stod atof acc argv input os fs. split; [|split; [|split; [|split; [|split]]]]; apply program_same.
  - intros c [x io] _. apply convert_same. intros bytes. unfold compress_work.
    destruct (read_spoc_file_uncompressed (i_open bytes)) as [[f s]|e|u|] eqn:E; try reflexivity. cbn [bind].
    now rewrite write_c_same by exact (read_u_uniform _ _ _ E).
  - intros c [x io] _. apply convert_same. intros bytes. unfold decompress_work.
    destruct (read_spoc_file_compressed z (i_open bytes)) as [[f s]|e|u|] eqn:E; try reflexivity. cbn [bind].
    now rewrite write_u_same by exact (read_c_uniform _ _ _ _ E).
  - intros c [a io] _. apply convert_same. intros bytes. unfold filter_work.
    destruct (read_spoc_file z (i_open bytes)) as [[f s]|e|u|] eqn:E; try reflexivity. cbn [bind].
    destruct (filter_process sh stod a f) as [g|e|u|] eqn:G; try reflexivity. cbn [bind].
    now rewrite write_same by exact (process_uniform _ _ _ _ _ (read_uniform _ _ _ _ E) G).
  - intros c [a fn] _. destruct (input_stream acc fn input fs) as [bytes|e|u|]; try reflexivity.
    enough (T : tile_tool z true acc a bytes fs = tile_tool z false acc a bytes fs) by (now rewrite T).
    unfold tile_tool. destruct (if match ta_fn a, ta_prefix a with None, [] => true | _, _ => false end then _ else _) as [[f idx]|e|u|]; try reflexivity.
    generalize (get_tile_map idx). intros m. generalize (sort_keys (map fst m)). intros keys. revert fs.
    induction keys as [|k t IH]; intros fs; [reflexivity|]. cbn [write_tiles].
    destruct (v <- tile_at k m ;; make_tile f v) as [tile|e|u|] eqn:M; try reflexivity.
    apply bind_Ret_inv in M as (v & _ & M). unfold make_tile in M. apply push_at_uniform in M; [|apply uniform_nil].
    destruct (negb (ta_force a) && _); [reflexivity|]. destruct (negb (can_write acc _)); [reflexivity|].
    rewrite write_same by exact M. destruct (write_spoc_file z false tile _) as [o r]. destruct r; [apply IH|reflexivity|reflexivity|reflexivity].
  - intros c [a fns] _. unfold to_cout. enough (T : forall o, merge_tool z true a (map (readable acc fs) fns) o = merge_tool z false a (map (readable acc fs) fns) o)
      by (now rewrite T).
    intros o. unfold merge_tool, w_bind, w_lift.
    destruct (merge_files z a (map (readable acc fs) fns)) as [[g w]|e|u|] eqn:M; try reflexivity.
    unfold merge_files in M. destruct (_ <? _); [discriminate M|]. apply merge_uniform in M; [|apply uniform_nil].
    now rewrite write_same.
  - intros c a _. enough (T : srs_main z true acc a input fs os = srs_main z false acc a input fs os) by (now rewrite T).
    unfold srs_main. destruct (sa_fns a) as [|f0 ft] eqn:Ef.
    + unfold srs_stdin, from_input, w_bind, w_lift. destruct (sa_set a); [|reflexivity].
      destruct (read_spoc_file z (i_open input)) as [[f s]|e|u|] eqn:E; try reflexivity.
      now rewrite write_same by exact (read_uniform _ _ _ _ E).
    + destruct (sa_set a); [|reflexivity]. unfold srs_set. rewrite Ef. destruct ft as [|f1 [|f2 ft]]; try reflexivity.
      destruct (open_input acc fs f0) as [b|e|u|]; try reflexivity. cbn [bind].
      destruct (read_spoc_file z (i_open b)) as [[f s]|e|u|] eqn:E; try reflexivity.
      now rewrite write_same by exact (read_uniform _ _ _ _ E).
Qed.

(** ** spoc_tool *)

Lemma assign_same : forall c js h, assign_class true c js h = assign_class false c js h.
Proof.
  intros c. induction js as [|j t IH]; intros h; [reflexivity|]. cbn [assign_class].
  destruct (vec_get (f_prs h) j) as [r|e|u|] eqn:V; try reflexivity. cbn [bind].
  apply vec_get_znth in V. apply znth_Some_range in V.
  assert (E : after (set_point_record true j (set_c c r)) h = after (set_point_record false j (set_c c r)) h).
  { unfold after, set_point_record, m_then, m_throw_if. cbn [andb].
    destruct (Z.ltb_spec j (zlen (f_prs h))); [reflexivity|lia]. }
  rewrite E. destruct (after (set_point_record false j (set_c c r)) h); try reflexivity. cbn [bind]. apply IH.
Qed.

Lemma upsample_same : forall vmh l vl i h, upsample_loop true vmh l i vl h = upsample_loop false vmh l i vl h.
Proof.
  intros vmh l. induction vl as [|v t IH]; intros i h; [reflexivity|]. cbn [upsample_loop].
  destruct (map_find v vmh) as [is|]; [|apply IH].
  destruct (vec_get (f_prs l) i) as [p|e|u|]; try reflexivity. cbn [bind]. rewrite assign_same.
  destruct (assign_class false (rc p) is h); try reflexivity. cbn [bind]. apply IH.
Qed.

Lemma tool_command_same : forall z rd fs args f, uniform (f_prs f) ->
  (cmd_name (ta_command args) = chars "upsample-classifications" -> d_is_nan (ta_resolution args) = false) ->
  tool_command z rd true fs args f = tool_command z rd false fs args f.
Proof.
  intros z rd fs args f U N. unfold tool_command.
  assert (R : forall b, recenter true b f = recenter false b f) by (intros b; unfold recenter; now rewrite !require_valid_good).
  assert (M : forall b, subtract_min true b f = subtract_min false b f) by (intros b; unfold subtract_min; now rewrite !require_valid_good).
  rewrite !R, !M. f_equal.
  destruct (beq_bytes _ (chars "recenter-xy")); [reflexivity|].
  destruct (beq_bytes _ (chars "recenter-xyz")); [reflexivity|].
  destruct (beq_bytes _ (chars "resize-extra")).
  { destruct (stoi _) as [[n k]|e|u|]; try reflexivity. cbn [bind].
    destruct (Z.ltb_spec n 0); [reflexivity|]. destruct (255 <? n); [reflexivity|].
    unfold resize_extra. rewrite !require_valid_good by exact U. unfold require.
    destruct (Z.leb_spec 0 n); [reflexivity|lia]. }
  destruct (beq_bytes _ (chars "set-field")).
  { destruct (no_chars _); [reflexivity|]. destruct (open_text fs _) as [t|e|u|]; try reflexivity. cbn [bind].
    destruct (consume_field_name _) as [[l r]|e|u|] eqn:C; try reflexivity. cbn [bind].
    apply consume_name_inv in C as (tail & fld & _ & _ & _ & _ & Nm).
    unfold set_field. rewrite !require_valid_good by exact U. unfold require.
    rewrite (proj1 (names_accepted l)) by eauto. reflexivity. }
  destruct (beq_bytes _ (chars "subtract-min-xy")); [reflexivity|].
  destruct (beq_bytes _ (chars "subtract-min-xyz")); [reflexivity|].
  destruct (beq_bytes _ (chars "upsample-classifications")) eqn:B; [|reflexivity].
  apply beq_bytes_eq in B. specialize (N B).
  destruct (d_leb (ta_resolution args) d_zero) eqn:L; [reflexivity|].
  destruct (open_text fs _) as [t|e|u|]; try reflexivity. cbn [bind].
  destruct (read_spoc_file z (i_open t)) as [[g s]|e|u|] eqn:E; try reflexivity. cbn [bind].
  unfold upsample_classifications. rewrite !require_valid_good by (exact U || exact (read_uniform _ _ _ _ E)).
  assert (G : d_gtb (ta_resolution args) d_zero = true).
  { unfold d_gtb. destruct (d_ltb d_zero (ta_resolution args)) eqn:G; [reflexivity|exfalso].
    unfold d_ltb, d_leb in *. rewrite N in *. change (d_is_nan d_zero) with false in *. cbn [negb andb orb] in *. lia. }
  unfold require. rewrite G. cbn [negb andb bind].
  destruct (file_copy g); try reflexivity. cbn [bind].
  destruct (get_voxel_indexes _ _); try reflexivity. cbn [bind].
  destruct (get_voxel_indexes_ext _ _ _); try reflexivity. cbn [bind]. apply upsample_same.
Qed.

(** spoc_tool, unless the command is upsample-classifications and the resolution is not
    a number *)
Theorem C111_tool : forall z show rd atof acc argv input os fs,
  (forall c a io, tool_get_args atof argv = Ret (c, (a, io)) ->
     cmd_name (ta_command a) = chars "upsample-classifications" -> d_is_nan (ta_resolution a) = false) ->
  spoc_tool z show rd atof true acc argv input os fs = spoc_tool z show rd atof false acc argv input os fs.
Proof.
  intros z show rd atof acc argv input os fs N. apply program_same. intros c [a io] G. specialize (N c a io G). unfold tool_body.
  destruct (no_chars _); [reflexivity|]. destruct (beq_bytes _ (chars "get-field")).
  - unfold to_cout. match goal with |- context [w_bind ?x ?y os] => set (W := w_bind x y) end.
    match goal with |- _ = (let '(_, _) := w_bind ?x ?y os in _) => set (W' := w_bind x y) end.
    enough (T : W os = W' os) by (now rewrite T). unfold W, W', w_bind, w_lift. clear W W'.
    destruct (bytes <- input_stream acc (io_input io) input fs ;; read_spoc_file z (i_open bytes)) as [[f s]|e|u|]; try reflexivity.
    destruct (consume_field_name _) as [[l r]|e|u|] eqn:C; try reflexivity.
    apply consume_name_inv in C as (tail & fld & _ & _ & _ & _ & Nm).
    unfold get_field, require. rewrite (proj1 (names_accepted l)) by eauto. reflexivity.
  - apply convert_same. intros bytes. unfold tool_work.
    destruct (read_spoc_file z (i_open bytes)) as [[f s]|e|u|] eqn:E; try reflexivity. cbn [bind].
    rewrite tool_command_same by (exact N || exact (read_uniform _ _ _ _ E)).
    destruct (tool_command z rd false (readable acc fs) a f) as [g|e|u|] eqn:T; try reflexivity. cbn [bind].
    unfold tool_command in T. apply bind_Ret_inv in T as (h & _ & T). now rewrite write_same by exact (copy_uniform _ _ T).
Qed.

(** A resolution that is not a number passes the check of the program ("must be > 0.0").
    The debug build then stops with exit status -1; the release build goes on: it is
    undefined behaviour when there are points, and a copy of an empty file. *)
Definition build_words (l : list string) : list (list Z) := map chars l.
Definition build_rights : access_rights := mk_access (fun _ => true) (fun _ => true).
(** a header that announces one record, and a record of zeros *)
Definition one_zero : list Z := [83; 80; 79; 67; 0; 1; 0; 0; 0; 1; 0; 0; 0; 0; 0; 0; 0; 0] ++ repeat 0 40.
Theorem C111_not_a_number : forall show rd,
  let atof := fun _ => 9221120237041090560 (* NaN *) in
  let argv := build_words ["--upsample-classifications=a"; "--resolution=nan"; "a"; "c"]%string in
  let run debug bytes := spoc_tool toy show rd atof debug build_rights argv [] o_open
    (fun n => if beq_bytes n (chars "a") then Some bytes else None) in
  snd (run true []) = Ret (-1) /\ snd (run false []) = Ret 0
  /\ snd (run true one_zero) = Ret (-1) /\ snd (run false one_zero) = UB ub_float_to_int.
Proof. intros show rd atof argv run. repeat split; vm_compute; reflexivity. Qed.

(** The hypothesis of [C111_tool] holds of a resolution that is a number, and both builds
    then write the file. *)
Example C111_example : forall show rd,
  let argv := build_words ["--upsample-classifications=a"; "--resolution=2"; "a"; "c"]%string in
  let atof := fun _ => 4611686018427387904 in
  let run debug := spoc_tool toy show rd atof debug build_rights argv [] o_open
    (fun n => if beq_bytes n (chars "a") then Some one_zero else None) in
  (forall c a io, tool_get_args atof argv = Ret (c, (a, io)) ->
     cmd_name (ta_command a) = chars "upsample-classifications" -> d_is_nan (ta_resolution a) = false)
  /\ snd (run true) = Ret 0 /\ snd (fst (run true)) (chars "c") = Some one_zero.
Proof.
  intros show rd argv atof run. split; [|split; vm_compute; reflexivity].
  intros c a io H _. vm_compute in H. injection H as <- <- <-. vm_compute. reflexivity.
Qed.

Print Assumptions C111_header_valid.
Print Assumptions C111_headers.
Print Assumptions C111_builds.
Print Assumptions C111_tool.
Print Assumptions C111_not_a_number.
