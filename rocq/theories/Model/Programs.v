(** Model of the programs from the command line to the exit status: the [main] functions.

    A program gets its command line, what can be read from standard input, and the files.
    What can be seen afterwards is standard output, the files and the value that [main]
    returns.  The logs ([clog], [cerr]) are left out.  Files are known by their names: two
    names for one file (links) are left out. *)
From Coq Require Import ZArith List Bool String.
From Verif.Model Require Import Base Double Arith Header PointRecord Point File Subsampling Compression IO Affine AppConvert AppUtils FilterApp
  MergeApp TileApp TransformApp DiffApp ToolApp SrsApp Asprs Json InfoApp GetOpt Commands.
Import ListNotations.
Open Scope Z_scope.
Open Scope outcome_scope.

(** ** The help text *)

(** spoc/cmd.h:29-42, one option *)
Definition help_line (o : long_option) : list Z :=
  [9] ++ chars "--" ++ lo_name o
  ++ (if lo_arg o then chars "=<ARG>" else [])
  ++ (if lo_val o <? 256 then chars ", -" ++ [lo_val o] ++ (if lo_arg o then chars " <ARG>" else []) else [])
  ++ [10].

(** spoc/cmd.h:14-43; the options end with an empty one, which is not printed *)
Definition print_help (usage : list Z) (longs : list long_option) : list Z :=
  chars "Usage:" ++ [10; 9] ++ usage ++ [10; 10] ++ chars "Options:" ++ [10] ++ List.concat (map help_line longs).

(** ** Running a program *)

(** Standard output, the files and how the program went on or ended *)
Definition effect (A : Type) : Type := (ostream * files * outcome A)%type.

(** e.g. apps/compress/compress.cpp:25-29 *)
Definition version_text : list Z :=
  chars "Version " ++ put_int MAJOR_VERSION ++ chars "." ++ put_int MINOR_VERSION ++ [10].

(** [return 0] *)
Definition return_0 (r : outcome unit) : outcome Z := bind r (fun _ => Ret 0).

(** The handler of [main]: [catch (const exception &e) { ...; return -1; }] *)
Definition exit_status (r : outcome Z) : outcome Z := match r with Throw _ => Ret (-1) | _ => r end.

(** The frame of all [main] functions, e.g. apps/compress/compress.cpp:8-35 and 52-58 *)
Definition program {A} (get : list (list Z) -> outcome (common * A)) (body : A -> ostream -> files -> effect Z)
    (argv : list (list Z)) (os : ostream) (fs : files) : effect Z :=
  match get argv with
  | Ret (c, a) =>
    if c_version c then let '(os, r) := w_put version_text os in (os, fs, return_0 r)
    else if c_help c then (os, fs, Ret 0)
    else let '(os, fs, r) := body a os fs in (os, fs, exit_status r)
  | Throw _ => (os, fs, Ret (-1))
  | UB u => (os, fs, UB u)
  | Hang => (os, fs, Hang)
  end.

(** spoc/app_utils.h:18-46: what can be read from the [input_stream] *)
Definition input_stream (acc : access_rights) (fn input : list Z) (fs : files) : outcome (list Z) :=
  match fn with [] => Ret input | _ => open_input acc fs fn end.

(** spoc/app_utils.h:49-77 and what is then written to the [output_stream] *)
Definition output_stream (acc : access_rights) (fn : list Z) (w : writer unit) (os : ostream) (fs : files) : effect Z :=
  match fn with
  | [] => let '(os, r) := w os in (os, fs, return_0 r)
  | _ =>
    if negb (can_write acc fn) then (os, fs, Throw (runtime_error "Could not open file for writing"))
    else let '(o, r) := w o_open in (os, file_put fn (o_bytes o) fs, return_0 r)
  end.

(** Programs that work on all of the input before they open the output *)
Definition convert (acc : access_rights) (io : io_names) (work : list Z -> outcome (writer unit)) (input : list Z)
    (os : ostream) (fs : files) : effect Z :=
  match (bytes <- input_stream acc (io_input io) input fs ;; work bytes) with
  | Ret w => output_stream acc (io_output io) w os fs
  | Throw e => (os, fs, Throw e)
  | UB u => (os, fs, UB u)
  | Hang => (os, fs, Hang)
  end.

(** Programs that only write to standard output *)
Definition to_cout (w : writer unit) (os : ostream) (fs : files) : effect Z :=
  let '(os, r) := w os in (os, fs, return_0 r).

(** ** The programs *)

(** apps/compress/compress.cpp:37-50 *)
Definition compress_work (z : zlib) (debug : bool) (bytes : list Z) : outcome (writer unit) :=
  '(f, _) <- read_spoc_file_uncompressed (i_open bytes) ;;
  Ret (write_spoc_file_compressed z debug (set_compressed true f)).
Definition spoc_compress (z : zlib) (debug : bool) (acc : access_rights) (argv : list (list Z)) (input : list Z)
    : ostream -> files -> effect Z :=
  program convert_get_args (fun '(_, io) => convert acc io (compress_work z debug) input) argv.

(** apps/decompress/decompress.cpp:37-50 *)
Definition decompress_work (z : zlib) (debug : bool) (bytes : list Z) : outcome (writer unit) :=
  '(f, _) <- read_spoc_file_compressed z (i_open bytes) ;;
  Ret (write_spoc_file_uncompressed debug (set_compressed false f)).
Definition spoc_decompress (z : zlib) (debug : bool) (acc : access_rights) (argv : list (list Z)) (input : list Z)
    : ostream -> files -> effect Z :=
  program convert_get_args (fun '(_, io) => convert acc io (decompress_work z debug) input) argv.

(** apps/filter/filter.cpp:57-79 *)
Definition filter_work (z : zlib) (sh : shuffler) (stod : stod_fn) (debug : bool) (args : filter_args) (bytes : list Z)
    : outcome (writer unit) :=
  '(f, _) <- read_spoc_file z (i_open bytes) ;;
  g <- filter_process sh stod args f ;;
  Ret (write_spoc_file z debug g).
Definition spoc_filter (z : zlib) (sh : shuffler) (stod : stod_fn) (atof : atof_fn) (debug : bool) (acc : access_rights)
    (argv : list (list Z)) (input : list Z) : ostream -> files -> effect Z :=
  program (filter_get_args atof) (fun '(a, io) => convert acc io (filter_work z sh stod debug a) input) argv.

(** The files that can be opened for reading *)
Definition readable (acc : access_rights) (fs : files) : files := fun fn => if can_read acc fn then fs fn else None.

(** apps/tool/tool.cpp:39-125; get-field writes to [cout] and not to the output file *)
Definition tool_work (z : zlib) (rd : read_double_fn) (debug : bool) (fs : files) (args : tool_args) (bytes : list Z)
    : outcome (writer unit) :=
  '(f, _) <- read_spoc_file z (i_open bytes) ;;
  g <- tool_command z rd debug fs args f ;;
  Ret (write_spoc_file z debug g).
Definition tool_body (z : zlib) (show : show_double_fn) (rd : read_double_fn) (debug : bool) (acc : access_rights)
    (args : tool_args) (io : io_names) (input : list Z) (os : ostream) (fs : files) : effect Z :=
  if no_chars (cmd_name (ta_command args)) then (os, fs, Throw (runtime_error "No command was specified"))
  else if beq_bytes (cmd_name (ta_command args)) (chars "get-field") then
    to_cout (w_bind (w_lift (bytes <- input_stream acc (io_input io) input fs ;; read_spoc_file z (i_open bytes))) (fun '(f, _) =>
             w_bind (w_lift (consume_field_name (cmd_params (ta_command args)))) (fun '(l, _) => get_field show debug f l))) os fs
  else convert acc io (tool_work z rd debug (readable acc fs) args) input os fs.
Definition spoc_tool (z : zlib) (show : show_double_fn) (rd : read_double_fn) (atof : atof_fn) (debug : bool) (acc : access_rights)
    (argv : list (list Z)) (input : list Z) : ostream -> files -> effect Z :=
  program (tool_get_args atof) (fun '(a, io) => tool_body z show rd debug acc a io input) argv.

(** apps/transform/transform.cpp:37-60: the output is opened, and so emptied, before the
    input is read *)
Definition transform_body (stod : stod_fn) (t : trig) (noise : noise_fn) (acc : access_rights) (args : transform_args)
    (io : io_names) (input : list Z) (os : ostream) (fs : files) : effect Z :=
  match xa_commands args with
  | [] => (os, fs, Throw (runtime_error "No command was specified"))
  | _ =>
    match input_stream acc (io_input io) input fs with
    | Ret bytes =>
      let bytes := if nonempty (io_input io) && beq_bytes (io_input io) (io_output io) then [] else bytes in
      output_stream acc (io_output io) (transform_apply stod t noise (xa_commands args) (xa_seed args) (i_open bytes)) os fs
    | Throw e => (os, fs, Throw e)
    | UB u => (os, fs, UB u)
    | Hang => (os, fs, Hang)
    end
  end.
Definition spoc_transform (stod : stod_fn) (t : trig) (noise : noise_fn) (acc : access_rights)
    (argv : list (list Z)) (input : list Z) : ostream -> files -> effect Z :=
  program transform_get_args (fun '(a, io) => transform_body stod t noise acc a io input) argv.

(** apps/diff/diff.cpp:49-80; both files are opened before they are read *)
Definition spoc_diff (z : zlib) (acc : access_rights) (argv : list (list Z)) (os : ostream) (fs : files) : effect Z :=
  program diff_get_args (fun '(a, (fn1, fn2)) os fs =>
    (os, fs, b1 <- open_input acc fs fn1 ;; b2 <- open_input acc fs fn2 ;; diff_run z a b1 b2)) argv os fs.

(** apps/tile/tile.cpp:57-196 *)
Definition spoc_tile (z : zlib) (atof : atof_fn) (debug : bool) (acc : access_rights) (argv : list (list Z)) (input : list Z)
    : ostream -> files -> effect Z :=
  program (tile_get_args atof) (fun '(a, fn) os fs =>
    match input_stream acc fn input fs with
    | Ret bytes => let '(fs, r) := tile_tool z debug acc a bytes fs in (os, fs, return_0 r)
    | Throw e => (os, fs, Throw e)
    | UB u => (os, fs, UB u)
    | Hang => (os, fs, Hang)
    end) argv.

(** apps/merge/merge.cpp:47-138 *)
Definition spoc_merge (z : zlib) (debug : bool) (acc : access_rights) (argv : list (list Z)) : ostream -> files -> effect Z :=
  program merge_get_args (fun '(a, fns) os fs => to_cout (merge_tool z debug a (map (readable acc fs) fns)) os fs) argv.

(** apps/srs/srs.cpp:45-120 *)
Definition spoc_srs (z : zlib) (debug : bool) (acc : access_rights) (argv : list (list Z)) (input : list Z)
    : ostream -> files -> effect Z :=
  program srs_get_args (fun a os fs => let '(os, fs, r) := srs_main z debug acc a input fs os in (os, fs, return_0 r)) argv.

(** apps/info/info.cpp:47-84 *)
Definition spoc_info (z : zlib) (prt : printing) (acc : access_rights) (argv : list (list Z)) (input : list Z)
    : ostream -> files -> effect Z :=
  program info_get_args (fun a os fs => to_cout (info_main z prt acc a fs input) os fs) argv.
