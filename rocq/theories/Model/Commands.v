(** Model of the command lines of the programs: the get_args functions of apps. *)
From Coq Require Import ZArith List Bool String.
From Verif.Model Require Import Base Double Arith AppUtils FilterApp MergeApp TileApp TransformApp DiffApp ToolApp SrsApp InfoApp GetOpt.
Import ListNotations.
Open Scope Z_scope.
Open Scope outcome_scope.

(** What all programs have in common *)
Record common : Type := mk_common { c_help : bool; c_verbose : bool; c_version : bool }.
Definition no_common : common := mk_common false false false.

Definition opt (name : string) (arg : bool) (val : Z) : long_option := mk_long (chars name) arg val.

Definition ch_h : Z := 104.
Definition ch_v : Z := 118.
Definition ch_a : Z := 97.
Definition ch_k : Z := 107.
Definition ch_s : Z := 115.
Definition ch_u : Z := 117.
Definition ch_d : Z := 100.
Definition ch_f : Z := 102.
Definition ch_t : Z := 116.
Definition ch_q : Z := 113.
Definition ch_j : Z := 106.
Definition ch_l : Z := 108.
Definition ch_m : Z := 109.

(** The first three options of every program, e.g. apps/compress/compress_cmd.h:29-31 *)
Definition common_longs : list long_option :=
  [opt "help" false ch_h; opt "verbose" false ch_v; opt "version" false ch_e].
Definition common_shorts : short_options := [(ch_h, false); (ch_v, false); (ch_e, false)].

Definition invalid_option : exn := runtime_error "Invalid option".

(** The loop over the options with its [switch], e.g. apps/compress/compress_cmd.h:25-54.
    [case_of] gives the cases of the program: [None] is [default], which prints the help and
    throws.  -h prints the help and returns at once. *)
Fixpoint get_options {A} (case_of : Z -> list Z -> option (A -> outcome A)) (events : list event) (c : common) (a : A)
    : outcome (common * A) :=
  match events with
  | [] => Ret (c, a)
  | E_invalid :: _ => Throw invalid_option
  | E_option val arg :: t =>
    if val =? ch_h then Ret (mk_common true (c_verbose c) (c_version c), a)
    else if val =? ch_v then get_options case_of t (mk_common (c_help c) true (c_version c)) a
    else if val =? ch_e then get_options case_of t (mk_common (c_help c) (c_verbose c) true) a
    else match case_of val (match arg with Some s => s | None => [] end) with
         | None => Throw invalid_option
         | Some f => a <- f a ;; get_options case_of t c a
         end
  end.

(** From the command line to the arguments; the operands are looked at unless the help was
    asked for. *)
Definition get_args {A B} (longs : list long_option) (shorts : short_options)
    (case_of : Z -> list Z -> option (A -> outcome A)) (start : A) (operands : A -> list (list Z) -> outcome B) (none : A -> B)
    (argv : list (list Z)) : outcome (common * B) :=
  let '(events, ops) := getopt (common_longs ++ longs) (common_shorts ++ shorts) argv in
  '(c, a) <- get_options case_of events no_common start ;;
  if c_help c then Ret (c, none a) else (b <- operands a ops ;; Ret (c, b)).

(** [args.input_fn] and [args.output_fn], empty when not given *)
Record io_names : Type := mk_io { io_input : list Z; io_output : list Z }.

(** e.g. apps/compress/compress_cmd.h:56-66 *)
Definition input_output {A} (a : A) (ops : list (list Z)) : outcome (A * io_names) :=
  match ops with
  | [] => Ret (a, mk_io [] [])
  | [i] => Ret (a, mk_io i [])
  | [i; o] => Ret (a, mk_io i o)
  | _ => Throw (runtime_error "Too many arguments on command line")
  end.
Definition no_io {A} (a : A) : A * io_names := (a, mk_io [] []).

(** An assignment to a member *)
Definition assign {A} (f : A -> A) : option (A -> outcome A) := Some (fun a => Ret (f a)).

(** apps/compress/compress_cmd.h:22-69 and apps/decompress/decompress_cmd.h:22-69 *)
Definition convert_get_args : list (list Z) -> outcome (common * (unit * io_names)) :=
  get_args [] [] (fun _ _ => None) tt input_output no_io.

(** ** spoc_transform *)

(** apps/transform/transform_cmd.h:32-56 *)
Definition ADD_X := 1000.
Definition ADD_Y := 1001.
Definition ADD_Z := 1002.
Definition COPY_FIELD := 1003.
Definition GAUSSIAN_NOISE := 1004.
Definition GAUSSIAN_NOISE_X := 1005.
Definition GAUSSIAN_NOISE_Y := 1006.
Definition GAUSSIAN_NOISE_Z := 1007.
Definition QUANTIZE_XYZ := 1008.
Definition REPLACE := 1009.
Definition REPLACE_NOT := 1010.
Definition ROTATE_X := 1011.
Definition ROTATE_Y := 1012.
Definition ROTATE_Z := 1013.
Definition SCALE_X := 1014.
Definition SCALE_Y := 1015.
Definition SCALE_Z := 1016.
Definition SET := 1017.
Definition UNIFORM_NOISE := 1018.
Definition UNIFORM_NOISE_X := 1019.
Definition UNIFORM_NOISE_Y := 1020.
Definition UNIFORM_NOISE_Z := 1021.

(** apps/transform/transform_cmd.h:73-103 *)
Definition transform_longs : list long_option :=
  [opt "add-x" true ADD_X; opt "add-y" true ADD_Y; opt "add-z" true ADD_Z; opt "copy-field" true COPY_FIELD;
   opt "gaussian-noise" true GAUSSIAN_NOISE; opt "gaussian-noise-x" true GAUSSIAN_NOISE_X;
   opt "gaussian-noise-y" true GAUSSIAN_NOISE_Y; opt "gaussian-noise-z" true GAUSSIAN_NOISE_Z;
   opt "quantize-xyz" true QUANTIZE_XYZ; opt "random-seed" true ch_a; opt "replace" true REPLACE;
   opt "replace-not" true REPLACE_NOT; opt "rotate-x" true ROTATE_X; opt "rotate-y" true ROTATE_Y;
   opt "rotate-z" true ROTATE_Z; opt "scale-x" true SCALE_X; opt "scale-y" true SCALE_Y; opt "scale-z" true SCALE_Z;
   opt "set" true SET; opt "uniform-noise" true UNIFORM_NOISE; opt "uniform-noise-x" true UNIFORM_NOISE_X;
   opt "uniform-noise-y" true UNIFORM_NOISE_Y; opt "uniform-noise-z" true UNIFORM_NOISE_Z].

(** apps/transform/transform_cmd.h:21-30; help, verbose, version and the file names are apart *)
Record transform_args : Type := mk_transform_args { xa_commands : list command; xa_seed : Z (* size_t *) }.

(** apps/transform/transform_cmd.h:58-65: [args.commands.push_back (get_command (name, optarg))] *)
Definition push_command (name : string) (arg : list Z) : option (transform_args -> outcome transform_args) :=
  assign (fun a => mk_transform_args (xa_commands a ++ [mk_command (chars name) arg]) (xa_seed a)).

(** apps/transform/transform_cmd.h:107-196, the [switch] *)
Definition transform_case (val : Z) (arg : list Z) : option (transform_args -> outcome transform_args) :=
  if val =? ADD_X then push_command "add-x" arg
  else if val =? ADD_Y then push_command "add-y" arg
  else if val =? ADD_Z then push_command "add-z" arg
  else if val =? COPY_FIELD then push_command "copy-field" arg
  else if val =? QUANTIZE_XYZ then push_command "quantize-xyz" arg
  else if val =? ch_a then assign (fun a => mk_transform_args (xa_commands a) (to_u64 (atol arg)))
  else if val =? REPLACE then push_command "replace" arg
  else if val =? REPLACE_NOT then push_command "replace-not" arg
  else if val =? ROTATE_X then push_command "rotate-x" arg
  else if val =? ROTATE_Y then push_command "rotate-y" arg
  else if val =? ROTATE_Z then push_command "rotate-z" arg
  else if val =? SCALE_X then push_command "scale-x" arg
  else if val =? SCALE_Y then push_command "scale-y" arg
  else if val =? SCALE_Z then push_command "scale-z" arg
  else if val =? SET then push_command "set" arg
  else None.

(** apps/transform/transform_cmd.h:67-212 *)
Definition transform_get_args : list (list Z) -> outcome (common * (transform_args * io_names)) :=
  get_args transform_longs [] transform_case (mk_transform_args [] 0) input_output no_io.

(** ** spoc_filter *)

(** [atof (s)]: a parameter *)
Definition atof_fn : Type := list Z -> double.

(** apps/filter/filter_cmd.h:37-50 *)
Definition filter_longs : list long_option :=
  [opt "keep-class" true ch_k; opt "random-seed" true ch_a; opt "remove-class" true ch_r; opt "unique-xyz" false ch_u;
   opt "subsample" true ch_s; opt "remove-coords" true ch_c].
Definition filter_shorts : short_options :=
  [(ch_k, true); (ch_a, true); (ch_r, true); (ch_u, false); (ch_s, true); (ch_c, true)].

(** apps/filter/filter_cmd.h:68-73.  [std::unordered_set::insert] ignores values that are
    there already; only whether a value is there matters, so that the list may have them
    twice. *)
Definition filter_case (atof : atof_fn) (val : Z) (arg : list Z) : option (filter_args -> outcome filter_args) :=
  if val =? ch_k then assign (fun a => mk_filter_args (fa_keep a ++ [atoi arg]) (fa_seed a) (fa_remove a) (fa_unique a) (fa_subsample a) (fa_coords a))
  else if val =? ch_a then assign (fun a => mk_filter_args (fa_keep a) (to_u64 (atol arg)) (fa_remove a) (fa_unique a) (fa_subsample a) (fa_coords a))
  else if val =? ch_r then assign (fun a => mk_filter_args (fa_keep a) (fa_seed a) (fa_remove a ++ [atoi arg]) (fa_unique a) (fa_subsample a) (fa_coords a))
  else if val =? ch_u then assign (fun a => mk_filter_args (fa_keep a) (fa_seed a) (fa_remove a) true (fa_subsample a) (fa_coords a))
  else if val =? ch_s then assign (fun a => mk_filter_args (fa_keep a) (fa_seed a) (fa_remove a) (fa_unique a) (atof arg) (fa_coords a))
  else if val =? ch_c then assign (fun a => mk_filter_args (fa_keep a) (fa_seed a) (fa_remove a) (fa_unique a) (fa_subsample a) arg)
  else None.

(** apps/filter/filter_cmd.h:31-90 *)
Definition filter_get_args (atof : atof_fn) : list (list Z) -> outcome (common * (filter_args * io_names)) :=
  get_args filter_longs filter_shorts (filter_case atof) (mk_filter_args [] 0 [] false d_zero []) input_output no_io.

(** ** spoc_diff *)

(** apps/diff/diff_cmd.h:33-44 *)
Definition diff_longs : list long_option :=
  [opt "header-only" false ch_a; opt "data-only" false ch_d; opt "field" true ch_f; opt "reverse" false ch_r].
Definition diff_shorts : short_options := [(ch_a, false); (ch_d, false); (ch_f, true); (ch_r, false)].

(** apps/diff/diff_cmd.h:62-71 *)
Definition diff_case (val : Z) (arg : list Z) : option (diff_args -> outcome diff_args) :=
  if val =? ch_a then assign (fun a => mk_diff_args true (da_data_only a) (da_fields a) (da_reverse a))
  else if val =? ch_d then assign (fun a => mk_diff_args (da_header_only a) true (da_fields a) (da_reverse a))
  else if val =? ch_f then assign (add_fields arg)
  else if val =? ch_r then assign (fun a => mk_diff_args (da_header_only a) (da_data_only a) (da_fields a) true)
  else None.

(** apps/diff/diff_cmd.h:75-88 *)
Definition two_names (a : diff_args) (ops : list (list Z)) : outcome (diff_args * (list Z * list Z)) :=
  match ops with
  | [] => Throw (runtime_error "No input filename 1 was specified")
  | [_] => Throw (runtime_error "No input filename 2 was specified")
  | [fn1; fn2] => Ret (a, (fn1, fn2))
  | _ => Throw (runtime_error "Too many arguments on command line")
  end.

(** apps/diff/diff_cmd.h:27-91 *)
Definition diff_get_args : list (list Z) -> outcome (common * (diff_args * (list Z * list Z))) :=
  get_args diff_longs diff_shorts diff_case (mk_diff_args false false [] false) two_names (fun a => (a, ([], []))).

(** ** spoc_tool *)

(** apps/tool/tool_cmd.h:33-42 *)
Definition RECENTER_XY := 1000.
Definition RECENTER_XYZ := 1001.
Definition RESIZE_EXTRA := 1002.
Definition SUBTRACT_MIN_XY := 1003.
Definition SUBTRACT_MIN_XYZ := 1004.
Definition UPSAMPLE_CLASSIFICATIONS := 1005.
Definition RESOLUTION := 1006.

(** apps/tool/tool_cmd.h:63-80 *)
Definition tool_longs : list long_option :=
  [opt "get-field" true ch_g; opt "recenter-xy" false RECENTER_XY; opt "recenter-xyz" false RECENTER_XYZ;
   opt "resize-extra" true RESIZE_EXTRA; opt "set-field" true ch_s; opt "field-filename" true ch_f;
   opt "subtract-min-xy" false SUBTRACT_MIN_XY; opt "subtract-min-xyz" false SUBTRACT_MIN_XYZ;
   opt "upsample-classifications" true UPSAMPLE_CLASSIFICATIONS; opt "resolution" true RESOLUTION].
Definition tool_shorts : short_options := [(ch_g, true); (ch_s, true); (ch_f, true)].

(** apps/tool/tool_cmd.h:44-55 *)
Definition set_command (name : string) (arg : list Z) : option (tool_args -> outcome tool_args) :=
  Some (fun a =>
    if negb (no_chars (cmd_name (ta_command a))) then Throw (runtime_error "You can only specify one command at a time")
    else Ret (mk_targs (mk_command (chars name) arg) (ta_field_fn a) (ta_resolution a))).

(** apps/tool/tool_cmd.h:98-147 *)
Definition tool_case (atof : atof_fn) (val : Z) (arg : list Z) : option (tool_args -> outcome tool_args) :=
  if val =? ch_g then set_command "get-field" arg
  else if val =? RECENTER_XY then set_command "recenter-xy" arg
  else if val =? RECENTER_XYZ then set_command "recenter-xyz" arg
  else if val =? RESIZE_EXTRA then set_command "resize-extra" arg
  else if val =? ch_s then set_command "set-field" arg
  else if val =? ch_f then assign (fun a => mk_targs (ta_command a) arg (ta_resolution a))
  else if val =? SUBTRACT_MIN_XY then set_command "subtract-min-xy" arg
  else if val =? SUBTRACT_MIN_XYZ then set_command "subtract-min-xyz" arg
  else if val =? UPSAMPLE_CLASSIFICATIONS then set_command "upsample-classifications" arg
  else if val =? RESOLUTION then assign (fun a => mk_targs (ta_command a) (ta_field_fn a) (atof arg))
  else None.

(** apps/tool/tool_cmd.h:57-164 *)
Definition tool_get_args (atof : atof_fn) : list (list Z) -> outcome (common * (tool_args * io_names)) :=
  get_args tool_longs tool_shorts (tool_case atof) (mk_targs (mk_command [] []) [] d_zero) input_output no_io.

(** ** spoc_tile *)

(** -1.0 *)
Definition d_minus_one : double := 13830554455654793216.      (* 0xBFF0000000000000 *)

(** apps/tile/tile_cmd.h:34-48 *)
Definition tile_longs : list long_option :=
  [opt "force" false ch_f; opt "tiles" true ch_t; opt "digits" true ch_d; opt "tile-size" true ch_s;
   opt "tile-size-x" true ch_x; opt "tile-size-y" true ch_y; opt "prefix" true ch_p].
Definition tile_shorts : short_options :=
  [(ch_f, false); (ch_t, true); (ch_d, true); (ch_s, true); (ch_x, true); (ch_y, true); (ch_p, true)].

(** apps/tile/tile_cmd.h:66-72 *)
Definition tile_case (atof : atof_fn) (val : Z) (arg : list Z) : option (tile_args -> outcome tile_args) :=
  if val =? ch_f then assign (fun a => mk_tile_args true (ta_tiles a) (ta_digits a) (ta_size a) (ta_size_x a) (ta_size_y a) (ta_prefix a) (ta_fn a))
  else if val =? ch_t then assign (fun a => mk_tile_args (ta_force a) (to_u32 (atoi arg)) (ta_digits a) (ta_size a) (ta_size_x a) (ta_size_y a) (ta_prefix a) (ta_fn a))
  else if val =? ch_d then assign (fun a => mk_tile_args (ta_force a) (ta_tiles a) (to_u32 (atoi arg)) (ta_size a) (ta_size_x a) (ta_size_y a) (ta_prefix a) (ta_fn a))
  else if val =? ch_s then assign (fun a => mk_tile_args (ta_force a) (ta_tiles a) (ta_digits a) (atof arg) (ta_size_x a) (ta_size_y a) (ta_prefix a) (ta_fn a))
  else if val =? ch_x then assign (fun a => mk_tile_args (ta_force a) (ta_tiles a) (ta_digits a) (ta_size a) (atof arg) (ta_size_y a) (ta_prefix a) (ta_fn a))
  else if val =? ch_y then assign (fun a => mk_tile_args (ta_force a) (ta_tiles a) (ta_digits a) (ta_size a) (ta_size_x a) (atof arg) (ta_prefix a) (ta_fn a))
  else if val =? ch_p then assign (fun a => mk_tile_args (ta_force a) (ta_tiles a) (ta_digits a) (ta_size a) (ta_size_x a) (ta_size_y a) arg (ta_fn a))
  else None.

(** [std::filesystem::path (fn)]: the file name is what follows the last slash *)
Fixpoint file_name (fn : list Z) : list Z :=
  match fn with
  | [] => []
  | c :: t => if c =? 47 then file_name t else if existsb (Z.eqb 47) t then file_name t else fn
  end.

(** The last dot of [s], which must not be its first character: what comes before, and from
    the dot on *)
Fixpoint last_dot (s : list Z) : option (list Z * list Z) :=
  match s with
  | [] => None
  | c :: t =>
    match last_dot t with
    | Some (a, b) => Some (c :: a, b)
    | None => match t with d :: _ => if d =? 46 then Some ([c], t) else None | [] => None end
    end
  end.

(** [stem ()] and [extension ()]; "." and ".." have no extension *)
Definition stem_extension (fn : list Z) : list Z * list Z :=
  let n := file_name fn in
  if beq_bytes n (chars "..") then (n, [])
  else match last_dot n with Some p => p | None => (n, []) end.

(** apps/tile/tile_cmd.h:76-83: the arguments with the parts of the name, and the name *)
Definition tile_operand (a : tile_args) (ops : list (list Z)) : outcome (tile_args * list Z) :=
  let named fn := match fn with
                  | [] => (a, [])
                  | _ => (mk_tile_args (ta_force a) (ta_tiles a) (ta_digits a) (ta_size a) (ta_size_x a) (ta_size_y a) (ta_prefix a)
                            (Some (stem_extension fn)), fn)
                  end in
  match ops with
  | [] => Ret (a, [])
  | [fn] => Ret (named fn)
  | _ => Throw (runtime_error "Too many arguments on command line")
  end.

(** apps/tile/tile_cmd.h:28-86 *)
Definition tile_get_args (atof : atof_fn) : list (list Z) -> outcome (common * (tile_args * list Z)) :=
  get_args tile_longs tile_shorts (tile_case atof) (mk_tile_args false 2 3 d_minus_one d_minus_one d_minus_one [] None)
    tile_operand (fun a => (a, [])).

(** ** spoc_merge *)

(** apps/merge/merge_cmd.h:30-39 *)
Definition merge_longs : list long_option := [opt "quiet" false ch_q; opt "point-id" true ch_p].
Definition merge_shorts : short_options := [(ch_q, false); (ch_p, true)].

(** apps/merge/merge_cmd.h:57-58 *)
Definition merge_case (val : Z) (arg : list Z) : option (merge_args -> outcome merge_args) :=
  if val =? ch_q then assign (fun a => mk_merge_args (negb (ma_quiet a)) (ma_point_id a))
  else if val =? ch_p then assign (fun a => mk_merge_args (ma_quiet a) (atoi arg))
  else None.

(** apps/merge/merge_cmd.h:24-66 *)
Definition merge_get_args : list (list Z) -> outcome (common * (merge_args * list (list Z))) :=
  get_args merge_longs merge_shorts merge_case (mk_merge_args false (-1)) (fun a ops => Ret (a, ops)) (fun a => (a, [])).

(** ** spoc_srs *)

(** apps/srs/srs_cmd.h:30-38 *)
Definition srs_longs : list long_option := [opt "srs" true ch_s].
Definition srs_shorts : short_options := [(ch_s, true)].

(** apps/srs/srs_cmd.h:56-61 *)
Definition srs_case (val : Z) (arg : list Z) : option (srs_args -> outcome srs_args) :=
  if val =? ch_s then assign (fun a => mk_srs_args arg true (sa_fns a)) else None.

(** apps/srs/srs_cmd.h:24-69 *)
Definition srs_get_args : list (list Z) -> outcome (common * srs_args) :=
  get_args srs_longs srs_shorts srs_case (mk_srs_args [] false []) (fun a ops => Ret (mk_srs_args (sa_srs a) (sa_set a) ops)) (fun a => a).

(** ** spoc_info *)

(** apps/info/info_cmd.h:35-49 *)
Definition info_longs : list long_option :=
  [opt "json" false ch_j; opt "header-info" false ch_a; opt "summary-info" false ch_s; opt "classification-info" false ch_l;
   opt "metric-info" false ch_m; opt "compact" false ch_c; opt "quartiles" false ch_q].
Definition info_shorts : short_options :=
  [(ch_j, false); (ch_a, false); (ch_s, false); (ch_l, false); (ch_c, false); (ch_m, false); (ch_q, false)].

(** apps/info/info_cmd.h:67-73 *)
Definition info_case (val : Z) (arg : list Z) : option (info_args -> outcome info_args) :=
  if val =? ch_j then assign (fun a => mk_info_args (negb (ia_json a)) (ia_header a) (ia_summary a) (ia_classes a) (ia_metrics a) (ia_compact a) (ia_quartiles a) (ia_fns a))
  else if val =? ch_a then assign (fun a => mk_info_args (ia_json a) (negb (ia_header a)) (ia_summary a) (ia_classes a) (ia_metrics a) (ia_compact a) (ia_quartiles a) (ia_fns a))
  else if val =? ch_s then assign (fun a => mk_info_args (ia_json a) (ia_header a) (negb (ia_summary a)) (ia_classes a) (ia_metrics a) (ia_compact a) (ia_quartiles a) (ia_fns a))
  else if val =? ch_l then assign (fun a => mk_info_args (ia_json a) (ia_header a) (ia_summary a) (negb (ia_classes a)) (ia_metrics a) (ia_compact a) (ia_quartiles a) (ia_fns a))
  else if val =? ch_m then assign (fun a => mk_info_args (ia_json a) (ia_header a) (ia_summary a) (ia_classes a) (negb (ia_metrics a)) (ia_compact a) (ia_quartiles a) (ia_fns a))
  else if val =? ch_c then assign (fun a => mk_info_args (ia_json a) (ia_header a) (ia_summary a) (ia_classes a) (ia_metrics a) (negb (ia_compact a)) (ia_quartiles a) (ia_fns a))
  else if val =? ch_q then assign (fun a => mk_info_args (ia_json a) (ia_header a) (ia_summary a) (ia_classes a) (ia_metrics a) (ia_compact a) (negb (ia_quartiles a)) (ia_fns a))
  else None.

(** apps/info/info_cmd.h:29-81 *)
Definition info_get_args : list (list Z) -> outcome (common * info_args) :=
  get_args info_longs info_shorts info_case (mk_info_args false true true true true true false [])
    (fun a ops => Ret (mk_info_args (ia_json a) (ia_header a) (ia_summary a) (ia_classes a) (ia_metrics a) (ia_compact a) (ia_quartiles a) ops))
    (fun a => a).
