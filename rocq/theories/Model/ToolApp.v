(** Model of the spoc_tool program. *)
From Coq Require Import ZArith List Bool String.
From Verif.Model Require Import Base Double Arith Header PointRecord Point File Compression IO Utils Par Affine
  Extent Voxel AppUtils AppConvert FilterApp TransformApp.
Import ListNotations.
Open Scope Z_scope.
Open Scope outcome_scope.

(** ** Formatted input: [std::istream] with [operator>>], as in libstdc++

    What is left of the text, [eofbit] and [failbit]. *)
Record text_in : Type := mk_ti { ti_rest : list Z; ti_eof : bool; ti_fail : bool }.

(** A stream just opened *)
Definition ti_open (text : list Z) : text_in := mk_ti text false false.

Definition no_chars (s : list Z) : bool := match s with [] => true | _ => false end.

(** The sentry: [inl] is the stream when there is nothing to read, after which the
    variable keeps its value; [inr] is the text after the white space. *)
Definition sentry (s : text_in) : text_in + list Z :=
  if ti_eof s || ti_fail s then inl (mk_ti (ti_rest s) (ti_eof s) true)
  else
    let '(_, rest) := span is_space (ti_rest s) in
    if no_chars rest then inl (mk_ti [] true true) else inr rest.

(** [is >> v] with [size_t v], where [v] has the value [old]: [strtoull] rules.  No
    digits is 0 and a failure; too large is the largest value and a failure; a minus
    sign negates modulo 2^64.  The end of the text while reading sets [eofbit]. *)
Definition extract_size (old : Z) (s : text_in) : Z * text_in :=
  match sentry s with
  | inl s' => (old, s')
  | inr rest =>
    let '(neg, rest) :=
      match rest with
      | c :: t => if c =? 45 then (true, t) else if c =? 43 then (false, t) else (false, rest)
      | [] => (false, rest)
      end in
    let '(ds, rest) := span is_digit rest in
    let v := dec_value ds in
    if no_chars ds then (0, mk_ti rest (no_chars rest) true)
    else if two64 <=? v then (two64 - 1, mk_ti rest (no_chars rest) true)
    else (if neg then to_u64 (- v) else v, mk_ti rest (no_chars rest) false)
  end.

(** [is >> v] with [double v]: what is read from a text that does not begin with
    white space, whether that failed, and the rest of the text, is a parameter. *)
Definition read_double_fn : Type := list Z -> double * bool * list Z.
Definition extract_double (rd : read_double_fn) (old : Z) (s : text_in) : Z * text_in :=
  match sentry s with
  | inl s' => (old, s')
  | inr rest => let '(v, failed, rest) := rd rest in (v, mk_ti rest (no_chars rest) failed)
  end.

(** [os << v] with [double v] after [std::setprecision (16)]: a parameter *)
Definition show_double_fn : Type := double -> list Z.

(** ** apps/tool/tool.h *)

(** [REQUIRE (c)] *)
Definition require (debug c : bool) : outcome unit :=
  if debug && negb c then Throw (runtime_error "Contract failed") else Ret tt.

(** apps/tool/tool.h:43-60: the text of one record, without the end of the line.  A
    name that is none of the cases prints nothing at all, not even an end of line. *)
Definition field_text (show : show_double_fn) (field_name : list Z) (j : Z) (p : point_record) : outcome (list Z) :=
  let ch := first_char field_name in
  if ch =? ch_x then Ret (show (rx p) ++ [10])
  else if ch =? ch_y then Ret (show (ry p) ++ [10])
  else if ch =? ch_z then Ret (show (rz p) ++ [10])
  else if ch =? ch_c then Ret (put_uint (rc p) ++ [10])
  else if ch =? ch_p then Ret (put_uint (rp p) ++ [10])
  else if ch =? ch_i then Ret (put_uint (ri p) ++ [10])
  else if ch =? ch_r then Ret (put_uint (rr p) ++ [10])
  else if ch =? ch_g then Ret (put_uint (rg p) ++ [10])
  else if ch =? ch_b then Ret (put_uint (rb p) ++ [10])
  else if ch =? ch_e then (v <- vec_get (rextra p) j ;; Ret (put_uint v ++ [10]))
  else Ret [].

(** apps/tool/tool.h:39-62, the loop *)
Fixpoint get_field_loop (show : show_double_fn) (field_name : list Z) (j : Z) (prs : list point_record) : writer unit :=
  match prs with
  | [] => w_ret tt
  | p :: t => w_bind (w_lift (field_text show field_name j p)) (fun bs =>
      w_seq (w_put bs) (get_field_loop show field_name j t))
  end.

(** apps/tool/tool.h:14-63, without [REQUIRE (os.good ())]: the stream is [cout].  The
    two [assert]s are not there. *)
Definition get_field (show : show_double_fn) (debug : bool) (f : spoc_file) (field_name : list Z) : writer unit :=
  w_bind (w_lift (require debug (check_field_name field_name))) (fun _ =>
  get_field_loop show field_name (field_index field_name (get_extra_fields f)) (f_prs f)).

(** [auto g = f.clone_empty (); g.set_point_records (p); return g;] *)
Definition with_points (f : spoc_file) (prs : list point_record) : outcome spoc_file :=
  g <- clone_empty f ;; after (set_point_records prs) g.

(** apps/tool/tool.h:73-83, the sum of one coordinate *)
Definition d_sum (l : list double) : double := fold_left d_add l d_zero.

(** apps/tool/tool.h:85-89 *)
Definition d_mean (l : list double) : double :=
  if zlen l =? 0 then d_zero else d_div (d_sum l) (d_of_z (zlen l)).

(** apps/tool/tool.h:95-101 and 244-250: subtract from the coordinates *)
Definition pr_minus (z_flag : bool) (x y z : double) (p : point_record) : point_record :=
  let p := set_y (d_sub (ry p) y) (set_x (d_sub (rx p) x) p) in
  if z_flag then set_z (d_sub (rz p) z) p else p.

(** apps/tool/tool.h:66-110.  The sum of the [z] is only used with the flag. *)
Definition recenter (debug z_flag : bool) (f : spoc_file) : outcome spoc_file :=
  _ <- require_valid debug f ;;
  let cx := d_mean (map rx (f_prs f)) in
  let cy := d_mean (map ry (f_prs f)) in
  let cz := d_mean (map rz (f_prs f)) in
  with_points f (map (pr_minus z_flag cx cy cz) (f_prs f)).

(** apps/tool/tool.h:113-128 *)
Definition resize_extra (debug : bool) (sz : Z) (f : spoc_file) : outcome spoc_file :=
  _ <- require_valid debug f ;;
  _ <- require debug (0 <=? sz) ;;
  g <- file_copy f ;;
  after (resize_extra_fields (to_u64 sz)) g.

(** apps/tool/tool.h:161-173, the loop: the variables are 0 (0.0) at first.  [eof] is
    looked at after each value, failure never. *)
Fixpoint read_values (extract : Z -> text_in -> Z * text_in) (n : nat) (s : text_in) : outcome (list Z) :=
  match n with
  | O => Ret []
  | S k =>
    let '(v, s) := extract 0 s in
    if ti_eof s then Throw (runtime_error "Reached end-of-file before reading all field values")
    else (vs <- read_values extract k s ;; Ret (v :: vs))
  end.

(** apps/tool/tool.h:143-150, the [switch] *)
Definition float_flag (field_name : list Z) : bool :=
  let ch := first_char field_name in (ch =? ch_x) || (ch =? ch_y) || (ch =? ch_z).

(** apps/tool/tool.h:201-218: [v] is the [double], or the [size_t], converted to the type
    of the field *)
Definition store_field (field_name : list Z) (j v : Z) (p : point_record) : outcome point_record :=
  let ch := first_char field_name in
  if ch =? ch_x then Ret (set_x v p)
  else if ch =? ch_y then Ret (set_y v p)
  else if ch =? ch_z then Ret (set_z v p)
  else if ch =? ch_c then Ret (set_c (to_u32 v) p)
  else if ch =? ch_p then Ret (set_p (to_u32 v) p)
  else if ch =? ch_i then Ret (set_i (to_u16 v) p)
  else if ch =? ch_r then Ret (set_r (to_u16 v) p)
  else if ch =? ch_g then Ret (set_g (to_u16 v) p)
  else if ch =? ch_b then Ret (set_b (to_u16 v) p)
  else if ch =? ch_e then put_extra j v p
  else Ret p.

(** apps/tool/tool.h:197-219, the loop *)
Fixpoint store_values (field_name : list Z) (j : Z) (vs : list Z) (prs : list point_record) : outcome (list point_record) :=
  match vs, prs with
  | v :: vs, p :: prs =>
    p <- store_field field_name j v p ;;
    prs <- store_values field_name j vs prs ;;
    Ret (p :: prs)
  | _, _ => Ret prs
  end.

(** apps/tool/tool.h:130-229, without [REQUIRE (field_ifs.good ())]: the stream has just
    been opened.  Growing a vector is assumed not to run out of memory. *)
Definition set_field (rd : read_double_fn) (debug : bool) (f : spoc_file) (text field_name : list Z) : outcome spoc_file :=
  _ <- require_valid debug f ;;
  _ <- require debug (check_field_name field_name) ;;
  let extract := if float_flag field_name then extract_double rd else extract_size in
  vs <- read_values extract (List.length (f_prs f)) (ti_open text) ;;
  let j := field_index field_name (get_extra_fields f) in
  let prs :=
    if is_extra_field field_name && (get_extra_fields f <=? j)
    then map (pr_resize_extra (j + 1)) (f_prs f)
    else f_prs f in
  prs <- store_values field_name j vs prs ;;
  with_points f prs.

(** apps/tool/tool.h:232-261.  [get_extent] converts the records to points; reads only
    their coordinates. *)
Definition subtract_min (debug z_flag : bool) (f : spoc_file) : outcome spoc_file :=
  _ <- require_valid debug f ;;
  let m := minp (get_extent (map pr_pt (f_prs f))) in
  with_points f (map (pr_minus z_flag (px m) (py m) (pz m)) (f_prs f)).

(** apps/tool/tool.h:313-329, the inner loop *)
Fixpoint assign_class (debug : bool) (c : Z) (indexes : list Z) (h : spoc_file) : outcome spoc_file :=
  match indexes with
  | [] => Ret h
  | j :: t =>
    r <- vec_get (f_prs h) j ;;
    h <- after (set_point_record debug j (set_c c r)) h ;;
    assign_class debug c t h
  end.

(** apps/tool/tool.h:293-330, the outer loop, from index [i] on *)
Fixpoint upsample_loop (debug : bool) (vmh : voxel_index_map) (l : spoc_file) (i : Z) (vl : list voxel_index)
    (h : spoc_file) : outcome spoc_file :=
  match vl with
  | [] => Ret h
  | v :: t =>
    match map_find v vmh with
    | None => upsample_loop debug vmh l (i + 1) t h
    | Some indexes =>
      p <- vec_get (f_prs l) i ;;
      h <- assign_class debug (rc p) indexes h ;;
      upsample_loop debug vmh l (i + 1) t h
    end
  end.

(** apps/tool/tool.h:263-351, without the messages *)
Definition upsample_classifications (debug : bool) (l f : spoc_file) (resolution : double) : outcome spoc_file :=
  _ <- require_valid debug l ;;
  _ <- require_valid debug f ;;
  _ <- require debug (d_gtb resolution d_zero) ;;
  h <- file_copy f ;;
  vh <- get_voxel_indexes (map pr_pt (f_prs f)) resolution ;;
  let eh := get_extent (map pr_pt (f_prs h)) in
  vl <- get_voxel_indexes_ext (map pr_pt (f_prs l)) eh resolution ;;
  upsample_loop debug (get_voxel_index_map vh) l 0 vl h.

(** ** apps/tool/tool.cpp *)

(** apps/tool/tool_cmd.h:13-28; the number text of the resolution is already converted *)
Record tool_args : Type := mk_targs { ta_command : command; ta_field_fn : list Z; ta_resolution : double }.

(** The files that can be opened for reading, by name *)
Definition file_system : Type := list Z -> option (list Z).
Definition open_text (fs : file_system) (fn : list Z) : outcome (list Z) :=
  match fs fn with Some t => Ret t | None => Throw (runtime_error "Could not open file for reading") end.

(** apps/tool/tool.cpp:68-110: the commands that change the file; [f = g] copies *)
Definition tool_command (z : zlib) (rd : read_double_fn) (debug : bool) (fs : file_system) (args : tool_args)
    (f : spoc_file) : outcome spoc_file :=
  let s := cmd_params (ta_command args) in
  let name_is (n : string) := beq_bytes (cmd_name (ta_command args)) (chars n) in
  g <- (if name_is "recenter-xy"%string then recenter debug false f
        else if name_is "recenter-xyz"%string then recenter debug true f
        else if name_is "resize-extra"%string then
          '(new_size, _) <- stoi s ;;
          if new_size <? 0 then Throw (runtime_error "The number of extra fields must be >= 0")
          else if 255 <? new_size then Throw (runtime_error "The number of extra fields must be < 256")
          else resize_extra debug new_size f
        else if name_is "set-field"%string then
          if no_chars (ta_field_fn args)
          then Throw (runtime_error "You must set the 'field-filename' option when using the 'set-field' command")
          else
            text <- open_text fs (ta_field_fn args) ;;
            '(l, _) <- consume_field_name s ;;
            set_field rd debug f text l
        else if name_is "subtract-min-xy"%string then subtract_min debug false f
        else if name_is "subtract-min-xyz"%string then subtract_min debug true f
        else if name_is "upsample-classifications"%string then
          if d_leb (ta_resolution args) d_zero
          then Throw (runtime_error "The 'resolution' option must be set to a value > 0.0 when using the 'upsample' command")
          else
            bytes <- open_text fs s ;;
            '(g, _) <- read_spoc_file z (i_open bytes) ;;
            upsample_classifications debug f g (ta_resolution args)
        else Throw (runtime_error "An unknown command was encountered")) ;;
  file_copy g.

(** apps/tool/tool.cpp:40-118: what is written to [cout] (get-field) or to the output
    (all others), which is opened after the work is done *)
Definition tool_main (z : zlib) (show : show_double_fn) (rd : read_double_fn) (debug : bool) (fs : file_system)
    (args : tool_args) (input : list Z) : writer unit :=
  if no_chars (cmd_name (ta_command args)) then w_lift (Throw (runtime_error "No command was specified"))
  else
    from_input (read_spoc_file z (i_open input)) (fun f =>
      if beq_bytes (cmd_name (ta_command args)) (chars "get-field")
      then w_bind (w_lift (consume_field_name (cmd_params (ta_command args)))) (fun '(l, _) => get_field show debug f l)
      else w_bind (w_lift (tool_command z rd debug fs args f)) (fun g => write_spoc_file z debug g)).
