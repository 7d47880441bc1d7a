(** Model of the spoc_transform program. *)
From Coq Require Import ZArith List Bool String.
From Verif.Model Require Import Base Double Arith Header PointRecord Utils Par Affine AppUtils.
Import ListNotations.
Open Scope Z_scope.
Open Scope outcome_scope.

(** apps/transform/transform.h:42, [std::function<PR(PR)>].  The operations that add
    noise have a state, the random number generator.  Each operation is called once
    per record, so the state is the number of the record: the first argument. *)
Definition top : Type := Z -> point_record -> outcome point_record.

(** [s[0]]: NUL when the string is empty *)
Definition first_char (s : list Z) : Z := match s with c :: _ => c | [] => 0 end.

(** The characters in the [case] labels *)
Definition ch_x : Z := 120.
Definition ch_y : Z := 121.
Definition ch_z : Z := 122.
Definition ch_c : Z := 99.
Definition ch_p : Z := 112.
Definition ch_i : Z := 105.
Definition ch_r : Z := 114.
Definition ch_g : Z := 103.
Definition ch_b : Z := 98.
Definition ch_e : Z := 101.

(** apps/transform/transform.h:44-60 *)
Definition get_add_x_op (v : double) : top := fun _ p => Ret (set_x (d_add (rx p) v) p).
Definition get_add_y_op (v : double) : top := fun _ p => Ret (set_y (d_add (ry p) v) p).
Definition get_add_z_op (v : double) : top := fun _ p => Ret (set_z (d_add (rz p) v) p).

(** apps/transform/transform.h:69-82, 193-198, 242-247: the check for x, y and z *)
Definition refuse_xyz (what : string) (field_name : list Z) : outcome unit :=
  let ch := first_char field_name in
  if ch =? ch_x then Throw (runtime_error what)
  else if ch =? ch_y then Throw (runtime_error what)
  else if ch =? ch_z then Throw (runtime_error what)
  else Ret tt.

(** apps/transform/transform.h:85-90, 201-203, 260-262, 405-407, a [size_t] *)
Definition field_index (field_name : list Z) (extra_fields : Z) : Z :=
  if is_extra_field field_name then to_u64 (get_extra_index field_name) else to_u64 (extra_fields + 1).

(** apps/transform/transform.h:108-109, 127-128, 220-221, 286-287, 426-427 *)
Definition check_extra (j : Z) (p : point_record) : outcome unit :=
  if zlen (rextra p) <=? j then Throw (runtime_error "Invalid extra field specification") else Ret tt.

(** [p.extra[j] = v] with [v] of type [uint64_t] *)
Definition put_extra (j v : Z) (p : point_record) : outcome point_record :=
  l <- vec_set (rextra p) j v ;; Ret (set_extra l p).

(** apps/transform/transform.h:96-113 *)
Definition copy_source (field_name1 : list Z) (j1 : Z) (p : point_record) : outcome Z :=
  let ch := first_char field_name1 in
  if ch =? ch_c then Ret (rc p)
  else if ch =? ch_p then Ret (rp p)
  else if ch =? ch_i then Ret (ri p)
  else if ch =? ch_r then Ret (rr p)
  else if ch =? ch_g then Ret (rg p)
  else if ch =? ch_b then Ret (rb p)
  else if ch =? ch_e then (_ <- check_extra j1 p ;; vec_get (rextra p) j1)
  else Ret 0.

(** apps/transform/transform.h:116-133 *)
Definition copy_dest (field_name2 : list Z) (j2 src : Z) (p : point_record) : outcome point_record :=
  let ch := first_char field_name2 in
  if ch =? ch_c then Ret (set_c (to_u32 src) p)
  else if ch =? ch_p then Ret (set_p (to_u32 src) p)
  else if ch =? ch_i then Ret (set_i (to_u16 src) p)
  else if ch =? ch_r then Ret (set_r (to_u16 src) p)
  else if ch =? ch_g then Ret (set_g (to_u16 src) p)
  else if ch =? ch_b then Ret (set_b (to_u16 src) p)
  else if ch =? ch_e then (_ <- check_extra j2 p ;; put_extra j2 src p)
  else Ret p.

(** apps/transform/transform.h:62-138 *)
Definition get_copy_field_op (field_name1 field_name2 : list Z) (extra_fields : Z) : outcome top :=
  let what := "Cannot run the copy command on floating point fields (X, Y, Z)"%string in
  _ <- refuse_xyz what field_name1 ;;
  _ <- refuse_xyz what field_name2 ;;
  let j1 := field_index field_name1 extra_fields in
  let j2 := field_index field_name2 extra_fields in
  Ret (fun _ p => src <- copy_source field_name1 j1 p ;; copy_dest field_name2 j2 src p).

(** The values that the generators deliver: a parameter, as a function of the kind of
    distribution, the seed, the three parameters of the operation, the number of the
    record and the axis.  The parameters of a distribution are not checked (the
    standard asks for a positive standard deviation). *)
Inductive noise_kind : Type := gaussian | uniform_real.
Definition noise_fn : Type := noise_kind -> Z -> double * double * double -> Z -> Z -> double.

(** apps/transform/transform.h:140-166 and 439-465.  The order of the calls, x first, is
    that of the axes. *)
Definition get_noise_op (noise : noise_fn) (kind : noise_kind) (random_seed : Z) (sx sy sz : double) : top :=
  fun k p =>
    let draw := noise kind random_seed (sx, sy, sz) k in
    let p := if d_neb sx d_zero then set_x (d_add (rx p) (draw 0)) p else p in
    let p := if d_neb sy d_zero then set_y (d_add (ry p) (draw 1)) p else p in
    let p := if d_neb sz d_zero then set_z (d_add (rz p) (draw 2)) p else p in
    Ret p.

(** apps/transform/transform.h:168-182 *)
Definition get_quantize_op (precision : double) : top := fun _ p =>
  x <- quantize1 (rx p) precision ;;
  let p := set_x x p in
  y <- quantize1 (ry p) precision ;;
  let p := set_y y p in
  z <- quantize1 (rz p) precision ;;
  Ret (set_z z p).

(** apps/transform/transform.h:184-232.  [v1] and [v2] are [unsigned]. *)
Definition get_replace_op (field_name : list Z) (v1 v2 extra_fields : Z) : outcome top :=
  _ <- refuse_xyz "Cannot run the replace command on floating point fields (X, Y, Z)" field_name ;;
  let j := field_index field_name extra_fields in
  Ret (fun _ p =>
    let ch := first_char field_name in
    if ch =? ch_c then Ret (if rc p =? v1 then set_c v2 p else p)
    else if ch =? ch_p then Ret (if rp p =? v1 then set_p v2 p else p)
    else if ch =? ch_i then Ret (if ri p =? v1 then set_i (to_u16 v2) p else p)
    else if ch =? ch_r then Ret (if rr p =? v1 then set_r (to_u16 v2) p else p)
    else if ch =? ch_g then Ret (if rg p =? v1 then set_g (to_u16 v2) p else p)
    else if ch =? ch_b then Ret (if rb p =? v1 then set_b (to_u16 v2) p else p)
    else if ch =? ch_e then
      (_ <- check_extra j p ;;
       v <- vec_get (rextra p) j ;;
       if v =? v1 then put_extra j v2 p else Ret p)
    else Ret p).

(** apps/transform/transform.h:267-297, the loop over the list: is the value to be
    replaced?  (A name that is none of the cases is never replaced, so that [copy_source]
    may answer 0 for it.) *)
Fixpoint not_listed (field_name : list Z) (j : Z) (v : list Z) (p : point_record) : outcome bool :=
  match v with
  | [] => Ret true
  | i :: t => x <- copy_source field_name j p ;; if x =? i then Ret false else not_listed field_name j t p
  end.

(** apps/transform/transform.h:299-317.  [r] is an [int]. *)
Definition put_replacement (field_name : list Z) (j r : Z) (p : point_record) : outcome point_record :=
  let ch := first_char field_name in
  if ch =? ch_c then Ret (set_c (to_u32 r) p)
  else if ch =? ch_p then Ret (set_c (to_u32 r) p)
  else if ch =? ch_i then Ret (set_c (to_u32 r) p)
  else if ch =? ch_r then Ret (set_c (to_u32 r) p)
  else if ch =? ch_g then Ret (set_c (to_u32 r) p)
  else if ch =? ch_b then Ret (set_c (to_u32 r) p)
  else if ch =? ch_e then put_extra j (to_u64 r) p
  else Ret p.

(** apps/transform/transform.h:234-323 *)
Definition get_replace_not_op (field_name : list Z) (v : list Z) (extra_fields : Z) : outcome top :=
  _ <- refuse_xyz "Cannot run the replace command on floating point fields (X, Y, Z)" field_name ;;
  if zlen v <? 2 then Throw (runtime_error "Not enough values were specified in the replace-not command")
  else
    let r := to_i32 (last v 0) in
    let v := removelast v in
    let j := field_index field_name extra_fields in
    Ret (fun _ p =>
      replace <- not_listed field_name j v p ;;
      if (replace : bool) then put_replacement field_name j r p else Ret p).

(** apps/transform/transform.h:325-380 *)
Definition get_rotate_x_op (t : trig) (degrees : double) : top := fun _ p =>
  let r := radians degrees in
  let y := turn_minus t r (ry p) (rz p) in
  let z := turn_plus t r (ry p) (rz p) in
  Ret (set_z z (set_y y p)).
Definition get_rotate_y_op (t : trig) (degrees : double) : top := fun _ p =>
  let r := radians degrees in
  let x := turn_minus t r (rx p) (rz p) in
  let z := turn_plus t r (rx p) (rz p) in
  Ret (set_z z (set_x x p)).
Definition get_rotate_z_op (t : trig) (degrees : double) : top := fun _ p =>
  let r := radians degrees in
  let x := turn_minus t r (rx p) (ry p) in
  let y := turn_plus t r (rx p) (ry p) in
  Ret (set_y y (set_x x p)).

(** apps/transform/transform.h:382-398 *)
Definition get_scale_x_op (v : double) : top := fun _ p => Ret (set_x (d_mul (rx p) v) p).
Definition get_scale_y_op (v : double) : top := fun _ p => Ret (set_y (d_mul (ry p) v) p).
Definition get_scale_z_op (v : double) : top := fun _ p => Ret (set_z (d_mul (rz p) v) p).

(** apps/transform/transform.h:400-437.  The double is converted to the type of the field. *)
Definition get_set_op (field_name : list Z) (v : double) (extra_fields : Z) : top :=
  let j := field_index field_name extra_fields in
  fun _ p =>
    let ch := first_char field_name in
    if ch =? ch_x then Ret (set_x v p)
    else if ch =? ch_y then Ret (set_y v p)
    else if ch =? ch_z then Ret (set_z v p)
    else if ch =? ch_c then (n <- d_to_u32 v ;; Ret (set_c n p))
    else if ch =? ch_p then (n <- d_to_u32 v ;; Ret (set_p n p))
    else if ch =? ch_i then (n <- d_to_u16 v ;; Ret (set_i n p))
    else if ch =? ch_r then (n <- d_to_u16 v ;; Ret (set_r n p))
    else if ch =? ch_g then (n <- d_to_u16 v ;; Ret (set_g n p))
    else if ch =? ch_b then (n <- d_to_u16 v ;; Ret (set_b n p))
    else if ch =? ch_e then (_ <- check_extra j p ;; n <- d_to_size v ;; put_extra j n p)
    else Ret p.

(** apps/transform/transform_cmd.h, [struct command] *)
Record command : Type := mk_command { cmd_name : list Z; cmd_params : list Z }.

(** apps/transform/transform.h:490-653, one round of the loop over the commands.  The
    name of an unknown command is left out of the message. *)
Definition get_op (stod : stod_fn) (t : trig) (noise : noise_fn) (random_seed extra_fields : Z) (c : command)
    : outcome top :=
  let s := cmd_params c in
  let name_is (n : string) := beq_bytes (cmd_name c) (chars n) in
  let number (op : double -> top) := '(v, _) <- consume_double stod s ;; Ret (op v) in
  if name_is "add-x"%string then number get_add_x_op
  else if name_is "add-y"%string then number get_add_y_op
  else if name_is "add-z"%string then number get_add_z_op
  else if name_is "copy-field"%string then
    '(f1, s) <- consume_field_name s ;;
    '(f2, s) <- consume_field_name s ;;
    get_copy_field_op f1 f2 extra_fields
  else if name_is "gaussian-noise"%string then number (fun v => get_noise_op noise gaussian random_seed v v v)
  else if name_is "gaussian-noise-x"%string then number (fun v => get_noise_op noise gaussian random_seed v d_zero d_zero)
  else if name_is "gaussian-noise-y"%string then number (fun v => get_noise_op noise gaussian random_seed d_zero v d_zero)
  else if name_is "gaussian-noise-z"%string then number (fun v => get_noise_op noise gaussian random_seed d_zero d_zero v)
  else if name_is "quantize-xyz"%string then number get_quantize_op
  else if name_is "replace"%string then
    '(l, s) <- consume_field_name s ;;
    '(v1, s) <- consume_int s ;;
    '(v2, s) <- consume_int s ;;
    get_replace_op l v1 v2 extra_fields
  else if name_is "replace-not"%string then
    '(l, s) <- consume_field_name s ;;
    '(v, s) <- consume_ints s ;;
    get_replace_not_op l v extra_fields
  else if name_is "rotate-x"%string then number (get_rotate_x_op t)
  else if name_is "rotate-y"%string then number (get_rotate_y_op t)
  else if name_is "rotate-z"%string then number (get_rotate_z_op t)
  else if name_is "scale-x"%string then number get_scale_x_op
  else if name_is "scale-y"%string then number get_scale_y_op
  else if name_is "scale-z"%string then number get_scale_z_op
  else if name_is "set"%string then
    '(l, s) <- consume_field_name s ;;
    '(v, s) <- consume_double stod s ;;
    Ret (get_set_op l v extra_fields)
  else if name_is "uniform-noise"%string then number (fun v => get_noise_op noise uniform_real random_seed v v v)
  else if name_is "uniform-noise-x"%string then number (fun v => get_noise_op noise uniform_real random_seed v d_zero d_zero)
  else if name_is "uniform-noise-y"%string then number (fun v => get_noise_op noise uniform_real random_seed d_zero v d_zero)
  else if name_is "uniform-noise-z"%string then number (fun v => get_noise_op noise uniform_real random_seed d_zero d_zero v)
  else Throw (runtime_error "An unknown command was encountered: ").

(** apps/transform/transform.h:667-668 *)
Fixpoint run_ops (ops : list top) (k : Z) (p : point_record) : outcome point_record :=
  match ops with
  | [] => Ret p
  | op :: t => p <- op k p ;; run_ops t k p
  end.

(** apps/transform/transform.h:655-672, the records from number [k] on, [n] of them *)
Fixpoint transform_points (n : nat) (k extra_fields : Z) (ops : list top) (s : istream) : writer unit :=
  match n with
  | O => w_ret tt
  | S n' =>
    w_bind (w_lift (read_point_record extra_fields s)) (fun '(p, s) =>
    w_bind (w_lift (run_ops ops k p)) (fun p =>
    w_seq (write_point_record p) (transform_points n' (k + 1) extra_fields ops s)))
  end.

(** apps/transform/transform.h:21-36, without the contracts: a stream just opened is good *)
Definition read_header_uncompressed (s : istream) : outcome (header * istream) :=
  '(h, s) <- read_header s ;;
  if negb (h_compressed h =? 0) then Throw (runtime_error "Expected an uncompressed file") else Ret (h, s).

(** apps/transform/transform.h:467-674, without [REQUIRE (os.good ())].  The contract on
    the header always holds: [read_header] checks the signature and limits the length. *)
Definition transform_apply (stod : stod_fn) (t : trig) (noise : noise_fn) (commands : list command)
    (random_seed : Z) (s : istream) : writer unit :=
  w_bind (w_lift (read_header_uncompressed s)) (fun '(h, s) =>
  w_seq (write_header h)
 (w_bind (w_lift (mapM (get_op stod t noise random_seed (h_extra h)) commands)) (fun ops =>
  transform_points (Z.to_nat (h_total h)) 0 (h_extra h) ops s))).

(** apps/transform/transform.cpp:38-62: the contents of the input and output.  The
    check comes before the output file is opened. *)
Definition transform_tool (stod : stod_fn) (t : trig) (noise : noise_fn) (commands : list command)
    (random_seed : Z) (input : list Z) : writer unit :=
  match commands with
  | [] => w_lift (Throw (runtime_error "No command was specified"))
  | _ => transform_apply stod t noise commands random_seed (i_open input)
  end.
