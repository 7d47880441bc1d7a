(** Model of spoc/affine.h, and of the quantize loop of spoc/utils.h on records.

    The templates work on vectors of anything with members x, y and z: here the
    point records ([prs]) of a file.  Each loop is given as the iterations of a
    parallel loop (Model/Par.v) over the vector. *)
From Coq Require Import ZArith List Bool.
From Verif.Model Require Import Base Double Arith PointRecord Utils Par.
Import ListNotations.
Open Scope Z_scope.

(** spoc/affine.h:12-18, [p[i].x += v] *)
Definition add_x_body (v : double) (i : Z) : thread point_record :=
  Load i (fun a => Modify i (set_x (d_add (rx a) v)) Done).
(** spoc/affine.h:21-27 *)
Definition add_y_body (v : double) (i : Z) : thread point_record :=
  Load i (fun a => Modify i (set_y (d_add (ry a) v)) Done).
(** spoc/affine.h:30-36 *)
Definition add_z_body (v : double) (i : Z) : thread point_record :=
  Load i (fun a => Modify i (set_z (d_add (rz a) v)) Done).

(** spoc/affine.h:39-49 when [v] refers to an object outside the vector *)
Definition add_body (v : point_record) (i : Z) : thread point_record :=
  Load i (fun a => Modify i (set_x (d_add (rx a) (rx v)))
 (Load i (fun a => Modify i (set_y (d_add (ry a) (ry v)))
 (Load i (fun a => Modify i (set_z (d_add (rz a) (rz v))) Done))))).

(** spoc/affine.h:39-49 when [v] refers to element [k] of the vector itself, as
    in [add (p, p[k])] *)
Definition add_self_body (k : Z) (i : Z) : thread point_record :=
  Load i (fun a => Load k (fun v => Modify i (set_x (d_add (rx a) (rx v)))
 (Load i (fun a => Load k (fun v => Modify i (set_y (d_add (ry a) (ry v)))
 (Load i (fun a => Load k (fun v => Modify i (set_z (d_add (rz a) (rz v))) Done)))))))).

(** spoc/affine.h:52-68 *)
Definition rotate_body (xop yop zop : double -> double -> double -> double) (i : Z) : thread point_record :=
  Load i (fun a => let x := rx a in
  Load i (fun a => let y := ry a in
  Load i (fun a => let z := rz a in
  Modify i (set_x (xop x y z))
 (Modify i (set_y (yop x y z))
 (Modify i (set_z (zop x y z)) Done))))).

(** [M_PI] and 180.0 *)
Definition d_pi : double := 4614256656552045848.      (* 0x400921FB54442D18 *)
Definition d_180 : double := 4640537203540230144.     (* 0x4066800000000000 *)
Definition radians (degrees : double) : double := d_div (d_mul degrees d_pi) d_180.

(** [cos] and [sin] of the C library are parameters. *)
Record trig : Type := mk_trig { d_cos : double -> double; d_sin : double -> double }.

(** [a * cos (r) - b * sin (r)] and [a * sin (r) + b * cos (r)] *)
Definition turn_minus (t : trig) (r a b : double) : double :=
  d_sub (d_mul a (d_cos t r)) (d_mul b (d_sin t r)).
Definition turn_plus (t : trig) (r a b : double) : double :=
  d_add (d_mul a (d_sin t r)) (d_mul b (d_cos t r)).

(** spoc/affine.h:71-79 *)
Definition rotate_x_body (t : trig) (degrees : double) : Z -> thread point_record :=
  let r := radians degrees in
  rotate_body (fun x y z => x) (fun x y z => turn_minus t r y z) (fun x y z => turn_plus t r y z).
(** spoc/affine.h:82-90 *)
Definition rotate_y_body (t : trig) (degrees : double) : Z -> thread point_record :=
  let r := radians degrees in
  rotate_body (fun x y z => turn_minus t r x z) (fun x y z => y) (fun x y z => turn_plus t r x z).
(** spoc/affine.h:93-101 *)
Definition rotate_z_body (t : trig) (degrees : double) : Z -> thread point_record :=
  let r := radians degrees in
  rotate_body (fun x y z => turn_minus t r x y) (fun x y z => turn_plus t r x y) (fun x y z => z).

(** spoc/affine.h:105-110, [p[i].x = p[i].x * v] *)
Definition scale_x_body (v : double) (i : Z) : thread point_record :=
  Load i (fun a => Modify i (set_x (d_mul (rx a) v)) Done).
(** spoc/affine.h:114-119 *)
Definition scale_y_body (v : double) (i : Z) : thread point_record :=
  Load i (fun a => Modify i (set_y (d_mul (ry a) v)) Done).
(** spoc/affine.h:123-128 *)
Definition scale_z_body (v : double) (i : Z) : thread point_record :=
  Load i (fun a => Modify i (set_z (d_mul (rz a) v)) Done).

(** spoc/utils.h:43-50, [p[i].x = static_cast<int> (p[i].x / precision) * precision] *)
Definition quantize_body (precision : double) (i : Z) : thread point_record :=
  Load i (fun a => compute (quantize1 (rx a) precision) (fun x => Modify i (set_x x)
 (Load i (fun a => compute (quantize1 (ry a) precision) (fun y => Modify i (set_y y)
 (Load i (fun a => compute (quantize1 (rz a) precision) (fun z => Modify i (set_z z) Done)))))))).
