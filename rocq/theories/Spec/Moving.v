(** The coordinates of points and the library's operations along one of them. *)
From Coq Require Import Reals ZArith List.
From Flocq Require Import Core.
From Verif.Model Require Import Base Double PointRecord Point Par Affine TransformApp.
From Verif.Spec Require Import Fields Rounding.
Open Scope Z_scope.

Inductive axis : Type := AX | AY | AZ.

Definition along (a : axis) : point -> double := match a with AX => px | AY => py | AZ => pz end.

(** The coordinate as a field of a record. *)
Definition as_field (a : axis) : field := match a with AX => FX | AY => FY | AZ => FZ end.

(** [add_x], [add_y], [add_z], [scale_x], [scale_y], [scale_z] of the library, and the commands
    of the same names of [spoc_transform]. *)
Definition add_along (a : axis) : double -> Z -> thread point_record :=
  match a with AX => add_x_body | AY => add_y_body | AZ => add_z_body end.
Definition scale_along (a : axis) : double -> Z -> thread point_record :=
  match a with AX => scale_x_body | AY => scale_y_body | AZ => scale_z_body end.
Definition add_command (a : axis) : double -> top :=
  match a with AX => get_add_x_op | AY => get_add_y_op | AZ => get_add_z_op end.
Definition scale_command (a : axis) : double -> top :=
  match a with AX => get_scale_x_op | AY => get_scale_y_op | AZ => get_scale_z_op end.

(** A coordinate of a record, as a real number. *)
Definition coordinate (a : axis) (p : point_record) : R := d_val (along a (pr_pt p)).
