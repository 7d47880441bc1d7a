(** Vocabulary of the properties about rotations. *)
From Coq Require Import Reals ZArith.
From Flocq Require Import Core.
From Verif.Model Require Import Base Double Affine.
From Verif.Spec Require Import Rounding.
Open Scope R_scope.

(** What is assumed of the C library's [cos] and [sin]: an absolute error of at most 2^-52
    (one unit in the last place of 1). *)
Definition accurate (t : trig) : Prop := forall r, finite r ->
  finite (d_cos t r) /\ Rabs (d_val (d_cos t r) - cos (d_val r)) <= / 4503599627370496
  /\ finite (d_sin t r) /\ Rabs (d_val (d_sin t r) - sin (d_val r)) <= / 4503599627370496.

(** The angle meant by a number of degrees. *)
Definition angle (degrees : double) : R := d_val degrees * PI / 180.

(** [(a', b')] is [(a, b)] turned by the angle [th], from the first axis towards the second, with an
    error of at most [err] in each coordinate. *)
Definition turned (th err : R) (a b a' b' : double) : Prop :=
  finite a' /\ finite b'
  /\ Rabs (d_val a' - (d_val a * cos th - d_val b * sin th)) <= err
  /\ Rabs (d_val b' - (d_val a * sin th + d_val b * cos th)) <= err.

(** 2^-50 of the coordinates and of the angle in radians (plus what underflow can cost). *)
Definition turn_error (th a b : R) : R :=
  / 1125899906842624 * (1 + Rabs th) * (Rabs a + Rabs b) + bpow radix2 (-1073).
