(** Real distances between points. *)
From Coq Require Import Reals.
From Flocq Require Import Core.
From Verif.Model Require Import Base Double Point.
From Verif.Spec Require Import Rounding.
Open Scope R_scope.

Definition sq (x : R) : R := x * x.

(** The square of the Euclidean distance. *)
Definition dist2 (p q : point) : R :=
  sq (d_val (px p) - d_val (px q)) + sq (d_val (py p) - d_val (py q)) + sq (d_val (pz p) - d_val (pz q)).

(** Finite and not huge: at most 2^500 in magnitude, so that squares of
    differences do not overflow. *)
Definition modest (d : double) : Prop := finite d /\ Rabs (d_val d) <= bpow radix2 500.
Definition modest_pt (p : point) : Prop := modest (px p) /\ modest (py p) /\ modest (pz p).
