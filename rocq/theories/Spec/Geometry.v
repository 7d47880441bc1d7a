(** Vocabulary of the geometric properties: axes, finite points, boxes,
    order-preserving filtering. *)
From Coq Require Import ZArith List.
From Verif.Model Require Import Base Double Point Extent.
Import ListNotations.
Open Scope Z_scope.

(** No coordinate is NaN. *)
Definition pt_no_nan (p : point) : Prop :=
  d_is_nan (px p) = false /\ d_is_nan (py p) = false /\ d_is_nan (pz p) = false.

(** A coordinate of a point and the matching bounds of an extent. *)
Definition axes : list (point -> double) := [px; py; pz].

(** All coordinates are finite numbers. *)
Definition pt_finite (p : point) : Prop :=
  pt_ok p /\ d_is_finite (px p) = true /\ d_is_finite (py p) = true /\ d_is_finite (pz p) = true.

(** [p] is strictly outside the box on some axis. *)
Definition strictly_outside (e : extent) (p : point) : Prop :=
  exists ax, In ax axes /\ (d_ltb (ax p) (ax (minp e)) = true \/ d_gtb (ax p) (ax (maxp e)) = true).

(** [p] is in the closed box. *)
Definition in_box (e : extent) (p : point) : Prop :=
  forall ax, In ax axes -> d_leb (ax (minp e)) (ax p) = true /\ d_leb (ax p) (ax (maxp e)) = true.

(** A list is a subsequence of another given by keeping the elements satisfying [P]. *)
Inductive keeps {A} (P : A -> Prop) : list A -> list A -> Prop :=
| keeps_nil : keeps P [] []
| keeps_yes : forall a l l', P a -> keeps P l l' -> keeps P (a :: l) (a :: l')
| keeps_no : forall a l l', ~ P a -> keeps P l l' -> keeps P (a :: l) l'.
