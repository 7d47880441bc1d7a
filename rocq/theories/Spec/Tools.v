(** Notions used by the theorems about spoc_tool. *)
From Coq Require Import String Reals ZArith List Bool.
From Flocq Require Import Core.
From Verif.Model Require Import Base Double PointRecord Point.
From Verif.Spec Require Import Rounding Text Fields History Geometry.
Import ListNotations.
Open Scope Z_scope.

(** Texts, each on a line of its own. *)
Definition on_lines (ts : list (list Z)) : list Z := concat (map (fun t => t ++ [10]) ts).

(** [p'] is [p] with value [v] in field [f]; if that is an extra field which [p] does not
    have, it and those before it are added, with zeros in the others. *)
Definition stored (f : field) (v : Z) (p p' : point_record) : Prop :=
  match f with
  | FE k => exists q, resized (Z.max (Z.of_nat (List.length (rextra p))) (k + 1)) p q /\ assigned f v q p'
  | _ => assigned f v p p'
  end.

(** The records with one value each. *)
Inductive stored_all (f : field) : list Z -> list point_record -> list point_record -> Prop :=
| st_nil : stored_all f [] [] []
| st_cons : forall v vs p ps p' ps', stored f v p p' -> stored_all f vs ps ps' ->
    stored_all f (v :: vs) (p :: ps) (p' :: ps').

(** [signed sg n v]: the sign [sg] before the number [n] makes the 64-bit value [v]. *)
Definition signed (sg : list Z) (n v : Z) : Prop :=
  (sg = [] \/ sg = chars "+") /\ v = n \/ sg = chars "-" /\ v = (- n) mod 2 ^ 64.

(** [field_values n t vs]: the values that [n] readings of a 64-bit number take from the
    text [t], none of which comes to the end of the text.  Each number must be followed by
    a character.  A number that is too large gives the largest value and anything that is
    not a number gives 0; after either, all other values are 0. *)
Inductive field_values : nat -> list Z -> list Z -> Prop :=
| fv_none : forall t, field_values 0 t []
| fv_number : forall n sp sg ds c t v vs,
    Forall white sp -> Forall digit ds -> ds <> [] -> ~ digit c -> number ds < 2 ^ 64 -> signed sg (number ds) v ->
    field_values n (c :: t) vs ->
    field_values (S n) (sp ++ sg ++ ds ++ c :: t) (v :: vs)
| fv_too_large : forall n sp sg ds c t,
    Forall white sp -> Forall digit ds -> ~ digit c -> 2 ^ 64 <= number ds ->
    In sg [[]; chars "+"; chars "-"] ->
    field_values (S n) (sp ++ sg ++ ds ++ c :: t) ((2 ^ 64 - 1) :: repeat 0 n)
| fv_garbage : forall n sp sg c t,
    Forall white sp -> ~ digit c -> (sg = [] -> ~ white c /\ c <> 43 /\ c <> 45) ->
    In sg [[]; chars "+"; chars "-"] ->
    field_values (S n) (sp ++ sg ++ c :: t) (repeat 0 (S n)).

(** [written vs rest text]: the text consists of the numbers [vs], each with white space
    before it unless that is not needed, and of [rest]. *)
Inductive written (rest : list Z) : list Z -> list Z -> Prop :=
| wr_nil : written rest [] rest
| wr_cons : forall v vs sp ds t, Forall white sp -> Forall digit ds -> ds <> [] -> number ds = v ->
    written rest vs t -> not_first digit t -> written rest (v :: vs) (sp ++ ds ++ t).

(** The three coordinates with [c] subtracted, [z] only if [z_flag]; nothing else changes. *)
Definition coordinates (z_flag : bool) : list (point_record -> double) := if z_flag then [rx; ry; rz] else [rx; ry].
Definition coordinate_fields (z_flag : bool) : list field := if z_flag then [FX; FY; FZ] else [FX; FY].

(** Exact sums of the real numbers that doubles denote. *)
Fixpoint exact_sum (l : list double) : R :=
  match l with [] => 0%R | d :: t => (d_val d + exact_sum t)%R end.
Fixpoint abs_sum (l : list double) : R :=
  match l with [] => 0%R | d :: t => (Rabs (d_val d) + abs_sum t)%R end.

(** [show] prints sixteen significant digits: numbers from 1 up to 10 which are nearest to
    the same multiple of 10^-15 have the same text. *)
Definition sixteen_digits (show : double -> list Z) : Prop :=
  forall a b n, finite a -> finite b -> (1 <= d_val a < 10)%R -> (1 <= d_val b < 10)%R ->
  (Rabs (d_val a * 10 ^ 15 - IZR n) < / 2)%R -> (Rabs (d_val b * 10 ^ 15 - IZR n) < / 2)%R ->
  show a = show b.

(** [m] has the least coordinates of the points. *)
Definition lowest (ps : list point) (m : point) : Prop :=
  forall ax, In ax axes -> Forall (fun p => (d_val (ax m) <= d_val (ax p))%R) ps /\ exists p, In p ps /\ d_val (ax p) = d_val (ax m).

(** The coordinate [x] is in cell [n] of the grid with cells of size [r] from [m] on.  The
    cell number is computed with two roundings and must be representable. *)
Definition cell (x m r : double) (n : Z) : Prop :=
  fits (d_val x - d_val m) /\ fits (rnd (d_val x - d_val m) / d_val r)
  /\ n = Ztrunc (rnd (rnd (d_val x - d_val m) / d_val r)) /\ 0 <= n < 2 ^ 64.

Definition has_voxel (m : point) (r : double) (p : point) : Prop :=
  forall ax, In ax axes -> exists n, cell (ax p) (ax m) r n.
Definition same_voxel (m : point) (r : double) (p q : point) : Prop :=
  forall ax, In ax axes -> exists n, cell (ax p) (ax m) r n /\ cell (ax q) (ax m) r n.

(** [p] and [q] are the same place: they may differ in the signs of zeros. *)
Definition same_place (p q : point) : Prop :=
  pt_finite p /\ pt_finite q /\ forall ax, In ax axes -> d_val (ax p) = d_val (ax q).

(** [a] is the last element of the list with property [P]. *)
Definition last_of {A} (P : A -> Prop) (l : list A) (a : A) : Prop :=
  exists l1 l2, l = l1 ++ a :: l2 /\ P a /\ Forall (fun b => ~ P b) l2.
