(** The fields of a point record, their names and the values they can hold. *)
From Coq Require Import String ZArith List Bool.
From Verif.Model Require Import Base Double PointRecord.
From Verif.Spec Require Import Text.
Import ListNotations.
Open Scope Z_scope.

Inductive field : Type := FX | FY | FZ | FC | FP | FI | FR | FG | FB | FE (k : Z).

(** The value of a field in a record, if it has that field. *)
Definition value (f : field) (p : point_record) : option Z :=
  match f with
  | FX => Some (rx p) | FY => Some (ry p) | FZ => Some (rz p)
  | FC => Some (rc p) | FP => Some (rp p) | FI => Some (ri p)
  | FR => Some (rr p) | FG => Some (rg p) | FB => Some (rb p)
  | FE k => if k <? 0 then None else nth_error (rextra p) (Z.to_nat k)
  end.

(** A field other than the three coordinates. *)
Definition integer_field (f : field) : Prop := ~ In f [FX; FY; FZ].

(** The number of values that an integer field can hold. *)
Definition range (f : field) : Z :=
  match f with
  | FC | FP => 2 ^ 32
  | FI | FR | FG | FB => 2 ^ 16
  | _ => 2 ^ 64
  end.

(** What a user may write for a field.  The extra fields are 'e' and a number, to which
    the program allows anything [std::stoi] allows. *)
Definition names (f : field) (t : list Z) : Prop :=
  match f with
  | FX => t = chars "x" | FY => t = chars "y" | FZ => t = chars "z"
  | FC => t = chars "c" | FP => t = chars "p" | FI => t = chars "i"
  | FR => t = chars "r" | FG => t = chars "g" | FB => t = chars "b"
  | FE k => 0 <= k < 2 ^ 31 /\ exists u, t = chars "e" ++ u /\ reads_as u k
  end.

(** Everything but the fields of the list is the same in both records, which have the
    same fields. *)
Definition only (fs : list field) (p p' : point_record) : Prop :=
  List.length (rextra p') = List.length (rextra p) /\ forall g, ~ In g fs -> value g p' = value g p.

(** [p'] is [p] with value [v] in field [f]. *)
Definition assigned (f : field) (v : Z) (p p' : point_record) : Prop :=
  value f p' = Some v /\ only [f] p p'.
