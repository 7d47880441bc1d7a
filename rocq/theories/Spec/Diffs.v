(** When two files are the same for spoc_diff. *)
From Coq Require Import ZArith List Bool.
From Verif.Model Require Import Base Double Header PointRecord File.
From Verif.Spec Require Import Files Fields.
Import ListNotations.
Open Scope Z_scope.

(** Equal as numbers: neither is a NaN, and both zeros are the same. *)
Definition same_double (a b : double) : Prop :=
  d_is_nan a = false /\ d_is_nan b = false /\ (a = b \/ is_zero_double a /\ is_zero_double b).

(** Two records agree in a field. *)
Definition same_field (f : field) (p q : point_record) : Prop :=
  match f with
  | FX => same_double (rx p) (rx q)
  | FY => same_double (ry p) (ry q)
  | FZ => same_double (rz p) (rz q)
  | _ => value f p = value f q
  end.

(** The same number of records, and they agree in the field. *)
Definition same_column (f : field) (a b : list point_record) : Prop := Forall2 (same_field f) a b.

(** The same number of records, and they agree in everything. *)
Definition same_records (a b : list point_record) : Prop := Forall2 (fun p q => forall f, same_field f p q) a b.

(** The same number of extra fields; a file without records counts as having none. *)
Definition extras_of (a : list point_record) : Z := match a with [] => 0 | p :: _ => Z.of_nat (length (rextra p)) end.

(** What the headers say. *)
Definition same_header (f g : spoc_file) : Prop :=
  f_major f = f_major g /\ f_minor f = f_minor g /\ f_wkt f = f_wkt g /\ f_compressed f = f_compressed g
  /\ length (f_prs f) = length (f_prs g) /\ extras_of (f_prs f) = extras_of (f_prs g).

(** The letter of a field on the command line.  Only the first ten extra fields have one. *)
Definition letter (f : field) (c : Z) : Prop :=
  match f with
  | FX => c = 120 | FY => c = 121 | FZ => c = 122 | FC => c = 99 | FP => c = 112 | FI => c = 105
  | FR => c = 114 | FG => c = 103 | FB => c = 98 | FE k => 0 <= k <= 9 /\ c = 48 + k
  end.

(** A field that both files have. *)
Definition in_both (f : field) (a b : list point_record) : Prop :=
  match f with FE k => k < extras_of a /\ k < extras_of b | _ => True end.
