(** Notions used by the theorems about the programs. *)
From Coq Require Import ZArith List Bool Permutation.
From Verif.Model Require Import Base Double Header PointRecord File.
From Verif.Spec Require Import Files.
Import ListNotations.
Open Scope Z_scope.

(** A file object that a constructor can have made: version numbers are bytes and
    all records have equally many extra fields. *)
Record live (f : spoc_file) : Prop := mk_live {
  lv_major : 0 <= f_major f < 256;
  lv_minor : 0 <= f_minor f < 256;
  lv_uniform : uniform (f_prs f)
}.

(** Same version, WKT and compression flag. *)
Definition same_meta (f g : spoc_file) : Prop :=
  f_major g = f_major f /\ f_minor g = f_minor f /\ f_wkt g = f_wkt f /\ f_compressed g = f_compressed f.

(** Is [x] one of the numbers in [c]? *)
Definition member (x : Z) (c : list Z) : bool := if in_dec Z.eq_dec x c then true else false.

(** The record with another point id. *)
Definition with_id (id : Z) (p : point_record) : point_record :=
  mk_pr (rx p) (ry p) (rz p) (rc p) id (ri p) (rr p) (rg p) (rb p) (rextra p).

(** The elements of a list with their positions. *)
Fixpoint numbered {A} (i : Z) (l : list A) : list (Z * A) :=
  match l with [] => [] | a :: t => (i, a) :: numbered (i + 1) t end.

(** What a reader makes of the bytes. *)
Definition file_of (read : istream -> outcome (spoc_file * istream)) (bytes : list Z) (f : spoc_file) : Prop :=
  exists rest, read (i_open bytes) = Ret (f, rest).
