(** What it means to change all records of a file. *)
From Coq Require Import ZArith List.
From Verif.Model Require Import Base PointRecord File Benchmarks.
Import ListNotations.
Open Scope Z_scope.

(** [g] turns each record of [prs] into the corresponding record of [l]. *)
Definition turns (g : change) (prs l : list point_record) : Prop := Forall2 (fun p p' => g p = Ret p') prs l.

(** The same, without changing how many extra fields the records have. *)
Definition turns_same (g : change) (prs l : list point_record) : Prop :=
  Forall2 (fun p p' => g p = Ret p' /\ length (rextra p') = length (rextra p)) prs l.

(** The file with other records *)
Definition holding (f : spoc_file) (prs : list point_record) : spoc_file :=
  mk_file (f_major f) (f_minor f) (f_wkt f) (f_compressed f) prs.
