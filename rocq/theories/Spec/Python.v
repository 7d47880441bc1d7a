(** Python programs that use the module: the objects they can hold. *)
From Coq Require Import ZArith List.
From Verif.Model Require Import Base Header PointRecord File TileApp SpocPy.
From Verif.Spec Require Import Streams Files Fields.
Import ListNotations.
Open Scope Z_scope.

(** A SpocFile object as the format wants it, but for the sizes *)
Definition sound_file (f : spoc_file) : Prop :=
  f_major f = 0 /\ f_minor f = 1 /\ is_bytes (f_wkt f) /\ Forall pr_ok (f_prs f) /\ uniform (f_prs f).

(** All objects and files *)
Definition sound (st : py_state) : Prop :=
  Forall sound_file (py_spocfiles st) /\ Forall pr_ok (py_records st) /\ forall n bs, py_disk st n = Some bs -> is_bytes bs.

(** The strings given to the call consist of bytes. *)
Definition text_ok (c : py_call) : Prop :=
  match c with Py_SpocFile s _ | Py_setWKT _ s => is_bytes s | _ => True end.

(** The calls that can change SpocFile object [i], record object [r] or file [n] *)
Definition changes_file (i : nat) (c : py_call) : Prop :=
  (exists s, c = Py_setWKT i s) \/ (exists b, c = Py_setCompressed i b) \/ (exists n r, c = Py_setPointRecord i n r)
  \/ (exists rs, c = Py_setPointRecords i rs).
Definition changes_record (r : nat) (c : py_call) : Prop := exists a, c = Py_assign r a.
Definition writes_to (n : list Z) (c : py_call) : Prop := exists i, c = Py_writespocfile n i.

(** The state before any call *)
Definition fresh (disk : files) : py_state := mk_py [] [] disk.

(** The attribute and the value of an assignment to an attribute other than extra *)
Definition attribute (a : py_attribute) : option (field * Z) :=
  match a with
  | Py_x v => Some (FX, v) | Py_y v => Some (FY, v) | Py_z v => Some (FZ, v)
  | Py_c v => Some (FC, v) | Py_p v => Some (FP, v) | Py_i v => Some (FI, v)
  | Py_r v => Some (FR, v) | Py_g v => Some (FG, v) | Py_b v => Some (FB, v)
  | Py_extra _ => None
  end.
