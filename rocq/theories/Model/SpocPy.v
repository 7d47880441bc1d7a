(** Model of the Python module spocpy (spocpy/spocpy/spocpy.cpp).

    The objects of a Python program are known by their numbers in the order in which they
    were made; names and their scope are left out.  What pybind11 does is taken from its
    documentation: functions that return a const reference or a vector give Python a copy;
    arguments that do not fit the C++ type raise TypeError before the function is called;
    C++ exceptions become Python exceptions; attributes of type vector and string are
    copied both ways.  Strings are byte strings; decoding them as UTF-8 is left out. *)
From Coq Require Import ZArith List Bool String.
From Verif.Model Require Import Base Double Header PointRecord File Compression IO TileApp SrsApp.
Import ListNotations.
Open Scope Z_scope.
Open Scope outcome_scope.

(** The state of a Python program as far as the module is concerned, and the files *)
Record py_state : Type := mk_py {
  py_spocfiles : list spoc_file;
  py_records : list point_record;
  py_disk : files
}.

(** spocpy/spocpy/spocpy.cpp:79-88, assignments to the attributes of a PointRecord *)
Inductive py_attribute : Type :=
| Py_x (v : double) | Py_y (v : double) | Py_z (v : double)
| Py_c (v : Z) | Py_p (v : Z)
| Py_i (v : Z) | Py_r (v : Z) | Py_g (v : Z) | Py_b (v : Z)
| Py_extra (v : list Z).

(** Calls of the module, spocpy/spocpy/spocpy.cpp:60-116.  Getters that make no object of
    the module change nothing and are left out here. *)
Inductive py_call : Type :=
| Py_PointRecord                                             (* line 78 *)
| Py_assign (r : nat) (a : py_attribute)                     (* lines 79-88 *)
| Py_SpocFile (wkt : list Z) (compressed : bool)             (* line 92 *)
| Py_setWKT (f : nat) (s : list Z)                           (* line 96 *)
| Py_setCompressed (f : nat) (flag : bool)                   (* line 98 *)
| Py_getPointRecord (f : nat) (i : Z)                        (* line 99 *)
| Py_setPointRecord (f : nat) (i : Z) (r : nat)              (* line 100 *)
| Py_getPointRecords (f : nat)                               (* line 101 *)
| Py_setPointRecords (f : nat) (rs : list nat)               (* line 102 *)
| Py_readheader (fn : list Z)                                (* line 75 *)
| Py_readspocfile (fn : list Z)                              (* line 114 *)
| Py_writespocfile (fn : list Z) (f : nat).                  (* line 115 *)

(** Exceptions that Python or pybind11 raise *)
Definition name_error : exn := runtime_error "NameError".
Definition type_error : exn := runtime_error "TypeError".

(** Conversions of integers to unsigned types *)
Definition fits (bits v : Z) : bool := (0 <=? v) && (v <? 2 ^ bits).

(** spocpy/spocpy/spocpy.cpp:79-88 *)
Definition assign_attribute (a : py_attribute) (p : point_record) : outcome point_record :=
  match a with
  | Py_x v => if fits 64 v then Ret (mk_pr v (ry p) (rz p) (rc p) (rp p) (ri p) (rr p) (rg p) (rb p) (rextra p)) else Throw type_error
  | Py_y v => if fits 64 v then Ret (mk_pr (rx p) v (rz p) (rc p) (rp p) (ri p) (rr p) (rg p) (rb p) (rextra p)) else Throw type_error
  | Py_z v => if fits 64 v then Ret (mk_pr (rx p) (ry p) v (rc p) (rp p) (ri p) (rr p) (rg p) (rb p) (rextra p)) else Throw type_error
  | Py_c v => if fits 32 v then Ret (mk_pr (rx p) (ry p) (rz p) v (rp p) (ri p) (rr p) (rg p) (rb p) (rextra p)) else Throw type_error
  | Py_p v => if fits 32 v then Ret (mk_pr (rx p) (ry p) (rz p) (rc p) v (ri p) (rr p) (rg p) (rb p) (rextra p)) else Throw type_error
  | Py_i v => if fits 16 v then Ret (mk_pr (rx p) (ry p) (rz p) (rc p) (rp p) v (rr p) (rg p) (rb p) (rextra p)) else Throw type_error
  | Py_r v => if fits 16 v then Ret (mk_pr (rx p) (ry p) (rz p) (rc p) (rp p) (ri p) v (rg p) (rb p) (rextra p)) else Throw type_error
  | Py_g v => if fits 16 v then Ret (mk_pr (rx p) (ry p) (rz p) (rc p) (rp p) (ri p) (rr p) v (rb p) (rextra p)) else Throw type_error
  | Py_b v => if fits 16 v then Ret (mk_pr (rx p) (ry p) (rz p) (rc p) (rp p) (ri p) (rr p) (rg p) v (rextra p)) else Throw type_error
  | Py_extra v => if forallb (fits 64) v then Ret (mk_pr (rx p) (ry p) (rz p) (rc p) (rp p) (ri p) (rr p) (rg p) (rb p) v) else Throw type_error
  end.

(** An object by its number *)
Definition the {A} (l : list A) (i : nat) : outcome A :=
  match nth_error l i with Some a => Ret a | None => Throw name_error end.

(** The list with another element [i] *)
Fixpoint replace_at {A} (i : nat) (a : A) (l : list A) : list A :=
  match l, i with
  | [], _ => []
  | _ :: t, O => a :: t
  | b :: t, S i' => b :: replace_at i' a t
  end.

(** Calls that change nothing when they raise *)
Definition changes (m : outcome py_state) (st : py_state) : py_state * outcome unit :=
  match m with
  | Ret st' => (st', Ret tt)
  | Throw e => (st, Throw e)
  | UB u => (st, UB u)
  | Hang => (st, Hang)
  end.

Definition add_record (p : point_record) (st : py_state) : py_state := mk_py (py_spocfiles st) (py_records st ++ [p]) (py_disk st).
Definition add_file (f : spoc_file) (st : py_state) : py_state := mk_py (py_spocfiles st ++ [f]) (py_records st) (py_disk st).
Definition put_file (i : nat) (f : spoc_file) (st : py_state) : py_state := mk_py (replace_at i f (py_spocfiles st)) (py_records st) (py_disk st).

(** A method that changes object [i] *)
Definition method (i : nat) (m : mutator) (st : py_state) : py_state * outcome unit :=
  match nth_error (py_spocfiles st) i with
  | None => (st, Throw name_error)
  | Some f => let '(f', r) := m f in (put_file i f' st, r)
  end.

(** spocpy/spocpy/spocpy.cpp:23-32 *)
Definition py_readheader (acc : access_rights) (fn : list Z) (fs : files) : outcome header :=
  bytes <- open_input acc fs fn ;; '(h, _) <- read_header (i_open bytes) ;; Ret h.

(** spocpy/spocpy/spocpy.cpp:34-43 *)
Definition py_readspocfile (z : zlib) (acc : access_rights) (fn : list Z) (fs : files) : outcome spoc_file :=
  bytes <- open_input acc fs fn ;; '(f, _) <- read_spoc_file z (i_open bytes) ;; Ret f.

(** spocpy/spocpy/spocpy.cpp:45-54.  Opening truncates the file; what was written before an
    exception stays.  Left out: a device that fills up. *)
Definition py_writespocfile (z : zlib) (debug : bool) (acc : access_rights) (fn : list Z) (f : spoc_file) (fs : files) : files * outcome unit :=
  if negb (can_write acc fn) then (fs, Throw (runtime_error "Could not open file for writing"))
  else let '(os, r) := write_spoc_file z debug f o_open in (file_put fn (o_bytes os) fs, r).

(** One call *)
Definition py_step (z : zlib) (debug : bool) (acc : access_rights) (c : py_call) (st : py_state) : py_state * outcome unit :=
  match c with
  | Py_PointRecord => changes (Ret (add_record (pr_zero 0) st)) st
  | Py_assign r a =>
    changes (p <- the (py_records st) r ;; p' <- assign_attribute a p ;;
             Ret (mk_py (py_spocfiles st) (replace_at r p' (py_records st)) (py_disk st))) st
  | Py_SpocFile wkt compressed => changes (f <- file_ctor_wkt wkt compressed [] ;; Ret (add_file f st)) st
  | Py_setWKT i s => method i (fun f => (set_wkt s f, Ret tt)) st
  | Py_setCompressed i flag => method i (fun f => (set_compressed flag f, Ret tt)) st
  | Py_getPointRecord i n =>
    changes (f <- the (py_spocfiles st) i ;;
             if negb (fits 64 n) then Throw type_error else
             p <- get_point_record f n ;; Ret (add_record p st)) st
  | Py_setPointRecord i n r =>
    match the (py_records st) r with
    | Ret p => if negb (fits 64 n) then (st, Throw type_error) else method i (set_point_record debug n p) st
    | Throw e => (st, Throw e) | UB u => (st, UB u) | Hang => (st, Hang)
    end
  | Py_getPointRecords i =>
    changes (f <- the (py_spocfiles st) i ;; Ret (mk_py (py_spocfiles st) (py_records st ++ f_prs f) (py_disk st))) st
  | Py_setPointRecords i rs =>
    match mapM (the (py_records st)) rs with
    | Ret prs => method i (set_point_records prs) st
    | Throw e => (st, Throw e) | UB u => (st, UB u) | Hang => (st, Hang)
    end
  | Py_readheader fn => changes (h <- py_readheader acc fn (py_disk st) ;; Ret st) st
  | Py_readspocfile fn => changes (f <- py_readspocfile z acc fn (py_disk st) ;; Ret (add_file f st)) st
  | Py_writespocfile fn i =>
    match nth_error (py_spocfiles st) i with
    | None => (st, Throw name_error)
    | Some f =>
      let '(fs, r) := py_writespocfile z debug acc fn f (py_disk st) in (mk_py (py_spocfiles st) (py_records st) fs, r)
    end
  end.

(** A program: exceptions are caught and it goes on; [None] after undefined behaviour or in
    an endless loop. *)
Fixpoint py_run (z : zlib) (debug : bool) (acc : access_rights) (cs : list py_call) (st : py_state) : option py_state :=
  match cs with
  | [] => Some st
  | c :: t =>
    let '(st', r) := py_step z debug acc c st in
    match r with
    | Ret _ | Throw _ => py_run z debug acc t st'
    | UB _ | Hang => None
    end
  end.
