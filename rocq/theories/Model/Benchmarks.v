(** Model of benchmarks/benchmark_spoc_file.cpp: three ways of changing all records of a file.
    The change of one record is a parameter: the user writes their own loop body. *)
From Coq Require Import String ZArith List Bool.
From Verif.Model Require Import Base Double Arith PointRecord File.
Import ListNotations.
Open Scope Z_scope.
Open Scope outcome_scope.

(** A change of one record; it may throw *)
Definition change : Type := point_record -> outcome point_record.

(** benchmarks/benchmark_spoc_file.cpp:64-65, 78-79 and 93-94: [r.x += 1.23; r.extra[extra_fields - 1] += 123] *)
Definition d_1_23 : double := 4608218246714312622.     (* 0x3FF3AE147AE147AE *)
Definition bump (extra_fields : Z) : change := fun r =>
  e <- vec_get (rextra r) (extra_fields - 1) ;;
  extra <- vec_set (rextra r) (extra_fields - 1) (to_u64 (e + 123)) ;;
  Ret (mk_pr (d_add (rx r) d_1_23) (ry r) (rz r) (rc r) (rp r) (ri r) (rr r) (rg r) (rb r) extra).

(** benchmarks/benchmark_spoc_file.cpp:59-68: record by record, from record [i] on, [n] records *)
Fixpoint update_from (debug : bool) (g : change) (n : nat) (i : Z) : mutator :=
  match n with
  | O => m_update (fun f => f)
  | S n' => fun f =>
    match (r <- get_point_record f i ;; g r) with
    | Ret r => m_then (set_point_record debug i r) (update_from debug g n' (i + 1)) f
    | Throw e => (f, Throw e)
    | UB u => (f, UB u)
    | Hang => (f, Hang)
    end
  end.
Definition update_each (debug : bool) (g : change) : mutator :=
  fun f => update_from debug g (List.length (f_prs f)) 0 f.

(** benchmarks/benchmark_spoc_file.cpp:74-82: copy the records, change the copy, set all *)
Definition update_copy (g : change) : mutator := fun f =>
  match mapM g (f_prs f) with
  | Ret prs => set_point_records prs f
  | Throw e => (f, Throw e)
  | UB u => (f, UB u)
  | Hang => (f, Hang)
  end.

(** benchmarks/benchmark_spoc_file.cpp:89-97: move the records out, change them, move them in *)
Definition update_move (g : change) : mutator := fun f =>
  let '(prs, f1) := move_point_records_out true f in
  match mapM g prs with
  | Ret prs' => let '(f2, _, r) := move_point_records_in prs' f1 in (f2, r)
  | Throw e => (f1, Throw e)
  | UB u => (f1, UB u)
  | Hang => (f1, Hang)
  end.
