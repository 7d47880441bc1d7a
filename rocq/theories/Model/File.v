(** Model of spoc/file.h. *)
From Coq Require Import ZArith List Bool String.
From Verif.Model Require Import Base Double Header PointRecord.
Import ListNotations.
Open Scope Z_scope.
Open Scope outcome_scope.

(** spoc/file.h:25-41 *)
Definition all_same_size_extra (prs : list point_record) : bool :=
  match prs with
  | [] => true
  | p0 :: _ =>
    negb (existsb (fun p => negb (zlen (rextra p) =? zlen (rextra p0))) prs)
  end.

(** spoc/file.h:47-51, the members of [class spoc_file] *)
Record spoc_file : Type := mk_file {
  f_major : Z;                     (* uint8_t *)
  f_minor : Z;                     (* uint8_t *)
  f_wkt : list Z;                  (* std::string *)
  f_compressed : bool;
  f_prs : list point_record
}.

(** spoc/file.h:55-60, default constructor *)
Definition file_default : spoc_file :=
  mk_file MAJOR_VERSION MINOR_VERSION [] false [].

(** spoc/file.h:67-81, constructor *)
Definition file_ctor (major minor : Z) (wkt : list Z) (compressed : bool)
    (prs : list point_record) : outcome spoc_file :=
  if negb (all_same_size_extra prs)
  then Throw (runtime_error "The point record extra fields have inconsistent sizes")
  else Ret (mk_file (to_u8 major) (to_u8 minor) wkt compressed prs).

(** spoc/file.h:86-91, constructor with the current version *)
Definition file_ctor_wkt (wkt : list Z) (compressed : bool) (prs : list point_record)
    : outcome spoc_file :=
  file_ctor MAJOR_VERSION MINOR_VERSION wkt compressed prs.

(** spoc/file.h:94-97, copy constructor *)
Definition file_copy (f : spoc_file) : outcome spoc_file :=
  file_ctor (f_major f) (f_minor f) (f_wkt f) (f_compressed f) (f_prs f).

(** spoc/file.h:100-107 *)
Definition clone_empty (f : spoc_file) : outcome spoc_file :=
  file_ctor (f_major f) (f_minor f) (f_wkt f) (f_compressed f) [].

(** spoc/file.h:110-115 *)
Definition file_is_valid (f : spoc_file) : bool := all_same_size_extra (f_prs f).

(** spoc/file.h:133-137: the index is checked by [assert] only *)
Definition get_point_record (f : spoc_file) (i : Z) : outcome point_record :=
  vec_get (f_prs f) i.

(** spoc/file.h:140-143 *)
Definition get_extra_fields (f : spoc_file) : Z :=
  match f_prs f with [] => 0 | p :: _ => zlen (rextra p) end.

(** spoc/file.h:146-153: the header constructor narrows the number of extra
    fields to [uint8_t] *)
Definition get_header (f : spoc_file) : outcome header :=
  header_ctor (f_major f) (f_minor f) (f_wkt f) (get_extra_fields f)
    (zlen (f_prs f)) (f_compressed f).

(** spoc/file.h:156 *)
Definition set_wkt (s : list Z) (f : spoc_file) : spoc_file :=
  mk_file (f_major f) (f_minor f) s (f_compressed f) (f_prs f).

(** spoc/file.h:159 *)
Definition set_compressed (flag : bool) (f : spoc_file) : spoc_file :=
  mk_file (f_major f) (f_minor f) (f_wkt f) flag (f_prs f).

(** Assignment to the private member [prs]. *)
Definition with_prs (f : spoc_file) (prs : list point_record) : spoc_file :=
  mk_file (f_major f) (f_minor f) (f_wkt f) (f_compressed f) prs.

(** ** Member functions that change the object

    Run on the object they return the object as they leave it, whether they
    return or throw: a statement executed before an exception has its effect. *)
Definition mutator : Type := spoc_file -> spoc_file * outcome unit.

Definition m_throw_if (c : spoc_file -> bool) (e : exn) : mutator :=
  fun f => (f, if c f then Throw e else Ret tt).
Definition m_update (g : spoc_file -> spoc_file) : mutator := fun f => (g f, Ret tt).
Definition m_then (a b : mutator) : mutator :=
  fun f => match a f with
           | (f', Ret _) => b f'
           | (f', Throw e) => (f', Throw e)
           | (f', UB u) => (f', UB u)
           | (f', Hang) => (f', Hang)
           end.

(** spoc/file.h:162-170 *)
Definition push_back (pr : point_record) : mutator :=
  m_then (m_throw_if (fun f => match f_prs f with
                               | [] => false
                               | p0 :: _ => negb (zlen (rextra pr) =? zlen (rextra p0))
                               end)
            (runtime_error "The number of extra fields is incorrect"))
         (m_update (fun f => with_prs f (f_prs f ++ [pr]))).

(** [p.extra.resize (extra_fields)] for one record *)
Definition pr_resize_extra (extra_fields : Z) (p : point_record) : point_record :=
  mk_pr (rx p) (ry p) (rz p) (rc p) (rp p) (ri p) (rr p) (rg p) (rb p)
        (zresize 0 extra_fields (rextra p)).

(** spoc/file.h:179-180, the loop.  A vector that has to grow beyond
    [PTRDIFF_MAX / 8] elements throws [length_error]; [alloc_ok n] says whether
    the memory for growing the vector of record [n] can be had, [bad_alloc] is
    thrown otherwise.  Either leaves that vector unchanged. *)
Fixpoint resize_loop (alloc_ok : Z -> bool) (extra_fields : Z) (n : Z)
    (prs : list point_record) : list point_record * outcome unit :=
  match prs with
  | [] => ([], Ret tt)
  | p :: t =>
    if (zlen (rextra p) <? extra_fields) && (PTRDIFF_MAX <? extra_fields * 8)
    then (prs, Throw length_error)
    else if (zlen (rextra p) <? extra_fields) && negb (alloc_ok n)
    then (prs, Throw bad_alloc)
    else
      let '(t', r) := resize_loop alloc_ok extra_fields (n + 1) t in
      (pr_resize_extra extra_fields p :: t', r)
  end.

(** spoc/file.h:177-181 *)
Definition resize_extra_fields_alloc (alloc_ok : Z -> bool) (extra_fields : Z) : mutator :=
  fun f => let '(prs, r) := resize_loop alloc_ok extra_fields 0 (f_prs f) in (with_prs f prs, r).

(** The same when memory does not run out. *)
Definition resize_extra_fields (extra_fields : Z) : mutator :=
  resize_extra_fields_alloc (fun _ => true) extra_fields.

(** spoc/file.h:184-191: member by member exchange *)
Definition swap (f g : spoc_file) : spoc_file * spoc_file :=
  (mk_file (f_major g) (f_minor g) (f_wkt g) (f_compressed g) (f_prs g),
   mk_file (f_major f) (f_minor f) (f_wkt f) (f_compressed f) (f_prs f)).

(** spoc/file.h:193-201, copy assignment of another object: copy the right hand
    side, swap with the copy.  (Self assignment returns the object unchanged.) *)
Definition assign (rhs : spoc_file) : mutator :=
  fun lhs => match file_copy rhs with
             | Ret tmp => (fst (swap lhs tmp), Ret tt)
             | Throw e => (lhs, Throw e)
             | UB u => (lhs, UB u)
             | Hang => (lhs, Hang)
             end.

(** [prs[i] = p] *)
Definition m_store (i : Z) (p : point_record) : mutator :=
  fun f => match vec_set (f_prs f) i p with
           | Ret prs => (with_prs f prs, Ret tt)
           | Throw e => (f, Throw e)
           | UB u => (f, UB u)
           | Hang => (f, Hang)
           end.

(** spoc/file.h:206-213.  [debug] is [true] when compiled without [NDEBUG]:
    [REQUIRE] then throws on an index out of range.  Otherwise the extra field
    count is still checked before the write. *)
Definition set_point_record (debug : bool) (i : Z) (p : point_record) : mutator :=
  m_then (m_throw_if (fun f => debug && negb (i <? zlen (f_prs f))) (runtime_error "Contract failed"))
 (m_then (m_throw_if (fun f => negb (zlen (rextra p) =? get_extra_fields f))
           (runtime_error "spoc_file::set_point_record(): the point record extra fields size is inconsistent with existing point records"))
         (m_store i p)).

(** spoc/file.h:217-225 *)
Definition set_point_records (prs : list point_record) : mutator :=
  m_then (m_throw_if (fun _ => negb (all_same_size_extra prs))
            (runtime_error "The point record extra fields have inconsistent sizes"))
         (m_update (fun f => with_prs f prs)).

(** spoc/file.h:231-234, [move_point_records ()].  The function returns an rvalue
    reference to the member; the member is emptied by the caller when it
    initialises or assigns a vector from the result ([taken = true]) and is
    untouched when the caller discards or only reads the reference.  Returns
    what the reference shows and the file afterwards. *)
Definition move_point_records_out (taken : bool) (f : spoc_file)
    : list point_record * spoc_file :=
  (f_prs f, if taken then with_prs f [] else f).

(** spoc/file.h:239-247, [move_point_records (prs)].  Returns the file, what is
    left in the argument vector, and the outcome. *)
Definition move_point_records_in (prs : list point_record) (f : spoc_file)
    : spoc_file * list point_record * outcome unit :=
  if negb (all_same_size_extra prs)
  then (f, prs, Throw (runtime_error "The point record extra fields have inconsistent sizes"))
  else (with_prs f prs, [], Ret tt).
