(** Model of the spoc_filter program. *)
From Coq Require Import ZArith List Bool String.
From Verif.Model Require Import Base Double Arith Header PointRecord Point File Subsampling Compression IO AppUtils AppConvert.
Import ListNotations.
Open Scope Z_scope.
Open Scope outcome_scope.

(** The object after a member function has returned. *)
Definition after (m : mutator) (f : spoc_file) : outcome spoc_file :=
  match m f with
  | (f', Ret _) => Ret f'
  | (_, Throw e) => Throw e
  | (_, UB u) => UB u
  | (_, Hang) => Hang
  end.

(** apps/filter/filter.h:23-34, [split (s, " ")]: the pieces between the blanks *)
Fixpoint split_blank (s : list Z) : list (list Z) :=
  match s with
  | [] => [[]]
  | c :: t =>
    match split_blank t with
    | w :: ws => if c =? 32 then [] :: w :: ws else (c :: w) :: ws
    | [] => []
    end
  end.

(** A loop that pushes the records that satisfy [keep] *)
Fixpoint push_if (keep : point_record -> bool) (prs : list point_record) (g : spoc_file) : outcome spoc_file :=
  match prs with
  | [] => Ret g
  | p :: t => if keep p then (g' <- after (push_back p) g ;; push_if keep t g') else push_if keep t g
  end.

(** [c.find (k) != c.end ()] in an [unordered_set<int>]; the class, a [uint32_t], is
    converted to [int] *)
Definition class_in (c : list Z) (p : point_record) : bool := existsb (Z.eqb (to_i32 (rc p))) c.

(** apps/filter/filter.h:38-54 *)
Definition keep_classes (f : spoc_file) (c : list Z) : outcome spoc_file :=
  g <- clone_empty f ;; push_if (class_in c) (f_prs f) g.

(** apps/filter/filter.h:56-72 *)
Definition remove_classes (f : spoc_file) (c : list Z) : outcome spoc_file :=
  g <- clone_empty f ;; push_if (fun p => negb (class_in c p)) (f_prs f) g.

(** [g.push_back (prs[i])] for each index *)
Fixpoint push_at (prs : list point_record) (indexes : list Z) (g : spoc_file) : outcome spoc_file :=
  match indexes with
  | [] => Ret g
  | i :: t => p <- vec_get prs i ;; g' <- after (push_back p) g ;; push_at prs t g'
  end.

(** apps/filter/filter.h:74-91 *)
Definition unique_xyz (sh : shuffler) (f : spoc_file) (random_seed : Z) : outcome spoc_file :=
  g <- clone_empty f ;;
  indexes <- get_unique_xyz_indexes sh (map pr_pt (f_prs f)) random_seed ;;
  push_at (f_prs f) indexes g.

(** apps/filter/filter.h:93-105 *)
Definition subsample_file (sh : shuffler) (f : spoc_file) (res : double) (random_seed : Z) : outcome spoc_file :=
  g <- clone_empty f ;;
  prs <- subsample_points pr_pt sh (f_prs f) res random_seed ;;
  after (set_point_records prs) g.

(** apps/filter/filter.h:119-128 *)
Definition axis_value (a : list Z) : outcome (point_record -> double) :=
  if beq_bytes a (chars "x") then Ret rx
  else if beq_bytes a (chars "y") then Ret ry
  else if beq_bytes a (chars "z") then Ret rz
  else Throw (runtime_error "An invalid coordinate value was given").

(** apps/filter/filter.h:130-145 *)
Definition comparison (o : list Z) : outcome (double -> double -> bool) :=
  if beq_bytes o (chars ">") then Ret d_gtb
  else if beq_bytes o (chars "<") then Ret d_ltb
  else Throw (runtime_error "An invalid comparison operator was given").

(** apps/filter/filter.h:108-169 *)
Definition remove_coords (stod : stod_fn) (f : spoc_file) (op : list Z) : outcome spoc_file :=
  g <- clone_empty f ;;
  match split_blank op with
  | [a; o; v] =>
    value <- axis_value a ;;
    compare <- comparison o ;;
    match stod v with
    | None => Throw (runtime_error "Failed to convert comparison value to double for remove-coords option in spoc_filter. Did you format the option correctly?")
    | Some (compare_value, _) => push_if (fun p => negb (compare (value p) compare_value)) (f_prs f) g
    end
  | _ => Throw (runtime_error "Did not find correct number of arguments for remove-coords option")
  end.

(** apps/filter/filter_cmd.h:16-29, the options that matter.  [Commands.v] models
    the command line. *)
Record filter_args : Type := mk_filter_args {
  fa_keep : list Z;          (* unordered_set<int> *)
  fa_seed : Z;               (* size_t *)
  fa_remove : list Z;        (* unordered_set<int> *)
  fa_unique : bool;
  fa_subsample : double;
  fa_coords : list Z         (* string *)
}.

(** [if (flag) f = e]: an assignment copies *)
Definition assign_if (flag : bool) (f : spoc_file) (e : outcome spoc_file) : outcome spoc_file :=
  if flag then (g <- e ;; file_copy g) else Ret f.

Definition nonempty {A} (l : list A) : bool := match l with [] => false | _ => true end.

(** apps/filter/filter.cpp:64-73 *)
Definition filter_process (sh : shuffler) (stod : stod_fn) (args : filter_args) (f : spoc_file) : outcome spoc_file :=
  f <- assign_if (nonempty (fa_keep args)) f (keep_classes f (fa_keep args)) ;;
  f <- assign_if (nonempty (fa_remove args)) f (remove_classes f (fa_remove args)) ;;
  f <- assign_if (fa_unique args) f (unique_xyz sh f (fa_seed args)) ;;
  f <- assign_if (d_gtb (fa_subsample args) d_zero) f (subsample_file sh f (fa_subsample args) (fa_seed args)) ;;
  assign_if (nonempty (fa_coords args)) f (remove_coords stod f (fa_coords args)).

(** apps/filter/filter.cpp:57-79: the contents of the input and output *)
Definition filter_tool (z : zlib) (sh : shuffler) (stod : stod_fn) (debug : bool) (args : filter_args)
    (input : list Z) : writer unit :=
  from_input (read_spoc_file z (i_open input)) (fun f =>
    w_bind (w_lift (filter_process sh stod args f)) (fun g => write_spoc_file z debug g)).
