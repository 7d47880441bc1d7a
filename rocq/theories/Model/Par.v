(** Parallel loops ([#pragma omp parallel for], [#pragma omp parallel sections]).

    Each iteration (or section) is a sequence of accesses to a shared vector; a
    schedule interleaves the accesses of all iterations in any order.  OpenMP
    itself is not part of the repository; what is assumed of it is that every
    iteration is run exactly once.  Inputs that nobody writes during the loop
    are captured in the iterations instead of being shared memory. *)
From Coq Require Import ZArith List Bool.
From Verif.Model Require Import Base Double Arith PointRecord Point Extent Voxel Utils Subsampling RadiusSearch
  Compression IO.
Import ListNotations.
Open Scope Z_scope.
Open Scope outcome_scope.

(** What can end an iteration abnormally.  An exception that leaves a parallel
    region terminates the program. *)
Inductive failure : Type := F_throw (e : exn) | F_ub (u : ub) | F_hang.
Definition failed {A} (f : failure) : outcome A :=
  match f with F_throw e => Throw e | F_ub u => UB u | F_hang => Hang end.

(** What is left to do of an iteration: read element [j] of the shared vector,
    or change (a member of) element [j]. *)
Inductive thread (A : Type) : Type :=
| Done
| Fail (f : failure)
| Load (j : Z) (k : A -> thread A)
| Modify (j : Z) (g : A -> A) (k : thread A).
Arguments Done {A}.
Arguments Fail {A} f.
Arguments Load {A} j k.
Arguments Modify {A} j g k.

(** A computation without access to the shared vector. *)
Definition compute {A B} (o : outcome B) (k : B -> thread A) : thread A :=
  match o with
  | Ret b => k b
  | Throw e => Fail (F_throw e)
  | UB u => Fail (F_ub u)
  | Hang => Fail F_hang
  end.

Record machine (A : Type) : Type := mk_machine { memory : list A; threads : list (thread A) }.
Arguments mk_machine {A} memory threads.
Arguments memory {A} m.
Arguments threads {A} m.

(** The next access of a thread. *)
Definition access {A} (m : list A) (t : thread A) : outcome (list A * thread A) :=
  match t with
  | Done => Ret (m, Done)
  | Fail f => failed f
  | Load j k => a <- vec_get m j ;; Ret (m, k a)
  | Modify j g k => a <- vec_get m j ;; m' <- vec_set m j (g a) ;; Ret (m', k)
  end.

(** Let iteration [i] do its next access (nothing if there is no such iteration
    or it is done). *)
Definition pstep {A} (i : Z) (s : machine A) : outcome (machine A) :=
  match znth (threads s) i with
  | None => Ret s
  | Some t =>
    '(m, t') <- access (memory s) t ;;
    ts <- vec_set (threads s) i t' ;;
    Ret (mk_machine m ts)
  end.

(** Run a schedule: the iteration that moves at each point in time. *)
Fixpoint prun {A} (sched : list Z) (s : machine A) : outcome (machine A) :=
  match sched with
  | [] => Ret s
  | i :: t => s' <- pstep i s ;; prun t s'
  end.

(** [#pragma omp parallel for] over [for (size_t i = 0; i < n; ++i)]. *)
Definition par_for {A} (n : nat) (body : Z -> thread A) (m : list A) : machine A :=
  mk_machine m (map body (iota n)).

(** ** The parallel loops of the library *)

(** spoc/voxel.h:56-58, [voxel_indexes[i] = get_voxel_index (points[i], e.minp, res)] *)
Definition voxel_body (points : list point) (e : extent) (res : double) (i : Z) : thread voxel_index :=
  compute (vec_get points i) (fun p =>
  compute (get_voxel_index p (minp e) res) (fun v =>
  Modify i (fun _ => v) Done)).

(** spoc/voxel.h:70-72 *)
Definition voxel_body_of (points : list point) (point_indexes : list Z) (res : double) (i : Z) : thread voxel_index :=
  compute (vec_get point_indexes i) (fun pi =>
  compute (vec_get points pi) (fun p =>
  compute (get_voxel_index p (minp (get_extent points)) res) (fun v =>
  Modify i (fun _ => v) Done))).

(** [std::vector<voxel_index> voxel_indexes (n)] *)
Definition voxel_init (n : nat) : list voxel_index := repeat (mk_vox 0 0 0) n.

(** spoc/radius_search.h:270-292.  Element [i] of the shared vector lists the
    calls [neighbor_op (i, ...)] made so far, in order. *)
Definition radius_body (rand : random_source) (points : list point) (point_indexes neighbor_indexes : list Z)
    (point_voxel_indexes : list voxel_index) (neighbor_vim : voxel_index_map)
    (radius : double) (max_neighbors : Z) (i : Z) : thread (list (list Z)) :=
  compute (get_neighbors rand i points point_indexes neighbor_indexes point_voxel_indexes
             neighbor_vim radius max_neighbors) (fun ns =>
  Modify i (fun calls => calls ++ [ns]) Done).

(** spoc/io.h:336-362: [fields[j] = compress_field (...)], [extras[j] = ...];
    the columns carry their element types *)
Definition compress_body (z : zlib) (columns : list (coltype * list Z)) (j : Z) : thread (list Z) :=
  compute (vec_get columns j) (fun '(t, col) =>
  compute (compress_field z t col) (fun c =>
  Modify j (fun _ => c) Done)).

(** [if (!x.empty ()) prs[n].f = x[n];] *)
Definition col_store {A} (x : list Z) (n : Z) (set : Z -> A -> A) (k : thread A) : thread A :=
  match x with
  | [] => k
  | _ :: _ => compute (vec_get x n) (fun v => Modify n (set v) k)
  end.

(** Assignments to the members of a record. *)
Definition set_x v p := mk_pr v (ry p) (rz p) (rc p) (rp p) (ri p) (rr p) (rg p) (rb p) (rextra p).
Definition set_y v p := mk_pr (rx p) v (rz p) (rc p) (rp p) (ri p) (rr p) (rg p) (rb p) (rextra p).
Definition set_z v p := mk_pr (rx p) (ry p) v (rc p) (rp p) (ri p) (rr p) (rg p) (rb p) (rextra p).
Definition set_c v p := mk_pr (rx p) (ry p) (rz p) v (rp p) (ri p) (rr p) (rg p) (rb p) (rextra p).
Definition set_p v p := mk_pr (rx p) (ry p) (rz p) (rc p) v (ri p) (rr p) (rg p) (rb p) (rextra p).
Definition set_i v p := mk_pr (rx p) (ry p) (rz p) (rc p) (rp p) v (rr p) (rg p) (rb p) (rextra p).
Definition set_r v p := mk_pr (rx p) (ry p) (rz p) (rc p) (rp p) (ri p) v (rg p) (rb p) (rextra p).
Definition set_g v p := mk_pr (rx p) (ry p) (rz p) (rc p) (rp p) (ri p) (rr p) v (rb p) (rextra p).
Definition set_b v p := mk_pr (rx p) (ry p) (rz p) (rc p) (rp p) (ri p) (rr p) (rg p) v (rextra p).
Definition set_extra v p := mk_pr (rx p) (ry p) (rz p) (rc p) (rp p) (ri p) (rr p) (rg p) (rb p) v.

(** [p.extra[j] = v]; the index was just checked against [extra.size ()] *)
Definition set_extra_at (j : Z) (v : Z) (p : point_record) : point_record :=
  match zset (rextra p) j v with Some e => set_extra e p | None => p end.

(** spoc/io.h:219-220, the loop over the extra fields from [j] *)
Fixpoint extra_store (extra : list (list Z)) (j n : Z) (k : thread point_record) : thread point_record :=
  match extra with
  | [] => k
  | col :: t => col_store col n (set_extra_at j) (extra_store t (j + 1) n k)
  end.

(** spoc/io.h:208-221 *)
Definition read_body (x y zz c p i r g b : list Z) (extra : list (list Z)) (n : Z) : thread point_record :=
  col_store x n set_x (col_store y n set_y (col_store zz n set_z
  (col_store c n set_c (col_store p n set_p (col_store i n set_i
  (col_store r n set_r (col_store g n set_g (col_store b n set_b
  (Modify n (fun p => set_extra (zresize 0 (zlen extra) (rextra p)) p)
  (extra_store extra 0 n Done)))))))))).
