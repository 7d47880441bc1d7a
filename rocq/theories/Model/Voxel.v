(** Model of spoc/voxel.h. *)
From Coq Require Import ZArith List Bool.
From Verif.Model Require Import Base Double Arith PointRecord Point Extent.
Import ListNotations.
Open Scope Z_scope.
Open Scope outcome_scope.

(** spoc/voxel.h:15-36: three [size_t] *)
Record voxel_index : Type := mk_vox { vi : Z; vj : Z; vk : Z }.

(** spoc/voxel.h:32-35 *)
Definition vox_eqb (a b : voxel_index) : bool := (vi b =? vi a) && (vj b =? vj a) && (vk b =? vk a).

(** spoc/voxel.h:39-47: the conversions to [size_t] are implicit *)
Definition voxel1 (p minv res : double) : outcome Z := d_to_size (d_div (d_sub p minv) res).
Definition get_voxel_index (p minp : point) (res : double) : outcome voxel_index :=
  i <- voxel1 (px p) (px minp) res ;;
  j <- voxel1 (py p) (py minp) res ;;
  k <- voxel1 (pz p) (pz minp) res ;;
  Ret (mk_vox i j k).

(** spoc/voxel.h:49-60.  The loop is parallel; see Model/Par.v for schedules. *)
Definition get_voxel_indexes_ext (points : list point) (e : extent) (res : double)
    : outcome (list voxel_index) :=
  mapM (fun p => get_voxel_index p (minp e) res) points.

(** spoc/voxel.h:62-74 *)
Definition get_voxel_indexes_of (points : list point) (point_indexes : list Z) (res : double)
    : outcome (list voxel_index) :=
  let e := get_extent points in
  mapM (fun i => p <- vec_get points i ;; get_voxel_index p (minp e) res) point_indexes.

(** spoc/voxel.h:76-81 *)
Definition get_voxel_indexes (points : list point) (res : double) : outcome (list voxel_index) :=
  get_voxel_indexes_ext points (get_extent points) res.

(** spoc/voxel.h:84-91 *)
Definition voxel_index_hash (v : voxel_index) : Z :=
  Z.lxor (Z.lxor (to_u64 (Z.shiftl (vi v) 0)) (to_u64 (Z.shiftl (vj v) 16))) (to_u64 (Z.shiftl (vk v) 32)).

(** [std::unordered_map] and [std::unordered_set] as association lists and lists
    without duplicates, in insertion order; lookups go by [==] alone because
    equal keys have equal hashes (C26).  Nothing below depends on the iteration
    order. *)
Definition voxel_index_set : Type := list voxel_index.
Definition voxel_index_map : Type := list (voxel_index * list Z).

Definition set_mem (v : voxel_index) (s : voxel_index_set) : bool := existsb (vox_eqb v) s.
Definition set_insert (v : voxel_index) (s : voxel_index_set) : voxel_index_set :=
  if set_mem v s then s else s ++ [v].

(** [m.find (v)] *)
Fixpoint map_find (v : voxel_index) (m : voxel_index_map) : option (list Z) :=
  match m with
  | [] => None
  | (w, l) :: t => if vox_eqb v w then Some l else map_find v t
  end.

(** [m[v].push_back (i)] *)
Fixpoint map_push (v : voxel_index) (i : Z) (m : voxel_index_map) : voxel_index_map :=
  match m with
  | [] => [(v, [i])]
  | (w, l) :: t => if vox_eqb v w then (w, l ++ [i]) :: t else (w, l) :: map_push v i t
  end.

(** spoc/voxel.h:97-103 *)
Definition get_voxel_index_set (vs : list voxel_index) : voxel_index_set :=
  fold_left (fun s v => set_insert v s) vs [].

(** spoc/voxel.h:105-119, the loop from index [i] *)
Fixpoint vim_loop (i : Z) (vs : list voxel_index) (m : voxel_index_map) : voxel_index_map :=
  match vs with
  | [] => m
  | v :: t => vim_loop (i + 1) t (map_push v i m)
  end.
Definition get_voxel_index_map (vs : list voxel_index) : voxel_index_map := vim_loop 0 vs [].
