(** Model of spoc/radius_search.h. *)
From Coq Require Import ZArith List Bool.
From Verif.Model Require Import Base Double Arith PointRecord Point Extent Voxel Subsampling.
Import ListNotations.
Open Scope Z_scope.
Open Scope outcome_scope.

(** The outputs of [std::minstd_rand rng (seed)] are a parameter: [rand seed n]
    is the value of the [n]-th call.  Theorems hold for every non-negative
    sequence; [minstd_rand] below is the actual one. *)
Definition random_source : Type := Z -> nat -> Z.

(** [std::minstd_rand]: x -> 48271 x mod (2^31 - 1); a seed that is 0 modulo
    2^31 - 1 counts as 1 (C++ [rand.eng.lcong]) *)
Definition minstd_seed (s : Z) : Z := if s mod 2147483647 =? 0 then 1 else s mod 2147483647.
Fixpoint minstd_state (s : Z) (n : nat) : Z :=
  match n with
  | O => minstd_seed s
  | S n' => (minstd_state s n' * 48271) mod 2147483647
  end.
Definition minstd_rand : random_source := fun s n => minstd_state s (S n).

(** spoc/radius_search.h:18-33: the members of the selector that change or are
    computed ([neighbor_vim] is passed along, [rng] is seeded once and then
    counted) *)
Record selector : Type := mk_sel {
  voxel_indexes : list voxel_index;
  voxel_counts : list Z;
  total_points_left : Z;
  rng_seed : Z;
  rng_calls : nat
}.

(** [static_cast<int> (i) - 1] and [static_cast<int> (i) + 2]: signed overflow
    is undefined *)
Definition axis_range (i : Z) : outcome (list Z) :=
  let c := to_i32 i in
  if (c - 1 <? - two31) || (two31 - 1 <? c + 2) then UB ub_int_overflow
  else Ret [c - 1; c; c + 1].

(** Arguments converted from [int] to [size_t]. *)
Definition vox_of_ints (i j k : Z) : voxel_index := mk_vox (to_u64 i) (to_u64 j) (to_u64 k).

(** spoc/radius_search.h:42-54 *)
Definition surrounding (ijk : voxel_index) : outcome (list voxel_index) :=
  is <- axis_range (vi ijk) ;;
  js <- axis_range (vj ijk) ;;
  ks <- axis_range (vk ijk) ;;
  Ret (flat_map (fun i => flat_map (fun j => map (fun k => vox_of_ints i j k) ks) js) is).

(** The number of points a voxel holds. *)
Definition voxel_size (vim : voxel_index_map) (v : voxel_index) : Z :=
  match map_find v vim with Some l => zlen l | None => 0 end.

(** spoc/radius_search.h:36-84.  The counters are [size_t]; no wrap since they
    count elements in memory. *)
Definition selector_ctor (ijk : voxel_index) (vim : voxel_index_map) : outcome selector :=
  vs <- surrounding ijk ;;
  let total := fold_left (fun n v => n + voxel_size vim v) vs 0 in
  Ret (mk_sel vs (map (voxel_size vim) vs) total total 0).

(** spoc/radius_search.h:108-117, from the voxel at the head of [counts], whose
    number is [chosen]; running past the last counter is undefined *)
Fixpoint choose (counts : list Z) (chosen : Z) (cumulative_count random_index : Z) : outcome Z :=
  match counts with
  | [] => UB ub_index
  | n :: t =>
    let cumulative_count := cumulative_count + n in
    if (n =? 0) || (cumulative_count <? random_index)
    then choose t (chosen + 1) cumulative_count random_index
    else Ret chosen
  end.

(** spoc/radius_search.h:93-154, [operator()]: the index drawn and the selector
    afterwards.  [% 0] is undefined (reported as [ub_index]). *)
Definition draw (rand : random_source) (vim : voxel_index_map) (s : selector) : outcome (Z * selector) :=
  if total_points_left s =? 0 then UB ub_index else
  let random_index := rand (rng_seed s) (rng_calls s) mod total_points_left s in
  c <- choose (voxel_counts s) 0 0 random_index ;;
  v <- vec_get (voxel_indexes s) c ;;
  match map_find v vim with
  | None => UB ub_index
  | Some entry =>
    count <- vec_get (voxel_counts s) c ;;
    neighbor_index <- vec_get entry (count - 1) ;;
    counts' <- vec_set (voxel_counts s) c (count - 1) ;;
    Ret (neighbor_index,
         mk_sel (voxel_indexes s) counts' (total_points_left s - 1) (rng_seed s) (S (rng_calls s)))
  end.

(** spoc/radius_search.h:184-204, the loop; the fuel is the number of points
    left, which every round decreases *)
Fixpoint neighbors_loop (fuel : nat) (rand : random_source) (vim : voxel_index_map)
    (close : Z -> outcome bool) (max_neighbors : Z) (s : selector) (neighbors : list Z)
    : outcome (list Z) :=
  match fuel with
  | O => Ret neighbors
  | S fuel' =>
    if total_points_left s <=? 0 then Ret neighbors
    else if zlen neighbors =? max_neighbors then Ret neighbors
    else
      '(j, s') <- draw rand vim s ;;
      ok <- close j ;;
      neighbors_loop fuel' rand vim close max_neighbors s' (if ok : bool then neighbors ++ [j] else neighbors)
  end.

(** spoc/radius_search.h:196-203: is neighbor [j] close enough to point [i]? *)
Definition close_enough (points : list point) (point_indexes neighbor_indexes : list Z) (radius : double)
    (i j : Z) : outcome bool :=
  pi <- vec_get point_indexes i ;;
  p <- vec_get points pi ;;
  nj <- vec_get neighbor_indexes j ;;
  q <- vec_get points nj ;;
  Ret (d_leb (distance p q) radius).

(** spoc/radius_search.h:157-210 *)
Definition get_neighbors (rand : random_source) (i : Z) (points : list point)
    (point_indexes neighbor_indexes : list Z) (point_voxel_indexes : list voxel_index)
    (neighbor_vim : voxel_index_map) (radius : double) (max_neighbors : Z) : outcome (list Z) :=
  if max_neighbors =? 0 then Ret [] else
  ijk <- vec_get point_voxel_indexes i ;;
  s <- selector_ctor ijk neighbor_vim ;;
  neighbors_loop (Z.to_nat (total_points_left s)) rand neighbor_vim
    (close_enough points point_indexes neighbor_indexes radius i) max_neighbors s [].

(** spoc/radius_search.h:252-293: the list of the calls [neighbor_op (i, neighbors)],
    in increasing order of [i].  The loop is parallel; see Model/Par.v for
    schedules. *)
Definition radius_search (rand : random_source) (points : list point) (point_indexes neighbor_indexes : list Z)
    (radius : double) (max_neighbors : Z) : outcome (list (Z * list Z)) :=
  point_voxel_indexes <- get_voxel_indexes_of points point_indexes radius ;;
  neighbor_voxel_indexes <- get_voxel_indexes_of points neighbor_indexes radius ;;
  let neighbor_vim := get_voxel_index_map neighbor_voxel_indexes in
  mapM (fun i =>
          ns <- get_neighbors rand i points point_indexes neighbor_indexes point_voxel_indexes
                  neighbor_vim radius max_neighbors ;;
          Ret (i, ns))
       (iota (length point_voxel_indexes)).

(** spoc/radius_search.h:309-313 *)
Definition radius_search_indexes rand points indexes radius max_neighbors :=
  radius_search rand points indexes indexes radius max_neighbors.

(** spoc/radius_search.h:329-339 *)
Definition radius_search_all_neighbors rand (points : list point) indexes radius max_neighbors :=
  radius_search rand points indexes (iota (length points)) radius max_neighbors.

(** spoc/radius_search.h:349-357 *)
Definition radius_search_all rand (points : list point) radius max_neighbors :=
  radius_search rand points (iota (length points)) (iota (length points)) radius max_neighbors.

(** spoc/radius_search.h:364-380: the default for [max_neighbors] is 32 *)
Definition radius_search_get_neighbors rand (points : list point) radius : outcome (list (list Z)) :=
  calls <- radius_search_all rand points radius 32 ;;
  Ret (map snd calls).
