(** Model of spoc/subsampling.h. *)
From Coq Require Import ZArith List Bool.
From Verif.Model Require Import Base Double Arith PointRecord Point Extent Voxel.
Import ListNotations.
Open Scope Z_scope.
Open Scope outcome_scope.

(** [std::iota (v.begin (), v.end (), 0)] on a vector of [n] elements *)
Definition iota (n : nat) : list Z := map Z.of_nat (seq 0 n).

(** [std::shuffle (v.begin (), v.end (), std::default_random_engine (seed))]:
    a parameter.  Theorems about it assume only that it permutes. *)
Definition shuffler : Type := Z -> list Z -> list Z.

(** spoc/subsampling.h:19-34 and 76-93: the order in which points are visited *)
Definition visit_order (sh : shuffler) (n : nat) (random_seed : Z) : list Z :=
  if random_seed =? 0 then iota n else sh random_seed (iota n).

(** spoc/subsampling.h:48-67 *)
Fixpoint subsample_loop (v : list voxel_index) (indexes : list Z) (s : voxel_index_set) (r : list Z)
    : outcome (list Z) :=
  match indexes with
  | [] => Ret r
  | j :: t =>
    vj <- vec_get v j ;;
    if set_mem vj s then subsample_loop v t s r
    else subsample_loop v t (set_insert vj s) (r ++ [j])
  end.

(** spoc/subsampling.h:17-70 *)
Definition get_subsample_indexes (sh : shuffler) (p : list point) (res : double) (random_seed : Z)
    : outcome (list Z) :=
  let indexes := visit_order sh (length p) random_seed in
  v <- get_voxel_indexes p res ;;
  subsample_loop v indexes [] [].

(** [xyzs.find (l) != xyzs.end ()] in an [unordered_set] of points.  A lookup
    goes by hash and then [==]; equal points have equal hashes (C26), so it goes
    by [==]. *)
Definition xyz_mem (l : point) (xyzs : list point) : bool := existsb (fun q => pt_eqb q l) xyzs.

(** spoc/subsampling.h:98-120 *)
Fixpoint unique_loop (prs : list point) (indexes : list Z) (xyzs : list point) (r : list Z)
    : outcome (list Z) :=
  match indexes with
  | [] => Ret r
  | j :: t =>
    l <- vec_get prs j ;;
    if xyz_mem l xyzs then unique_loop prs t xyzs r
    else unique_loop prs t (xyzs ++ [l]) (r ++ [j])
  end.

(** spoc/subsampling.h:72-123, on the locations of the records *)
Definition get_unique_xyz_indexes (sh : shuffler) (prs : list point) (random_seed : Z) : outcome (list Z) :=
  unique_loop prs (visit_order sh (length prs) random_seed) [] [].

(** spoc/subsampling.h:125-139, for elements [A] with a location *)
Definition subsample_points {A} (loc : A -> point) (sh : shuffler) (p : list A) (res : double) (random_seed : Z)
    : outcome (list A) :=
  indexes <- get_subsample_indexes sh (map loc p) res random_seed ;;
  mapM (vec_get p) indexes.
