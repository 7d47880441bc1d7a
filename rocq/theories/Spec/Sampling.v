(** What the theorems about subsampling and radius search assume of the
    library's random numbers, and the notions they use. *)
From Coq Require Import ZArith List Permutation.
From Verif.Model Require Import Base Voxel Subsampling RadiusSearch.
Import ListNotations.
Open Scope Z_scope.

(** [std::shuffle] permutes its range. *)
Definition permutes (sh : shuffler) : Prop := forall s l, Permutation (sh s l) l.

(** Random numbers are unsigned. *)
Definition rand_ok (rand : random_source) : Prop := forall s n, 0 <= rand s n.

(** [sub l k]: [l] is [k] with some elements left out. *)
Inductive sub {A} : list A -> list A -> Prop :=
| sub_nil : sub [] []
| sub_skip : forall a l k, sub l k -> sub l (a :: k)
| sub_take : forall a l k, sub l k -> sub (a :: l) (a :: k).

(** Voxels that touch (or coincide). *)
Definition near (v w : voxel_index) : Prop :=
  Z.abs (vi v - vi w) <= 1 /\ Z.abs (vj v - vj w) <= 1 /\ Z.abs (vk v - vk w) <= 1.

(** A voxel whose three numbers fit the [int] arithmetic of the search. *)
Definition vox_int (v : voxel_index) : Prop :=
  0 <= vi v < 2147483646 /\ 0 <= vj v < 2147483646 /\ 0 <= vk v < 2147483646.

(** Draw [n] times. *)
Fixpoint draws (n : nat) (rand : random_source) (vim : voxel_index_map) (s : selector)
    : outcome (list Z * selector) :=
  match n with
  | O => Ret ([], s)
  | S n' =>
    match draw rand vim s with
    | Ret (j, s') =>
      match draws n' rand vim s' with
      | Ret (js, s'') => Ret (j :: js, s'')
      | Throw e => Throw e | UB u => UB u | Hang => Hang
      end
    | Throw e => Throw e | UB u => UB u | Hang => Hang
    end
  end.
