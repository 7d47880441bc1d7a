(** Model of spoc/asprs.h. *)
From Coq Require Import ZArith List Bool String.
From Verif.Model Require Import Base.
Import ListNotations.
Open Scope Z_scope.

(** [std::unordered_map<int,std::string>]: the assignments, the latest first. *)
Definition class_names : Type := list (Z * list Z).
Definition class_set (k : Z) (s : list Z) (m : class_names) : class_names := (k, s) :: m.

(** [m.find (k)], [None] for [m.end ()] *)
Fixpoint class_find (k : Z) (m : class_names) : option (list Z) :=
  match m with
  | [] => None
  | (j, s) :: t => if k =? j then Some s else class_find k t
  end.

(** [for (int i = from; i < from + n; ++i) m[i] = s] *)
Fixpoint class_fill (n : nat) (from : Z) (s : list Z) (m : class_names) : class_names :=
  match n with
  | O => m
  | S n => class_fill n (from + 1) s (class_set from s m)
  end.

(** spoc/asprs.h:41-72 *)
Definition get_asprs_class_map : class_names :=
  let m := [] in
  let m := class_set 0 (chars "unclassified") m in
  let m := class_set 1 (chars "unknown") m in
  let m := class_set 2 (chars "ground") m in
  let m := class_set 3 (chars "low_veg") m in
  let m := class_set 4 (chars "med_veg") m in
  let m := class_set 5 (chars "high_veg") m in
  let m := class_set 6 (chars "building") m in
  let m := class_set 7 (chars "low_noise") m in
  let m := class_set 8 (chars "reserved") m in
  let m := class_set 9 (chars "water") m in
  let m := class_set 10 (chars "rail") m in
  let m := class_set 11 (chars "road") m in
  let m := class_set 12 (chars "reserved") m in
  let m := class_set 13 (chars "wire_guard") m in
  let m := class_set 14 (chars "wire_conductor") m in
  let m := class_set 15 (chars "transmission_tower") m in
  let m := class_set 16 (chars "wire_connector") m in
  let m := class_set 17 (chars "bridge_deck") m in
  let m := class_set 18 (chars "high_noise") m in
  let m := class_set 19 (chars "overhead_structure") m in
  let m := class_set 20 (chars "ignored") m in
  let m := class_set 21 (chars "snow") m in
  let m := class_set 22 (chars "exclusion") m in
  let m := class_fill (64 - 23) 23 (chars "reserved") m in
  class_fill (256 - 64) 64 (chars "user_defined") m.
