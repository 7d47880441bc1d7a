(** Notions used by the theorems about files that end early. *)
From Coq Require Import ZArith List.
From Verif.Model Require Import PointRecord.
Import ListNotations.
Open Scope nat_scope.

(** What is there of element [n] of an array of elements of [size] bytes. *)
Definition part (size : nat) (data : list Z) (n : nat) : list Z := firstn size (skipn (n * size) data).

(** [old] with its first bytes replaced by [got]. *)
Definition over (got old : list Z) : list Z := got ++ skipn (length got) old.

(** The bytes of element [n] when a program fills a buffer for [per] elements again and
    again without clearing it: what there is of the element, then what the buffer held at
    that place, the bytes of element [n - per]; zeros at the beginning. *)
Inductive shows (size per : nat) (data : list Z) : nat -> list Z -> Prop :=
| shows_first : forall n, n < per -> shows size per data n (over (part size data n) (repeat 0%Z size))
| shows_again : forall n old, shows size per data n old ->
    shows size per data (n + per) (over (part size data (n + per)) old).

(** The fields of a record in the order in which compressed files store them. *)
Definition column (i : nat) (p : point_record) : Z :=
  nth i ([rx p; ry p; rz p; rc p; rp p; ri p; rr p; rg p; rb p] ++ rextra p) 0%Z.
