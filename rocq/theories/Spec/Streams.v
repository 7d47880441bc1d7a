(** What it means for code to write to a stream. *)
From Coq Require Import ZArith List.
From Verif.Model Require Import Base.
From Verif.Spec Require Import Format.
Import ListNotations.
Open Scope Z_scope.

(** [w], run on any stream that accepts everything, returns normally, appends
    exactly [bs], and leaves the stream in a good state. *)
Definition appends (w : writer unit) (bs : list Z) : Prop :=
  forall os, healthy os ->
  exists os', w os = (os', Ret tt) /\ healthy os' /\ o_bytes os' = o_bytes os ++ bs.

(** Byte strings. *)
Definition is_bytes (bs : list Z) : Prop := Forall (fun b => 0 <= b < 256) bs.
