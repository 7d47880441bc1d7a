(** What it means that a parallel loop does not depend on the schedule. *)
From Coq Require Import ZArith List.
From Verif.Model Require Import Base Double PointRecord Par.
Import ListNotations.
Open Scope Z_scope.

(** All iterations have ended. *)
Definition finished {A} (s : machine A) : Prop := Forall (fun t => t = Done) (threads s).

(** The next access of a thread: which element, and whether it writes. *)
Definition next_access {A} (t : thread A) : option (Z * bool) :=
  match t with
  | Load j _ => Some (j, false)
  | Modify j _ _ => Some (j, true)
  | Done | Fail _ => None
  end.

(** Two iterations are about to access the same element and one of them writes:
    in C++ a data race, undefined behaviour. *)
Definition race {A} (s : machine A) : Prop :=
  exists i i' t t' j w w', i <> i' /\ znth (threads s) i = Some t /\ znth (threads s) i' = Some t'
    /\ next_access t = Some (j, w) /\ next_access t' = Some (j, w') /\ (w = true \/ w' = true).

(** A loop has outcome [r], whatever the schedule:
    - no schedule leads to a data race;
    - if [r] is a vector, no schedule fails, every schedule can be continued until
      all iterations have ended, and the vector then is [r];
    - if [r] is a failure, every schedule can be continued until it fails in some
      iteration, and none ends all iterations. *)
Definition schedule_free {A} (s : machine A) (r : outcome (list A)) : Prop :=
  (forall sched s', prun sched s = Ret s' -> ~ race s') /\
  match r with
  | Ret m =>
    forall sched, exists s', prun sched s = Ret s'
      /\ (finished s' -> memory s' = m)
      /\ exists more s'', prun more s' = Ret s'' /\ finished s''
  | _ =>
    forall sched s', prun sched s = Ret s' -> ~ finished s'
      /\ exists more, forall s'', prun more s' <> Ret s''
  end.

(** The record [p] moved to other coordinates. *)
Definition moved (p : point_record) (x y z : double) : point_record :=
  mk_pr x y z (rc p) (rp p) (ri p) (rr p) (rg p) (rb p) (rextra p).
