(** What a command of spoc_transform may change. *)
From Coq Require Import String ZArith List Bool.
From Verif.Model Require Import Base PointRecord.
From Verif.Spec Require Import Text Fields.
Import ListNotations.
Open Scope Z_scope.

(** The commands that always change the same fields. *)
Definition fixed_fields : list (string * list field) :=
  [("add-x", [FX]); ("add-y", [FY]); ("add-z", [FZ]);
   ("scale-x", [FX]); ("scale-y", [FY]); ("scale-z", [FZ]);
   ("rotate-x", [FY; FZ]); ("rotate-y", [FX; FZ]); ("rotate-z", [FX; FY]);
   ("quantize-xyz", [FX; FY; FZ]);
   ("gaussian-noise", [FX; FY; FZ]); ("gaussian-noise-x", [FX]); ("gaussian-noise-y", [FY]); ("gaussian-noise-z", [FZ]);
   ("uniform-noise", [FX; FY; FZ]); ("uniform-noise-x", [FX]); ("uniform-noise-y", [FY]); ("uniform-noise-z", [FZ])]%string.

(** The parameters begin with the name of field [f]. *)
Definition first_field (s : list Z) (f : field) : Prop :=
  exists n tail, s = n ++ tail /\ Forall alphanumeric n /\ not_first alphanumeric tail /\ names f n.

(** The parameters begin with the names of two fields, the second being [f]. *)
Definition second_field (s : list Z) (f : field) : Prop :=
  exists n c tail, s = n ++ c :: tail /\ Forall alphanumeric n /\ ~ alphanumeric c /\ first_field tail f.

(** The fields that a command names.  Finding: replace-not names one of p, i, r, g, b but
    changes c. *)
Definition touches (name params : list Z) (fs : list field) : Prop :=
  (exists n, name = chars n /\ In (n, fs) fixed_fields)
  \/ (name = chars "copy-field" /\ exists f, second_field params f /\ integer_field f /\ fs = [f])
  \/ ((name = chars "replace" \/ name = chars "set") /\ exists f, first_field params f /\ fs = [f])
  \/ (name = chars "replace-not" /\ exists f, first_field params f
        /\ fs = [match f with FE k => FE k | _ => FC end]).
