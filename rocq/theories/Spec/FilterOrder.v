(** The order in which spoc_filter applies its options, and filters that look at one record. *)
From Coq Require Import String ZArith List Bool.
From Verif.Model Require Import Base Double PointRecord File AppUtils AppConvert FilterApp GetOpt Commands.
From Verif.Spec Require Import CommandLines.
Import ListNotations.
Open Scope Z_scope.

(** The place of an option in the order of the program. *)
Definition stage (n : string) : option Z :=
  if String.eqb n "keep-class" then Some 0
  else if String.eqb n "remove-class" then Some 1
  else if String.eqb n "unique-xyz" then Some 2
  else if String.eqb n "subsample" then Some 3
  else if String.eqb n "remove-coords" then Some 4
  else None.

(** All options given belong to the stages from [lo] to [hi - 1]. *)
Definition stages (lo hi : Z) (es : list setting) : Prop :=
  Forall (fun e => exists k, stage (fst e) = Some k /\ lo <= k < hi) es.

(** The filters by class and by coordinate.  [stod] accepts the number in the command. *)
Inductive one_by_one (stod : stod_fn) : (spoc_file -> outcome spoc_file) -> Prop :=
| one_keep : forall c, one_by_one stod (fun f => keep_classes f c)
| one_remove : forall c, one_by_one stod (fun f => remove_classes f c)
| one_coords : forall a o v x n, In a (map chars ["x"; "y"; "z"]%string) -> In o (map chars ["<"; ">"]%string) -> ~ In 32 v ->
    stod v = Some (x, n) -> one_by_one stod (fun f => remove_coords stod f (a ++ chars " " ++ o ++ chars " " ++ v)).

(** What the options given mean. *)
Definition run_args (atof : list Z -> double) (es : list setting) : filter_args :=
  mk_filter_args (map atoi (arguments "keep-class" es)) (final (fun s => to_u64 (atol s)) "random-seed" es 0)
    (map atoi (arguments "remove-class" es)) (given "unique-xyz" es) (final atof "subsample" es d_zero)
    (final (fun s => s) "remove-coords" es []).
