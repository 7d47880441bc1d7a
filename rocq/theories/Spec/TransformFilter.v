(** Filters and transformations that have nothing to do with each other. *)
From Coq Require Import String ZArith List Bool.
From Verif.Model Require Import Base PointRecord File AppUtils FilterApp TransformApp.
From Verif.Spec Require Import Text Fields Transforms.
Import ListNotations.
Open Scope Z_scope.

(** [F] is a filter that looks at one field of the records only. *)
Inductive looks_at (stod : stod_fn) : field -> (spoc_file -> outcome spoc_file) -> Prop :=
| looks_keep : forall c, looks_at stod FC (fun f => keep_classes f c)
| looks_remove : forall c, looks_at stod FC (fun f => remove_classes f c)
| looks_coords : forall a g o v x n, In (a, g) [("x", FX); ("y", FY); ("z", FZ)]%string -> In o ["<"; ">"]%string -> ~ In 32 v ->
    stod v = Some (x, n) -> looks_at stod g (fun f => remove_coords stod f (chars a ++ chars " " ++ chars o ++ chars " " ++ v)).

(** The commands that draw random numbers *)
Definition random_commands : list string :=
  ["gaussian-noise"; "gaussian-noise-x"; "gaussian-noise-y"; "gaussian-noise-z";
   "uniform-noise"; "uniform-noise-x"; "uniform-noise-y"; "uniform-noise-z"]%string.

(** The command draws no random numbers and leaves_field the field [g] alone. *)
Definition leaves_field (g : field) (c : command) : Prop :=
  (forall n, In n random_commands -> cmd_name c <> chars n)
  /\ forall fs, touches (cmd_name c) (cmd_params c) fs -> ~ In g fs.

(** The command draws no random numbers and does not name the point id: there is no letter
    p in its parameters. *)
Definition ignores_id (c : command) : Prop :=
  (forall n, In n random_commands -> cmd_name c <> chars n) /\ ~ In 112 (cmd_params c).
