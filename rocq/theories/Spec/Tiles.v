(** What tiles are: cells of a grid, and the records that lie in them. *)
From Coq Require Import Reals ZArith List Bool.
From Flocq Require Import Core.
From Verif.Model Require Import Base Double PointRecord Point Extent TileApp.
From Verif.Spec Require Import Rounding.
Import ListNotations.
Open Scope Z_scope.

(** The records whose number is [n], in order. *)
Definition numbered_with (n : Z) (numbers : list Z) (prs : list point_record) : list point_record :=
  map snd (filter (fun np => fst np =? n) (combine numbers prs)).

(** The number of the cell in which coordinate [p] lies, counted from [m], for cells of
    size [s]: the rounded quotient of the rounded difference, rounded down.  A size that
    is not positive means one cell. *)
Definition cell (p m s : double) : Z :=
  if Rlt_dec 0 (d_val s) then Ztrunc (rnd (rnd (d_val p - d_val m) / d_val s)) else 0.

(** The sizes of the tiles in x and y that the options ask for: --tile-size gives both,
    --tile-size-x and --tile-size-y one each (an axis without a size is not divided). *)
Inductive sides (args : tile_args) : double -> double -> Prop :=
| sides_both : (0 < d_val (ta_size args))%R ->
    (d_val (ta_size_x args) <= 0)%R -> (d_val (ta_size_y args) <= 0)%R -> sides args (ta_size args) (ta_size args)
| sides_each : (d_val (ta_size args) <= 0)%R ->
    (0 < d_val (ta_size_x args) \/ 0 < d_val (ta_size_y args))%R -> sides args (ta_size_x args) (ta_size_y args).
