(** Notions used by the theorems about the areas that spoc_merge compares. *)
From Coq Require Import Reals ZArith List.
From Flocq Require Import Core.
From Verif.Model Require Import Base Double PointRecord Point.
From Verif.Spec Require Import Rounding Geometry Reports.
Import ListNotations.
Open Scope Z_scope.

(** The area of the bounding box of the points, and the sum of a list of areas, with the
    result of every operation rounded. *)
Definition rounded_area (prs : list point_record) (a : R) : Prop := exists x0 x1 y0 y1,
  is_least (map (fun r => d_val (rx r)) prs) x0 /\ is_greatest (map (fun r => d_val (rx r)) prs) x1
  /\ is_least (map (fun r => d_val (ry r)) prs) y0 /\ is_greatest (map (fun r => d_val (ry r)) prs) y1
  /\ a = rnd (rnd (x1 - x0) * rnd (y1 - y0)).
Definition rounded_sum (l : list R) : R := fold_left (fun s a => rnd (s + a)) l 0%R.

(** Coordinates of ordinary size: up to 2^400 *)
Definition ordinary (r : point_record) : Prop :=
  pt_finite (pr_pt r) /\ (Rabs (d_val (rx r)) <= bpow radix2 400)%R /\ (Rabs (d_val (ry r)) <= bpow radix2 400)%R.
