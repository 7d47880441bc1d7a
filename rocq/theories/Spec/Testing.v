(** What the generators of test data may rely on, and what they promise. *)
From Coq Require Import Reals ZArith List.
From Flocq Require Import Core.
From Verif.Model Require Import Base Double PointRecord Point TestUtils.
From Verif.Spec Require Import Rounding Geometry.
Import ListNotations.
Open Scope Z_scope.

(** What the C++ standard says of the distributions, and no more: the numbers lie in the interval
    asked for (C++ [rand.dist.uni]; for reals the upper end is included here because an
    implementation may round to it). *)
Record rng_ok (r : rng) : Prop := mk_rng_ok {
  rng_int_range : forall lo hi s, lo <= hi -> lo <= fst (rng_int r lo hi s) <= hi;
  rng_real_range : forall lo hi s, finite lo -> finite hi -> (d_val lo <= d_val hi)%R -> fits (d_val hi - d_val lo) ->
    finite (fst (rng_real r lo hi s)) /\ (d_val lo <= d_val (fst (rng_real r lo hi s)) <= d_val hi)%R
}.

(** [d] is a number between [lo] and [hi]. *)
Definition between (lo hi : R) (d : double) : Prop := finite d /\ (lo <= d_val d <= hi)%R.

(** A record of random test data with [k] extra fields, with or without colors *)
Record test_record (k : Z) (rgb : bool) (p : point_record) : Prop := mk_test_record {
  tr_x : between (-1) 1 (rx p);
  tr_y : between (-1) 1 (ry p);
  tr_z : between (-1) 1 (rz p);
  tr_fields : Forall (fun v => 0 <= v <= 32768) ([rc p; rp p; ri p; rr p; rg p; rb p] ++ rextra p);
  tr_extras : Z.of_nat (length (rextra p)) = k;
  tr_grey : rgb = false -> rr p = 0 /\ rg p = 0 /\ rb p = 0
}.

(** [pow10] gives the powers of ten that are doubles. *)
Definition powers_of_ten (pow10 : Z -> double) : Prop :=
  forall p, 0 <= p <= 22 -> finite (pow10 p) /\ d_val (pow10 p) = IZR (10 ^ p).
