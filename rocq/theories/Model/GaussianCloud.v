(** Model of spoc/test_utils.h:110-139, the Gaussian point cloud. *)
From Coq Require Import ZArith List Bool.
From Verif.Model Require Import Base Double Arith PointRecord Point Affine TestUtils.
Import ListNotations.
Open Scope Z_scope.

(** [std::normal_distribution<double>] has a state of its own next to the engine's. *)
Record normal (r : rng) : Type := mk_normal {
  nd_state : Type;
  nd_init : nd_state;
  nd_draw : nd_state * rng_state r -> double * (nd_state * rng_state r)
}.
Arguments nd_state {r}.
Arguments nd_init {r}.
Arguments nd_draw {r}.

Definition d_minus_two : double := 13835058055282163712.   (* 0xC000000000000000 *)
(** spoc/test_utils.h:130: [constexpr double pi2 = 2.0 * M_PI] *)
Definition d_two_pi : double := 4618760256179416344.       (* 0x401921FB54442D18 *)

(** spoc/test_utils.h:131-135: [radius * sqrt (-2.0 * log (x)) * cos (pi2 * y)]; the
    C library's [log], [cos] and [sin] are parameters *)
Definition gaussian_point (r : rng) (n : normal r) (log : double -> double) (t : trig) (radius z_stddev : double)
    (s : nd_state n * rng_state r) : point * (nd_state n * rng_state r) :=
  let '(d, g) := s in
  let '(x, g) := rng_real r d_zero d_one g in
  let '(y, g) := rng_real r d_zero d_one g in
  let px := d_mul (d_mul radius (d_sqrt (d_mul d_minus_two (log x)))) (d_cos t (d_mul d_two_pi y)) in
  let py := d_mul (d_mul radius (d_sqrt (d_mul d_minus_two (log x)))) (d_sin t (d_mul d_two_pi y)) in
  let '(v, s) := nd_draw n (d, g) in
  (mk_pt px py (d_mul z_stddev v), s).

(** spoc/test_utils.h:110-139.  Simplification: memory does not run out. *)
Definition get_noisy_gaussian_point_cloud (r : rng) (n : normal r) (log : double -> double) (t : trig) (n_points : Z) (radius z_stddev : double)
    (seed : Z) : list point :=
  fst (times (Z.to_nat n_points) (gaussian_point r n log t radius z_stddev) (nd_init n, rng_seed r seed)).
