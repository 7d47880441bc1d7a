(** Model of spoc/test_utils.h: the generators of test data and the comparison of doubles.
    [get_noisy_gaussian_point_cloud] is in GaussianCloud.v; the macros VERIFY and VERIFY_THROWS are not modelled. *)
From Coq Require Import String ZArith List Bool.
From Flocq Require Import IEEE754.BinarySingleNaN IEEE754.Binary IEEE754.Bits.
From Verif.Model Require Import Base Double Arith PointRecord Point File.
Import ListNotations.
Open Scope Z_scope.
Open Scope outcome_scope.

(** A random engine with the distributions of <random>: what they return and the next state.
    The standard leaves the numbers to the implementation, so they are a parameter. *)
Record rng : Type := mk_rng {
  rng_state : Type;
  rng_seed : Z -> rng_state;                                         (* default_random_engine g (seed) *)
  rng_default : rng_state;                                           (* default_random_engine g *)
  rng_int : Z -> Z -> rng_state -> Z * rng_state;                    (* uniform_int_distribution<int> (lo, hi) *)
  rng_real : double -> double -> rng_state -> double * rng_state     (* uniform_real_distribution<double> (lo, hi) *)
}.

(** Run a generator [n] times. *)
Fixpoint times {S A} (n : nat) (g : S -> A * S) (s : S) : list A * S :=
  match n with
  | O => ([], s)
  | S n' => let '(a, s1) := g s in let '(l, s2) := times n' g s1 in (a :: l, s2)
  end.

Definition d_minus_one : double := d_one + two63.

(** spoc/test_utils.h:148-165: one record; the assignments narrow the [int] to the field's type *)
Definition random_record (r : rng) (extra_fields : Z) (rgb : bool) (s : rng_state r) : point_record * rng_state r :=
  let di := rng_int r 0 (2 ^ 15) in
  let dr := rng_real r d_minus_one d_one in
  let '(x, s) := dr s in let '(y, s) := dr s in let '(z, s) := dr s in
  let '(c, s) := di s in let '(p, s) := di s in let '(i, s) := di s in
  let '((rd, gr, bl), s) :=
    if rgb then let '(rd, s) := di s in let '(gr, s) := di s in let '(bl, s) := di s in ((rd, gr, bl), s)
    else ((0, 0, 0), s) in
  let '(extra, s) := times (Z.to_nat extra_fields) di s in
  (mk_pr x y z (to_u32 c) (to_u32 p) (to_u16 i) (to_u16 rd) (to_u16 gr) (to_u16 bl) (map to_u64 extra), s).

(** spoc/test_utils.h:142-169.  Simplification: memory does not run out. *)
Definition generate_random_point_records (r : rng) (total_points extra_fields : Z) (rgb : bool) (seed : Z) : list point_record :=
  fst (times (Z.to_nat total_points) (random_record r extra_fields rgb) (rng_seed r seed)).

(** spoc/test_utils.h:171-181 *)
Definition generate_random_spoc_file (r : rng) (total_points extra_fields : Z) (compressed rgb : bool) (seed : Z)
    : outcome spoc_file :=
  file_ctor_wkt (chars "WKT") compressed (generate_random_point_records r total_points extra_fields rgb seed).

(** spoc/test_utils.h:86-108, for points; [uniform_real_distribution<double> u] is over [0, 1) *)
Definition noisy_point (r : rng) (x_extent y_extent z_extent : double) (s : rng_state r) : point * rng_state r :=
  let u := rng_real r d_zero d_one in
  let '(x, s) := u s in let '(y, s) := u s in let '(z, s) := u s in
  (mk_pt (d_mul x x_extent) (d_mul y y_extent) (d_mul z z_extent), s).
Definition get_noisy_point_cloud (r : rng) (n_points : Z) (x_extent y_extent z_extent : double) (seed : Z) : list point :=
  fst (times (Z.to_nat n_points) (noisy_point r x_extent y_extent z_extent) (rng_seed r seed)).

(** [std::ldexp (x, e)] *)
Definition d_ldexp (x : double) (e : Z) : double :=
  bits_of_b64 (Binary.Bldexp 53 1024 eq_refl eq_refl mode_NE (b64_of_bits x) e).

(** spoc/test_utils.h:77-79: [std::ldexp (d (g), exp (g))].  The order in which the two arguments
    are evaluated is not specified: [exp_first] says which it is. *)
Definition scaled (r : rng) (min_exponent max_exponent : Z) (exp_first : bool) (s : rng_state r) : double * rng_state r :=
  let d := rng_real r d_minus_one d_one in
  let exp := rng_int r min_exponent max_exponent in
  if exp_first then let '(e, s) := exp s in let '(x, s) := d s in (d_ldexp x e, s)
  else let '(x, s) := d s in let '(e, s) := exp s in (d_ldexp x e, s).

(** spoc/test_utils.h:61-84; [order k] is the order for axis [k] *)
Definition scaled_point (r : rng) (min_exponent max_exponent : Z) (order : Z -> bool) (s : rng_state r) : point * rng_state r :=
  let '(x, s) := scaled r min_exponent max_exponent (order 0) s in
  let '(y, s) := scaled r min_exponent max_exponent (order 1) s in
  let '(z, s) := scaled r min_exponent max_exponent (order 2) s in
  (mk_pt x y z, s).
Definition generate_points (r : rng) (order : Z -> bool) (n min_exponent max_exponent : Z) : list point :=
  fst (times (Z.to_nat n) (scaled_point r min_exponent max_exponent order) (rng_default r)).
(** The default arguments: [numeric_limits<double>::min_exponent / 2] and [max_exponent / 2] *)
Definition default_min_exponent : Z := Z.quot (-1021) 2.
Definition default_max_exponent : Z := Z.quot 1024 2.

(** [static_cast<int> (std::round (d))]: the nearest integer, halves away from zero.  With
    [t] the integer part of [2 d], it is [(|t| + 1) / 2] with the sign of [t].  Doubling overflows
    only where the conversion is undefined in any case. *)
Definition d_round_int (d : double) : outcome Z :=
  let d2 := d_add d d in
  let t := d_trunc d2 in
  let n := Z.sgn t * ((Z.abs t + 1) / 2) in
  if d_is_finite d2 && (- two31 <=? n) && (n <=? two31 - 1) then Ret n else UB ub_float_to_int.

(** spoc/test_utils.h:184-189; [pow10 p] is [std::pow (10.0, p)] *)
Definition about_equal (pow10 : Z -> double) (a b : double) (precision : Z) : outcome bool :=
  c <- d_round_int (d_mul a (pow10 precision)) ;;
  d <- d_round_int (d_mul b (pow10 precision)) ;;
  Ret (c =? d).

(** spoc/test_utils.h:192-220; [dir] is [std::filesystem::temp_directory_path ()], [now] the clock
    as a seed *)
Definition path_append (dir fn : list Z) : list Z :=
  match rev dir with
  | [] => fn
  | c :: _ => if c =? 47 then dir ++ fn else dir ++ [47] ++ fn
  end.
Definition generate_tmp_filename (r : rng) (dir : list Z) (now total_chars : Z) : list Z :=
  let fn := map (fun k => 97 + k) (fst (times (Z.to_nat total_chars) (rng_int r 0 25) (rng_seed r now))) in
  path_append dir fn.
