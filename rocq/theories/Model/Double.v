(** IEEE-754 binary64 values as bit patterns: classification and comparison.

    A C++ [double] is represented by its 64-bit pattern, a [Z] in [0, 2^64).
    Bits are observable because the library copies doubles to and from byte
    streams without interpreting them.  The comparisons below are proved to
    coincide with Flocq's [Bcompare] in Proofs/DoubleFacts.v. *)
From Coq Require Import ZArith Bool.
From Verif.Model Require Import Base.
Open Scope Z_scope.

Definition double := Z.

Definition d_ok (d : double) : Prop := 0 <= d < two64.

(** Pattern without its sign bit. *)
Definition d_mag (d : double) : Z := d mod two63.

(** Pattern of +infinity: exponent field all ones, mantissa zero. *)
Definition d_inf : double := 9218868437227405312.     (* 0x7FF0000000000000 *)
Definition d_ninf : double := d_inf + two63.
Definition d_zero : double := 0.
Definition d_nzero : double := two63.
Definition d_one : double := 4607182418800017408.     (* 0x3FF0000000000000 *)
(** [std::numeric_limits<double>::max ()] and [::lowest ()] *)
Definition d_max : double := d_inf - 1.
Definition d_lowest : double := d_max + two63.
(** A quiet NaN. *)
Definition d_qnan : double := 9221120237041090560.    (* 0x7FF8000000000000 *)

Definition d_is_nan (d : double) : bool := d_inf <? d_mag d.
Definition d_is_finite (d : double) : bool := d_mag d <? d_inf.
Definition d_is_zero (d : double) : bool := d_mag d =? 0.

(** Order-preserving integer image of a non-NaN pattern; both zeros map to 0. *)
Definition d_key (d : double) : Z := if d <? two63 then d else two63 - d.

(** The C++ comparison operators on doubles. *)
Definition d_eqb (a b : double) : bool :=
  negb (d_is_nan a) && negb (d_is_nan b) && (d_key a =? d_key b).
Definition d_ltb (a b : double) : bool :=
  negb (d_is_nan a) && negb (d_is_nan b) && (d_key a <? d_key b).
Definition d_leb (a b : double) : bool :=
  negb (d_is_nan a) && negb (d_is_nan b) && (d_key a <=? d_key b).
Definition d_gtb (a b : double) : bool := d_ltb b a.
Definition d_geb (a b : double) : bool := d_leb b a.
(** [a != b] is [!(a == b)], true when one side is NaN. *)
Definition d_neb (a b : double) : bool := negb (d_eqb a b).

(** [std::min (a, b)] is [(b < a) ? b : a]; [std::max (a, b)] is
    [(a < b) ? b : a] (libstdc++ stl_algobase.h). *)
Definition d_min (a b : double) : double := if d_ltb b a then b else a.
Definition d_max2 (a b : double) : double := if d_ltb a b then b else a.
