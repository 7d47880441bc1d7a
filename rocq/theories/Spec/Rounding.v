(** The real number a double denotes, and IEEE-754 rounding of reals. *)
From Coq Require Import Reals ZArith.
From Flocq Require Import Core IEEE754.Binary IEEE754.Bits.
From Verif.Model Require Import Base Double.
Open Scope Z_scope.

(** The real number denoted by a bit pattern (0 for infinities and NaNs). *)
Definition d_val (d : double) : R := Binary.B2R 53 1024 (b64_of_bits d).

(** Rounding to nearest, ties to even, in the binary64 format (53 bits, least
    exponent -1074), disregarding overflow. *)
Definition fexp64 : Z -> Z := SpecFloat.fexp 53 1024.
Definition rnd (x : R) : R := round radix2 fexp64 ZnearestE x.

(** Rounding [x] does not overflow. *)
Definition fits (x : R) : Prop := (Rabs (rnd x) < bpow radix2 1024)%R.

(** A pattern that denotes a number. *)
Definition finite (d : double) : Prop := d_ok d /\ d_is_finite d = true.
