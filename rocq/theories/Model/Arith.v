(** IEEE-754 binary64 arithmetic on bit patterns, by way of Flocq.

    Rounding is to nearest even, the mode every C++ program starts in; x86-64
    computes [double] expressions in SSE2 registers without excess precision and
    the project does not ask for contraction (fma) or -ffast-math.
    Simplification: which NaN an operation returns (sign, payload) is Flocq's
    choice, not the processor's; theorems only say that a result is a NaN. *)
From Coq Require Import ZArith Bool.
From Flocq Require Import IEEE754.BinarySingleNaN IEEE754.Binary IEEE754.Bits.
From Verif.Model Require Import Base Double.
Open Scope Z_scope.

Definition d_add (a b : double) : double :=
  bits_of_b64 (b64_plus mode_NE (b64_of_bits a) (b64_of_bits b)).
Definition d_sub (a b : double) : double :=
  bits_of_b64 (b64_minus mode_NE (b64_of_bits a) (b64_of_bits b)).
Definition d_mul (a b : double) : double :=
  bits_of_b64 (b64_mult mode_NE (b64_of_bits a) (b64_of_bits b)).
Definition d_div (a b : double) : double :=
  bits_of_b64 (b64_div mode_NE (b64_of_bits a) (b64_of_bits b)).
Definition d_sqrt (a : double) : double :=
  bits_of_b64 (b64_sqrt mode_NE (b64_of_bits a)).

(** The integer part (toward zero) of a finite double. *)
Definition d_trunc (d : double) : Z := Binary.Btrunc 53 1024 (b64_of_bits d).

(** Conversion of a double to an integer type with values [lo..hi]: undefined
    unless the truncated value is representable (C++ [conv.fpint]). *)
Definition d_cast (lo hi : Z) (d : double) : outcome Z :=
  if d_is_finite d && (lo <=? d_trunc d) && (d_trunc d <=? hi)
  then Ret (d_trunc d) else UB ub_float_to_int.
Definition d_to_int : double -> outcome Z := d_cast (- two31) (two31 - 1).
Definition d_to_size : double -> outcome Z := d_cast 0 (two64 - 1).
Definition d_to_u32 : double -> outcome Z := d_cast 0 (two32 - 1).
Definition d_to_u16 : double -> outcome Z := d_cast 0 (two16 - 1).

(** Conversion of an integer to [double], rounding to nearest even. *)
Definition d_of_z (z : Z) : double :=
  bits_of_b64 (Binary.binary_normalize 53 1024 eq_refl eq_refl mode_NE z 0 false).
