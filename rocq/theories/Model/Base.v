(** Common vocabulary of the model: outcomes of C++ code, machine integers,
    byte strings, vectors indexed by [size_t], input and output streams.

    Platform: x86-64 Linux, little endian, 64-bit [size_t], 32-bit [int]. *)
From Coq Require Import ZArith List Bool String Ascii.
Import ListNotations.
Open Scope Z_scope.

(** ** Outcomes *)

(** C++ exceptions that the code throws or lets through, with their text when
    the code chooses it. *)
Inductive exn : Type :=
| runtime_error (what : string)
| length_error                     (* std::vector / std::string: size over max_size *)
| bad_alloc                        (* out of memory; only modelled where a theorem says so *)
| out_of_range                     (* std::stoi / std::stod / .at() *)
| invalid_argument.                (* std::stoi / std::stod *)

(** Kinds of undefined behaviour that the modelled code can run into. *)
Inductive ub : Type :=
| ub_index                         (* operator[] out of bounds, also &v[0] on an empty vector *)
| ub_float_to_int                  (* conversion of an out of range double to an integer type *)
| ub_int_overflow                  (* signed integer overflow *)
| ub_sort.                         (* std::sort with an invalid ordering *)

(** Result of running a piece of code.  [Hang] is a loop that never ends. *)
Inductive outcome (A : Type) : Type :=
| Ret (a : A)
| Throw (e : exn)
| UB (u : ub)
| Hang.
Arguments Ret {A} a.
Arguments Throw {A} e.
Arguments UB {A} u.
Arguments Hang {A}.

Definition bind {A B} (m : outcome A) (k : A -> outcome B) : outcome B :=
  match m with
  | Ret a => k a
  | Throw e => Throw e
  | UB u => UB u
  | Hang => Hang
  end.

Declare Scope outcome_scope.
Delimit Scope outcome_scope with outcome.
Notation "x <- m ;; k" := (bind m (fun x => k))
  (at level 61, m at next level, right associativity) : outcome_scope.
Notation "' p <- m ;; k" := (bind m (fun x => let p := x in k))
  (at level 61, p pattern, m at next level, right associativity) : outcome_scope.
Open Scope outcome_scope.

(** Run a function on every element, left to right, stopping at the first
    element whose outcome is not [Ret]. *)
Fixpoint mapM {A B} (f : A -> outcome B) (l : list A) : outcome (list B) :=
  match l with
  | [] => Ret []
  | a :: t => b <- f a ;; bs <- mapM f t ;; Ret (b :: bs)
  end.

(** ** Machine integers: conversion to an unsigned / signed type *)

Definition two8 : Z := 256.
Definition two16 : Z := 65536.
Definition two31 : Z := 2147483648.
Definition two32 : Z := 4294967296.
Definition two63 : Z := 9223372036854775808.
Definition two64 : Z := 18446744073709551616.

Definition to_u8 (z : Z) : Z := z mod two8.
Definition to_u16 (z : Z) : Z := z mod two16.
Definition to_u32 (z : Z) : Z := z mod two32.
Definition to_u64 (z : Z) : Z := z mod two64.

(** Conversion of an integer to [int]: two's complement (implementation defined
    before C++20, modular with gcc/clang). *)
Definition to_i32 (z : Z) : Z :=
  let m := z mod two32 in if m <? two31 then m else m - two32.

Definition PTRDIFF_MAX : Z := two63 - 1.

(** ** Vectors indexed by [size_t] values *)

Definition zlen {A} (l : list A) : Z := Z.of_nat (List.length l).

(** First [n] elements. *)
Fixpoint ztake {A} (n : Z) (l : list A) : list A :=
  match l with
  | [] => []
  | x :: t => if n <=? 0 then [] else x :: ztake (n - 1) t
  end.

(** All but the first [n] elements. *)
Fixpoint zdrop {A} (n : Z) (l : list A) : list A :=
  match l with
  | [] => []
  | x :: t => if n <=? 0 then l else zdrop (n - 1) t
  end.

(** [v[n]], [None] when out of bounds. *)
Fixpoint znth {A} (l : list A) (n : Z) : option A :=
  match l with
  | [] => None
  | x :: t => if n =? 0 then Some x else if n <? 0 then None else znth t (n - 1)
  end.

(** [v[n] = a], [None] when out of bounds. *)
Fixpoint zset {A} (l : list A) (n : Z) (a : A) : option (list A) :=
  match l with
  | [] => None
  | x :: t =>
    if n =? 0 then Some (a :: t)
    else if n <? 0 then None
    else match zset t (n - 1) a with Some t' => Some (x :: t') | None => None end
  end.

(** [std::vector<T> v (n, a)]. *)
Definition zrepeat {A} (a : A) (n : Z) : list A := List.repeat a (Z.to_nat n).

(** [operator[]] as C++ sees it: out of bounds is undefined behaviour. *)
Definition vec_get {A} (l : list A) (n : Z) : outcome A :=
  match znth l n with Some a => Ret a | None => UB ub_index end.
Definition vec_set {A} (l : list A) (n : Z) (a : A) : outcome (list A) :=
  match zset l n a with Some l' => Ret l' | None => UB ub_index end.

(** [v.resize (n)] with fill value [a]. *)
Definition zresize {A} (a : A) (n : Z) (l : list A) : list A :=
  ztake n l ++ zrepeat a (n - zlen l).

(** Copy [src] over the beginning of [dst] (as [istream::read] and
    [std::copy] do); the rest of [dst] keeps its contents. *)
Definition overwrite {A} (src dst : list A) : list A :=
  src ++ zdrop (zlen src) dst.

(** ** Bytes *)

(** A byte string is a list of [Z]; well formed when every element is a byte. *)
Definition byte_ok (b : Z) : Prop := 0 <= b < two8.
Definition bytes_ok (l : list Z) : Prop := Forall byte_ok l.

(** Memory image of an unsigned integer of [k] bytes, little endian. *)
Fixpoint le_bytes (k : nat) (v : Z) : list Z :=
  match k with
  | O => []
  | S k' => v mod 256 :: le_bytes k' (v / 256)
  end.

(** The unsigned integer whose memory image is [l]. *)
Fixpoint le_val (l : list Z) : Z :=
  match l with
  | [] => 0
  | b :: t => b + 256 * le_val t
  end.

(** Characters of a C++ string literal. *)
Fixpoint chars (s : string) : list Z :=
  match s with
  | EmptyString => []
  | String a t => Z.of_nat (nat_of_ascii a) :: chars t
  end.

Definition beq_bytes (a b : list Z) : bool :=
  (fix go a b := match a, b with
   | [], [] => true
   | x :: a', y :: b' => (x =? y) && go a' b'
   | _, _ => false
   end) a b.

(** ** Input streams ([std::istream]) *)

Record istream : Type := mk_istream {
  i_rest : list Z;     (* bytes not yet extracted *)
  i_eof : bool;        (* eofbit *)
  i_fail : bool        (* failbit or badbit *)
}.

Definition i_open (bs : list Z) : istream := mk_istream bs false false.
Definition i_good (s : istream) : bool := negb (i_eof s) && negb (i_fail s).

(** [s.read (p, n)] (C++ standard, [istream.unformatted]): if the stream is not
    good, set failbit and extract nothing; otherwise extract up to [n]
    bytes, and set eofbit and failbit when fewer were available.  Returns the
    extracted bytes ([gcount] is their number). *)
Definition is_read (n : Z) (s : istream) : list Z * istream :=
  if i_good s then
    let got := ztake n (i_rest s) in
    if zlen got <? n
    then (got, mk_istream [] true true)
    else (got, mk_istream (zdrop n (i_rest s)) false false)
  else ([], mk_istream (i_rest s) (i_eof s) true).

(** ** Output streams ([std::ostream]) *)

Record ostream : Type := mk_ostream {
  o_bytes : list Z;        (* what has reached the device *)
  o_room : option Z;       (* how many more bytes the device accepts; None: no limit *)
  o_bad : bool             (* failbit or badbit *)
}.

Definition o_open : ostream := mk_ostream [] None false.

(** [s.write (p, n)]: a bad stream drops everything; a device that runs full
    takes what fits and the stream goes bad. *)
Definition os_write (bs : list Z) (s : ostream) : ostream :=
  if o_bad s then s
  else match o_room s with
       | None => mk_ostream (o_bytes s ++ bs) None false
       | Some r =>
         if zlen bs <=? r
         then mk_ostream (o_bytes s ++ bs) (Some (r - zlen bs)) false
         else mk_ostream (o_bytes s ++ ztake r bs) (Some 0) true
       end.

(** Code that writes: the stream keeps what was written before an exception. *)
Definition writer (A : Type) : Type := ostream -> ostream * outcome A.

Definition w_ret {A} (a : A) : writer A := fun s => (s, Ret a).
Definition w_lift {A} (m : outcome A) : writer A := fun s => (s, m).
Definition w_put (bs : list Z) : writer unit := fun s => (os_write bs s, Ret tt).
Definition w_bind {A B} (m : writer A) (k : A -> writer B) : writer B :=
  fun s => match m s with
           | (s', Ret a) => k a s'
           | (s', Throw e) => (s', Throw e)
           | (s', UB u) => (s', UB u)
           | (s', Hang) => (s', Hang)
           end.
Definition w_seq {A} (m : writer unit) (k : writer A) : writer A :=
  w_bind m (fun _ => k).

Fixpoint w_iter {A} (f : A -> writer unit) (l : list A) : writer unit :=
  match l with
  | [] => w_ret tt
  | a :: t => w_seq (f a) (w_iter f t)
  end.
