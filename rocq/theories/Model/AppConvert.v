(** Model of the spoc_compress and spoc_decompress programs. *)
From Coq Require Import ZArith List Bool String.
From Verif.Model Require Import Base Double Header PointRecord File Compression IO.
Import ListNotations.
Open Scope Z_scope.

(** Run a reader on the bytes of the input file and continue with its result; an
    exception ends the program before the output is touched. *)
Definition from_input {A} (m : outcome (A * istream)) (k : A -> writer unit) : writer unit :=
  w_bind (w_lift m) (fun '(a, _) => k a).

(** apps/compress/compress.cpp:41-53: input and output are the contents of the
    files; opening them and the command line are left out *)
Definition compress_tool (z : zlib) (debug : bool) (input : list Z) : writer unit :=
  from_input (read_spoc_file_uncompressed (i_open input)) (fun f =>
    write_spoc_file_compressed z debug (set_compressed true f)).

(** apps/decompress/decompress.cpp:41-53 *)
Definition decompress_tool (z : zlib) (debug : bool) (input : list Z) : writer unit :=
  from_input (read_spoc_file_compressed z (i_open input)) (fun f =>
    write_spoc_file_uncompressed debug (set_compressed false f)).
