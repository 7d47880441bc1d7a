(** Model of spoc/header.h and spoc/version.h. *)
From Coq Require Import ZArith List Bool String.
From Verif.Model Require Import Base.
Import ListNotations.
Open Scope Z_scope.
Open Scope outcome_scope.

(** spoc/version.h:10 and 12 *)
Definition MAJOR_VERSION : Z := 0.
Definition MINOR_VERSION : Z := 1.

(** spoc/header.h:82-95, the fields of [struct header].  [signature[4]], the
    terminating NUL, is never read and is left out.  [h_compressed] is the
    [uint8_t] flag: any byte can be stored there by [read_header]. *)
Record header : Type := mk_header {
  h_sig : list Z;          (* 4 characters *)
  h_major : Z;             (* uint8_t *)
  h_minor : Z;             (* uint8_t *)
  h_wkt : list Z;          (* std::string *)
  h_extra : Z;             (* uint8_t *)
  h_total : Z;             (* size_t *)
  h_compressed : Z         (* uint8_t *)
}.

(** 'S' 'P' 'O' 'C' *)
Definition SPOC : list Z := [83; 80; 79; 67].

Definition b2z (b : bool) : Z := if b then 1 else 0.

(** spoc/header.h:25-45, constructor.  Parameters have the C++ parameter types:
    the caller's values are narrowed to [uint8_t] / [size_t] on the way in. *)
Definition header_ctor (major minor : Z) (wkt : list Z) (extra_fields total_points : Z)
    (compressed : bool) : outcome header :=
  if 65535 <? zlen wkt
  then Throw (runtime_error "The OGC WKT length may not exceed 65535")
  else Ret (mk_header SPOC (to_u8 major) (to_u8 minor) wkt (to_u8 extra_fields)
              (to_u64 total_points) (b2z compressed)).

(** spoc/header.h:51-58, constructor with the current version *)
Definition header_ctor_wkt (wkt : list Z) (extra_fields total_points : Z)
    (compressed : bool) : outcome header :=
  header_ctor MAJOR_VERSION MINOR_VERSION wkt extra_fields total_points compressed.

(** spoc/header.h:59-62, default constructor (never throws, the WKT is empty) *)
Definition header_default : header :=
  mk_header SPOC MAJOR_VERSION MINOR_VERSION [] 0 0 0.

(** spoc/header.h:64-71 *)
Definition check_signature (h : header) : bool := beq_bytes (h_sig h) SPOC.

(** spoc/header.h:73-80 *)
Definition header_is_valid (h : header) : bool :=
  check_signature h && negb (65535 <? zlen (h_wkt h)).

(** spoc/header.h:101-113, [operator==] *)
Definition header_eqb (a b : header) : bool :=
  if negb (beq_bytes (h_sig a) (h_sig b)) then false
  else if negb (h_major a =? h_major b) then false
  else if negb (h_minor a =? h_minor b) then false
  else if negb (beq_bytes (h_wkt a) (h_wkt b)) then false
  else if negb (h_extra a =? h_extra b) then false
  else if negb (h_total a =? h_total b) then false
  else if negb (h_compressed a =? h_compressed b) then false
  else true.

(** spoc/header.h:118-130, [operator!=] (written out separately in the code) *)
Definition header_neb (a b : header) : bool :=
  if negb (beq_bytes (h_sig a) (h_sig b)) then true
  else if negb (h_major a =? h_major b) then true
  else if negb (h_minor a =? h_minor b) then true
  else if negb (beq_bytes (h_wkt a) (h_wkt b)) then true
  else if negb (h_extra a =? h_extra b) then true
  else if negb (h_total a =? h_total b) then true
  else if negb (h_compressed a =? h_compressed b) then true
  else false.

(** spoc/header.h:135-149, [write_header].  [len] is a [uint16_t]: the WKT size
    is narrowed, the WKT itself is written in full. *)
Definition write_header (h : header) : writer unit :=
  if negb (check_signature h)
  then w_lift (Throw (runtime_error "Invalid spoc file format"))
  else
    w_seq (w_put (h_sig h))
   (w_seq (w_put (le_bytes 1 (h_major h)))
   (w_seq (w_put (le_bytes 1 (h_minor h)))
   (w_seq (w_put (le_bytes 2 (to_u16 (zlen (h_wkt h)))))
   (w_seq (w_put (h_wkt h))
   (w_seq (w_put (le_bytes 1 (h_extra h)))
   (w_seq (w_put (le_bytes 8 (h_total h)))
          (w_put (le_bytes 1 (h_compressed h))))))))).

(** Read an unsigned integer of [k] bytes over a variable holding [old]: on a
    short read only the low bytes delivered are replaced. *)
Definition read_uint (k : nat) (old : Z) (s : istream) : Z * istream :=
  let '(got, s') := is_read (Z.of_nat k) s in
  (le_val (overwrite got (le_bytes k old)), s').

(** spoc/header.h:153-176, [read_header].  Starts from a default header and
    overwrites its fields; the stream state is never examined. *)
Definition read_header (s : istream) : outcome (header * istream) :=
  let h := header_default in
  let '(got, s) := is_read 4 s in
  let sig := overwrite got (h_sig h) in
  if negb (beq_bytes sig SPOC)
  then Throw (runtime_error "Invalid spoc file format")
  else
    let '(major, s) := read_uint 1 (h_major h) s in
    if negb (major =? MAJOR_VERSION)
    then Throw (runtime_error "Incompatible major version number")
    else
      let '(minor, s) := read_uint 1 (h_minor h) s in
      if negb (minor =? MINOR_VERSION)
      then Throw (runtime_error "Incompatible minor version number")
      else
        let '(len, s) := read_uint 2 0 s in
        let wkt := zrepeat 0 len in
        let '(got, s) := is_read len s in
        let wkt := overwrite got wkt in
        let '(extra, s) := read_uint 1 (h_extra h) s in
        let '(total, s) := read_uint 8 (h_total h) s in
        let '(compressed, s) := read_uint 1 (h_compressed h) s in
        Ret (mk_header sig major minor wkt extra total compressed, s).
