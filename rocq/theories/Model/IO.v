(** Model of spoc/io.h. *)
From Coq Require Import ZArith List Bool String.
From Verif.Model Require Import Base Double Header PointRecord File Compression.
Import ListNotations.
Open Scope Z_scope.
Open Scope outcome_scope.

(** Indexes 0 .. n-1 of a [for (size_t n = 0; n < size; ++n)] loop. *)
Definition zseq (n : Z) : list Z := map Z.of_nat (seq 0 (Z.to_nat n)).

(** The element types of the columns: width in bytes and the test [i != 0]. *)
Record coltype : Type := mk_coltype { ct_width : nat; ct_nonzero : Z -> bool }.
Definition t_double : coltype := mk_coltype 8 (fun d => d_neb d d_zero).
Definition t_u64 : coltype := mk_coltype 8 (fun v => negb (v =? 0)).
Definition t_u32 : coltype := mk_coltype 4 (fun v => negb (v =? 0)).
Definition t_u16 : coltype := mk_coltype 2 (fun v => negb (v =? 0)).

(** spoc/io.h:25-32 *)
Definition all_zero (t : coltype) (x : list Z) : bool :=
  if existsb (ct_nonzero t) x then false else true.

(** Memory image of a [std::vector<T>]'s elements. *)
Definition col_image (t : coltype) (x : list Z) : list Z := flat_map (le_bytes (ct_width t)) x.

Section WithZlib.
Variable z : zlib.

(** spoc/io.h:34-50 *)
Definition compress_field (t : coltype) (x : list Z) : outcome (list Z) :=
  if all_zero t x then Ret []
  else compress_ptr z (col_image t x) (zlen x * Z.of_nat (ct_width t)) (-1).

(** spoc/io.h:52-70 *)
Definition write_compressed (x : list Z) : writer unit :=
  match x with
  | [] => w_put (le_bytes 8 0)
  | _ :: _ => w_seq (w_put (le_bytes 8 (zlen x))) (w_put x)
  end.

(** spoc/io.h:72-92.  [&x[0]] is evaluated before the call: undefined when
    [size] is 0. *)
Definition read_compressed (t : coltype) (size : Z) (s : istream)
    : outcome (list Z * istream) :=
  let '(n, s) := read_uint 8 0 s in
  if n =? 0 then Ret ([], s)
  else if PTRDIFF_MAX <? n then Throw length_error
  else
    let '(got, s) := is_read n s in
    let c := overwrite got (zrepeat 0 n) in
    let width := Z.of_nat (ct_width t) in
    if PTRDIFF_MAX <? size * width then Throw length_error
    else if size =? 0 then UB ub_index
    else
      d <- decompress_to z c (size * width) ;;
      Ret (words (Z.to_nat size) (ct_width t) d, s).

(** ** Uncompressed points, spoc/io.h:98-160 *)

(** spoc/io.h:103 *)
Definition buffer_size : Z := 1024.

(** spoc/io.h:107-118 *)
Definition extra_size (extra_fields : Z) : Z := extra_fields * 8.
Definition record_size (extra_fields : Z) : Z := struct_size + extra_size extra_fields.
Definition records_per_buffer (extra_fields : Z) : Z := buffer_size / record_size extra_fields.

(** spoc/io.h:135-156, inner loop: [k] records still to convert, [j] the next
    one.  Reading past the end of the buffer or writing past the end of the
    records is undefined. *)
Fixpoint convert_records (k : nat) (j : Z) (extra_fields : Z) (buf : list Z) (i : Z)
    (p : list point_record) : outcome (list point_record) :=
  match k with
  | O => Ret p
  | S k' =>
    let buffer_index := j * record_size extra_fields in
    if zlen buf <? buffer_index + record_size extra_fields then UB ub_index
    else
      let img := ztake struct_size (zdrop buffer_index buf) in
      let ext := ztake (extra_size extra_fields) (zdrop (buffer_index + struct_size) buf) in
      p <- vec_set p (i + j) (pr_of_image img ext extra_fields) ;;
      convert_records k' (j + 1) extra_fields buf i p
  end.

(** spoc/io.h:125-157, outer loop.  [buf] keeps its old contents where a short
    read does not overwrite it. *)
Fixpoint read_chunks (fuel : nat) (total_points extra_fields : Z) (i : Z) (buf : list Z)
    (p : list point_record) (s : istream) : outcome (list point_record * istream) :=
  match fuel with
  | O => Hang
  | S fuel' =>
    if i <? zlen p then
      let rpb := records_per_buffer extra_fields in
      let total_records := if to_u64 (i + rpb) <? total_points then rpb else total_points - i in
      let nbytes := total_records * record_size extra_fields in
      if zlen buf <? nbytes then UB ub_index
      else
        let '(got, s) := is_read nbytes s in
        let buf := overwrite got buf in
        p <- convert_records (Z.to_nat total_records) 0 extra_fields buf i p ;;
        read_chunks fuel' total_points extra_fields (to_u64 (i + rpb)) buf p s
    else Ret (p, s)
  end.

(** [sizeof (point_record)]: 40 bytes and a vector of three pointers. *)
Definition sizeof_point_record : Z := 64.

(** spoc/io.h:98-160 *)
Definition read_uncompressed_points (total_points extra_fields : Z) (s : istream)
    : outcome (list point_record * istream) :=
  if PTRDIFF_MAX <? total_points * sizeof_point_record then Throw length_error
  else
    read_chunks (S (Z.to_nat total_points)) total_points extra_fields 0
      (zrepeat 0 buffer_size) (zrepeat (pr_zero extra_fields) total_points) s.

(** spoc/io.h:164-180 *)
Definition read_spoc_file_uncompressed (s : istream) : outcome (spoc_file * istream) :=
  '(h, s) <- read_header s ;;
  if negb (h_compressed h =? 0)
  then Throw (runtime_error "Uncompressed reader can't read a compressed file")
  else
    '(prs, s) <- read_uncompressed_points (h_total h) (h_extra h) s ;;
    f <- file_ctor_wkt (h_wkt h) false prs ;;
    Ret (f, s).

(** ** Compressed points *)

(** spoc/io.h:205-206, 210-222: [if (!x.empty ()) prs[n].x = x[n];] *)
Definition col_get (x : list Z) (n : Z) : outcome Z :=
  match x with [] => Ret 0 | _ :: _ => vec_get x n end.

(** spoc/io.h:202-204: one column per extra field *)
Fixpoint read_extras (k : nat) (total_points : Z) (s : istream)
    : outcome (list (list Z) * istream) :=
  match k with
  | O => Ret ([], s)
  | S k' =>
    '(e, s) <- read_compressed t_u64 total_points s ;;
    '(es, s) <- read_extras k' total_points s ;;
    Ret (e :: es, s)
  end.

(** spoc/io.h:208-221, record [n] of the result.  The parallel loop stores one
    member after the other; Props/ParProps.v shows that this is what every
    schedule leaves in the vector. *)
Definition record_at (x y zz c p i r g b : list Z) (extra : list (list Z)) (n : Z) : outcome point_record :=
  vx <- col_get x n ;; vy <- col_get y n ;; vz <- col_get zz n ;;
  vc <- col_get c n ;; vp <- col_get p n ;; vi <- col_get i n ;;
  vr <- col_get r n ;; vg <- col_get g n ;; vb <- col_get b n ;;
  ve <- mapM (fun e => col_get e n) extra ;;
  Ret (mk_pr vx vy vz vc vp vi vr vg vb ve).

(** spoc/io.h:186-226 *)
Definition read_compressed_points (total_points extra_fields : Z) (s : istream)
    : outcome (list point_record * istream) :=
  '(x, s) <- read_compressed t_double total_points s ;;
  '(y, s) <- read_compressed t_double total_points s ;;
  '(zz, s) <- read_compressed t_double total_points s ;;
  '(c, s) <- read_compressed t_u32 total_points s ;;
  '(p, s) <- read_compressed t_u32 total_points s ;;
  '(i, s) <- read_compressed t_u16 total_points s ;;
  '(r, s) <- read_compressed t_u16 total_points s ;;
  '(g, s) <- read_compressed t_u16 total_points s ;;
  '(b, s) <- read_compressed t_u16 total_points s ;;
  '(extra, s) <- read_extras (Z.to_nat extra_fields) total_points s ;;
  if PTRDIFF_MAX <? total_points * sizeof_point_record then Throw length_error
  else
    prs <- mapM (record_at x y zz c p i r g b extra) (zseq total_points) ;;
    Ret (prs, s).

(** spoc/io.h:230-246 *)
Definition read_spoc_file_compressed (s : istream) : outcome (spoc_file * istream) :=
  '(h, s) <- read_header s ;;
  if h_compressed h =? 0
  then Throw (runtime_error "Compressed reader can't read an uncompressed file")
  else
    '(prs, s) <- read_compressed_points (h_total h) (h_extra h) s ;;
    f <- file_ctor_wkt (h_wkt h) true prs ;;
    Ret (f, s).

(** spoc/io.h:250-268 *)
Definition read_spoc_file (s : istream) : outcome (spoc_file * istream) :=
  '(h, s) <- read_header s ;;
  '(prs, s) <- (if negb (h_compressed h =? 0)
                then read_compressed_points (h_total h) (h_extra h) s
                else read_uncompressed_points (h_total h) (h_extra h) s) ;;
  f <- file_ctor_wkt (h_wkt h) (negb (h_compressed h =? 0)) prs ;;
  Ret (f, s).

(** ** Writers *)

(** The contract [REQUIRE (f.is_valid ())], spoc/io.h:275 and 294 *)
Definition require_valid (debug : bool) (f : spoc_file) : outcome unit :=
  if debug && negb (file_is_valid f) then Throw (runtime_error "Contract failed") else Ret tt.

(** spoc/io.h:273-287 *)
Definition write_spoc_file_uncompressed (debug : bool) (f : spoc_file) : writer unit :=
  w_bind (w_lift (require_valid debug f)) (fun _ =>
  if f_compressed f
  then w_lift (Throw (runtime_error "Uncompressed writer can't write a compressed file"))
  else
    w_bind (w_lift (get_header f)) (fun h =>
    w_seq (write_header h)
          (w_iter write_point_record (f_prs f)))).

(** spoc/io.h:325-326: [e[j][n] = prs[n].extra[j]] *)
Definition extra_column (prs : list point_record) (j : Z) : outcome (list Z) :=
  mapM (fun p => vec_get (rextra p) j) prs.

(** spoc/io.h:292-374.  The parallel sections and the parallel loop over the
    extra fields write distinct vector elements. *)
Definition write_spoc_file_compressed (debug : bool) (f : spoc_file) : writer unit :=
  w_bind (w_lift (require_valid debug f)) (fun _ =>
  if negb (f_compressed f)
  then w_lift (Throw (runtime_error "Compressed writer can't write an uncompressed file"))
  else
    let prs := f_prs f in
    let extra_fields := get_extra_fields f in
    w_bind (w_lift (mapM (extra_column prs) (zseq extra_fields))) (fun e =>
    w_bind (w_lift (mapM (fun '(t, col) => compress_field t col)
      [(t_double, map rx prs); (t_double, map ry prs); (t_double, map rz prs);
       (t_u32, map rc prs); (t_u32, map rp prs); (t_u16, map ri prs);
       (t_u16, map rr prs); (t_u16, map rg prs); (t_u16, map rb prs)])) (fun fields =>
    w_bind (w_lift (mapM (compress_field t_u64) e)) (fun extras =>
    w_bind (w_lift (get_header f)) (fun h =>
    w_seq (write_header h)
   (w_seq (w_iter write_compressed fields)
          (w_iter write_compressed extras))))))).

(** spoc/io.h:379-386 *)
Definition write_spoc_file (debug : bool) (f : spoc_file) : writer unit :=
  w_bind (w_lift (get_header f)) (fun h =>
  if negb (h_compressed h =? 0)
  then write_spoc_file_compressed debug f
  else write_spoc_file_uncompressed debug f).

End WithZlib.
