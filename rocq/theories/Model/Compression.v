(** Model of spoc/compression.h, on top of an abstract zlib. *)
From Coq Require Import ZArith List Bool String.
From Verif.Model Require Import Base.
Import ListNotations.
Open Scope Z_scope.
Open Scope outcome_scope.

(** ** The part of zlib the code uses (zlib.h)

    zlib itself is not part of the repository: it is a parameter.  [deflate st
    chunk flush n] is a call with [next_in]/[avail_in] describing [chunk] and
    [avail_out = n]; it returns the new state, the input left over, and the
    bytes produced.  [inflate] returns the return code as well.  The two
    measures bound the number of further calls that can fill a whole output
    buffer; they only serve as loop fuel. *)

Inductive zflush : Type := Z_NO_FLUSH | Z_FINISH.

Inductive zret : Type :=
| Z_OK | Z_STREAM_END | Z_BUF_ERROR | Z_NEED_DICT | Z_DATA_ERROR | Z_MEM_ERROR.

Record zlib : Type := mk_zlib {
  z_def : Type;
  z_inf : Type;
  deflateInit : Z -> option z_def;
  deflate : z_def -> list Z -> zflush -> Z -> z_def * list Z * list Z;
  inflateInit : z_inf;
  inflate : z_inf -> list Z -> Z -> z_inf * list Z * list Z * zret;
  d_measure : z_def -> list Z -> nat;
  i_measure : z_inf -> list Z -> nat
}.

(** spoc/compression.h:86, 120, 151, 198 *)
Definition BUFFER_SIZE : Z := 1048576.   (* 1 << 20 *)

(** [z_stream::avail_in] is a 32-bit [uInt]: assigning a [size_t] narrows it. *)
Definition avail_in (nbytes : Z) : Z := to_u32 nbytes.

Section WithZlib.
Variable z : zlib.

(** spoc/compression.h:96-108, the loop of [compress].  [acc] is [output]. *)
Fixpoint compress_loop (fuel : nat) (st : z_def z) (inp acc : list Z) : outcome (list Z) :=
  match fuel with
  | O => Hang
  | S fuel' =>
    let '(st', rest, out) := deflate z st inp Z_FINISH BUFFER_SIZE in
    let avail_out := BUFFER_SIZE - zlen out in
    let acc := acc ++ out in
    if avail_out =? 0 then compress_loop fuel' st' rest acc else Ret acc
  end.

(** spoc/compression.h:84-111, [compress (p, nbytes, level)].  [p] is the
    memory at the pointer, [nbytes] of it. *)
Definition compress_ptr (p : list Z) (nbytes : Z) (level : Z) : outcome (list Z) :=
  match deflateInit z level with
  | None => Throw (runtime_error "Invalid compression level")
  | Some st =>
    let inp := ztake (avail_in nbytes) p in
    compress_loop (S (d_measure z st inp)) st inp []
  end.

(** spoc/compression.h:113-116, [compress (input, level)]; [&input[0]] on an
    empty vector is undefined *)
Definition compress_vec (input : list Z) (level : Z) : outcome (list Z) :=
  match input with
  | [] => UB ub_index
  | _ :: _ => compress_ptr input (zlen input) level
  end.

(** spoc/compression.h:165-173: the error codes that throw *)
Definition zlib_throws (r : zret) : option exn :=
  match r with
  | Z_NEED_DICT => Some (runtime_error "ZLIB error")
  | Z_DATA_ERROR => Some (runtime_error "Invalid or incomplete deflate data")
  | Z_MEM_ERROR => Some (runtime_error "Out of memory")
  | Z_OK | Z_STREAM_END | Z_BUF_ERROR => None
  end.

(** spoc/compression.h:161-181, the loop of [decompress] *)
Fixpoint decompress_loop (fuel : nat) (st : z_inf z) (inp acc : list Z) : outcome (list Z) :=
  match fuel with
  | O => Hang
  | S fuel' =>
    let '(st', rest, out, ret) := inflate z st inp BUFFER_SIZE in
    match zlib_throws ret with
    | Some e => Throw e
    | None =>
      let avail_out := BUFFER_SIZE - zlen out in
      let acc := acc ++ out in
      if avail_out =? 0 then decompress_loop fuel' st' rest acc else Ret acc
    end
  end.

(** spoc/compression.h:149-184, [decompress (input)] *)
Definition decompress (input : list Z) : outcome (list Z) :=
  match input with
  | [] => UB ub_index
  | _ :: _ =>
    let inp := ztake (avail_in (zlen input)) input in
    decompress_loop (S (i_measure z (inflateInit z) inp)) (inflateInit z) inp []
  end.

(** spoc/compression.h:186-194, [decompress (input, output, output_bytes)]:
    returns the bytes stored in the output memory.  [&d[0]] on an empty vector
    is undefined. *)
Definition decompress_to (input : list Z) (output_bytes : Z) : outcome (list Z) :=
  d <- decompress input ;;
  if negb (zlen d =? output_bytes)
  then Throw (runtime_error "Can't decompress: unexpected number of decompressed bytes")
  else match d with
       | [] => UB ub_index
       | _ :: _ => Ret d
       end.

(** spoc/compression.h:132-145, inner loop of the stream [compress] *)
Fixpoint compress_stream_inner (fuel : nat) (flush : zflush) (st : z_def z) (inp : list Z)
    : writer (z_def z) :=
  match fuel with
  | O => w_lift Hang
  | S fuel' =>
    let '(st', rest, out) := deflate z st inp flush BUFFER_SIZE in
    let avail_out := BUFFER_SIZE - zlen out in
    w_seq (w_put out)
      (fun os =>
        if o_bad os then (os, Throw (runtime_error "ZLIB error"))
        else if avail_out =? 0 then compress_stream_inner fuel' flush st' rest os
        else (os, Ret st'))
  end.

(** spoc/compression.h:126-146, outer loop.  A failed stream that is not at end
    of file makes it spin forever, hence the fuel. *)
Fixpoint compress_stream_outer (fuel : nat) (is : istream) (st : z_def z) : writer unit :=
  match fuel with
  | O => w_lift Hang
  | S fuel' =>
    let '(got, is') := is_read BUFFER_SIZE is in
    let flush := if i_eof is' then Z_FINISH else Z_NO_FLUSH in
    w_bind (compress_stream_inner (S (d_measure z st got)) flush st got)
      (fun st' =>
        if negb (i_eof is') then compress_stream_outer fuel' is' st' else w_ret tt)
  end.

(** spoc/compression.h:118-147, [compress (is, os, level)].  Each outer
    iteration on a good stream extracts [BUFFER_SIZE] bytes or reaches end of
    file, so [S (length / BUFFER_SIZE)] iterations suffice when the loop ends. *)
Definition compress_stream (is : istream) (level : Z) : writer unit :=
  match deflateInit z level with
  | None => w_lift (Throw (runtime_error "Invalid compression level"))
  | Some st =>
    compress_stream_outer (S (Z.to_nat (zlen (i_rest is) / BUFFER_SIZE))) is st
  end.

(** spoc/compression.h:217-241, inner loop of the stream [decompress]; returns
    the state and the [done] flag.  [next_in]/[avail_in] left over when the inner
    loop ends are overwritten by the next outer iteration. *)
Fixpoint decompress_stream_inner (fuel : nat) (st : z_inf z) (inp : list Z) (done : bool)
    : writer (z_inf z * bool) :=
  match fuel with
  | O => w_lift Hang
  | S fuel' =>
    let '(st', rest, out, ret) := inflate z st inp BUFFER_SIZE in
    match zlib_throws ret with
    | Some e => w_lift (Throw e)
    | None =>
      let done := match ret with Z_STREAM_END => true | _ => done end in
      let avail_out := BUFFER_SIZE - zlen out in
      w_seq (w_put out)
        (fun os =>
          if o_bad os then (os, Throw (runtime_error "ZLIB error"))
          else if avail_out =? 0 then decompress_stream_inner fuel' st' rest done os
          else (os, Ret (st', done)))
    end
  end.

(** spoc/compression.h:205-242, outer loop *)
Fixpoint decompress_stream_outer (fuel : nat) (is : istream) (st : z_inf z)
    : writer unit :=
  match fuel with
  | O => w_lift Hang
  | S fuel' =>
    let '(got, is') := is_read BUFFER_SIZE is in
    match got with
    | [] => w_ret tt
    | _ :: _ =>
      w_bind (decompress_stream_inner (S (i_measure z st got)) st got false)
        (fun '(st', done) =>
          if negb done then decompress_stream_outer fuel' is' st' else w_ret tt)
    end
  end.

(** spoc/compression.h:196-243, [decompress (is, os)] *)
Definition decompress_stream (is : istream) : writer unit :=
  decompress_stream_outer (S (S (Z.to_nat (zlen (i_rest is) / BUFFER_SIZE)))) is (inflateInit z).

End WithZlib.
