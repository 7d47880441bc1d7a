(** What the theorems assume about zlib (zlib.h, RFC 1950).

    zlib is not part of the repository.  [zlib_ok z ZS] says that [z] behaves as
    the manual promises, where [ZS strm data] reads "the byte string [strm] is a
    complete zlib stream whose contents are [data]".  The contract is shown to be
    satisfiable in Proofs/ToyZlib.v. *)
From Coq Require Import ZArith List.
From Verif.Model Require Import Base Compression.
Import ListNotations.
Open Scope Z_scope.

Definition prefix {A} (a b : list A) : Prop := exists c, b = a ++ c.

(** ** Legal sequences of [deflate] calls

    State reached, input consumed, output produced, and [None] while input is
    still being fed, [Some rest] once [Z_FINISH] has been used and [rest] is the
    input not yet consumed. *)
Inductive d_run (z : zlib) (level : Z)
  : z_def z -> list Z -> list Z -> option (list Z) -> Prop :=
| dr_init : forall st,
    deflateInit z level = Some st -> d_run z level st [] [] None
| dr_feed : forall st inp out chunk n st' used rest o,
    d_run z level st inp out None -> 0 < n -> bytes_ok chunk ->
    deflate z st chunk Z_NO_FLUSH n = (st', rest, o) -> chunk = used ++ rest ->
    d_run z level st' (inp ++ used) (out ++ o) None
| dr_finish : forall st inp out chunk n st' used rest o,
    d_run z level st inp out None -> 0 < n -> bytes_ok chunk ->
    deflate z st chunk Z_FINISH n = (st', rest, o) -> chunk = used ++ rest ->
    d_run z level st' (inp ++ used) (out ++ o) (Some rest)
| dr_more : forall st inp out chunk n st' used rest o,
    d_run z level st inp out (Some chunk) -> 0 < n ->
    deflate z st chunk Z_FINISH n = (st', rest, o) -> chunk = used ++ rest ->
    d_run z level st' (inp ++ used) (out ++ o) (Some rest).

(** [out] is everything produced for the complete input [inp]: the last call used
    [Z_FINISH] and left output space unused. *)
Definition deflated (z : zlib) (level : Z) (inp out : list Z) : Prop :=
  exists st inp0 out0 chunk n st' o,
    (d_run z level st inp0 out0 None \/ d_run z level st inp0 out0 (Some chunk))
    /\ 0 < n /\ bytes_ok chunk
    /\ deflate z st chunk Z_FINISH n = (st', [], o) /\ zlen o < n
    /\ inp = inp0 ++ chunk /\ out = out0 ++ o.

(** ** Sequences of [inflate] calls: state, input consumed, output produced *)
Inductive i_run (z : zlib) : z_inf z -> list Z -> list Z -> Prop :=
| ir_init : i_run z (inflateInit z) [] []
| ir_step : forall st c p chunk n st' used rest o ret,
    i_run z st c p -> 0 < n ->
    inflate z st chunk n = (st', rest, o, ret) -> chunk = used ++ rest ->
    i_run z st' (c ++ used) (p ++ o).

Record zlib_ok (z : zlib) (ZS : list Z -> list Z -> Prop) : Prop := mk_zlib_ok {
  (** deflateInit accepts the levels -1 .. 9 *)
  zk_level : forall level, (exists st, deflateInit z level = Some st) <-> -1 <= level <= 9;
  (** deflate respects [avail_out], consumes a prefix of the input, stops early
      only when the input is used up, and cannot fill buffers forever *)
  zk_deflate : forall st chunk fl n st' rest o,
    0 < n -> deflate z st chunk fl n = (st', rest, o) ->
    zlen o <= n /\ bytes_ok o /\ (exists used, chunk = used ++ rest)
    /\ (zlen o < n -> rest = [])
    /\ (zlen o = n -> (d_measure z st' rest < d_measure z st chunk)%nat);
  (** a finished run is a zlib stream of its input *)
  zk_stream : forall level inp out, deflated z level inp out -> ZS out inp;
  (** worst case expansion; the manual's [deflateBound] is much tighter *)
  zk_bound : forall level inp out, deflated z level inp out -> zlen out <= 2 * zlen inp + 64;
  zk_nonempty : forall strm data, ZS strm data -> strm <> [];
  (** inflate respects [avail_out], consumes a prefix of the input and cannot
      fill buffers forever, on any input *)
  zk_inflate : forall st chunk n st' rest o ret,
    0 < n -> inflate z st chunk n = (st', rest, o, ret) ->
    zlen o <= n /\ bytes_ok o /\ (exists used, chunk = used ++ rest)
    /\ (zlen o = n -> (i_measure z st' rest < i_measure z st chunk)%nat);
  (** inflate on (a piece of) a valid stream: no error, only correct output;
      it stops with space left only when the piece is used up or the stream is
      complete, and it does complete once it has seen the whole stream *)
  zk_valid : forall strm data, ZS strm data ->
    forall st c p c', i_run z st c p -> strm = c ++ c' ->
    forall chunk n st' rest o ret,
    0 < n -> prefix chunk c' \/ prefix c' chunk -> prefix p data ->
    inflate z st chunk n = (st', rest, o, ret) ->
    exists used, chunk = used ++ rest
      /\ prefix (c ++ used) strm /\ prefix (p ++ o) data
      /\ (ret = Z_OK \/ ret = Z_BUF_ERROR
          \/ (ret = Z_STREAM_END /\ c ++ used = strm /\ p ++ o = data))
      /\ (zlen o < n -> rest = [] \/ ret = Z_STREAM_END)
      /\ (zlen o < n -> prefix c' chunk -> ret = Z_STREAM_END)
}.

(** ** Sequences of [inflate] calls with [n] bytes of output space, as long as the output
    space is used up *)

(** The results that mean that decompression failed. *)
Definition inflate_error (r : zret) : Prop := r = Z_NEED_DICT \/ r = Z_DATA_ERROR \/ r = Z_MEM_ERROR.

(** [inflate_calls z n st inp out st' seen ok]: from state [st], on input [inp], the calls
    produce [out] and end in state [st'] because a call left space ([ok = true]) or
    reported an error ([ok = false]); [seen] says whether some call reported the end of
    the stream. *)
Inductive inflate_calls (z : zlib) (n : Z) : z_inf z -> list Z -> list Z -> z_inf z -> bool -> bool -> Prop :=
| ic_error : forall st inp st' rest o r, inflate z st inp n = (st', rest, o, r) -> inflate_error r ->
    inflate_calls z n st inp [] st' false false
| ic_last : forall st inp st' rest o r, inflate z st inp n = (st', rest, o, r) -> ~ inflate_error r -> zlen o < n ->
    forall seen, (seen = true <-> r = Z_STREAM_END) -> inflate_calls z n st inp o st' seen true
| ic_more : forall st inp st1 rest o r out st' seen seen' ok, inflate z st inp n = (st1, rest, o, r) -> ~ inflate_error r ->
    zlen o = n -> inflate_calls z n st1 rest out st' seen ok -> (seen' = true <-> r = Z_STREAM_END \/ seen = true) ->
    inflate_calls z n st inp (o ++ out) st' seen' ok.

(** The same on an input that is read [n] bytes at a time: [inflate_stream z n st input out
    ok] produces [out], and ends at the end of the input or of the compressed stream
    ([ok = true]), or with an error. *)
Inductive inflate_stream (z : zlib) (n : Z) : z_inf z -> list Z -> list Z -> bool -> Prop :=
| is_nothing : forall st, inflate_stream z n st [] [] true
| is_error : forall st input out st' seen, input <> [] ->
    inflate_calls z n st (firstn (Z.to_nat n) input) out st' seen false -> inflate_stream z n st input out false
| is_end : forall st input out st', input <> [] ->
    inflate_calls z n st (firstn (Z.to_nat n) input) out st' true true -> inflate_stream z n st input out true
| is_next : forall st input out st' out' ok, input <> [] ->
    inflate_calls z n st (firstn (Z.to_nat n) input) out st' false true ->
    inflate_stream z n st' (skipn (Z.to_nat n) input) out' ok -> inflate_stream z n st input (out ++ out') ok.
