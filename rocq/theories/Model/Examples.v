(** Model of the programs in /repo/examples.  Logs are left out, except the averages, which
    are the result of stream_averaging. *)
From Coq Require Import ZArith List Bool String.
From Verif.Model Require Import Base Double Arith Header PointRecord Point File Programs TransformApp.
Import ListNotations.
Open Scope Z_scope.
Open Scope outcome_scope.

(** ** examples/noop.cpp *)

(** examples/noop.cpp:36-46 *)
Fixpoint noop_points (n : nat) (extra_fields : Z) (s : istream) : writer unit :=
  match n with
  | O => w_ret tt
  | S n' =>
    w_bind (w_lift (read_point_record extra_fields s)) (fun '(p, s) =>
    w_seq (write_point_record p) (noop_points n' extra_fields s))
  end.

(** examples/noop.cpp:20-55.  [read_header_uncompressed] is lines 24-29 here as well. *)
Definition noop (input : list Z) (os : ostream) : ostream * outcome Z :=
  let '(os, r) :=
    w_bind (w_lift (read_header_uncompressed (i_open input))) (fun '(h, s) =>
    w_seq (write_header h) (noop_points (Z.to_nat (h_total h)) (h_extra h) s)) os in
  (os, exit_status (return_0 r)).

(** ** examples/stream_averaging.cpp *)

(** One line of the log: the number of points and the averages *)
Definition average : Type := (Z * point)%type.

(** examples/stream_averaging.cpp:34-37 *)
Record sums : Type := mk_sums { total_points : Z; sum_xyz : point }.

(** examples/stream_averaging.cpp:64-68; the count is converted to double *)
Definition average_of (t : sums) : average :=
  let n := d_of_z (total_points t) in
  (total_points t, mk_pt (d_div (px (sum_xyz t)) n) (d_div (py (sum_xyz t)) n) (d_div (pz (sum_xyz t)) n)).

(** examples/stream_averaging.cpp:51-55 *)
Definition update_sums (p : point_record) (t : sums) : sums :=
  mk_sums (to_u64 (total_points t + 1))
    (mk_pt (d_add (px (sum_xyz t)) (rx p)) (d_add (py (sum_xyz t)) (ry p)) (d_add (pz (sum_xyz t)) (rz p))).

(** examples/stream_averaging.cpp:45-73.  [late i]: more than a second has passed when the
    clock is read for point [i]. *)
Fixpoint average_points (late : nat -> bool) (n i : nat) (extra_fields : Z) (t : sums) (s : istream) : outcome (list average) :=
  match n with
  | O => Ret []
  | S n' =>
    '(p, s) <- read_point_record extra_fields s ;;
    let t := update_sums p t in
    l <- average_points late n' (S i) extra_fields t s ;;
    Ret (if late i then average_of t :: l else l)
  end.

(** examples/stream_averaging.cpp:18-82 *)
Definition stream_averaging (late : nat -> bool) (input : list Z) : outcome (list average) :=
  '(h, s) <- read_header_uncompressed (i_open input) ;;
  average_points late (Z.to_nat (h_total h)) 0 (h_extra h) (mk_sums 0 (mk_pt d_zero d_zero d_zero)) s.

(** ** examples/generate_infinite_points.cpp *)

(** examples/generate_infinite_points.cpp:20-25 *)
Definition infinite_header : outcome header :=
  header_ctor_wkt (chars "Test WKT") 4 (2 ^ 64 - 1) false.

(** examples/generate_infinite_points.cpp:37-50: the next [n] rounds of the endless loop.
    [coord k] is the [k]-th random number. *)
Fixpoint generate_points (coord : Z -> double) (n : nat) (k : Z) : writer unit :=
  match n with
  | O => w_ret tt
  | S n' =>
    let p := pr_zero 4 in
    w_seq (write_point_record (mk_pr (coord k) (coord (k + 1)) (coord (k + 2)) (rc p) (rp p) (ri p) (rr p) (rg p) (rb p) (rextra p)))
          (generate_points coord n' (k + 3))
  end.

(** examples/generate_infinite_points.cpp:18-58, up to [n] rounds *)
Definition generate_infinite_points (coord : Z -> double) (n : nat) : writer unit :=
  w_bind (w_lift infinite_header) (fun h => w_seq (write_header h) (generate_points coord n 0)).
