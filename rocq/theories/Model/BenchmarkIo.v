(** Model of spoc/benchmark_utils.h and benchmarks/benchmark_io.cpp. *)
From Coq Require Import String ZArith List Bool.
From Verif.Model Require Import Base Double Arith Header PointRecord Point File Compression IO TestUtils TileApp SrsApp Programs.
Import ListNotations.
Open Scope Z_scope.
Open Scope outcome_scope.

(** ** spoc/benchmark_utils.h *)

(** spoc/benchmark_utils.h:15-17.  Times are those of the clock, in nanoseconds. *)
Record timer : Type := mk_timer { t_t1 : Z; t_t2 : Z; t_running : bool }.

(** spoc/benchmark_utils.h:24-28; [now] is what the clock says *)
Definition timer_start (now : Z) (t : timer) : timer := mk_timer now (t_t2 t) true.
(** spoc/benchmark_utils.h:20-23; the time points start as the clock's epoch *)
Definition timer_new (now : Z) : timer := timer_start now (mk_timer 0 0 false).
(** spoc/benchmark_utils.h:29-33 *)
Definition timer_stop (now : Z) (t : timer) : timer := mk_timer (t_t1 t) now false.
(** spoc/benchmark_utils.h:34-40.  [duration_cast] drops the fraction; the count becomes a double.
    Simplification: the difference of two times does not overflow. *)
Definition timer_elapsed_ms (now : Z) (t : timer) : double :=
  d_of_z (Z.quot (if t_running t then now - t_t1 t else t_t2 t - t_t1 t) 1000000).

(** ** benchmarks/benchmark_io.cpp *)

(** benchmarks/benchmark_io.cpp:17 *)
Definition benchmark_fn : list Z := chars "/tmp/benchmark_io.tmp".

(** [ofstream ofs (fn); if (!ofs) throw ...; w]: what is then in the file.  The log on
    standard error is not modelled. *)
Definition write_file (acc : access_rights) (w : writer unit) (fs : files) : files * outcome unit :=
  if negb (can_write acc benchmark_fn) then (fs, Throw (runtime_error "Can't open file for writing"))
  else let '(o, r) := w o_open in (file_put benchmark_fn (o_bytes o) fs, r).

(** [ifstream ifs (fn); if (!ifs) throw ...] *)
Definition open_file (acc : access_rights) (fs : files) : outcome (list Z) :=
  match fs benchmark_fn with
  | Some bytes => if can_read acc benchmark_fn then Ret bytes else Throw (runtime_error "Can't open file for reading")
  | None => Throw (runtime_error "Can't open file for reading")
  end.

(** benchmarks/benchmark_io.cpp:19-35 *)
Definition benchmark_write_uncompressed (acc : access_rights) (p : list point_record) : files -> files * outcome unit :=
  write_file acc (w_iter write_point_record p).

(** benchmarks/benchmark_io.cpp:37-63.  The records that are read are not used by the program;
    they are the result here. *)
Definition benchmark_read_uncompressed (acc : access_rights) (p : list point_record) (extra_fields : Z) (fs : files)
    : files * outcome (list point_record) :=
  match write_file acc (w_iter write_point_record p) fs with
  | (fs, Ret _) => (fs, bytes <- open_file acc fs ;; '(r, _) <- read_uncompressed_points (zlen p) extra_fields (i_open bytes) ;; Ret r)
  | (fs, Throw e) => (fs, Throw e)
  | (fs, UB u) => (fs, UB u)
  | (fs, Hang) => (fs, Hang)
  end.

(** [write_spoc_file_compressed (ofs, spoc_file (wkt, true, p))] *)
Definition write_compressed (z : zlib) (debug : bool) (wkt : list Z) (p : list point_record) : writer unit :=
  w_bind (w_lift (file_ctor_wkt wkt true p)) (write_spoc_file_compressed z debug).

(** benchmarks/benchmark_io.cpp:65-82 *)
Definition benchmark_write_compressed (z : zlib) (debug : bool) (acc : access_rights) (p : list point_record)
    : files -> files * outcome unit :=
  write_file acc (write_compressed z debug (chars "Test wkt") p).

(** benchmarks/benchmark_io.cpp:84-108; as above, the file that is read is the result *)
Definition benchmark_read_compressed (z : zlib) (debug : bool) (acc : access_rights) (p : list point_record) (fs : files)
    : files * outcome spoc_file :=
  match write_file acc (write_compressed z debug (chars "WKT") p) fs with
  | (fs, Ret _) => (fs, bytes <- open_file acc fs ;; '(f, _) <- read_spoc_file_compressed z (i_open bytes) ;; Ret f)
  | (fs, Throw e) => (fs, Throw e)
  | (fs, UB u) => (fs, UB u)
  | (fs, Hang) => (fs, Hang)
  end.

(** Run one step after another. *)
Definition and_then {A B} (r : files * outcome A) (k : files -> files * outcome B) : files * outcome B :=
  match r with
  | (fs, Ret _) => k fs
  | (fs, Throw e) => (fs, Throw e)
  | (fs, UB u) => (fs, UB u)
  | (fs, Hang) => (fs, Hang)
  end.

(** benchmarks/benchmark_io.cpp:110-133; the numbers of records and of extra fields are
    parameters ([10'000'000] and [8] in the program) *)
Definition benchmark_io (z : zlib) (r : rng) (debug : bool) (acc : access_rights) (total_points extra_fields : Z) (fs : files) : files * outcome Z :=
  let p := generate_random_point_records r total_points extra_fields true 123 in
  let '(fs, res) :=
    and_then (benchmark_write_uncompressed acc p fs) (fun fs =>
    and_then (benchmark_read_uncompressed acc p extra_fields fs) (fun fs =>
    and_then (benchmark_write_compressed z debug acc p fs) (fun fs =>
    benchmark_read_compressed z debug acc p fs))) in
  (fs, match res with Ret _ => Ret 0 | Throw _ => Ret (-1) | UB u => UB u | Hang => Hang end).
