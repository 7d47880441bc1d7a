(** Model of the spoc_srs program. *)
From Coq Require Import ZArith List Bool String.
From Verif.Model Require Import Base Double Header PointRecord File Compression IO AppConvert TileApp.
Import ListNotations.
Open Scope Z_scope.
Open Scope outcome_scope.

(** apps/srs/srs_cmd.h:15-23; help, verbose and version are left out *)
Record srs_args : Type := mk_srs_args {
  sa_srs : list Z;
  sa_set : bool;
  sa_fns : list (list Z)
}.

(** [ifstream ifs (fn); if (!ifs) throw ...] *)
Definition open_input (acc : access_rights) (fs : files) (fn : list Z) : outcome (list Z) :=
  match fs fn with
  | Some bytes => if can_read acc fn then Ret bytes else Throw (runtime_error "Could not open file for reading")
  | None => Throw (runtime_error "Could not open file for reading")
  end.

(** apps/srs/srs.cpp:65-67 and 111-113: [cout << h.wkt << endl] *)
Definition print_wkt (input : list Z) : writer unit :=
  from_input (read_header (i_open input)) (fun h => w_put (h_wkt h ++ [10])).

(** apps/srs/srs.cpp:45-69: from standard input to standard output *)
Definition srs_stdin (z : zlib) (debug : bool) (args : srs_args) (input : list Z) : writer unit :=
  if sa_set args
  then from_input (read_spoc_file z (i_open input)) (fun f => write_spoc_file z debug (set_wkt (sa_srs args) f))
  else print_wkt input.

(** apps/srs/srs.cpp:70-98: the input file is read before the output file is opened, which
    empties it *)
Definition srs_set (z : zlib) (debug : bool) (acc : access_rights) (args : srs_args) (fs : files) : files * outcome unit :=
  match sa_fns args with
  | [fn0; fn1] =>
    match (bytes <- open_input acc fs fn0 ;; read_spoc_file z (i_open bytes)) with
    | Ret (f, _) =>
      if negb (can_write acc fn1) then (fs, Throw (runtime_error "Could not open file for writing"))
      else
        let '(os, r) := write_spoc_file z debug (set_wkt (sa_srs args) f) (mk_ostream [] None false) in
        (file_put fn1 (o_bytes os) fs, r)
    | Throw e => (fs, Throw e)
    | UB u => (fs, UB u)
    | Hang => (fs, Hang)
    end
  | _ => (fs, Throw (runtime_error "When setting the SRS, you need to specify one input file and one output file"))
  end.

(** apps/srs/srs.cpp:99-116 *)
Fixpoint srs_get (acc : access_rights) (fs : files) (fns : list (list Z)) : writer unit :=
  match fns with
  | [] => w_ret tt
  | fn :: t => w_bind (w_lift (open_input acc fs fn)) (fun bytes => w_seq (print_wkt bytes) (srs_get acc fs t))
  end.

(** apps/srs/srs.cpp:45-118: standard output, the files and the outcome *)
Definition srs_main (z : zlib) (debug : bool) (acc : access_rights) (args : srs_args) (input : list Z) (fs : files) (os : ostream)
    : ostream * files * outcome unit :=
  match sa_fns args with
  | [] => let '(os, r) := srs_stdin z debug args input os in (os, fs, r)
  | _ => if sa_set args
         then let '(fs, r) := srs_set z debug acc args fs in (os, fs, r)
         else let '(os, r) := srs_get acc fs (sa_fns args) os in (os, fs, r)
  end.
