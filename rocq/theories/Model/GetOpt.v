(** Model of [getopt_long] of the C library (glibc, [POSIXLY_CORRECT] not set), with which
    all programs read their command lines, and of [atoi] and [atol].

    getopt is not part of the repository; what is modelled is its documented behaviour:
    operands may stand between the options and keep their order; "--" ends the options;
    long options may be abbreviated and take their argument after "=" or as the next
    element of the command line; short options may be put together.  A command line is the
    list of the elements after the name of the program. *)
From Coq Require Import ZArith List Bool String.
From Verif.Model Require Import Base AppUtils.
Import ListNotations.
Open Scope Z_scope.

(** [struct option]: the name, [required_argument] or [no_argument], and the value *)
Record long_option : Type := mk_long { lo_name : list Z; lo_arg : bool; lo_val : Z }.

(** The option string: the letters, and whether a colon follows *)
Definition short_options : Type := list (Z * bool).

(** What a call returns: the value of an option and [optarg], or ['?'] *)
Inductive event : Type := E_option (val : Z) (arg : option (list Z)) | E_invalid.

Definition ch_dash : Z := 45.
Definition ch_equal : Z := 61.

Fixpoint is_prefix (a b : list Z) : bool :=
  match a, b with
  | [], _ => true
  | x :: a, y :: b => (x =? y) && is_prefix a b
  | _ :: _, [] => false
  end.

Definition same_meaning (a b : long_option) : bool := Bool.eqb (lo_arg a) (lo_arg b) && (lo_val a =? lo_val b).

(** A name that is given in full, else an abbreviation that is not ambiguous *)
Definition match_long (longs : list long_option) (name : list Z) : option long_option :=
  match find (fun o => beq_bytes (lo_name o) name) longs with
  | Some o => Some o
  | None =>
    match filter (fun o => is_prefix name (lo_name o)) longs with
    | [] => None
    | o :: t => if forallb (same_meaning o) t then Some o else None
    end
  end.

(** The letters of one element.  The second result is the last letter if its argument
    is the next element. *)
Fixpoint short_events (shorts : short_options) (s : list Z) : list event * option Z :=
  match s with
  | [] => ([], None)
  | c :: t =>
    match find (fun o => fst o =? c) shorts with
    | None => let '(es, need) := short_events shorts t in (E_invalid :: es, need)
    | Some (_, false) => let '(es, need) := short_events shorts t in (E_option c None :: es, need)
    | Some (_, true) =>
      match t with
      | [] => ([], Some c)
      | _ => ([E_option c (Some t)], None)
      end
    end
  end.

(** What an element of the command line is; "-" is an operand. *)
Inductive element : Type := El_operand | El_end | El_long (s : list Z) | El_short (s : list Z).
Definition classify (a : list Z) : element :=
  match a with
  | c :: t =>
    if negb (c =? ch_dash) then El_operand
    else match t with
         | [] => El_operand
         | d :: t' => if d =? ch_dash then match t' with [] => El_end | _ => El_long t' end else El_short t
         end
  | [] => El_operand
  end.

(** All calls of [getopt_long] until it returns -1: what they return, and the operands that
    are left. *)
Fixpoint getopt (longs : list long_option) (shorts : short_options) (args : list (list Z))
    : list event * list (list Z) :=
  match args with
  | [] => ([], [])
  | a :: rest =>
    match classify a with
    | El_operand => let '(es, ops) := getopt longs shorts rest in (es, a :: ops)
    | El_end => ([], rest)
    | El_long s =>
      let '(name, tail) := span (fun c => negb (c =? ch_equal)) s in
      match match_long longs name with
      | None => let '(es, ops) := getopt longs shorts rest in (E_invalid :: es, ops)
      | Some o =>
        match tail with
        | _ :: v =>
          let '(es, ops) := getopt longs shorts rest in
          ((if lo_arg o then E_option (lo_val o) (Some v) else E_invalid) :: es, ops)
        | [] =>
          if lo_arg o then
            match rest with
            | [] => ([E_invalid], [])
            | v :: rest' => let '(es, ops) := getopt longs shorts rest' in (E_option (lo_val o) (Some v) :: es, ops)
            end
          else let '(es, ops) := getopt longs shorts rest in (E_option (lo_val o) None :: es, ops)
        end
      end
    | El_short s =>
      let '(es1, need) := short_events shorts s in
      match need with
      | None => let '(es, ops) := getopt longs shorts rest in (es1 ++ es, ops)
      | Some c =>
        match rest with
        | [] => (es1 ++ [E_invalid], [])
        | v :: rest' => let '(es, ops) := getopt longs shorts rest' in (es1 ++ E_option c (Some v) :: es, ops)
        end
      end
    end
  end.

(** [strtol (s, NULL, 10)]: limited to [long]; 0 without digits *)
Definition atol (s : list Z) : Z :=
  match strtol s with
  | None => 0
  | Some (v, _) => if v <? - two63 then - two63 else if two63 <=? v then two63 - 1 else v
  end.

(** [atoi (s)]: glibc returns [(int) strtol (s, NULL, 10)] (the standard leaves values out
    of range undefined) *)
Definition atoi (s : list Z) : Z := to_i32 (to_u32 (atol s)).
