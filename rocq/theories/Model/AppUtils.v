(** Model of spoc/app_utils.h (the stream helpers are in the programs), and of the
    parts of the C++ library that it uses to read and print numbers.

    Strings are lists of bytes.  [assert] is modelled as compiled with [NDEBUG]:
    it is not there. *)
From Coq Require Import ZArith List Bool String.
From Verif.Model Require Import Base Double.
Import ListNotations.
Open Scope Z_scope.
Open Scope outcome_scope.

(** ** <cctype>, in the C locale *)

Definition is_space (c : Z) : bool := (c =? 32) || ((9 <=? c) && (c <=? 13)).
Definition is_digit (c : Z) : bool := (48 <=? c) && (c <=? 57).
(** Negative [char] values, the bytes from 128, are not alphanumeric (glibc;
    the standard leaves them undefined). *)
Definition is_alnum (c : Z) : bool :=
  is_digit c || ((65 <=? c) && (c <=? 90)) || ((97 <=? c) && (c <=? 122)).

(** The longest prefix of characters that satisfy [f], and the rest. *)
Fixpoint span (f : Z -> bool) (s : list Z) : list Z * list Z :=
  match s with
  | [] => ([], [])
  | c :: t => if f c then let '(a, b) := span f t in (c :: a, b) else ([], s)
  end.

(** ** Numbers *)

(** The number that a string of decimal digits denotes. *)
Definition dec_value (ds : list Z) : Z := fold_left (fun v d => 10 * v + (d - 48)) ds 0.

(** [strtol (s, &end, 10)] before it limits the value to [long]: skip white space,
    an optional sign, as many digits as possible.  The value and [end - s];
    [None] when there is no digit. *)
Definition strtol (s : list Z) : option (Z * Z) :=
  let '(sp, s1) := span is_space s in
  let '(neg, sg, s2) :=
    match s1 with
    | c :: t => if c =? 45 then (true, 1, t) else if c =? 43 then (false, 1, t) else (false, 0, s1)
    | [] => (false, 0, s1)
    end in
  let '(ds, _) := span is_digit s2 in
  match ds with
  | [] => None
  | _ => Some (if neg then - dec_value ds else dec_value ds, zlen sp + sg + zlen ds)
  end.

(** [std::stoi (s, &sz)]: the value and [sz] *)
Definition stoi (s : list Z) : outcome (Z * Z) :=
  match strtol s with
  | None => Throw invalid_argument
  | Some (v, n) => if (- two31 <=? v) && (v <? two31) then Ret (v, n) else Throw out_of_range
  end.

(** [std::stod (s, &sz)], the value and [sz], [None] when it throws: a parameter.
    Decimal to binary conversion is not modelled. *)
Definition stod_fn : Type := list Z -> option (double * Z).

(** [std::to_string (n)] and [os << n] for an unsigned integer *)
Fixpoint put_digits (fuel : nat) (n : Z) (acc : list Z) : list Z :=
  match fuel with
  | O => acc
  | S k => if n <? 10 then (48 + n) :: acc else put_digits k (n / 10) ((48 + n mod 10) :: acc)
  end.
Definition put_uint (n : Z) : list Z := put_digits (S (Z.to_nat (Z.log2 n))) n [].

(** ** spoc/app_utils.h *)

(** spoc/app_utils.h:79 *)
Definition field_strings : list (list Z) :=
  [chars "x"; chars "y"; chars "z"; chars "c"; chars "p"; chars "i"; chars "r"; chars "g"; chars "b"].

(** spoc/app_utils.h:81-85; [f[0]] of an empty string is NUL *)
Definition is_extra_field (f : list Z) : bool :=
  match f with c :: _ => c =? 101 | [] => false end.

(** spoc/app_utils.h:87-103 *)
Definition get_extra_index (f : list Z) : Z :=
  if negb (is_extra_field f) then -1
  else match stoi (zdrop 1 f) with Ret (n, _) => n | _ => -1 end.

(** spoc/app_utils.h:105-121 *)
Definition check_field_name (f : list Z) : bool :=
  if existsb (beq_bytes f) field_strings then true
  else if zlen f <=? 1 then false
  else if negb (is_extra_field f) then false
  else 0 <=? get_extra_index f.

(** spoc/app_utils.h:123-147: the name, and what is left of [s] *)
Definition consume_field_name (s : list Z) : outcome (list Z * list Z) :=
  let '(name, rest) := span is_alnum s in
  if negb (check_field_name name) then Throw (runtime_error "Invalid field name")
  else Ret (name, zdrop 1 rest).

(** spoc/app_utils.h:149-157 *)
Definition consume_int (s : list Z) : outcome (Z * list Z) :=
  match stoi s with
  | Ret (v, sz) => Ret (to_u32 v, zdrop (sz + 1) s)
  | _ => Throw (runtime_error "Could not parse int value string")
  end.

(** spoc/app_utils.h:165-171, the loop *)
Fixpoint consume_rest (fuel : nat) (s : list Z) : outcome (list Z * list Z) :=
  match fuel with
  | O => Hang
  | S k =>
    match consume_int s with
    | Ret (v, s') => '(vs, s'') <- consume_rest k s' ;; Ret (v :: vs, s'')
    | _ => Ret ([], s)
    end
  end.

(** spoc/app_utils.h:159-173 *)
Definition consume_ints (s : list Z) : outcome (list Z * list Z) :=
  '(v, s1) <- consume_int s ;;
  '(vs, s2) <- consume_rest (S (List.length s1)) s1 ;;
  Ret (v :: vs, s2).

(** spoc/app_utils.h:175-183 *)
Definition consume_double (stod : stod_fn) (s : list Z) : outcome (double * list Z) :=
  match stod s with
  | Some (v, sz) => Ret (v, zdrop (sz + 1) s)
  | None => Throw (runtime_error "Could not parse number value string")
  end.
