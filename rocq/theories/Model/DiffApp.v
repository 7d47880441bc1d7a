(** Model of the spoc_diff program. *)
From Coq Require Import ZArith List Bool String.
From Verif.Model Require Import Base Double Header PointRecord File Compression IO.
Import ListNotations.
Open Scope Z_scope.
Open Scope outcome_scope.

(** [std::vector] operator!=, with the [==] of the elements *)
Fixpoint vec_eqb {A} (eqb : A -> A -> bool) (a b : list A) : bool :=
  match a, b with
  | [], [] => true
  | x :: a', y :: b' => eqb x y && vec_eqb eqb a' b'
  | _, _ => false
  end.
Definition doubles_differ (a b : list double) : bool := negb (vec_eqb d_eqb a b).
Definition ints_differ (a b : list Z) : bool := negb (vec_eqb Z.eqb a b).

(** apps/diff/diff.h:74-78: the loop over the extra fields *)
Fixpoint extras_differ (n : nat) (k : Z) (p1 p2 : list point_record) : outcome bool :=
  match n with
  | O => Ret false
  | S n' =>
    a <- get_extra k p1 ;;
    b <- get_extra k p2 ;;
    r <- extras_differ n' (k + 1) p1 p2 ;;
    Ret (ints_differ a b || r)
  end.

(** apps/diff/diff.h:50-79 *)
Definition data_differ (f1 f2 : spoc_file) : outcome bool :=
  let p1 := f_prs f1 in
  let p2 := f_prs f2 in
  if doubles_differ (get_x p1) (get_x p2) then Ret true
  else if doubles_differ (get_y p1) (get_y p2) then Ret true
  else if doubles_differ (get_z p1) (get_z p2) then Ret true
  else if ints_differ (get_c p1) (get_c p2) then Ret true
  else if ints_differ (get_p p1) (get_p p2) then Ret true
  else if ints_differ (get_i p1) (get_i p2) then Ret true
  else if ints_differ (get_r p1) (get_r p2) then Ret true
  else if ints_differ (get_g p1) (get_g p2) then Ret true
  else if ints_differ (get_b p1) (get_b p2) then Ret true
  else if negb (get_extra_fields_size p1 =? get_extra_fields_size p2) then Ret true
  else extras_differ (Z.to_nat (get_extra_fields_size p1)) 0 p1 p2.

(** apps/diff/diff.h:45-49 *)
Definition headers_differ (f1 f2 : spoc_file) : outcome bool :=
  h1 <- get_header f1 ;;
  h2 <- get_header f2 ;;
  Ret (header_neb h1 h2).

(** apps/diff/diff.h:84-151: the [switch].  [field] is a character as an [int].  The
    character is left out of the message. *)
Definition field_differs (field : Z) (f1 f2 : spoc_file) : outcome bool :=
  let p1 := f_prs f1 in
  let p2 := f_prs f2 in
  if field =? 120 then Ret (doubles_differ (get_x p1) (get_x p2))
  else if field =? 121 then Ret (doubles_differ (get_y p1) (get_y p2))
  else if field =? 122 then Ret (doubles_differ (get_z p1) (get_z p2))
  else if field =? 99 then Ret (ints_differ (get_c p1) (get_c p2))
  else if field =? 112 then Ret (ints_differ (get_p p1) (get_p p2))
  else if field =? 105 then Ret (ints_differ (get_i p1) (get_i p2))
  else if field =? 114 then Ret (ints_differ (get_r p1) (get_r p2))
  else if field =? 103 then Ret (ints_differ (get_g p1) (get_g p2))
  else if field =? 98 then Ret (ints_differ (get_b p1) (get_b p2))
  else if (48 <=? field) && (field <=? 57) then
    let index := field - 48 in
    if (index <? get_extra_fields_size p1) && (index <? get_extra_fields_size p2) then
      (a <- get_extra index p1 ;;
       b <- get_extra index p2 ;;
       Ret (ints_differ a b))
    else Ret false
  else Throw (runtime_error "Unknown field specifier: ").

(** apps/diff/diff.h:82-156, the loop, left at the first difference *)
Fixpoint fields_differ (fields : list Z) (f1 f2 : spoc_file) : outcome bool :=
  match fields with
  | [] => Ret false
  | field :: t =>
    d <- field_differs field f1 f2 ;;
    if (d : bool) then Ret true else fields_differ t f1 f2
  end.

(** apps/diff/diff.h:13-163.  [return_code] is -1 when a difference was found, else 0. *)
Definition diff (f1 f2 : spoc_file) (header_only data_only : bool) (fields : list Z) (reverse : bool) : outcome Z :=
  let check_header := true in
  let check_data := true in
  let check_fields := false in
  let '(check_header, check_data, check_fields) :=
    if header_only then (true, false, false) else (check_header, check_data, check_fields) in
  let '(check_header, check_data, check_fields) :=
    if data_only then (false, true, false) else (check_header, check_data, check_fields) in
  let '(check_header, check_data, check_fields) :=
    match fields with [] => (check_header, check_data, check_fields) | _ => (false, false, true) end in
  d1 <- (if (check_header : bool) then headers_differ f1 f2 else Ret false) ;;
  d2 <- (if (check_data : bool) then data_differ f1 f2 else Ret false) ;;
  d3 <- (if (check_fields : bool) then fields_differ fields f1 f2 else Ret false) ;;
  let return_code := if (d1 || d2 || d3)%bool then -1 else 0 in
  Ret (if reverse then (if return_code =? 0 then 1 else 0) else return_code).

(** apps/diff/diff_cmd.h:12-25 *)
Record diff_args : Type := mk_diff_args {
  da_header_only : bool;
  da_data_only : bool;
  da_fields : list Z;
  da_reverse : bool
}.

(** apps/diff/diff_cmd.h:62-68: the characters of the option, [char] being signed, are
    appended *)
Definition to_char (b : Z) : Z := if b <? 128 then b else b - 256.
Definition add_fields (s : list Z) (a : diff_args) : diff_args :=
  mk_diff_args (da_header_only a) (da_data_only a) (da_fields a ++ map to_char s) (da_reverse a).

(** apps/diff/diff.cpp:48-81: [input1] and [input2] are the contents of the files, which
    can be opened *)
Definition diff_run (z : zlib) (args : diff_args) (input1 input2 : list Z) : outcome Z :=
  if 2 <? b2z (da_header_only args) + b2z (da_data_only args)
          + match da_fields args with [] => 0 | _ => 1 end
  then Throw (runtime_error "Can't specify more than 1 of 'header-only', 'data-only', and specific fields")
  else
    '(f1, _) <- read_spoc_file z (i_open input1) ;;
    '(f2, _) <- read_spoc_file z (i_open input2) ;;
    diff f1 f2 (da_header_only args) (da_data_only args) (da_fields args) (da_reverse args).

(** apps/diff/diff.cpp:82-86: the value that [main] returns *)
Definition diff_tool (z : zlib) (args : diff_args) (input1 input2 : list Z) : outcome Z :=
  match diff_run z args input1 input2 with
  | Throw _ => Ret (-1)
  | r => r
  end.
