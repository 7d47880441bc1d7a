(** Model of spoc/json.h. *)
From Coq Require Import ZArith List Bool String.
From Verif.Model Require Import Base Double AppUtils.
Import ListNotations.
Open Scope Z_scope.

(** ** std::map<std::string, V> *)

(** [std::string::operator<]: the first byte that differs decides, and a proper prefix
    comes first. *)
Fixpoint str_ltb (a b : list Z) : bool :=
  match a, b with
  | _, [] => false
  | [], _ :: _ => true
  | x :: a, y :: b => if x =? y then str_ltb a b else x <? y
  end.

(** A map as the list of its entries in order of their keys. *)
Definition str_map (V : Type) : Type := list (list Z * V).

(** [m[k] = v] *)
Fixpoint map_set {V} (k : list Z) (v : V) (m : str_map V) : str_map V :=
  match m with
  | [] => [(k, v)]
  | (j, w) :: t =>
    if str_ltb k j then (k, v) :: m
    else if str_ltb j k then (j, w) :: map_set k v t
    else (j, v) :: t
  end.

(** [m.at (k)], [None] when it throws *)
Fixpoint map_get {V} (k : list Z) (m : str_map V) : option V :=
  match m with
  | [] => None
  | (j, w) :: t => if str_ltb k j then None else if str_ltb j k then map_get k t else Some w
  end.

(** ** Values *)

(** spoc/json.h:16-37: [std::any] with the types that the printers know.  [v_other] is
    any other type, with what [type ().name ()] returns for it. *)
Inductive value : Type :=
| v_int (n : Z)
| v_char (n : Z)
| v_u8 (n : Z)
| v_u16 (n : Z)
| v_u64 (n : Z)
| v_float (bits : Z)
| v_bool (b : bool)
| v_double (d : double)
| v_string (s : list Z)
| v_cstr (s : list Z)
| v_array (a : list value)
| v_object (o : str_map value)
| v_other (name : list Z).

(** What the stream prints for floating point numbers, with its flags and precision: a
    parameter. *)
Record number_format : Type := mk_format { show_double : double -> list Z; show_float : Z -> list Z }.

(** [os << n] for a signed integer *)
Definition put_int (n : Z) : list Z := if n <? 0 then 45 :: put_uint (- n) else put_uint n.

Definition quoted (s : list Z) : list Z := chars "'" ++ s ++ chars "'".

(** The types that both printers treat alike; spoc/json.h:80-124,130 and
    167-186,192.  [boolalpha] changes nothing but how a [bool] is printed. *)
Definition print_leaf (fmt : number_format) (v : value) : list Z :=
  match v with
  | v_int n => put_int n
  | v_char n => put_int n
  | v_u8 n => put_int n
  | v_u16 n => put_uint n
  | v_u64 n => put_uint n
  | v_float f => show_float fmt f
  | v_bool b => if b then chars "true" else chars "false"
  | v_double d => show_double fmt d
  | v_string s => quoted s
  | v_cstr s => quoted s
  | v_other name => chars "unknown type: " ++ name
  | v_array _ | v_object _ => []
  end.

(** spoc/json.h:48-56 and 136-144: the loop over the elements, already printed *)
Fixpoint print_elements (l : list (list Z)) : list Z :=
  match l with
  | [] => []
  | [s] => s
  | s :: t => s ++ chars ", " ++ print_elements t
  end.

(** spoc/json.h:39-43 *)
Definition print_indents (indents : Z) : list Z := flat_map (fun _ => chars "    ") (repeat tt (Z.to_nat indents)).

(** spoc/json.h:62-73: the loop over the members, already printed *)
Fixpoint print_members (l : list (list Z)) : list Z :=
  match l with
  | [] => []
  | [s] => s ++ [10]
  | s :: t => s ++ chars "," ++ [10] ++ print_members t
  end.

(** spoc/json.h:46-131 *)
Fixpoint pretty_print (fmt : number_format) (v : value) (indents : Z) : list Z :=
  match v with
  | v_array a => chars "[ " ++ print_elements (map (fun w => pretty_print fmt w indents) a) ++ chars " ]"
  | v_object o =>
    chars "{" ++ [10]
    ++ print_members
         (map (fun m => print_indents (indents + 1) ++ quoted (fst m) ++ chars " : "
                        ++ pretty_print fmt (snd m) (indents + 1)) o)
    ++ print_indents indents ++ chars "}"
  | _ => print_leaf fmt v
  end.

(** spoc/json.h:134-194 *)
Fixpoint print (fmt : number_format) (v : value) : list Z :=
  match v with
  | v_array a => chars "[ " ++ print_elements (map (print fmt) a) ++ chars " ]"
  | v_object o =>
    chars "{ "
    ++ print_elements (map (fun m => quoted (fst m) ++ chars " : " ++ print fmt (snd m)) o)
    ++ chars " }"
  | _ => print_leaf fmt v
  end.
