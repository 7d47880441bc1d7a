(** Numbers written as text. *)
From Coq Require Import ZArith List Bool String.
From Verif.Model Require Import Base.
Import ListNotations.
Open Scope Z_scope.

(** A decimal digit character. *)
Definition digit (c : Z) : Prop := 48 <= c <= 57.

(** The number that a string of digits denotes: each digit times its power of ten. *)
Fixpoint number (ds : list Z) : Z :=
  match ds with
  | [] => 0
  | d :: t => (d - 48) * 10 ^ Z.of_nat (List.length t) + number t
  end.

(** [t] is the usual decimal text of [n >= 0]: digits only, no superfluous zero in
    front. *)
Definition decimal (n : Z) (t : list Z) : Prop :=
  t <> [] /\ Forall digit t /\ number t = n /\ (hd 0 t = 48 -> t = [48]).

(** The usual text of an integer. *)
Definition int_text (n : Z) (t : list Z) : Prop :=
  if n <? 0 then exists u, t = 45 :: u /\ decimal (- n) u else decimal n t.

(** White space and alphanumeric characters of the C locale. *)
Definition white (c : Z) : Prop := In c [9; 10; 11; 12; 13; 32].
Definition alphanumeric (c : Z) : Prop := 48 <= c <= 57 \/ 65 <= c <= 90 \/ 97 <= c <= 122.

(** The text does not begin with a character of kind [P]. *)
Definition not_first (P : Z -> Prop) (t : list Z) : Prop := forall c u, t = c :: u -> ~ P c.

(** Texts one after the other, with a character in between. *)
Inductive separated : list (list Z) -> list Z -> Prop :=
| sep_one : forall t, separated [t] t
| sep_more : forall t c ts u, ~ digit c -> separated ts u -> separated (t :: ts) (t ++ c :: u).

(** Which texts denote the number [n] for [std::stoi]: white space, a sign, digits,
    and then anything. *)
Definition reads_as (t : list Z) (n : Z) : Prop :=
  exists sp sg ds junk, t = sp ++ sg ++ ds ++ junk /\ Forall white sp /\ Forall digit ds /\ ds <> []
    /\ not_first digit junk
    /\ ((sg = [] \/ sg = chars "+") /\ n = number ds \/ sg = chars "-" /\ n = - number ds).
