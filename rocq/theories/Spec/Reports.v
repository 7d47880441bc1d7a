(** What the reports of spoc_info should say: class names and counts, summaries, and
    text that can be read back. *)
From Coq Require Import String Reals ZArith List Bool Sorted Permutation.
From Flocq Require Import Core.
From Verif.Model Require Import Base Double Arith PointRecord Point File Json InfoApp.
From Verif.Spec Require Import Text Rounding.
Import ListNotations.
Open Scope Z_scope.

(** ** Class names *)

(** The names of the classes 0, 1, 2, ... *)
Definition class_list : list string :=
  ["unclassified"; "unknown"; "ground"; "low_veg"; "med_veg"; "high_veg"; "building"; "low_noise"; "reserved";
   "water"; "rail"; "road"; "reserved"; "wire_guard"; "wire_conductor"; "transmission_tower"; "wire_connector";
   "bridge_deck"; "high_noise"; "overhead_structure"; "ignored"; "snow"; "exclusion"]%string.

(** Class [v] has the name [s]. *)
Definition named (v : Z) (s : string) : Prop :=
  0 <= v /\ nth_error class_list (Z.to_nat v) = Some s
  \/ 23 <= v <= 63 /\ s = "reserved"%string
  \/ 64 <= v <= 255 /\ s = "user_defined"%string.

(** ** Counts *)

Definition occurrences (v : Z) (c : list Z) : Z := Z.of_nat (count_occ Z.eq_dec c v).

(** The order of [std::string]: [a] is a proper prefix of [b], or the first byte in which
    they differ is smaller in [a]. *)
Definition before (a b : list Z) : Prop :=
  (exists c u, b = a ++ c :: u)
  \/ (exists p x y u w, a = p ++ x :: u /\ b = p ++ y :: w /\ x < y).

(** The keys of a map are distinct and in order. *)
Definition in_order {V} (m : list (list Z * V)) : Prop := StronglySorted before (map fst m).

(** [t] is [u] with zeros in front of it, as many as it takes for three characters. *)
Definition padded (u t : list Z) : Prop :=
  exists k, t = repeat 48 k ++ u /\ (k = 0%nat /\ (3 <= length u)%nat \/ length t = 3%nat).

(** [t] is the label of class [v], a number below 2^32: its decimal text with at least
    three characters, where the classes from 2^31 appear as negative numbers. *)
Definition label_of (v : Z) (t : list Z) : Prop :=
  exists u, int_text (if v <? 2 ^ 31 then v else v - 2 ^ 32) u /\ padded u t.

Fixpoint total (l : list Z) : Z := match l with [] => 0 | n :: t => n + total t end.

(** The name that the report shows for class [v].  The labels of the last nine classes,
    "0-9" to "0-1", are taken for class 0. *)
Definition shown_name (v : Z) (s : string) : Prop :=
  if v <=? 255 then named v s
  else if v <? 2 ^ 32 - 9 then s = "undefined"%string
  else s = "unclassified"%string.

(** The line for class [v], which [n] records have. *)
Definition class_line (v n : Z) (l : list Z) : Prop :=
  exists label count s, label_of v label /\ decimal n count /\ shown_name v s
    /\ l = chars "cls_" ++ label ++ [9] ++ count ++ [9] ++ chars s ++ [10].

(** ** Summaries *)

(** The order of the values of a column, without NaN *)
Definition at_most (k : column) (a b : Z) : Prop :=
  match k with col_double => d_leb a b = true | _ => a <= b end.
Definition at_mostb (k : column) (a b : Z) : bool :=
  match k with col_double => d_leb a b | _ => a <=? b end.

(** The values that a column of the type can have *)
Definition in_column (k : column) (a : Z) : Prop :=
  match k with
  | col_double => d_ok a
  | col_u32 => 0 <= a < 2 ^ 32
  | col_u16 => 0 <= a < 2 ^ 16
  | col_u64 => 0 <= a < 2 ^ 64
  end.
Definition all_numbers (k : column) (x : list Z) : Prop :=
  match k with col_double => Forall (fun a => d_is_nan a = false) x | _ => True end.

Definition least (k : column) (x : list Z) (a : Z) : Prop := In a x /\ forall b, In b x -> at_most k a b.
Definition greatest (k : column) (x : list Z) (a : Z) : Prop := In a x /\ forall b, In b x -> at_most k b a.

(** [a] is the value of rank [r] of [x], counted from 0: no more than [r] values are
    smaller, and more than [r] values are smaller or equal. *)
Definition rank (k : column) (x : list Z) (r : Z) (a : Z) : Prop :=
  In a x /\ zlen (filter (fun b => negb (at_mostb k a b)) x) <= r < zlen (filter (fun b => at_mostb k b a) x).

(** The contract of [std::sort]: when [<] is an order on the values, the result has the
    same values in that order. *)
Definition sorts (srt : sorter) : Prop :=
  forall x, ~ (Exists (fun a => d_is_nan a = true) x /\ exists a b, In a x /\ In b x /\ d_ltb a b = true) ->
  Permutation x (srt x) /\ StronglySorted (fun a b => d_ltb b a = false) (srt x).

(** How a value appears in a JSON object.  There is no JSON value for 32-bit numbers. *)
Definition json_of (k : column) (a : Z) : value :=
  match k with
  | col_double => v_double a
  | col_u32 => v_other (chars "j")
  | col_u16 => v_u16 a
  | col_u64 => v_u64 a
  end.

(** The difference of two values; 16-bit numbers become [int]. *)
Definition difference (k : column) (a b : Z) : Z := match k with col_double => d_sub a b | _ => a - b end.
Definition json_of_difference (k : column) (a : Z) : value := match k with col_u16 => v_int a | _ => json_of k a end.

(** How a value is shown as text. *)
Definition shown_as (fmt : number_format) (k : column) (a : Z) (t : list Z) : Prop :=
  match k with col_double => t = show_double fmt a | _ => int_text a t end.

(** A line of text *)
Definition text_line (l : list (list Z)) : list Z := List.concat l ++ [10].

(** ** Densities *)

(** [l] has [n] different elements. *)
Definition distinct {A} (l : list A) (n : Z) : Prop :=
  exists s, NoDup s /\ (forall a, In a s <-> In a l) /\ zlen s = n.

Definition is_least (l : list R) (m : R) : Prop := In m l /\ forall x, In x l -> (m <= x)%R.
Definition is_greatest (l : list R) (m : R) : Prop := In m l /\ forall x, In x l -> (x <= m)%R.

(** The cell of size 1 that a coordinate lies in, counted from [m]. *)
Definition cell (m x : R) : Z := Ztrunc (rnd (x - m)).

(** [cells] are the cells of the points on the three axes, counted from their minima. *)
Definition point_cells (ps : list point) (cells : list (Z * Z * Z)) : Prop :=
  exists x0 y0 z0,
    is_least (map (fun p => d_val (px p)) ps) x0 /\ is_least (map (fun p => d_val (py p)) ps) y0
    /\ is_least (map (fun p => d_val (pz p)) ps) z0
    /\ cells = map (fun p => (cell x0 (d_val (px p)), cell y0 (d_val (py p)), cell z0 (d_val (pz p)))) ps.

(** ** Reading the output back *)

(** The data in a text: words (numbers, true, false), strings, lists and dictionaries. *)
Inductive tree : Type :=
| t_word (s : list Z)
| t_text (s : list Z)
| t_list (l : list tree)
| t_dict (l : list (list Z * tree)).

Definition is_white (c : Z) : bool := existsb (Z.eqb c) [9; 10; 11; 12; 13; 32].
(** the quote ' and , : [ ] { } *)
Definition is_special (c : Z) : bool := existsb (Z.eqb c) [39; 44; 58; 91; 93; 123; 125].
Definition is_word_char (c : Z) : bool := negb (is_white c) && negb (is_special c).

(** The longest prefix of characters of a kind, and the rest. *)
Fixpoint scan (f : Z -> bool) (s : list Z) : list Z * list Z :=
  match s with
  | [] => ([], [])
  | c :: t => if f c then let '(a, b) := scan f t in (c :: a, b) else ([], s)
  end.
Definition skip (s : list Z) : list Z := snd (scan is_white s).

Definition read_quoted (s : list Z) : option (list Z * list Z) :=
  match s with
  | c :: t =>
    if c =? 39 then
      match scan (fun c => negb (c =? 39)) t with
      | (u, _ :: r) => Some (u, r)
      | _ => None
      end
    else None
  | [] => None
  end.

(** A reader for the notation: the tree that a text begins with, and the rest of the
    text.  [fuel] bounds the number of trees. *)
Fixpoint read_tree (fuel : nat) (s : list Z) : option (tree * list Z) :=
  match fuel with
  | O => None
  | S n =>
    match skip s with
    | [] => None
    | c :: t =>
      if c =? 39 then
        match read_quoted (c :: t) with Some (u, r) => Some (t_text u, r) | None => None end
      else if c =? 91 then
        match read_list n t with Some (l, r) => Some (t_list l, r) | None => None end
      else if c =? 123 then
        match read_dict n t with Some (l, r) => Some (t_dict l, r) | None => None end
      else
        match scan is_word_char (c :: t) with
        | ([], _) => None
        | (u, r) => Some (t_word u, r)
        end
    end
  end
with read_list (fuel : nat) (s : list Z) : option (list tree * list Z) :=
  match fuel with
  | O => None
  | S n =>
    match skip s with
    | [] => None
    | c :: t =>
      if c =? 93 then Some ([], t)
      else
        match read_tree n (c :: t) with
        | None => None
        | Some (v, r) =>
          match skip r with
          | [] => None
          | d :: u =>
            if d =? 44 then match read_list n u with Some (l, r) => Some (v :: l, r) | None => None end
            else if d =? 93 then Some ([v], u)
            else None
          end
        end
    end
  end
with read_dict (fuel : nat) (s : list Z) : option (list (list Z * tree) * list Z) :=
  match fuel with
  | O => None
  | S n =>
    match skip s with
    | [] => None
    | c :: t =>
      if c =? 125 then Some ([], t)
      else
        match read_quoted (c :: t) with
        | None => None
        | Some (k, r) =>
          match skip r with
          | [] => None
          | e :: r =>
            if negb (e =? 58) then None
            else
              match read_tree n r with
              | None => None
              | Some (v, r) =>
                match skip r with
                | [] => None
                | d :: u =>
                  if d =? 44 then match read_dict n u with Some (l, r) => Some ((k, v) :: l, r) | None => None end
                  else if d =? 125 then Some ([(k, v)], u)
                  else None
                end
              end
          end
        end
    end
  end.

(** The tree that a whole text is. *)
Definition read_text (s : list Z) : option tree :=
  match read_tree (S (length s)) s with
  | Some (v, r) => match skip r with [] => Some v | _ => None end
  | None => None
  end.

(** The data of a value.  There is none for a value of another type. *)
Inductive data (fmt : number_format) : value -> tree -> Prop :=
| da_int : forall n t, int_text n t -> data fmt (v_int n) (t_word t)
| da_char : forall n t, int_text n t -> data fmt (v_char n) (t_word t)
| da_u8 : forall n t, int_text n t -> data fmt (v_u8 n) (t_word t)
| da_u16 : forall n t, int_text n t -> data fmt (v_u16 n) (t_word t)
| da_u64 : forall n t, int_text n t -> data fmt (v_u64 n) (t_word t)
| da_float : forall d, data fmt (v_float d) (t_word (show_float fmt d))
| da_double : forall d, data fmt (v_double d) (t_word (show_double fmt d))
| da_true : data fmt (v_bool true) (t_word (chars "true"))
| da_false : data fmt (v_bool false) (t_word (chars "false"))
| da_string : forall s, data fmt (v_string s) (t_text s)
| da_cstr : forall s, data fmt (v_cstr s) (t_text s)
| da_array : forall a l, Forall2 (data fmt) a l -> data fmt (v_array a) (t_list l)
| da_object : forall o l, Forall2 (fun m n => fst m = fst n /\ data fmt (snd m) (snd n)) o l ->
    data fmt (v_object o) (t_dict l).

(** Numbers are shown as words. *)
Definition word (s : list Z) : Prop := s <> [] /\ Forall (fun c => is_word_char c = true) s.
Definition shows_words (fmt : number_format) : Prop :=
  (forall d, word (show_double fmt d)) /\ (forall f, word (show_float fmt f)).

(** No string in the value has a quote in it. *)
Definition quote_free (s : list Z) : Prop := ~ In 39 s.
Fixpoint no_quotes (v : value) : Prop :=
  match v with
  | v_string s | v_cstr s => quote_free s
  | v_array a => fold_right (fun w P => no_quotes w /\ P) True a
  | v_object o => fold_right (fun m P => (quote_free (fst m) /\ no_quotes (snd m)) /\ P) True o
  | _ => True
  end.

(** The unsigned numbers in the value are not negative. *)
Fixpoint well_typed (v : value) : Prop :=
  match v with
  | v_u16 n | v_u64 n => 0 <= n
  | v_array a => fold_right (fun w P => well_typed w /\ P) True a
  | v_object o => fold_right (fun m P => well_typed (snd m) /\ P) True o
  | _ => True
  end.

(** Somewhere in the value there is one of a type that the printers do not know. *)
Fixpoint has_unknown (v : value) : Prop :=
  match v with
  | v_other _ => True
  | v_array a => fold_right (fun w P => has_unknown w \/ P) False a
  | v_object o => fold_right (fun m P => has_unknown (snd m) \/ P) False o
  | _ => False
  end.

(** ** The JSON report *)

(** The sections of the report: the header, the classes with their numbers of records,
    the metrics [m], and the summaries of a file without records. *)
Definition header_tree (f : spoc_file) (t : tree) : Prop :=
  exists n, decimal (zlen (f_prs f)) n
  /\ t = t_dict [(chars "compressed", t_word (if f_compressed f then chars "1" else chars "0"));
                 (chars "major_version", t_word (chars "0")); (chars "minor_version", t_word (chars "1"));
                 (chars "total_points", t_word n); (chars "wkt", t_text (f_wkt f))].
Definition class_tree (c : list Z) (t : tree) : Prop :=
  exists l, t = t_dict l /\ in_order l
  /\ forall label u, In (label, u) l <-> exists v n, In v c /\ label_of v label /\ decimal (occurrences v c) n /\ u = t_word n.
Definition metric_tree (fmt : number_format) (m : list (list Z * double)) (t : tree) : Prop :=
  t = t_dict (map (fun e => (fst e, t_word (show_double fmt (snd e)))) m).
Definition no_records_tree : tree :=
  let zero := t_word (chars "0") in
  let s := t_dict [(chars "max", zero); (chars "min", zero); (chars "size", zero)] in
  t_dict [(chars "b", s); (chars "c", s); (chars "extra", t_list []); (chars "g", s); (chars "i", s); (chars "p", s);
          (chars "r", s); (chars "x", s); (chars "y", s); (chars "z", s)].

Definition section {A} (b : bool) (name : string) (a : A) : list (list Z * A) := if b then [(chars name, a)] else [].
