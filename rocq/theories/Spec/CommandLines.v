(** What command lines mean: the conventions of getopt_long as a grammar, and the options
    of the programs. *)
From Coq Require Import String ZArith List.
From Verif.Model Require Import Base.
Import ListNotations.
Open Scope Z_scope.

(** ASCII *)
Definition dash : Z := 45.
Definition equals : Z := 61.

(** An option of a program: its name, its letter (or nothing), and whether it has an
    argument *)
Record entry : Type := mk_entry { e_name : string; e_letter : string; e_arg : bool }.

(** An option as it was set on a command line: its name, its argument *)
Definition setting : Type := string * option (list Z).

(** ** The grammar *)

(** An operand does not begin with a dash, or is a single dash. *)
Definition operand (a : list Z) : Prop := a = [dash] \/ forall t, a <> dash :: t.

(** The name of [e] begins with [p] *)
Definition begins (p : list Z) (e : entry) : Prop := exists t, chars (e_name e) = p ++ t.

(** [p] stands for the option [e]: it is its name, or no other name begins like this. *)
Definition stands_for (t : list entry) (p : list Z) (e : entry) : Prop :=
  In e t /\ (chars (e_name e) = p \/ begins p e /\ forall e', In e' t -> begins p e' -> e' = e).

(** [c] is the letter of [e] *)
Definition letter (t : list entry) (c : Z) (e : entry) : Prop := In e t /\ chars (e_letter e) = [c].

(** Some letters of options without arguments *)
Definition flags (t : list entry) (cs : list Z) (es : list setting) : Prop :=
  Forall2 (fun c s => exists e, letter t c e /\ e_arg e = false /\ s = (e_name e, None)) cs es.

(** One use of a long option, or of short options in one word: the words that it takes,
    and the options that are set. *)
Inductive option_use (t : list entry) : list (list Z) -> list setting -> Prop :=
| Use_long_flag p e :                                            (* --name *)
    ~ In equals p -> p <> [] -> stands_for t p e -> e_arg e = false ->
    option_use t [dash :: dash :: p] [(e_name e, None)]
| Use_long_equals p e v :                                        (* --name=v *)
    ~ In equals p -> stands_for t p e -> e_arg e = true ->
    option_use t [dash :: dash :: p ++ equals :: v] [(e_name e, Some v)]
| Use_long_next p e v :                                          (* --name v *)
    ~ In equals p -> p <> [] -> stands_for t p e -> e_arg e = true ->
    option_use t [dash :: dash :: p; v] [(e_name e, Some v)]
| Use_flags cs es :                                              (* -abc *)
    cs <> [] -> flags t cs es -> option_use t [dash :: cs] es
| Use_attached cs es c e v :                                     (* -abcv *)
    flags t cs es -> letter t c e -> e_arg e = true -> v <> [] ->
    option_use t [dash :: cs ++ c :: v] (es ++ [(e_name e, Some v)])
| Use_next cs es c e v :                                         (* -abc v *)
    flags t cs es -> letter t c e -> e_arg e = true ->
    option_use t [dash :: cs ++ [c]; v] (es ++ [(e_name e, Some v)]).

(** A command line without mistakes: the options that are set, in their order, and the
    operands, in their order. *)
Inductive command_line (t : list entry) : list (list Z) -> list setting -> list (list Z) -> Prop :=
| Line_end : command_line t [] [] []
| Line_dashes ops : command_line t ([dash; dash] :: ops) [] ops
| Line_operand a argv es ops :
    operand a -> command_line t argv es ops -> command_line t (a :: argv) es (a :: ops)
| Line_option ws es1 argv es ops :
    option_use t ws es1 -> command_line t argv es ops -> command_line t (ws ++ argv) (es1 ++ es) ops.

(** ** The options that were given *)

(** The arguments of the option [n], in order *)
Definition arguments (n : string) (es : list setting) : list (list Z) :=
  flat_map (fun e => if String.eqb (fst e) n then match snd e with Some s => [s] | None => [] end else []) es.

(** The last argument of the option [n], read with [f], or the default *)
Definition final {A} (f : list Z -> A) (n : string) (es : list setting) (d : A) : A := last (map f (arguments n es)) d.

Definition given (n : string) (es : list setting) : bool := existsb (fun e => String.eqb (fst e) n) es.

(** A byte as a character that is signed *)
Definition signed_char (b : Z) : Z := if 127 <? b then b - 256 else b.

(** [b], changed each time the option [n] is given *)
Definition toggled (n : string) (es : list setting) (b : bool) : bool :=
  xorb b (Nat.odd (length (filter (fun e => String.eqb (fst e) n) es))).

(** ** The programs *)

Local Open Scope string_scope.
Local Definition flag (n l : string) : entry := mk_entry n l false.
Local Definition param (n l : string) : entry := mk_entry n l true.

Definition common_options : list entry := [flag "help" "h"; flag "verbose" "v"; flag "version" "e"].

Definition convert_options : list entry := common_options.

Definition filter_options : list entry := (common_options ++
  [param "keep-class" "k"; param "random-seed" "a"; param "remove-class" "r"; flag "unique-xyz" "u"; param "subsample" "s";
   param "remove-coords" "c"])%list.

(** The options that change the points *)
Definition transform_commands : list string :=
  ["add-x"; "add-y"; "add-z"; "copy-field"; "quantize-xyz"; "replace"; "replace-not"; "rotate-x"; "rotate-y"; "rotate-z";
   "scale-x"; "scale-y"; "scale-z"; "set"].
(** Options that the help shows as well *)
Definition noise_options : list string :=
  ["gaussian-noise"; "gaussian-noise-x"; "gaussian-noise-y"; "gaussian-noise-z";
   "uniform-noise"; "uniform-noise-x"; "uniform-noise-y"; "uniform-noise-z"].
Definition transform_options : list entry := (common_options ++ [param "random-seed" ""]
  ++ map (fun n => param n "") (transform_commands ++ noise_options))%list.

Definition diff_options : list entry := (common_options ++
  [flag "header-only" "a"; flag "data-only" "d"; param "field" "f"; flag "reverse" "r"])%list.

(** The options that say what to do, of which there may be one *)
Definition tool_commands : list entry :=
  [param "get-field" "g"; flag "recenter-xy" ""; flag "recenter-xyz" ""; param "resize-extra" ""; param "set-field" "s";
   flag "subtract-min-xy" ""; flag "subtract-min-xyz" ""; param "upsample-classifications" ""].
Definition tool_options : list entry := (common_options ++ tool_commands ++ [param "field-filename" "f"; param "resolution" ""])%list.

Definition tile_options : list entry := (common_options ++
  [flag "force" "f"; param "tiles" "t"; param "digits" "d"; param "tile-size" "s"; param "tile-size-x" "x";
   param "tile-size-y" "y"; param "prefix" "p"])%list.

Definition merge_options : list entry := (common_options ++ [flag "quiet" "q"; param "point-id" "p"])%list.

Definition srs_options : list entry := (common_options ++ [param "srs" "s"])%list.

Definition info_options : list entry := (common_options ++
  [flag "json" "j"; flag "header-info" "a"; flag "summary-info" "s"; flag "classification-info" "l"; flag "metric-info" "m";
   flag "compact" "c"; flag "quartiles" "q"])%list.

(** The options among [names] that were given, in order, with their arguments (empty without
    one) *)
Definition chosen (names : list string) (es : list setting) : list (string * list Z) :=
  flat_map (fun s => if existsb (String.eqb (fst s)) names
                     then [(fst s, match snd s with Some v => v | None => [] end)] else []) es.

(** The names of the input and the output; empty means standard input or output *)
Definition input_and_output (ops : list (list Z)) : option (list Z * list Z) :=
  match ops with
  | [] => Some ([], [])
  | [i] => Some (i, [])
  | [i; o] => Some (i, o)
  | _ => None
  end.
