(** C94: what the help shows. *)
From Coq Require Import String ZArith List Bool Lia Permutation.
From Verif.Model Require Import Base Header AppUtils TransformApp GetOpt Commands Programs.
From Verif.Spec Require Import CommandLines.
From Verif.Proofs Require Import BaseFacts CommandFacts OptionFacts.
From Verif.Props Require Import CommandProps.
Import ListNotations.
Open Scope Z_scope.

(** How the help shows an option: [--name] or [--name=<ARG>], and with a letter also
    [, -l] or [, -l <ARG>]. *)
Definition shown (e : entry) : list Z :=
  [9] ++ chars ("--" ++ e_name e ++ (if e_arg e then "=<ARG>" else "")
  ++ (if String.eqb (e_letter e) "" then "" else ", -" ++ e_letter e ++ (if e_arg e then " <ARG>" else "")))%string ++ [10].

(** The same with the argument filled in *)
Inductive spelling (e : entry) : option (list Z) -> list (list Z) -> Prop :=
| Name_only : e_arg e = false -> spelling e None [chars ("--" ++ e_name e)%string]
| Letter_only : e_arg e = false -> e_letter e <> ""%string -> spelling e None [chars ("-" ++ e_letter e)%string]
| Name_argument v : e_arg e = true -> spelling e (Some v) [chars ("--" ++ e_name e ++ "=")%string ++ v]
| Letter_argument v : e_arg e = true -> e_letter e <> ""%string -> spelling e (Some v) [chars ("-" ++ e_letter e)%string; v].

(** The help is the usage and one line for every option in [t]. *)
Definition help_of (t : list entry) (longs : list long_option) : Prop :=
  exists t', Permutation t t'
  /\ forall usage, print_help usage longs
     = chars "Usage:" ++ [10; 9] ++ usage ++ [10; 10] ++ chars "Options:" ++ [10] ++ List.concat (map shown t').

(** The options of spoc_transform as its help shows them: with a letter for the seed *)
Definition transform_shown : list entry :=
  map (fun e => if String.eqb (e_name e) "random-seed" then mk_entry "random-seed" "a" true else e) transform_options.

(** ** Lemmas *)

Definition entry_eqb (a b : entry) : bool :=
  String.eqb (e_name a) (e_name b) && String.eqb (e_letter a) (e_letter b) && Bool.eqb (e_arg a) (e_arg b).

Lemma entry_eqb_eq a b : entry_eqb a b = true -> a = b.
Proof.
  unfold entry_eqb. rewrite !andb_true_iff. intros ((N & L) & A). apply String.eqb_eq in N, L. apply Bool.eqb_prop in A.
  destruct a, b. cbn in *. congruence.
Qed.

Fixpoint remove1 (x : entry) (l : list entry) : option (list entry) :=
  match l with
  | [] => None
  | y :: t => if entry_eqb x y then Some t else option_map (cons y) (remove1 x t)
  end.

Fixpoint permutes_b (l m : list entry) : bool :=
  match l with
  | [] => match m with [] => true | _ => false end
  | x :: t => match remove1 x m with Some m => permutes_b t m | None => false end
  end.

Lemma remove1_ok x l m : remove1 x l = Some m -> Permutation l (x :: m).
Proof.
  revert m. induction l as [|y l IH]; intros m E; [discriminate|]. cbn [remove1] in E. destruct (entry_eqb x y) eqn:Q.
  - apply entry_eqb_eq in Q as ->. injection E as ->. reflexivity.
  - destruct (remove1 x l) as [k|]; [|discriminate]. injection E as <-. rewrite (IH k eq_refl). apply perm_swap.
Qed.

Lemma permutes_b_ok l m : permutes_b l m = true -> Permutation l m.
Proof.
  revert m. induction l as [|x l IH]; intros m E; cbn [permutes_b] in E; [destruct m; [constructor|discriminate]|].
  destruct (remove1 x m) as [k|] eqn:R; [|discriminate]. rewrite (remove1_ok _ _ _ R). constructor. now apply IH.
Qed.

(** A table in the order of the options of the model *)
Definition like (longs : list long_option) (t : list entry) : list entry :=
  flat_map (fun o => filter (fun e => beq_bytes (chars (e_name e)) (lo_name o)) t) longs.

Lemma help_of_ok t longs : permutes_b t (like longs t) = true ->
  List.concat (map help_line longs) = List.concat (map shown (like longs t)) -> help_of t longs.
Proof.
  intros P E. exists (like longs t). split; [now apply permutes_b_ok|]. intros usage. unfold print_help. now rewrite E.
Qed.

(** Names are not empty and have no =, letters are single *)
Definition plain (e : entry) : bool :=
  match chars (e_name e) with [] => false | l => forallb (fun c => negb (c =? equals)) l end
  && match chars (e_letter e) with [] | [_] => true | _ => false end.

Lemma chars_app a b : chars (a ++ b)%string = chars a ++ chars b.
Proof. induction a as [|c a IH]; [reflexivity|]. cbn [append]. unfold chars in *. cbn. now rewrite IH. Qed.

Lemma spelling_use t e o ws : forallb plain t = true -> In e t -> spelling e o ws -> option_use t ws [(e_name e, o)].
Proof.
  intros P I S. rewrite forallb_forall in P. specialize (P e I). unfold plain in P. apply andb_true_iff in P as [PN PL].
  assert (NE : chars (e_name e) <> [] /\ ~ In equals (chars (e_name e))).
  { destruct (chars (e_name e)) as [|c l] eqn:Q; [discriminate|]. split; [discriminate|]. intros J.
    rewrite forallb_forall in PN. specialize (PN _ J). rewrite Z.eqb_refl in PN. discriminate. }
  destruct NE as [NE NI].
  assert (SF : stands_for t (chars (e_name e)) e) by (split; auto).
  assert (LE : e_letter e <> ""%string -> exists c, chars (e_letter e) = [c]).
  { intros N. destruct (e_letter e) as [|a r]; [congruence|]. change (chars (String a r)) with (Z.of_nat (Ascii.nat_of_ascii a) :: chars r) in *.
    destruct (chars r); [eauto|discriminate]. }
  destruct S as [A|A L|v A|v A L].
  - rewrite chars_app. change (chars "--") with [dash; dash]. now apply Use_long_flag.
  - destruct (LE L) as [c C]. rewrite chars_app, C. change (chars "-") with [dash]. apply Use_flags; [discriminate|].
    constructor; [|constructor]. exists e. repeat split; auto.
  - rewrite !chars_app. change (chars "--") with [dash; dash]. change (chars "=") with [equals]. rewrite <- !app_assoc. now apply Use_long_equals.
  - destruct (LE L) as [c C]. rewrite chars_app, C. change (chars "-") with [dash]. apply (Use_next t [] [] c e v); auto; [constructor|].
    split; auto.
Qed.

(** ** C94 *)

(** The help of each program lists its options, each once, with name, letter and argument. *)
Theorem C94_lists :
  help_of convert_options common_longs /\
  help_of filter_options (common_longs ++ filter_longs) /\
  help_of transform_shown (common_longs ++ transform_longs) /\
  help_of diff_options (common_longs ++ diff_longs) /\
  help_of tool_options (common_longs ++ tool_longs) /\
  help_of tile_options (common_longs ++ tile_longs) /\
  help_of merge_options (common_longs ++ merge_longs) /\
  help_of srs_options (common_longs ++ srs_longs) /\
  help_of info_options (common_longs ++ info_longs).
Proof. repeat split; apply help_of_ok; vm_compute; reflexivity. Qed.

(** What the help shows is understood: as the option, with any argument, before any command
    line. *)
Theorem C94_understood : forall t e o ws argv es ops,
  In t [convert_options; filter_options; transform_options; diff_options; tool_options; tile_options; merge_options; srs_options; info_options] ->
  In e t -> spelling e o ws -> command_line t argv es ops -> command_line t (ws ++ argv) ((e_name e, o) :: es) ops.
Proof.
  intros t e o ws argv es ops T I S L. change ((e_name e, o) :: es) with ([(e_name e, o)] ++ es). apply Line_option; [|exact L].
  apply spelling_use; auto. clear - T. revert t T. apply Forall_forall. repeat constructor.
Qed.

(** The spellings of an option are interchangeable, whatever follows. *)
Definition same_spellings {B} (t : list entry) (get : list (list Z) -> outcome (common * B)) : Prop :=
  forall e o ws ws' argv, In e t -> spelling e o ws -> spelling e o ws' -> get (ws ++ argv) = get (ws' ++ argv).

Lemma same_ok {A B} t longs shorts case_of (start : A) (operands : A -> list (list Z) -> outcome B) none :
  implements t (common_longs ++ longs) (common_shorts ++ shorts) (val_of (common_longs ++ longs)) -> forallb plain t = true ->
  same_spellings t (get_args longs shorts case_of start operands none).
Proof.
  intros M P e o ws ws' argv I S S'. apply (spelling_use t) in S; auto. apply (spelling_use t) in S'; auto.
  apply (use_v _ _ _ _ _ _ M) in S, S'. unfold get_args.
  now rewrite (getopt_use _ _ _ _ argv (im_good _ _ _ _ M) S), (getopt_use _ _ _ _ argv (im_good _ _ _ _ M) S').
Qed.

Theorem C94_spellings :
  same_spellings convert_options convert_get_args /\
  (forall atof, same_spellings filter_options (filter_get_args atof)) /\
  same_spellings transform_options transform_get_args /\
  same_spellings diff_options diff_get_args /\
  (forall atof, same_spellings tool_options (tool_get_args atof)) /\
  (forall atof, same_spellings tile_options (tile_get_args atof)) /\
  same_spellings merge_options merge_get_args /\
  same_spellings srs_options srs_get_args /\
  same_spellings info_options info_get_args.
Proof.
  repeat split; intros; apply same_ok; try reflexivity.
  - exact convert_tables.
  - exact filter_tables.
  - exact transform_tables.
  - exact diff_tables.
  - exact tool_tables.
  - exact tile_tables.
  - exact merge_tables.
  - exact srs_tables.
  - exact info_tables.
Qed.

(** Two things that the help of spoc_transform shows are refused: the letter of the seed, *)
Theorem C94_transform_letter : forall v argv,
  In (mk_entry "random-seed" "a" true) transform_shown
  /\ spelling (mk_entry "random-seed" "a" true) (Some v) [chars "-a"; v]
  /\ transform_get_args ([chars "-a"; v] ++ argv) = Throw (runtime_error "Invalid option").
Proof.
  intros v argv. split; [cbn; auto 10|]. split; [now apply (Letter_argument (mk_entry "random-seed" "a" true))|].
  unfold transform_get_args, get_args. cbn [app]. generalize (v :: argv) as rest. intros rest. cbn [getopt].
  destruct (getopt (common_longs ++ transform_longs) (common_shorts ++ []) rest). reflexivity.
Qed.

(** and every noise option, on every command line without mistakes that does not ask for
    help. *)
Theorem C94_noise : forall n v argv es ops, In n noise_options ->
  In (mk_entry n "" true) transform_shown
  /\ (command_line transform_options argv es ops -> given "help" es = false ->
      transform_get_args ((chars ("--" ++ n ++ "=")%string ++ v) :: argv) = Throw (runtime_error "Invalid option")).
Proof.
  intros n v argv es ops N. assert (I : In (mk_entry n "" true) transform_options /\ In (mk_entry n "" true) transform_shown).
  { destruct N as [<-|[<-|[<-|[<-|[<-|[<-|[<-|[<-|[]]]]]]]]]; split; cbn; auto 40. }
  destruct I as [I I']. split; [exact I'|]. intros L H.
  pose proof (C94_understood transform_options (mk_entry n "" true) (Some v) [chars ("--" ++ n ++ "=")%string ++ v] argv es ops) as U.
  cbn [app e_name] in U. rewrite (C84_transform _ ((n, Some v) :: es) ops).
  - cbn [existsb fst]. assert (E : existsb (String.eqb n) noise_options = true).
    { apply existsb_exists. exists n. split; [exact N|apply String.eqb_refl]. }
    now rewrite E.
  - apply U; auto; [cbn; auto|]. now apply (Name_argument (mk_entry n "" true)).
  - unfold given in *. cbn [existsb fst]. rewrite H, orb_false_r. 
    destruct N as [<-|[<-|[<-|[<-|[<-|[<-|[<-|[<-|[]]]]]]]]]; reflexivity.
Qed.

(** The help of spoc_merge, and a seed for spoc_filter in two spellings *)
Example C94_example :
  print_help (chars "U") (common_longs ++ merge_longs)
  = chars "Usage:" ++ [10; 9] ++ chars "U" ++ [10; 10] ++ chars "Options:" ++ [10]
    ++ [9] ++ chars "--help, -h" ++ [10] ++ [9] ++ chars "--verbose, -v" ++ [10] ++ [9] ++ chars "--version, -e" ++ [10]
    ++ [9] ++ chars "--quiet, -q" ++ [10] ++ [9] ++ chars "--point-id=<ARG>, -p <ARG>" ++ [10]
  /\ spelling (mk_entry "random-seed" "a" true) (Some (chars "7")) [chars "--random-seed=7"]
  /\ spelling (mk_entry "random-seed" "a" true) (Some (chars "7")) [chars "-a"; chars "7"]
  /\ In (mk_entry "random-seed" "a" true) filter_options.
Proof.
  split; [vm_compute; reflexivity|]. split; [now apply (Name_argument (mk_entry "random-seed" "a" true))|].
  split; [now apply (Letter_argument (mk_entry "random-seed" "a" true))|cbn; auto 10].
Qed.

Print Assumptions C94_lists.
Print Assumptions C94_understood.
Print Assumptions C94_spellings.
Print Assumptions C94_transform_letter.
Print Assumptions C94_noise.
