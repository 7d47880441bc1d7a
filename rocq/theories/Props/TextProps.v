(** C73, C74: the small parsers of the programs' command strings. *)
From Coq Require Import String ZArith List Bool Lia.
From Verif.Model Require Import Base Double AppUtils.
From Verif.Spec Require Import Text.
From Verif.Proofs Require Import BaseFacts TextFacts.
Import ListNotations.
Open Scope Z_scope.
Open Scope outcome_scope.

(** ** C73 Field names *)

(** The text of [n] after an 'e' names extra field [n], for every [int]. *)
Theorem C73_extra_index : forall n t, 0 <= n -> decimal n t ->
  get_extra_index (chars "e" ++ t) = if n <? 2 ^ 31 then n else -1.
Proof.
  intros n t N D. change (chars "e" ++ t) with (101 :: t). unfold get_extra_index.
  cbn [is_extra_field Z.eqb Pos.eqb negb]. rewrite zdrop_1. cbn [tl].
  assert (T : int_text n t) by (unfold int_text; destruct (Z.ltb_spec n 0); [lia|exact D]).
  pose proof (strtol_int_text n t [] T ltac:(intros x u E; discriminate E)) as S. rewrite app_nil_r in S.
  unfold stoi. rewrite S. change (2 ^ 31) with two31. destruct (Z.leb_spec (- two31) n); [|unfold two31 in *; lia].
  now destruct (Z.ltb_spec n two31).
Qed.

Lemma strtol_reads_as : forall t n, (exists k, strtol t = Some (n, k)) <-> reads_as t n.
Proof.
  intros t n. split.
  - intros (k & E). apply strtol_spec in E as (sp & sg & ds & junk & -> & W & G & N & D & J & -> & _).
    exists sp, sg, ds, junk. repeat split; auto. cbn [In] in G. destruct G as [<-|[<-|[<-|[]]]].
    + left. destruct (list_eq_dec Z.eq_dec [] [45]); [discriminate|]. auto.
    + left. destruct (list_eq_dec Z.eq_dec [43] [45]); [discriminate|]. split; [right|]; reflexivity.
    + right. destruct (list_eq_dec Z.eq_dec [45] [45]); [|congruence]. split; reflexivity.
  - intros (sp & sg & ds & junk & -> & W & D & N & J & H). exists (zlen sp + zlen sg + zlen ds).
    apply strtol_spec. exists sp, sg, ds, junk.
    assert (G : In sg [[]; [43]; [45]] /\ n = (if list_eq_dec Z.eq_dec sg [45] then - number ds else number ds)).
    { destruct H as [[[->| ->] ->]|[-> ->]]; (split; [cbn; auto|]).
      - destruct (list_eq_dec Z.eq_dec [] [45]); [discriminate|reflexivity].
      - destruct (list_eq_dec Z.eq_dec _ [45]) as [E|]; [discriminate E|reflexivity].
      - destruct (list_eq_dec Z.eq_dec _ [45]) as [|E]; [reflexivity|]. exfalso. apply E. reflexivity. }
    destruct G as [G ->]. repeat split; auto.
Qed.

(** The names that are accepted, exactly.  The last part is a finding: text after the
    number, white space in front of it and a sign are all accepted. *)
Theorem C73_accepted : forall f, check_field_name f = true <->
  In f (map chars ["x"; "y"; "z"; "c"; "p"; "i"; "r"; "g"; "b"]%string)
  \/ exists t n, f = chars "e" ++ t /\ reads_as t n /\ 0 <= n < 2 ^ 31.
Proof.
  intros f. unfold check_field_name.
  assert (In_eq : existsb (beq_bytes f) field_strings = true <-> In f (map chars ["x"; "y"; "z"; "c"; "p"; "i"; "r"; "g"; "b"]%string)).
  { rewrite existsb_exists. change (map chars ["x"; "y"; "z"; "c"; "p"; "i"; "r"; "g"; "b"]%string) with field_strings. split.
    - intros (x & I & E). apply beq_bytes_eq in E. now subst.
    - intros I. exists f. split; [exact I|]. now apply beq_bytes_eq. }
  destruct (existsb (beq_bytes f) field_strings) eqn:X.
  { split; [intros _; left; now apply In_eq|reflexivity]. }
  assert (Y : ~ In f (map chars ["x"; "y"; "z"; "c"; "p"; "i"; "r"; "g"; "b"]%string)).
  { intros I. apply In_eq in I. discriminate I. }
  assert (P : forall t, (0 <=? get_extra_index (101 :: t)) = true <-> exists n, reads_as t n /\ 0 <= n < 2 ^ 31).
  { intros t. unfold get_extra_index. cbn [is_extra_field Z.eqb Pos.eqb negb]. rewrite zdrop_1. cbn [tl].
    unfold stoi. destruct (strtol t) as [[v k]|] eqn:S.
    - assert (U : forall n, reads_as t n -> n = v).
      { intros n R. apply strtol_reads_as in R as (k' & R). congruence. }
      change (2 ^ 31) with two31.
      destruct (Z.leb_spec (- two31) v), (Z.ltb_spec v two31); cbn [andb]; rewrite Z.leb_le; split.
      all: try (intros Q; exists v; split; [apply strtol_reads_as; eauto|lia]).
      all: try (intros (n & R & B); apply U in R; subst; lia).
      all: unfold two31 in *; lia.
    - rewrite Z.leb_le. split; [lia|]. intros (n & R & _). apply strtol_reads_as in R as (k & R). congruence. }
  split.
  - intros H. right. destruct f as [|c t]; [cbn in H; discriminate H|].
    destruct (zlen (c :: t) <=? 1); [discriminate H|]. cbn [is_extra_field] in H.
    destruct (Z.eqb_spec c 101) as [->|]; cbn [negb] in H; [|discriminate H].
    apply P in H as (n & R & B). exists t, n. auto.
  - intros [I|(t & n & E & R & B)]; [contradiction|].
    change (chars "e" ++ t) with (101 :: t) in E. subst f.
    destruct (Z.leb_spec (zlen (101 :: t)) 1).
    + exfalso. rewrite zlen_cons in H. pose proof (zlen_nonneg t). assert (t = []) as -> by (apply zlen_zero_nil; lia).
      apply strtol_reads_as in R as (k & R). cbn in R. discriminate R.
    + cbn [is_extra_field Z.eqb Pos.eqb negb]. apply P. eauto.
Qed.

(** [consume_field_name] takes the longest run of letters and digits, which must be a
    field name, and one more character. *)
Theorem C73_consume : forall s name tail, s = name ++ tail -> Forall alphanumeric name -> not_first alphanumeric tail ->
  (check_field_name name = true -> consume_field_name s = Ret (name, tl tail))
  /\ (check_field_name name = false -> exists what, consume_field_name s = Throw (runtime_error what)).
Proof.
  intros s name tail -> A N. unfold consume_field_name.
  rewrite (span_app is_alnum alphanumeric name tail is_alnum_iff A N), zdrop_1.
  destruct (check_field_name name); cbn [negb]; split; intros H; try discriminate H; eauto.
Qed.

Example C73_examples :
  check_field_name (chars "x") = true /\ check_field_name (chars "e12") = true /\ check_field_name (chars "e") = false
  /\ check_field_name (chars "w") = false /\ check_field_name (chars "e-1") = false
  /\ get_extra_index (chars "e300") = 300
  /\ consume_field_name (chars "e3,7") = Ret (chars "e3", chars "7")
  (* accepted although they are no field names *)
  /\ check_field_name (chars "e5abc") = true /\ check_field_name (chars "e +5") = true
  /\ check_field_name (chars "e2147483648") = false.
Proof. vm_compute. repeat split. Qed.

(** ** C74 Lists of integers *)

(** Any list of one or more [int]s, written in decimal with any single character that is
    not a digit in between. *)
Theorem C74_reads_the_list : forall vs ts s, Forall2 int_text vs ts -> Forall (fun v => - 2 ^ 31 <= v < 2 ^ 31) vs ->
  separated ts s -> consume_ints s = Ret (map (fun v => v mod 2 ^ 32) vs, []).
Proof.
  intros vs ts s T B S. unfold consume_ints.
  destruct S as [t|t c ts u C S].
  - inversion T as [|v ? vs' ? T1 T2]; subst. inversion T2; subst. inversion B; subst.
    rewrite (consume_int_end v t) by assumption. reflexivity.
  - inversion T as [|v ? vs' ? T1 T2]; subst. inversion B; subst.
    rewrite (consume_int_text v t c u) by assumption. cbn [bind].
    rewrite (consume_rest_texts ts u vs' S T2) by (auto; lia). reflexivity.
Qed.

(** Whatever the string, the loop ends, and there is at least one value or an exception. *)
Theorem C74_terminates : forall s,
  (exists v vs rest, consume_ints s = Ret (v :: vs, rest)) \/ exists what, consume_ints s = Throw (runtime_error what).
Proof.
  intros s. unfold consume_ints, consume_int. destruct (stoi_cases s) as [(v & n & ->)|(e & ->)]; [|right; cbn [bind]; eexists; reflexivity].
  left. cbn [bind]. destruct (consume_rest_total (S (List.length (zdrop (n + 1) s))) (zdrop (n + 1) s)) as (vs & r & ->); [lia|].
  cbn [bind]. eauto.
Qed.

(** A finding: the values are unsigned, but they are read as [int].  An unsigned value
    from 2^31 is refused. *)
Theorem C74_large_refused : forall n t c rest, 2 ^ 31 <= n -> decimal n t -> ~ digit c ->
  exists what, consume_ints (t ++ c :: rest) = Throw (runtime_error what).
Proof.
  intros n t c rest N D C. unfold consume_ints, consume_int, stoi.
  assert (T : int_text n t) by (unfold int_text; destruct (Z.ltb_spec n 0); [lia|exact D]).
  rewrite (strtol_int_text n t (c :: rest) T) by (intros x u [= <- <-]; exact C).
  change (2 ^ 31) with two31 in N. destruct (Z.ltb_spec n two31); [lia|]. rewrite andb_false_r. cbn [bind]. eauto.
Qed.

(** Every number has a text. *)
Lemma decimal_exists : forall n, 0 <= n -> decimal n (put_uint n).
Proof. exact put_uint_spec. Qed.

Example C74_example : consume_ints (chars "1,22,-3 4") = Ret ([1; 22; 4294967293; 4], []).
Proof. vm_compute. reflexivity. Qed.
Example C74_hypotheses_met : exists ts, Forall2 int_text [1; 22; -3; 4] ts /\ separated ts (chars "1,22,-3 4").
Proof.
  exists (map chars ["1"; "22"; "-3"; "4"]%string). split.
  - assert (D : forall c u, digit c -> Forall digit u -> (c = 48 -> u = []) -> decimal (number (c :: u)) (c :: u)).
    { intros c u Dc Du Hz. split; [discriminate|]. split; [now constructor|]. split; [reflexivity|]. cbn [hd]. intros ->. now rewrite Hz. }
    constructor; [|constructor; [|constructor; [|constructor; [|constructor]]]].
    + apply (D 49 []); [unfold digit; lia|constructor|lia].
    + apply (D 50 [50]); [unfold digit; lia|repeat constructor; unfold digit; lia|lia].
    + exists [51]. split; [reflexivity|]. apply (D 51 []); [unfold digit; lia|constructor|lia].
    + apply (D 52 []); [unfold digit; lia|constructor|lia].
  - apply (sep_more (chars "1") 44 _ (chars "22,-3 4")); [unfold digit; lia|].
    apply (sep_more (chars "22") 44 _ (chars "-3 4")); [unfold digit; lia|].
    apply (sep_more (chars "-3") 32 _ (chars "4")); [unfold digit; lia|]. constructor.
Qed.

Print Assumptions C73_extra_index.
Print Assumptions C73_accepted.
Print Assumptions C73_consume.
Print Assumptions C74_reads_the_list.
Print Assumptions C74_terminates.
Print Assumptions C74_large_refused.
