(** Lemmas about spoc_tool: formatted input, stores into a column. *)
From Coq Require Import String ZArith List Bool Lia.
From Verif.Model Require Import Base Double Arith Header PointRecord File Utils Par Affine Compression IO AppUtils FilterApp TransformApp ToolApp.
From Verif.Spec Require Import Format Streams Text Fields History Files Apps Tools.
From Verif.Proofs Require Import BaseFacts TextFacts FieldFacts FileFacts HistoryFacts FilterFacts HeaderFacts PointRecordFacts HeaderCutFacts DiffFacts.
Import ListNotations.
Open Scope Z_scope.
Open Scope outcome_scope.

Notation eof_error := (runtime_error "Reached end-of-file before reading all field values").

Lemma read_values_failed : forall n rest, read_values extract_size n (mk_ti rest false true) = Ret (repeat 0 n).
Proof.
  induction n as [|n IH]; intros rest; [reflexivity|]. cbn [read_values repeat]. unfold extract_size, sentry. cbn [ti_eof ti_fail ti_rest orb].
  cbn [ti_eof]. rewrite IH. reflexivity.
Qed.

Lemma no_chars_iff : forall s, no_chars s = true <-> s = [].
Proof. intros [|c s]; split; intros H; try reflexivity; discriminate H. Qed.

Lemma not_white_sign : forall c, digit c \/ c = 43 \/ c = 45 -> ~ white c.
Proof. intros c H. unfold digit, white in *. cbn [In]. lia. Qed.

(** What a sign does. *)
Definition take_sign (rest : list Z) : bool * list Z :=
  match rest with
  | c :: t => if c =? 45 then (true, t) else if c =? 43 then (false, t) else (false, rest)
  | [] => (false, rest)
  end.

Lemma take_sign_cases : forall rest neg r, take_sign rest = (neg, r) ->
  exists sg, rest = sg ++ r /\ In sg [[]; chars "+"; chars "-"] /\ (neg = true <-> sg = chars "-")
    /\ (sg = [] -> forall c u, r = c :: u -> c <> 43 /\ c <> 45).
Proof.
  intros rest neg r. unfold take_sign. destruct rest as [|c t].
  - intros [= <- <-]. exists []. cbn. split; [reflexivity|]. split; [auto|]. split; [split; discriminate|]. intros _ c u E. discriminate E.
  - destruct (Z.eqb_spec c 45) as [->|N1]; [|destruct (Z.eqb_spec c 43) as [->|N2]]; intros [= <- <-].
    + exists (chars "-"). cbn. split; [reflexivity|]. split; [auto|]. split; [tauto|]. intros E. discriminate E.
    + exists (chars "+"). cbn. split; [reflexivity|]. split; [auto|]. split; [split; discriminate|]. intros E. discriminate E.
    + exists []. cbn. split; [reflexivity|]. split; [auto|]. split; [split; discriminate|]. intros _ x u [= <- <-]. auto.
Qed.

Lemma take_sign_app : forall sg c t, In sg [[]; chars "+"; chars "-"] -> (sg = [] -> c <> 43 /\ c <> 45) ->
  take_sign (sg ++ c :: t) = (beq_bytes sg (chars "-"), c :: t).
Proof.
  intros sg c t [<-|[<-|[<-|[]]]] H; cbn.
  - destruct (H eq_refl). destruct (Z.eqb_spec c 45); [contradiction|]. destruct (Z.eqb_spec c 43); [contradiction|]. reflexivity.
  - reflexivity.
  - reflexivity.
Qed.

(** One reading of a text that has something in it. *)
Lemma extract_size_text : forall sp sg ds rest, Forall white sp -> In sg [[]; chars "+"; chars "-"] -> Forall digit ds ->
  not_first digit rest -> sg ++ ds ++ rest <> [] ->
  (sg = [] -> ds = [] -> forall c u, rest = c :: u -> ~ white c /\ c <> 43 /\ c <> 45) ->
  extract_size 0 (ti_open (sp ++ sg ++ ds ++ rest)) =
    if no_chars ds then (0, mk_ti rest (no_chars rest) true)
    else if two64 <=? number ds then (two64 - 1, mk_ti rest (no_chars rest) true)
    else (if beq_bytes sg (chars "-") then to_u64 (- number ds) else number ds, mk_ti rest (no_chars rest) false).
Proof.
  intros sp sg ds rest W G D R NE H. unfold extract_size, sentry, ti_open. cbn [ti_eof ti_fail ti_rest orb].
  assert (NF : not_first white (sg ++ ds ++ rest)).
  { intros c u E. destruct G as [<-|[<-|[<-|[]]]]; cbn in E.
    - destruct ds as [|d ds].
      + cbn in E. now apply (H eq_refl eq_refl c u).
      + injection E as -> _. inversion D; subst. apply not_white_sign. now left.
    - injection E as <- _. apply not_white_sign. auto.
    - injection E as <- _. apply not_white_sign. auto. }
  rewrite (span_app is_space white sp _ is_space_iff W NF).
  replace (no_chars (sg ++ ds ++ rest)) with false.
  2: { symmetry. apply not_true_iff_false. rewrite no_chars_iff. exact NE. }
  fold (take_sign (sg ++ ds ++ rest)).
  assert (T : take_sign (sg ++ ds ++ rest) = (beq_bytes sg (chars "-"), ds ++ rest)).
  { destruct (ds ++ rest) as [|c u] eqn:E.
    - apply app_eq_nil in E as [-> ->]. destruct G as [<-|[<-|[<-|[]]]]; [now elim NE|reflexivity|reflexivity].
    - apply take_sign_app; [exact G|]. intros S. destruct ds as [|d ds].
      + cbn in E. subst rest. now apply (H S eq_refl c u).
      + cbn in E. injection E as -> _. inversion D; subst. unfold digit in *. lia. }
  rewrite T. rewrite (span_app is_digit digit ds rest is_digit_iff D R), dec_value_number. reflexivity.
Qed.

(** Every text has one of these forms. *)
Lemma text_forms : forall t, Forall white t
  \/ exists sp sg ds rest, t = sp ++ sg ++ ds ++ rest /\ Forall white sp /\ In sg [[]; chars "+"; chars "-"] /\ Forall digit ds
     /\ not_first digit rest /\ sg ++ ds ++ rest <> []
     /\ (sg = [] -> ds = [] -> forall c u, rest = c :: u -> ~ white c /\ c <> 43 /\ c <> 45).
Proof.
  intros t. destruct (span is_space t) as [sp r] eqn:S. apply (span_spec _ _ is_space_iff) in S as (-> & W & NW).
  destruct r as [|c u] eqn:E; [left; now rewrite app_nil_r|]. right. rewrite <- E in *.
  destruct (take_sign r) as [neg r1] eqn:T. apply take_sign_cases in T as (sg & -> & G & _ & N).
  destruct (span is_digit r1) as [ds rest] eqn:D. apply (span_spec _ _ is_digit_iff) in D as (-> & D & ND).
  exists sp, sg, ds, rest. split; [reflexivity|]. split; [exact W|]. split; [exact G|]. split; [exact D|]. split; [exact ND|].
  split; [rewrite E; discriminate|]. intros -> -> x v ->. cbn in NW, N. split; [now apply (NW x v)|]. now apply (N eq_refl x v).
Qed.

Lemma extract_size_white : forall t, Forall white t -> extract_size 0 (ti_open t) = (0, mk_ti [] true true).
Proof.
  intros t W. unfold extract_size, sentry, ti_open. cbn [ti_eof ti_fail ti_rest orb].
  rewrite <- (app_nil_r t). rewrite (span_app is_space white t [] is_space_iff W); [reflexivity|]. intros c u E. discriminate E.
Qed.

Lemma signed_beq : forall sg n, In sg [[]; chars "+"; chars "-"] ->
  signed sg n (if beq_bytes sg (chars "-") then to_u64 (- n) else n).
Proof. intros sg n [<-|[<-|[<-|[]]]]; unfold signed; cbn; auto. Qed.

Lemma signed_in : forall sg n v, signed sg n v -> In sg [[]; chars "+"; chars "-"]
  /\ v = if beq_bytes sg (chars "-") then to_u64 (- n) else n.
Proof. intros sg n v [[[->| ->] ->]|[-> ->]]; split; cbn; auto. Qed.

Lemma read_values_sound : forall n t,
  match read_values extract_size n (ti_open t) with
  | Ret vs => field_values n t vs
  | Throw e => e = eof_error
  | _ => False
  end.
Proof.
  induction n as [|n IH]; intros t; [constructor|]. cbn [read_values].
  destruct (text_forms t) as [W|(sp & sg & ds & rest & -> & W & G & D & R & NE & H)].
  { rewrite extract_size_white by exact W. reflexivity. }
  rewrite (extract_size_text sp sg ds rest W G D R NE H).
  destruct rest as [|c u].
  { cbn [no_chars]. destruct (no_chars ds); [reflexivity|]. destruct (two64 <=? number ds); reflexivity. }
  assert (C : ~ digit c) by (now apply (R c u)).
  cbn [no_chars]. destruct (no_chars ds) eqn:Eds.
  - apply no_chars_iff in Eds. subst ds. cbn [ti_eof]. rewrite read_values_failed. cbn [bind].
    apply (fv_garbage n sp sg c u); auto. intros E. now apply (H E eq_refl c u).
  - assert (Nds : ds <> []) by (intros ->; discriminate Eds). destruct (Z.leb_spec two64 (number ds)) as [L|L].
    + cbn [ti_eof]. rewrite read_values_failed. cbn [bind]. apply fv_too_large; auto.
    + cbn [ti_eof]. specialize (IH (c :: u)). unfold ti_open in IH.
      destruct (read_values extract_size n (mk_ti (c :: u) false false)) as [vs|e|x|]; cbn [bind]; auto.
      apply fv_number; auto. now apply signed_beq.
Qed.

Lemma read_values_complete : forall n t vs, field_values n t vs -> read_values extract_size n (ti_open t) = Ret vs.
Proof.
  assert (F : forall c (t : list Z), ~ digit c -> not_first digit (c :: t)) by (intros c t N x u [= <- <-]; exact N).
  intros n t vs H. induction H as [t|n sp sg ds c t v vs W D Nds C L S H IH|n sp sg ds c t W D C L G|n sp sg c t W C H G].
  - reflexivity.
  - apply signed_in in S as [G ->]. cbn [read_values].
    rewrite (extract_size_text sp sg ds (c :: t)); auto.
    + destruct ds as [|d ds]; [congruence|]. cbn [no_chars]. destruct (Z.leb_spec two64 (number (d :: ds))); [unfold two64 in *; lia|].
      cbn [ti_eof]. unfold ti_open in IH. rewrite IH. reflexivity.
    + destruct sg, ds; discriminate.
  - cbn [read_values]. assert (Nds : ds <> []) by (intros ->; cbn in L; lia).
    rewrite (extract_size_text sp sg ds (c :: t)); auto.
    + destruct ds as [|d ds]; [congruence|]. cbn [no_chars]. destruct (Z.leb_spec two64 (number (d :: ds))); [|unfold two64 in *; lia].
      cbn [ti_eof]. rewrite read_values_failed. reflexivity.
    + destruct sg, ds; discriminate.
  - cbn [read_values]. change (sg ++ c :: t) with (sg ++ [] ++ c :: t).
    rewrite (extract_size_text sp sg [] (c :: t)); auto.
    + cbn [no_chars ti_eof]. rewrite read_values_failed. reflexivity.
    + destruct sg; discriminate.
    + intros E _ x u [= <- <-]. auto.
Qed.

Lemma read_values_length : forall ex n s vs, read_values ex n s = Ret vs -> List.length vs = n.
Proof.
  intros ex. induction n as [|n IH]; intros s vs H; cbn [read_values] in H; [injection H as <-; reflexivity|].
  destruct (ex 0 s) as [v s']. destruct (ti_eof s'); [discriminate H|].
  destruct (read_values ex n s') as [us| | |] eqn:E; try discriminate H. injection H as <-. cbn. f_equal. eapply IH, E.
Qed.

(** ** Stores *)

Lemma names_extra : forall f t, names f t -> is_extra_field t = match f with FE _ => true | _ => false end.
Proof. intros f t N. destruct f; cbn [names] in N; try (subst; reflexivity). destruct N as (_ & u & -> & _). reflexivity. Qed.

Lemma names_float : forall f t, names f t -> float_flag t = match f with FX | FY | FZ => true | _ => false end.
Proof. intros f t N. unfold float_flag. rewrite (names_label f t N). destruct f; reflexivity. Qed.

Lemma integer_float : forall f t, names f t -> integer_field f -> float_flag t = false.
Proof. intros f t N I. rewrite (names_float f t N). destruct f; auto; exfalso; apply I; cbn; tauto. Qed.

(** The value as it is stored. *)
Definition narrowed (f : field) (v : Z) : Z :=
  match f with FX | FY | FZ | FE _ => v | FC | FP => to_u32 v | _ => to_u16 v end.

Lemma store_field_plain : forall f name j v p, names f name -> (forall k, f <> FE k) ->
  store_field name j v p = Ret (put_value f (narrowed f v) p).
Proof.
  intros f name j v p N E. unfold store_field. rewrite (names_label f name N). destruct f; try reflexivity. now elim (E k).
Qed.

Lemma store_field_extra : forall k name j v p, names (FE k) name -> store_field name j v p = put_extra j v p.
Proof. intros k name j v p N. unfold store_field. rewrite (names_label _ _ N). reflexivity. Qed.

Lemma resized_max_same : forall k p, k <= Z.of_nat (List.length (rextra p)) -> resized (Z.max (Z.of_nat (List.length (rextra p))) k) p p.
Proof.
  intros k p H. rewrite Z.max_l by exact H. unfold resized. do 9 (split; [reflexivity|]). rewrite Nat2Z.id. split; [reflexivity|].
  intros j Hj. now apply nth_error_nth'.
Qed.

Lemma resized_value : forall k p q j, resized k p q -> 0 <= j < k -> exists w, value (FE j) q = Some w.
Proof.
  intros k p q j (_ & _ & _ & _ & _ & _ & _ & _ & _ & _ & H) J. cbn [value]. destruct (Z.ltb_spec j 0); [lia|].
  rewrite H by lia. eauto.
Qed.

(** The loop. *)
Lemma store_values_ok : forall f name e vs prs, names f name -> List.length vs = List.length prs ->
  (forall k p, f = FE k -> In p prs -> zlen (rextra p) = e) ->
  exists prs', store_values name (field_index name e) vs
     (if is_extra_field name && (e <=? field_index name e) then map (pr_resize_extra (field_index name e + 1)) prs else prs) = Ret prs'
  /\ stored_all f (map (narrowed f) vs) prs prs'.
Proof.
  intros f name e vs prs N. revert prs. rewrite (names_extra f name N). destruct f as [| | | | | | | | |k].
  1-9: cbn [andb]; induction vs as [|v vs IH]; intros [|p prs] L U; try discriminate L;
    [exists []; split; [reflexivity|constructor]|];
    cbn [store_values map];
    destruct (IH prs) as (prs' & E & S); [cbn in L; lia|intros ? ? Q; discriminate Q|];
    rewrite (store_field_plain _ _ _ _ _ N) by (intros ? Q; discriminate Q); cbn [bind]; rewrite E; cbn [bind];
    eexists; split; [reflexivity|]; constructor; [|exact S]; cbn [stored]; apply put_value_ok; intros ? Q; discriminate Q.
  rewrite (names_index k name e N). pose proof N as [B _]. cbn [andb].
  induction vs as [|v vs IH]; intros [|p prs] L U; try discriminate L.
  { exists []. destruct (e <=? k); split; try reflexivity; constructor. }
  destruct (IH prs) as (prs' & E & S); [cbn in L; lia|intros k' q Q I; apply (U k' q Q); now right|].
  assert (Up : zlen (rextra p) = e) by (apply (U k p eq_refl); now left).
  assert (Q : exists q, (if e <=? k then map (pr_resize_extra (k + 1)) (p :: prs) else p :: prs)
                        = q :: (if e <=? k then map (pr_resize_extra (k + 1)) prs else prs)
                   /\ resized (Z.max (Z.of_nat (List.length (rextra p))) (k + 1)) p q).
  { fold (zlen (rextra p)). rewrite Up. destruct (Z.leb_spec e k).
    - exists (pr_resize_extra (k + 1) p). split; [reflexivity|]. rewrite Z.max_r by lia. apply pr_resized.
    - exists p. split; [reflexivity|]. rewrite <- Up. apply resized_max_same. fold (zlen (rextra p)). lia. }
  destruct Q as (q & -> & R). cbn [store_values map]. rewrite (store_field_extra k name k v q N).
  destruct (resized_value _ _ _ k R) as (w & V); [lia|].
  destruct (put_extra_ok k v q w ltac:(lia) V) as (p' & -> & A). cbn [bind]. rewrite E. cbn [bind].
  eexists. split; [reflexivity|]. constructor; [|exact S]. cbn [stored]. eauto.
Qed.

Lemma stored_all_length : forall f vs prs prs', stored_all f vs prs prs' -> List.length prs' = List.length prs.
Proof. intros f vs prs prs' H. induction H; cbn; congruence. Qed.

Lemma stored_uniform : forall f vs prs prs', stored_all f vs prs prs' -> uniform prs -> uniform prs'.
Proof.
  intros f vs prs prs' H U.
  assert (K : exists n, forall p, In p prs -> List.length (rextra p) = n).
  { destruct prs as [|p0 t]; [exists O; intros ? []|]. exists (List.length (rextra p0)). intros p I. apply U; [exact I|now left]. }
  destruct K as [n K]. clear U.
  assert (A : exists m, forall p', In p' prs' -> List.length (rextra p') = m).
  { exists (match f with FE k => Z.to_nat (Z.max (Z.of_nat n) (k + 1)) | _ => n end).
    induction H as [|v vs p ps p' ps' S H IH]; [intros ? []|]. intros q [<-|I].
    2: { apply IH; [|exact I]. intros r Ir. apply K. now right. }
    rewrite <- (K p (or_introl eq_refl)). destruct f; cbn [stored] in S; try apply S.
    destruct S as (q & R & A). destruct A as [_ [A _]]. rewrite A. apply R. }
  destruct A as [m A]. intros p q Hp Hq. now rewrite (A p Hp), (A q Hq).
Qed.

Lemma with_points_ok : forall f prs, live f -> uniform prs -> with_points f prs = Ret (with_prs f prs).
Proof.
  intros f prs Lf U. unfold with_points. rewrite (live_clone f Lf). cbn [bind]. unfold after, set_point_records, m_then, m_throw_if.
  apply all_same_size_uniform in U. rewrite U. reflexivity.
Qed.

Lemma live_valid : forall debug f, live f -> require_valid debug f = Ret tt.
Proof.
  intros debug f [_ _ U]. unfold require_valid, file_is_valid. apply all_same_size_uniform in U. rewrite U. now destruct debug.
Qed.

Lemma live_extras : forall f p, live f -> In p (f_prs f) -> zlen (rextra p) = get_extra_fields f.
Proof.
  intros f p [_ _ U] I. unfold get_extra_fields. destruct (f_prs f) as [|p0 t]; [destruct I|]. unfold zlen. f_equal. apply U; [exact I|now left].
Qed.

Lemma live_with_prs : forall f prs, live f -> uniform prs -> live (with_prs f prs).
Proof. intros f prs [A B _] U. now constructor. Qed.

Section Set_field.
Variable rd : read_double_fn.
Variable debug : bool.

Lemma set_field_run : forall f fld name text, live f -> names fld name ->
  let ex := if float_flag name then extract_double rd else extract_size in
  match read_values ex (List.length (f_prs f)) (ti_open text) with
  | Ret vs => exists prs, set_field rd debug f text name = Ret (with_prs f prs)
       /\ uniform prs /\ stored_all fld (map (narrowed fld) vs) (f_prs f) prs
  | Throw e => set_field rd debug f text name = Throw e
  | UB u => set_field rd debug f text name = UB u
  | Hang => set_field rd debug f text name = Hang
  end.
Proof.
  intros f fld name text Lf N ex. unfold set_field. rewrite (live_valid debug f Lf). cbn [bind].
  assert (C : check_field_name name = true) by (apply names_accepted; eauto).
  unfold require. rewrite C. cbn [negb]. rewrite andb_false_r. cbn [bind]. fold ex.
  destruct (read_values ex (List.length (f_prs f)) (ti_open text)) as [vs|e|u|] eqn:E; cbn [bind]; try reflexivity.
  apply read_values_length in E.
  destruct (store_values_ok fld name (get_extra_fields f) vs (f_prs f) N) as (prs & S & A); [exact E| |].
  { intros k p _ I. now apply live_extras. }
  rewrite S. cbn [bind]. exists prs. pose proof (stored_uniform _ _ _ _ A (lv_uniform f Lf)) as U. rewrite (with_points_ok f prs Lf U). auto.
Qed.
End Set_field.
