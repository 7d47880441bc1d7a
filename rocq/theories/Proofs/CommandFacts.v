(** getopt and the grammar of command lines *)
From Coq Require Import String ZArith List Bool Lia.
From Verif.Model Require Import Base AppUtils TransformApp GetOpt Commands.
From Verif.Spec Require Import CommandLines.
From Verif.Proofs Require Import BaseFacts.
Import ListNotations.
Open Scope Z_scope.

(** The grammar of Spec/CommandLines with the values that getopt returns *)
Definition vbegins (p name : list Z) : Prop := exists t, name = p ++ t.

Definition vstands_for (longs : list long_option) (p : list Z) (o : long_option) : Prop :=
  In o longs /\
  (lo_name o = p \/
   vbegins p (lo_name o) /\
   (forall o', In o' longs -> lo_name o' <> p) /\
   (forall o', In o' longs -> vbegins p (lo_name o') -> lo_arg o' = lo_arg o /\ lo_val o' = lo_val o)).

Inductive vuse (longs : list long_option) (shorts : short_options)
    : list (list Z) -> list (Z * option (list Z)) -> Prop :=
| VUse_long_flag p o :
    ~ In equals p -> p <> [] -> vstands_for longs p o -> lo_arg o = false ->
    vuse longs shorts [dash :: dash :: p] [(lo_val o, None)]
| VUse_long_equals p o v :
    ~ In equals p -> vstands_for longs p o -> lo_arg o = true ->
    vuse longs shorts [dash :: dash :: p ++ equals :: v] [(lo_val o, Some v)]
| VUse_long_next p o v :
    ~ In equals p -> p <> [] -> vstands_for longs p o -> lo_arg o = true ->
    vuse longs shorts [dash :: dash :: p; v] [(lo_val o, Some v)]
| VUse_flags cs :
    cs <> [] -> Forall (fun c => In (c, false) shorts) cs ->
    vuse longs shorts [dash :: cs] (map (fun c => (c, None)) cs)
| VUse_attached cs c v :
    Forall (fun c => In (c, false) shorts) cs -> In (c, true) shorts -> v <> [] ->
    vuse longs shorts [dash :: cs ++ c :: v] (map (fun c => (c, None)) cs ++ [(c, Some v)])
| VUse_next cs c v :
    Forall (fun c => In (c, false) shorts) cs -> In (c, true) shorts ->
    vuse longs shorts [dash :: cs ++ [c]; v] (map (fun c => (c, None)) cs ++ [(c, Some v)]).

Inductive vline (longs : list long_option) (shorts : short_options)
    : list (list Z) -> list (Z * option (list Z)) -> list (list Z) -> Prop :=
| VLine_end : vline longs shorts [] [] []
| VLine_dashes ops : vline longs shorts ([dash; dash] :: ops) [] ops
| VLine_operand a argv es ops :
    operand a -> vline longs shorts argv es ops -> vline longs shorts (a :: argv) es (a :: ops)
| VLine_option ws es1 argv es ops :
    vuse longs shorts ws es1 -> vline longs shorts argv es ops ->
    vline longs shorts (ws ++ argv) (es1 ++ es) ops.

Definition good_tables (longs : list long_option) (shorts : short_options) : Prop :=
  NoDup (map fst shorts) /\ ~ In dash (map fst shorts) /\ NoDup (map lo_name longs).

Definition ev (e : Z * option (list Z)) : event := E_option (fst e) (snd e).

Lemma is_prefix_iff a b : is_prefix a b = true <-> vbegins a b.
Proof.
  unfold vbegins. revert b; induction a as [|x a IH]; intros b; cbn.
  - split; [exists b; reflexivity | reflexivity].
  - destruct b as [|y b].
    + split; [discriminate | intros (t & E); discriminate E].
    + rewrite andb_true_iff, Z.eqb_eq, IH. split.
      * intros (-> & t & ->). now exists t.
      * intros (t & E). injection E as -> ->. eauto.
Qed.

Lemma same_meaning_iff a b : same_meaning a b = true <-> lo_arg b = lo_arg a /\ lo_val b = lo_val a.
Proof.
  unfold same_meaning. rewrite andb_true_iff, Bool.eqb_true_iff, Z.eqb_eq. split; intros [? ?]; auto.
Qed.

Lemma match_long_sound longs p o : match_long longs p = Some o -> vstands_for longs p o.
Proof.
  unfold match_long, vstands_for. destruct (find _ longs) as [o1|] eqn:F.
  - intros [= ->]. apply find_some in F as [I E]. apply beq_bytes_eq in E. auto.
  - destruct (filter _ longs) as [|o1 t] eqn:L; [discriminate|].
    destruct (forallb _ t) eqn:A; [|discriminate]. intros [= ->].
    assert (I : In o (filter (fun o => is_prefix p (lo_name o)) longs)) by (rewrite L; left; reflexivity).
    apply filter_In in I as [I P]. apply is_prefix_iff in P. split; [exact I|]. right. repeat split; [exact P| | |].
    + intros o' I' E. apply (find_none _ _ F) in I'. apply beq_bytes_eq in E. congruence.
    + assert (I2 : In o' (filter (fun o => is_prefix p (lo_name o)) longs))
        by (apply filter_In; split; [assumption | now apply is_prefix_iff]).
      rewrite L in I2. destruct I2 as [<-|I2]; [reflexivity|].
      rewrite forallb_forall in A. apply A, same_meaning_iff in I2. apply I2.
    + assert (I2 : In o' (filter (fun o => is_prefix p (lo_name o)) longs))
        by (apply filter_In; split; [assumption | now apply is_prefix_iff]).
      rewrite L in I2. destruct I2 as [<-|I2]; [reflexivity|].
      rewrite forallb_forall in A. apply A, same_meaning_iff in I2. apply I2.
Qed.

Lemma nodup_name longs o o' : NoDup (map lo_name longs) -> In o longs -> In o' longs -> lo_name o = lo_name o' -> o = o'.
Proof.
  induction longs as [|a l IH]; cbn; intros N I I' E; [easy|]. inversion_clear N as [|? ? N1 N2].
  destruct I as [->|I], I' as [->|I']; auto.
  - exfalso. apply N1. rewrite E. now apply in_map.
  - exfalso. apply N1. rewrite <- E. now apply in_map.
Qed.

Lemma match_long_complete longs p o : NoDup (map lo_name longs) -> vstands_for longs p o ->
  exists o', match_long longs p = Some o' /\ lo_arg o' = lo_arg o /\ lo_val o' = lo_val o.
Proof.
  intros N (I & C). unfold match_long. destruct (find _ longs) as [o1|] eqn:F.
  - apply find_some in F as [I1 E1]. apply beq_bytes_eq in E1. exists o1. split; [reflexivity|].
    destruct C as [C|(_ & C & _)]; [|now apply C in I1].
    assert (o1 = o) by (apply (nodup_name longs); congruence). subst. auto.
  - destruct C as [C|(B & _ & C)].
    { apply (find_none _ _ F) in I. apply beq_bytes_eq in C. congruence. }
    assert (I2 : In o (filter (fun o => is_prefix p (lo_name o)) longs))
      by (apply filter_In; split; [assumption | now apply is_prefix_iff]).
    destruct (filter _ longs) as [|o1 t] eqn:L; [destruct I2|].
    assert (S : forall x, In x (o1 :: t) -> lo_arg x = lo_arg o /\ lo_val x = lo_val o).
    { intros x Ix. rewrite <- L in Ix. apply filter_In in Ix as [Ix Px]. apply is_prefix_iff in Px. auto. }
    assert (A : forallb (same_meaning o1) t = true).
    { apply forallb_forall. intros x Ix. apply same_meaning_iff.
      destruct (S o1 (or_introl eq_refl)), (S x (or_intror Ix)). split; congruence. }
    rewrite A. exists o1. split; [reflexivity|]. apply S. left; reflexivity.
Qed.

Lemma find_short shorts c b : NoDup (map fst shorts) -> In (c, b) shorts ->
  find (fun o : Z * bool => fst o =? c) shorts = Some (c, b).
Proof.
  induction shorts as [|[d b'] l IH]; cbn; intros N I; [easy|]. inversion_clear N as [|? ? N1 N2].
  destruct I as [[= -> ->]|I]; [now rewrite Z.eqb_refl|].
  destruct (Z.eqb_spec d c) as [->|_]; [|now apply IH].
  exfalso. apply N1. now apply (in_map fst) in I.
Qed.

Lemma short_find shorts c d b : find (fun o : Z * bool => fst o =? c) shorts = Some (d, b) -> d = c /\ In (c, b) shorts.
Proof. intros F. apply find_some in F as [I E]. cbn in E. apply Z.eqb_eq in E as ->. auto. Qed.

Lemma short_flags shorts cs t : NoDup (map fst shorts) -> Forall (fun c => In (c, false) shorts) cs ->
  short_events shorts (cs ++ t) =
  let '(es, need) := short_events shorts t in (map (fun c => E_option c None) cs ++ es, need).
Proof.
  intros N F. induction F as [|c cs I F IH]; cbn.
  - now destruct (short_events shorts t).
  - rewrite (find_short _ _ _ N I), IH. now destruct (short_events shorts t).
Qed.

Lemma short_arg shorts c v : NoDup (map fst shorts) -> In (c, true) shorts -> v <> [] ->
  short_events shorts (c :: v) = ([E_option c (Some v)], None).
Proof. intros N I V. cbn. rewrite (find_short _ _ _ N I). now destruct v. Qed.

Lemma short_need shorts c : NoDup (map fst shorts) -> In (c, true) shorts ->
  short_events shorts [c] = ([], Some c).
Proof. intros N I. cbn. now rewrite (find_short _ _ _ N I). Qed.

Lemma span_name p t : ~ In equals p -> t = [] \/ (exists v, t = equals :: v) ->
  span (fun c => negb (c =? ch_equal)) (p ++ t) = (p, t).
Proof.
  intros N T. induction p as [|c p IH]; cbn.
  - destruct T as [->|(v & ->)]; reflexivity.
  - destruct (Z.eqb_spec c ch_equal) as [->|_]; cbn; [exfalso; apply N; left; reflexivity|].
    rewrite IH; [reflexivity|]. intros I. apply N. now right.
Qed.

Lemma span_name_inv s p t : span (fun c => negb (c =? ch_equal)) s = (p, t) ->
  s = p ++ t /\ ~ In equals p /\ (t = [] \/ exists v, t = equals :: v).
Proof.
  revert p t; induction s as [|c s IH]; cbn; intros p t.
  - intros [= <- <-]. cbn. auto.
  - destruct (Z.eqb_spec c ch_equal) as [->|D]; cbn.
    + intros [= <- <-]. split; [reflexivity|]. split; [easy|]. right. now exists s.
    + destruct (span _ s) as [a b]. intros [= <- <-]. destruct (IH a b eq_refl) as (-> & N & T).
      split; [reflexivity|]. split; [|exact T]. intros [E|I]; [now apply D | now apply N].
Qed.

Lemma classify_operand a : classify a = El_operand <-> operand a.
Proof.
  unfold classify, operand, ch_dash. destruct a as [|c t].
  - split; [intros _; right; discriminate | reflexivity].
  - destruct (Z.eqb_spec c 45) as [->|D]; cbn [negb].
    + destruct t as [|d t].
      * split; [now left | reflexivity].
      * split.
        -- destruct (d =? 45); [destruct t|]; discriminate.
        -- intros [E|E]; [discriminate E | now destruct (E (d :: t))].
    + split; [|reflexivity]. intros _. right. intros t' [= E _]. now apply D.
Qed.

Lemma classify_long s : s <> [] -> classify (dash :: dash :: s) = El_long s.
Proof. now destruct s. Qed.

Lemma classify_short c s : c <> dash -> classify (dash :: c :: s) = El_short (c :: s).
Proof. unfold classify, ch_dash, dash. intros D. rewrite Z.eqb_refl. cbn [negb]. destruct (Z.eqb_spec c 45); congruence. Qed.

Lemma classify_end a : classify a = El_end -> a = [dash; dash].
Proof.
  unfold classify, ch_dash. destruct a as [|c [|d t]]; try discriminate; destruct (Z.eqb_spec c 45) as [->|]; try discriminate.
  cbn [negb]. destruct (Z.eqb_spec d 45) as [->|]; [|discriminate]. now destruct t.
Qed.

Lemma classify_long_inv a s : classify a = El_long s -> a = dash :: dash :: s /\ s <> [].
Proof.
  unfold classify, ch_dash. destruct a as [|c [|d t]]; try discriminate; destruct (Z.eqb_spec c 45) as [->|]; try discriminate.
  cbn [negb]. destruct (Z.eqb_spec d 45) as [->|]; [|discriminate]. destruct t; [discriminate|]. now intros [= <-].
Qed.

Lemma classify_short_inv a s : classify a = El_short s -> exists c t, s = c :: t /\ a = dash :: s /\ c <> dash.
Proof.
  unfold classify, ch_dash. destruct a as [|c [|d t]]; try discriminate; destruct (Z.eqb_spec c 45) as [->|]; try discriminate.
  cbn [negb]. destruct (Z.eqb_spec d 45) as [->|D]; [now destruct t|]. intros [= <-]. exists d, t. auto.
Qed.

Lemma first_letter shorts cs t : ~ In dash (map fst shorts) -> Forall (fun c => In (c, false) shorts) cs ->
  (exists c b, t = [c] /\ In (c, b) shorts) \/ (exists c b v, t = c :: v /\ In (c, b) shorts) \/ (cs <> [] /\ t = []) ->
  exists c v, cs ++ t = c :: v /\ c <> dash.
Proof.
  intros N F. destruct F as [|c cs I F]; cbn.
  - intros [(c & b & -> & I)|[(c & b & v & -> & I)|[E _]]]; [| |easy].
    + exists c, []. split; [reflexivity|]. intros ->. apply N. now apply (in_map fst) in I.
    + exists c, v. split; [reflexivity|]. intros ->. apply N. now apply (in_map fst) in I.
  - intros _. exists c, (cs ++ t). split; [reflexivity|]. intros ->. apply N. now apply (in_map fst) in I.
Qed.

Lemma map_ev_flags cs : map ev (map (fun c => (c, None)) cs) = map (fun c => E_option c None) cs.
Proof. rewrite map_map. reflexivity. Qed.

Lemma getopt_use longs shorts ws es1 argv : good_tables longs shorts -> vuse longs shorts ws es1 ->
  getopt longs shorts (ws ++ argv) = (map ev es1 ++ fst (getopt longs shorts argv), snd (getopt longs shorts argv)).
Proof.
  intros (NS & ND & NL) U. destruct U as [p o NE PE S A|p o v NE S A|p o v NE PE S A|cs CE F|cs c v F I V|cs c v F I]; cbn [app getopt].
  - rewrite (classify_long p PE). rewrite <- (app_nil_r p) at 1. rewrite span_name by auto.
    destruct (match_long_complete _ _ _ NL S) as (o' & -> & A' & V'). rewrite A', A, V'. destruct (getopt longs shorts argv); reflexivity.
  - rewrite (classify_long (p ++ equals :: v)) by (destruct p; discriminate). rewrite span_name by eauto.
    destruct (match_long_complete _ _ _ NL S) as (o' & -> & A' & V'). rewrite A', A, V'. destruct (getopt longs shorts argv); reflexivity.
  - rewrite (classify_long p PE). rewrite <- (app_nil_r p) at 1. rewrite span_name by auto.
    destruct (match_long_complete _ _ _ NL S) as (o' & -> & A' & V'). rewrite A', A, V'. destruct (getopt longs shorts argv); reflexivity.
  - destruct (first_letter shorts cs [] ND F) as (c & t & E & D); [tauto|]. rewrite app_nil_r in E. rewrite E, (classify_short c t D), <- E.
    rewrite <- (app_nil_r cs) at 1. rewrite (short_flags _ _ _ NS F). cbn [short_events]. rewrite app_nil_r, map_ev_flags.
    destruct (getopt longs shorts argv); reflexivity.
  - destruct (first_letter shorts cs (c :: v) ND F) as (d & t & E & D); [eauto 8|]. rewrite E, (classify_short d t D), <- E.
    rewrite (short_flags _ _ _ NS F), (short_arg _ _ _ NS I V), map_app, map_ev_flags.
    destruct (getopt longs shorts argv); reflexivity.
  - destruct (first_letter shorts cs [c] ND F) as (d & t & E & D); [eauto 8|]. rewrite E, (classify_short d t D), <- E.
    rewrite (short_flags _ _ _ NS F), (short_need _ _ NS I), map_app, map_ev_flags, app_nil_r.
    destruct (getopt longs shorts argv). cbn. now rewrite <- app_assoc.
Qed.

Lemma getopt_complete longs shorts argv es ops : good_tables longs shorts -> vline longs shorts argv es ops ->
  getopt longs shorts argv = (map ev es, ops).
Proof.
  intros G L. induction L as [|ops|a argv es ops O L IH|ws es1 argv es ops U L IH].
  - reflexivity.
  - reflexivity.
  - cbn. apply classify_operand in O. rewrite O, IH. reflexivity.
  - rewrite (getopt_use _ _ _ _ _ G U), IH, map_app. reflexivity.
Qed.

(** What a word of letters without mistakes looks like *)
Lemma short_sound shorts s es need : short_events shorts s = (map ev es, need) ->
  exists cs, Forall (fun c => In (c, false) shorts) cs /\
    ((s = cs /\ es = map (fun c => (c, None)) cs /\ need = None) \/
     (exists c v, s = cs ++ c :: v /\ v <> [] /\ In (c, true) shorts /\ es = map (fun c => (c, None)) cs ++ [(c, Some v)] /\ need = None) \/
     (exists c, s = cs ++ [c] /\ In (c, true) shorts /\ es = map (fun c => (c, None)) cs /\ need = Some c)).
Proof.
  revert es need; induction s as [|c s IH]; cbn; intros es need.
  - intros [= E <-]. exists []. split; [constructor|]. left. repeat split. now destruct es.
  - destruct (find _ shorts) as [[d [|]]|] eqn:F.
    + apply short_find in F as [-> I]. destruct s as [|x s].
      * intros [= E <-]. exists []. split; [constructor|]. right; right. exists c. repeat split; auto. now destruct es.
      * intros [= E <-]. exists []. split; [constructor|]. right; left. exists c, (x :: s). repeat split; auto; try discriminate.
        destruct es as [|[a b] [|? ?]]; try discriminate E. injection E as -> ->. reflexivity.
    + apply short_find in F as [-> I]. destruct (short_events shorts s) as [es' need'] eqn:S. intros [= E <-].
      destruct es as [|[a b] es]; [discriminate E|]. injection E as -> <- E. rewrite E in IH.
      destruct (IH es need' eq_refl) as (cs & FA & C). exists (a :: cs). split; [now constructor|].
      destruct C as [(-> & -> & ->)|[(x & v & -> & V & I2 & -> & ->)|(x & -> & I2 & -> & ->)]].
      * left. auto.
      * right; left. exists x, v. auto.
      * right; right. exists x. auto.
    + destruct (short_events shorts s) as [es' need']. intros [= E _]. now destruct es.
Qed.

Lemma ev_cons e l es : e :: l = map ev es -> exists x es', es = x :: es' /\ e = ev x /\ l = map ev es'.
Proof. destruct es as [|x es']; [discriminate|]. intros [= -> ->]. eauto. Qed.

Lemma ev_app l1 l2 es : l1 ++ l2 = map ev es -> exists es1 es2, es = es1 ++ es2 /\ l1 = map ev es1 /\ l2 = map ev es2.
Proof.
  revert es; induction l1 as [|e l1 IH]; cbn; intros es E.
  - exists [], es. auto.
  - apply ev_cons in E as (x & es' & -> & -> & E). apply IH in E as (es1 & es2 & -> & -> & ->). exists (x :: es1), es2. auto.
Qed.

Lemma getopt_sound longs shorts argv es ops :
  getopt longs shorts argv = (map ev es, ops) -> vline longs shorts argv es ops.
Proof.
  revert es ops. assert (W : forall n argv, (length argv <= n)%nat -> forall es ops,
    getopt longs shorts argv = (map ev es, ops) -> vline longs shorts argv es ops); [|intros; now apply (W (length argv))].
  clear argv. induction n as [|n IH]; intros argv LE es ops.
  { destruct argv; [|cbn in LE; lia]. cbn. intros [= E <-]. destruct es; [constructor|discriminate E]. }
  destruct argv as [|a rest]; cbn [length] in LE.
  { cbn. intros [= E <-]. destruct es; [constructor|discriminate E]. }
  cbn [getopt]. destruct (classify a) as [| |s|s] eqn:CL.
  - destruct (getopt longs shorts rest) as [es0 ops0] eqn:GR. intros [= -> <-].
    constructor 3; [now apply classify_operand | apply IH; [lia|exact GR]].
  - intros [= E <-]. apply classify_end in CL as ->. destruct es; [constructor|discriminate E].
  - apply classify_long_inv in CL as [-> SE]. destruct (span _ s) as [p t] eqn:SP.
    apply span_name_inv in SP as (-> & NE & T).
    destruct (match_long longs p) as [o|] eqn:ML.
    2: { destruct (getopt longs shorts rest). intros [= E _]. apply ev_cons in E as (x & ? & _ & E & _). destruct x; discriminate E. }
    apply match_long_sound in ML. destruct T as [->|(v & ->)].
    + rewrite app_nil_r in *. destruct (lo_arg o) eqn:A.
      * destruct rest as [|v rest'].
        { intros [= E _]. apply ev_cons in E as (x & ? & _ & E & _). destruct x; discriminate E. }
        cbn [length] in LE. destruct (getopt longs shorts rest') as [es0 ops0] eqn:GR. intros [= E <-].
        apply ev_cons in E as ((c & b) & es' & -> & E & ->). injection E as <- <-.
        change ((dash :: dash :: p) :: v :: rest') with ([dash :: dash :: p; v] ++ rest').
        change ((lo_val o, Some v) :: es') with ([(lo_val o, Some v)] ++ es').
        constructor 4; [now constructor 3 | apply IH; [lia|exact GR]].
      * destruct (getopt longs shorts rest) as [es0 ops0] eqn:GR. intros [= E <-].
        apply ev_cons in E as ((c & b) & es' & -> & E & ->). injection E as <- <-.
        change ((dash :: dash :: p) :: rest) with ([dash :: dash :: p] ++ rest).
        change ((lo_val o, None) :: es') with ([(lo_val o, @None (list Z))] ++ es').
        constructor 4; [now constructor 1 | apply IH; [lia|exact GR]].
    + destruct (getopt longs shorts rest) as [es0 ops0] eqn:GR. intros [= E <-].
      apply ev_cons in E as ((c & b) & es' & -> & E & ->). destruct (lo_arg o) eqn:A; [|discriminate E]. injection E as <- <-.
      change ((dash :: dash :: p ++ equals :: v) :: rest) with ([dash :: dash :: p ++ equals :: v] ++ rest).
      change ((lo_val o, Some v) :: es') with ([(lo_val o, Some v)] ++ es').
      constructor 4; [now constructor 2 | apply IH; [lia|exact GR]].
  - apply classify_short_inv in CL as (c0 & t0 & SE & -> & D).
    destruct (short_events shorts s) as [es1 need] eqn:SH.
    destruct need as [c|].
    + destruct rest as [|v rest'].
      { intros [= E _]. apply ev_app in E as (? & ? & _ & _ & E). apply ev_cons in E as (y & ? & _ & E & _). destruct y; discriminate E. }
      cbn [length] in LE. destruct (getopt longs shorts rest') as [es0 ops0] eqn:GR. intros [= E <-].
      apply ev_app in E as (e1 & e2 & -> & -> & E). apply ev_cons in E as ((c' & b) & es' & -> & E & ->). injection E as <- <-.
      destruct (short_sound _ _ _ _ SH) as (cs & FA & [(_ & _ & X)|[(? & ? & _ & _ & _ & _ & X)|(x & -> & I & -> & X)]]); try discriminate X.
      injection X as <-.
      change ((dash :: cs ++ [c]) :: v :: rest') with ([dash :: cs ++ [c]; v] ++ rest').
      replace (map (fun c => (c, None)) cs ++ (c, Some v) :: es') with ((map (fun c => (c, None)) cs ++ [(c, Some v)]) ++ es')
        by now rewrite <- app_assoc.
      constructor 4; [now constructor 6 | apply IH; [lia|exact GR]].
    + destruct (getopt longs shorts rest) as [es0 ops0] eqn:GR. intros [= E <-].
      apply ev_app in E as (e1 & e2 & -> & -> & ->).
      change ((dash :: s) :: rest) with ([dash :: s] ++ rest).
      constructor 4; [|apply IH; [lia|exact GR]].
      destruct (short_sound _ _ _ _ SH) as (cs & FA & [(-> & -> & _)|[(x & v & -> & V & I & -> & _)|(? & _ & _ & _ & X)]]); try discriminate X.
      * constructor 4; [subst cs; discriminate | exact FA].
      * now constructor 5.
Qed.

(** ** Names and values *)

Definition lo (val : string -> Z) (e : entry) : long_option := mk_long (chars (e_name e)) (e_arg e) (val (e_name e)).

Record implements (t : list entry) (longs : list long_option) (shorts : short_options) (val : string -> Z) : Prop := {
  im_long : forall e, In e t -> In (lo val e) longs;
  im_long_inv : forall o, In o longs -> exists e, In e t /\ o = lo val e;
  im_short : forall e c, In e t -> chars (e_letter e) = [c] -> In (c, e_arg e) shorts /\ val (e_name e) = c;
  im_short_inv : forall c b, In (c, b) shorts -> exists e, In e t /\ chars (e_letter e) = [c] /\ e_arg e = b;
  im_val : forall e e', In e t -> In e' t -> val (e_name e) = val (e_name e') -> e = e';
  im_good : good_tables longs shorts
}.

Definition vv (val : string -> Z) (s : setting) : Z * option (list Z) := (val (fst s), snd s).

Lemma stands_v t longs shorts val p e : implements t longs shorts val ->
  stands_for t p e -> vstands_for longs p (lo val e).
Proof.
  intros M (I & C). split; [now apply (im_long _ _ _ _ M)|]. cbn [lo lo_name].
  destruct C as [C|(B & U)]; [now left|].
  destruct (list_eq_dec Z.eq_dec (chars (e_name e)) p) as [E|NE]; [now left|]. right.
  split; [exact B|]. split; intros o' I'; apply (im_long_inv _ _ _ _ M) in I' as (e' & I' & ->); cbn.
  - intros E. apply NE. rewrite <- (U e' I'); [exact E|]. exists []. now rewrite app_nil_r.
  - intros B'. rewrite (U e' I' B'). auto.
Qed.

Lemma v_stands t longs shorts val p o : implements t longs shorts val ->
  vstands_for longs p o -> exists e, stands_for t p e /\ o = lo val e.
Proof.
  intros M (I & C). destruct (im_long_inv _ _ _ _ M _ I) as (e & Ie & ->). exists e. split; [|reflexivity].
  split; [exact Ie|]. destruct C as [C|(B & _ & U)]; [now left|right]. split; [exact B|].
  intros e' I' B'. apply (im_val _ _ _ _ M); auto.
  destruct (U (lo val e') (im_long _ _ _ _ M _ I') B') as [_ V]. exact V.
Qed.

Lemma flags_v t longs shorts val cs es : implements t longs shorts val -> flags t cs es ->
  Forall (fun c => In (c, false) shorts) cs /\ map (vv val) es = map (fun c => (c, None)) cs.
Proof.
  intros M F. induction F as [|c s cs es (e & (I & L) & A & ->) F (IH1 & IH2)]; [split; [constructor|reflexivity]|].
  destruct (im_short _ _ _ _ M _ _ I L) as (Is & V). rewrite A in Is. split; [now constructor|].
  cbn. rewrite IH2. unfold vv. cbn. now rewrite V.
Qed.

Lemma v_flags t longs shorts val cs : implements t longs shorts val -> Forall (fun c => In (c, false) shorts) cs ->
  exists es, flags t cs es /\ map (vv val) es = map (fun c => (c, None)) cs.
Proof.
  intros M F. induction F as [|c cs I F (es & FL & E)]; [exists []; split; [constructor|reflexivity]|].
  destruct (im_short_inv _ _ _ _ M _ _ I) as (e & Ie & L & A).
  exists ((e_name e, None) :: es). split.
  - constructor; [|exact FL]. exists e. repeat split; auto.
  - cbn. rewrite E. unfold vv. cbn. destruct (im_short _ _ _ _ M _ _ Ie L) as (_ & ->). reflexivity.
Qed.

Lemma use_v t longs shorts val ws es : implements t longs shorts val -> option_use t ws es ->
  vuse longs shorts ws (map (vv val) es).
Proof.
  intros M U. destruct U as [p e NE PE S A|p e v NE S A|p e v NE PE S A|cs es CE F|cs es c e v F (I & L) A V|cs es c e v F (I & L) A].
  - exact (VUse_long_flag _ _ p (lo val e) NE PE (stands_v _ _ _ _ _ _ M S) A).
  - exact (VUse_long_equals _ _ p (lo val e) v NE (stands_v _ _ _ _ _ _ M S) A).
  - exact (VUse_long_next _ _ p (lo val e) v NE PE (stands_v _ _ _ _ _ _ M S) A).
  - destruct (flags_v _ _ _ _ _ _ M F) as (F' & ->). now constructor.
  - destruct (flags_v _ _ _ _ _ _ M F) as (F' & E). destruct (im_short _ _ _ _ M _ _ I L) as (Is & VE). rewrite A in Is.
    rewrite map_app, E. cbn. unfold vv. cbn. rewrite VE. now constructor.
  - destruct (flags_v _ _ _ _ _ _ M F) as (F' & E). destruct (im_short _ _ _ _ M _ _ I L) as (Is & VE). rewrite A in Is.
    rewrite map_app, E. cbn. unfold vv. cbn. rewrite VE. now constructor.
Qed.

Lemma v_use t longs shorts val ws es : implements t longs shorts val -> vuse longs shorts ws es ->
  exists es', option_use t ws es' /\ es = map (vv val) es'.
Proof.
  intros M U. destruct U as [p o NE PE S A|p o v NE S A|p o v NE PE S A|cs CE F|cs c v F I V|cs c v F I].
  - destruct (v_stands _ _ _ _ _ _ M S) as (e & S' & ->). exists [(e_name e, None)]. split; [now constructor|reflexivity].
  - destruct (v_stands _ _ _ _ _ _ M S) as (e & S' & ->). exists [(e_name e, Some v)]. split; [now constructor|reflexivity].
  - destruct (v_stands _ _ _ _ _ _ M S) as (e & S' & ->). exists [(e_name e, Some v)]. split; [now constructor|reflexivity].
  - destruct (v_flags _ _ _ _ _ M F) as (es & F' & E). exists es. split; [now constructor|now symmetry].
  - destruct (v_flags _ _ _ _ _ M F) as (es & F' & E). destruct (im_short_inv _ _ _ _ M _ _ I) as (e & Ie & L & A).
    exists (es ++ [(e_name e, Some v)]). split; [constructor; auto; now split|].
    rewrite map_app, E. cbn. unfold vv. cbn. destruct (im_short _ _ _ _ M _ _ Ie L) as (_ & ->). reflexivity.
  - destruct (v_flags _ _ _ _ _ M F) as (es & F' & E). destruct (im_short_inv _ _ _ _ M _ _ I) as (e & Ie & L & A).
    exists (es ++ [(e_name e, Some v)]). split; [constructor; auto; now split|].
    rewrite map_app, E. cbn. unfold vv. cbn. destruct (im_short _ _ _ _ M _ _ Ie L) as (_ & ->). reflexivity.
Qed.

(** The event of an option *)
Definition sev (val : string -> Z) (s : setting) : event := E_option (val (fst s)) (snd s).

Lemma getopt_line t longs shorts val argv es ops : implements t longs shorts val -> command_line t argv es ops ->
  getopt longs shorts argv = (map (sev val) es, ops).
Proof.
  intros M L. replace (map (sev val) es) with (map ev (map (vv val) es)) by (rewrite map_map; reflexivity).
  apply getopt_complete; [apply M|]. induction L as [|ops|a argv es ops O L IH|ws es1 argv es ops U L IH].
  - constructor.
  - constructor.
  - now constructor.
  - rewrite map_app. constructor 4; [now apply (use_v t)|exact IH].
Qed.

Lemma line_getopt t longs shorts val argv es ops : implements t longs shorts val ->
  getopt longs shorts argv = (map ev es, ops) -> exists es', command_line t argv es' ops /\ es = map (vv val) es'.
Proof.
  intros M G. apply getopt_sound in G. induction G as [|ops|a argv es ops O L (es' & IH & ->)|ws es1 argv es ops U L (es' & IH & ->)].
  - exists []. split; constructor.
  - exists []. split; constructor.
  - exists es'. split; [now constructor|reflexivity].
  - destruct (v_use _ _ _ _ _ _ M U) as (es1' & U' & ->). exists (es1' ++ es'). split; [now constructor|]. now rewrite map_app.
Qed.

(** Every option that is set is one of the table, with an argument if it needs one *)
Definition declared (t : list entry) (s : setting) : Prop :=
  exists e, In e t /\ fst s = e_name e /\ (if e_arg e then snd s <> None else snd s = None).

Lemma flags_declared t cs es : flags t cs es -> Forall (declared t) es.
Proof.
  intros F. induction F as [|c s cs es (e & (I & L) & A & ->) F IH]; [constructor|]. constructor; [|exact IH].
  exists e. rewrite A. auto.
Qed.

Lemma line_declared t argv es ops : command_line t argv es ops -> Forall (declared t) es.
Proof.
  assert (K : forall e v, In e t -> e_arg e = true -> declared t (e_name e, Some v)).
  { intros e v I A. exists e. rewrite A. repeat split; auto. discriminate. }
  assert (K0 : forall e, In e t -> e_arg e = false -> declared t (e_name e, None)).
  { intros e I A. exists e. rewrite A. auto. }
  intros L. induction L as [|ops|a argv es ops O L IH|ws es1 argv es ops U L IH]; try constructor; [exact IH|].
  apply Forall_app. split; [|exact IH].
  destruct U as [p e NE PE S A|p e v NE S A|p e v NE PE S A|cs es' CE F|cs es' c e v F (I & Lt) A V|cs es' c e v F (I & Lt) A];
    try (apply Forall_app; split); try (constructor; [|constructor]); try (apply K || apply K0); auto; try apply S;
    now apply (flags_declared _ cs).
Qed.

(** ** Checking a table *)

Definition lo_eqb (a b : long_option) : bool :=
  beq_bytes (lo_name a) (lo_name b) && Bool.eqb (lo_arg a) (lo_arg b) && (lo_val a =? lo_val b).
Lemma lo_eqb_eq a b : lo_eqb a b = true -> a = b.
Proof.
  unfold lo_eqb. rewrite !andb_true_iff, beq_bytes_eq, Bool.eqb_true_iff, Z.eqb_eq. destruct a, b; cbn. intros ((-> & ->) & ->). reflexivity.
Qed.

Definition entry_eqb (a b : entry) : bool :=
  String.eqb (e_name a) (e_name b) && String.eqb (e_letter a) (e_letter b) && Bool.eqb (e_arg a) (e_arg b).
Lemma entry_eqb_eq a b : entry_eqb a b = true -> a = b.
Proof.
  unfold entry_eqb. rewrite !andb_true_iff, !String.eqb_eq, Bool.eqb_true_iff. destruct a, b; cbn. intros ((-> & ->) & ->). reflexivity.
Qed.

Fixpoint nodupb {A} (eqb : A -> A -> bool) (l : list A) : bool :=
  match l with [] => true | a :: t => negb (existsb (eqb a) t) && nodupb eqb t end.
Lemma nodupb_ok {A} (eqb : A -> A -> bool) l : (forall a, eqb a a = true) -> nodupb eqb l = true -> NoDup l.
Proof.
  intros R. induction l as [|a l IH]; cbn; [constructor|]. rewrite andb_true_iff, negb_true_iff. intros [N H].
  constructor; [|now apply IH]. intros I. enough (existsb (eqb a) l = true) by congruence. apply existsb_exists. eauto.
Qed.

Definition val_of (longs : list long_option) (n : string) : Z :=
  match find (fun o => beq_bytes (lo_name o) (chars n)) longs with Some o => lo_val o | None => -1 end.

Definition letter_ok (shorts : short_options) (val : string -> Z) (e : entry) : bool :=
  match chars (e_letter e) with
  | [c] => existsb (fun s => (fst s =? c) && Bool.eqb (snd s) (e_arg e)) shorts && (val (e_name e) =? c)
  | _ => true
  end.

Definition check_tables (t : list entry) (longs : list long_option) (shorts : short_options) : bool :=
  let val := val_of longs in
  forallb (fun e => existsb (lo_eqb (lo val e)) longs) t
  && forallb (fun o => existsb (fun e => lo_eqb o (lo val e)) t) longs
  && forallb (letter_ok shorts val) t
  && forallb (fun s => existsb (fun e => beq_bytes (chars (e_letter e)) [fst s] && Bool.eqb (e_arg e) (snd s)) t) shorts
  && forallb (fun e => forallb (fun e' => negb (val (e_name e) =? val (e_name e')) || entry_eqb e e') t) t
  && (nodupb Z.eqb (map fst shorts) && forallb (fun s => negb (fst s =? dash)) shorts && nodupb beq_bytes (map lo_name longs)).

Lemma check_ok t longs shorts : check_tables t longs shorts = true -> implements t longs shorts (val_of longs).
Proof.
  unfold check_tables. rewrite !andb_true_iff, !forallb_forall. intros (((((A & B) & C) & D) & E) & ((F & G) & H)).
  split.
  - intros e I. apply A, existsb_exists in I as (o & I & Q). apply lo_eqb_eq in Q as ->. exact I.
  - intros o I. apply B, existsb_exists in I as (e & I & Q). apply lo_eqb_eq in Q. eauto.
  - intros e c I L. apply C in I. unfold letter_ok in I. rewrite L, andb_true_iff in I. destruct I as (I & V).
    apply Z.eqb_eq in V. split; [|exact V]. apply existsb_exists in I as ((c' & b') & I & Q).
    rewrite andb_true_iff, Z.eqb_eq, Bool.eqb_true_iff in Q. cbn in Q. destruct Q as (-> & ->). exact I.
  - intros c b I. apply D, existsb_exists in I as (e & I & Q). rewrite andb_true_iff, beq_bytes_eq, Bool.eqb_true_iff in Q. cbn in Q.
    exists e. tauto.
  - intros e e' I I' V. apply E in I. rewrite forallb_forall in I. apply I in I'. rewrite V, Z.eqb_refl in I'. cbn in I'.
    now apply entry_eqb_eq.
  - repeat split.
    + exact (nodupb_ok _ _ Z.eqb_refl F).
    + intros I. apply in_map_iff in I as (s & Q & I). apply G in I. rewrite Q in I. discriminate I.
    + exact (nodupb_ok _ _ beq_bytes_refl H).
Qed.

(** ** The loop over the options *)

Lemma options_cons {A} (case_of : Z -> list Z -> option (A -> outcome A)) val c a s es :
  get_options case_of (map (sev val) (s :: es)) c a =
  if val (fst s) =? ch_h then Ret (mk_common true (c_verbose c) (c_version c), a)
  else if val (fst s) =? ch_v then get_options case_of (map (sev val) es) (mk_common (c_help c) true (c_version c)) a
  else if val (fst s) =? ch_e then get_options case_of (map (sev val) es) (mk_common (c_help c) (c_verbose c) true) a
  else match case_of (val (fst s)) (match snd s with Some s => s | None => [] end) with
       | None => Throw invalid_option
       | Some f => bind (f a) (fun a => get_options case_of (map (sev val) es) c a)
       end.
Proof. reflexivity. Qed.

Lemma given_cons n s es : given n (s :: es) = (String.eqb (fst s) n || given n es)%bool.
Proof. reflexivity. Qed.
Lemma arguments_cons n s es :
  arguments n (s :: es) = (if String.eqb (fst s) n then match snd s with Some v => [v] | None => [] end else []) ++ arguments n es.
Proof. reflexivity. Qed.
Lemma final_cons {A} (f : list Z -> A) n s es d :
  final f n (s :: es) d = final f n es (if String.eqb (fst s) n then match snd s with Some v => f v | None => d end else d).
Proof.
  unfold final. rewrite arguments_cons, map_app. destruct (String.eqb (fst s) n); [|reflexivity].
  destruct (snd s) as [v|]; [|reflexivity]. cbn [map app]. generalize (map f (arguments n es)). intros l.
  revert d v; induction l as [|x [|y l] IH]; intros d v; cbn in *; auto.
Qed.
Lemma toggled_cons n s es b : toggled n (s :: es) b = toggled n es (if String.eqb (fst s) n then negb b else b).
Proof.
  unfold toggled. cbn [filter]. destruct (String.eqb (fst s) n); [|reflexivity].
  cbn [length]. rewrite Nat.odd_succ, <- Nat.negb_odd. destruct b, (Nat.odd _); reflexivity.
Qed.
