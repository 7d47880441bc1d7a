(** C80: spoc_info, from files to text. *)
From Coq Require Import String ZArith List Bool Lia.
From Verif.Model Require Import Base Double Arith Header PointRecord File Compression IO AppUtils AppConvert TileApp SrsApp Asprs Json InfoApp.
From Verif.Spec Require Import Format Streams Files Apps ZlibContract Tools Diffs Text Reports.
From Verif.Proofs Require Import BaseFacts HeaderFacts FileFacts HistoryFacts FileIOFacts FileMoreFacts HeaderCutFacts FilterFacts StoreFacts TransformFacts TextFacts
  MapFacts CountFacts SummaryFacts DiffFacts JsonFacts ToyZlib.
From Verif.Props Require Import SrsProps InfoProps SummaryProps JsonProps.
Import ListNotations.
Open Scope Z_scope.
Open Scope outcome_scope.

(** ** Facts *)

Lemma appends_seq : forall w w' bs cs, appends w bs -> appends w' cs -> appends (w_seq w w') (bs ++ cs).
Proof.
  intros w w' bs cs A B os H. destruct (A os H) as (o1 & E1 & H1 & B1). destruct (B o1 H1) as (o2 & E2 & H2 & B2).
  exists o2. unfold w_seq, w_bind. rewrite E1, E2. split; [reflexivity|]. split; [exact H2|]. now rewrite B2, B1, app_assoc.
Qed.
Lemma appends_nil : appends (w_ret tt) [].
Proof. intros os H. exists os. split; [reflexivity|]. split; [exact H|]. now rewrite app_nil_r. Qed.
Lemma appends_lift : forall {A} (m : outcome A) (k : A -> writer unit) a bs, m = Ret a -> appends (k a) bs -> appends (w_bind (w_lift m) k) bs.
Proof. intros A m k a bs -> H os Ho. unfold w_bind, w_lift. now apply H. Qed.
Lemma appends_iter : forall {A} (f : A -> writer unit) l bss, Forall2 (fun a bs => appends (f a) bs) l bss -> appends (w_iter f l) (List.concat bss).
Proof. intros A f l bss F. induction F as [|a bs l bss H F IH]; cbn [w_iter List.concat]; [apply appends_nil|]. now apply appends_seq. Qed.
Lemma appends_when : forall b w bs, (b = true -> appends w bs) -> appends (w_when b w) (if b then bs else []).
Proof. intros [|] w bs H; [now apply H|apply appends_nil]. Qed.
Lemma appends_put : forall bs, appends (w_put bs) bs.
Proof. intros bs. apply emits_appends, emits_put. Qed.

(** ** The sections of the text *)

(** The header, on five lines. *)
Theorem C80_header : forall f, good_file f ->
  exists n, decimal (Z.of_nat (List.length (f_prs f))) n
  /\ appends (header_lines f)
       (text_line [chars "major_version"; [9]; chars "0"] ++ text_line [chars "minor_version"; [9]; chars "1"]
        ++ text_line [chars "ogc_wkt"; [9]; chars "'"; f_wkt f; chars "'"] ++ text_line [chars "total_points"; [9]; n]
        ++ text_line [chars "compressed"; [9]; if f_compressed f then chars "true" else chars "false"]).
Proof.
  intros f G. destruct (get_header_any f G) as (h & Eh & Gh & W & _ & T & C). exists (put_uint (zlen (f_prs f))). split; [apply put_uint_spec; unfold zlen; lia|].
  assert (L : forall (name : string) (g : header -> list Z) t, g h = t ->
    appends (w_seq (w_put (chars name ++ tab)) (w_bind (w_lift (get_header f)) (fun h => w_put (line [g h])))) (text_line [chars name; [9]; t])).
  { intros name g t <-. replace (text_line [chars name; [9]; g h]) with ((chars name ++ tab) ++ line [g h]).
    - apply appends_seq; [apply appends_put|]. eapply appends_lift; [exact Eh|]. apply appends_put.
    - unfold line, text_line, tab. cbn [List.concat]. now rewrite !app_nil_r, <- !app_assoc. }
  unfold header_lines. cbn [w_iter fst snd].
  apply appends_seq; [apply L; now rewrite (gh_major h Gh)|]. apply appends_seq; [apply L; now rewrite (gh_minor h Gh)|].
  apply appends_seq.
  { replace (text_line [chars "ogc_wkt"; [9]; chars "'"; f_wkt f; chars "'"]) with (text_line [chars "ogc_wkt"; [9]; quoted (f_wkt f)]); [apply L; now rewrite W|].
    unfold text_line, quoted. cbn [List.concat]. now rewrite !app_nil_r, <- !app_assoc. }
  apply appends_seq; [apply L; now rewrite T|].
  match goal with |- appends _ ?z => replace z with (z ++ []) by apply app_nil_r end. apply appends_seq; [|apply appends_nil].
  apply L. rewrite C. now destruct (f_compressed f).
Qed.

(** The columns of a file in the order of the report, with their labels and types. *)
Definition listed_columns (p : list point_record) (cols : list (list Z * column * list Z)) : Prop :=
  exists n labels, (p = [] -> n = 0%nat) /\ (forall r, In r p -> List.length (rextra r) = n)
  /\ Forall2 (fun k l => exists t, decimal (Z.of_nat k) t /\ l = chars "extra_" ++ t) (seq 0 n) labels
  /\ cols = [(chars "x", col_double, map rx p); (chars "y", col_double, map ry p); (chars "z", col_double, map rz p);
             (chars "c", col_u32, map rc p); (chars "p", col_u32, map rp p);
             (chars "i", col_u16, map ri p); (chars "r", col_u16, map rr p); (chars "g", col_u16, map rg p); (chars "b", col_u16, map rb p)]
            ++ map (fun kl => (snd kl, col_u64, map (fun r => nth (fst kl) (rextra r) 0) p)) (combine (seq 0 n) labels).

Lemma summary_text : forall fmt srt k label x compact quartiles, sorts srt -> Forall (in_column k) x -> all_numbers k x -> zlen x < 2 ^ 62 ->
  exists t, get_summary_string fmt srt k label x compact quartiles = Ret t.
Proof.
  intros fmt srt k label x compact quartiles Hs F N L. destruct x as [|a t]; [eexists; reflexivity|].
  assert (T : exists txt, forall b, shown_as fmt k b (txt b)) by (exists (col_text fmt k); intros b; destruct k; cbn; try reflexivity; apply put_int_spec).
  destruct T as (txt & T). assert (D : decimal (zlen (a :: t)) (put_uint (zlen (a :: t)))) by (apply put_uint_spec; unfold zlen; lia).
  destruct quartiles.
  - destruct (C71_quartiles srt k (a :: t) Hs F N ltac:(discriminate) L) as (q0 & q1 & q2 & q3 & q4 & _ & _ & H). destruct (H fmt txt _ label T D) as (H1 & H2).
    destruct compact; eauto.
  - destruct (C71_range srt k (a :: t) F N ltac:(discriminate)) as (mn & mx & _ & _ & _ & H). destruct (H fmt txt _ label T D) as (H1 & H2). destruct compact; eauto.
Qed.

(** Summaries of all columns, those of C71, one after the other. *)
Theorem C80_summary : forall prt f compact quartiles, good_file f -> sorts (p_sort prt) ->
  (forall r, In r (f_prs f) -> d_is_nan (rx r) = false /\ d_is_nan (ry r) = false /\ d_is_nan (rz r) = false) ->
  exists cols blocks, listed_columns (f_prs f) cols
    /\ Forall2 (fun c b => get_summary_string (p_summary prt) (p_sort prt) (snd (fst c)) (fst (fst c) ++ [9]) (snd c) compact quartiles = Ret b) cols blocks
    /\ appends (summary_lines prt (f_prs f) compact quartiles) (List.concat blocks).
Proof.
  intros prt f compact quartiles G Hs Na. pose proof (gf_prs f G) as P. pose proof (gf_uniform f G) as U. pose proof (gf_total f G) as L. set (p := f_prs f) in *.
  set (n := Z.to_nat (extras_of p)).
  assert (Lx : forall r, In r p -> List.length (rextra r) = n).
  { intros r I. pose proof (uniform_extras p U r I) as E. unfold n. rewrite <- E. unfold zlen. now rewrite Nat2Z.id. }
  assert (Ze : forall k (g : point_record -> Z), (forall r, In r p -> in_column k (g r)) -> Forall (in_column k) (map g p)) by (intros k g H; apply Forall_map; now apply Forall_forall).
  assert (Zl : forall g : point_record -> Z, zlen (map g p) < 2 ^ 62) by (intros g; unfold zlen; rewrite map_length; lia).
  set (labels := map (fun k => chars "extra_" ++ put_uint (Z.of_nat k)) (seq 0 n)).
  set (base := [(chars "x", col_double, map rx p); (chars "y", col_double, map ry p); (chars "z", col_double, map rz p);
             (chars "c", col_u32, map rc p); (chars "p", col_u32, map rp p);
             (chars "i", col_u16, map ri p); (chars "r", col_u16, map rr p); (chars "g", col_u16, map rg p); (chars "b", col_u16, map rb p)]).
  set (extra := map (fun kl => (snd kl, col_u64, map (fun r => nth (fst kl) (rextra r) 0) p)) (combine (seq 0 n) labels)).
  set (put := fun k label x => w_bind (w_lift (get_summary_string (p_summary prt) (p_sort prt) k label x compact quartiles)) w_put).
  set (txt := fun c : list Z * column * list Z => get_summary_string (p_summary prt) (p_sort prt) (snd (fst c)) (fst (fst c) ++ [9]) (snd c) compact quartiles).
  assert (Xb : exists bs, Forall2 (fun c b => txt c = Ret b) base bs).
  { assert (H : Forall (fun c => exists b, txt c = Ret b) base).
    { assert (K : forall label k (g : point_record -> Z), (forall r, In r p -> in_column k (g r) /\ (k = col_double -> d_is_nan (g r) = false)) -> exists b, txt (label, k, map g p) = Ret b).
      { intros label k g H. unfold txt. cbn [fst snd]. apply summary_text; [exact Hs| | |apply Zl].
        - apply Ze. intros r I. now apply H.
        - destruct k; cbn; auto. apply Forall_map, Forall_forall. intros r I. now apply H. }
      rewrite Forall_forall in P. unfold base.
      constructor; [apply K; intros r I; split; [apply P, I|intros _; apply Na, I]|]. constructor; [apply K; intros r I; split; [apply P, I|intros _; apply Na, I]|].
      constructor; [apply K; intros r I; split; [apply P, I|intros _; apply Na, I]|].
      constructor; [apply K; intros r I; split; [apply (ok_c r (P r I))|discriminate]|]. constructor; [apply K; intros r I; split; [apply (ok_p r (P r I))|discriminate]|].
      constructor; [apply K; intros r I; split; [apply (ok_i r (P r I))|discriminate]|]. constructor; [apply K; intros r I; split; [apply (ok_r r (P r I))|discriminate]|].
      constructor; [apply K; intros r I; split; [apply (ok_g r (P r I))|discriminate]|]. constructor; [apply K; intros r I; split; [apply (ok_b r (P r I))|discriminate]|].
      constructor. }
    clear - H. induction H as [|c l (b & E) H (bs & IH)]; [exists []; constructor|exists (b :: bs); now constructor]. }
  assert (Xe : exists bs, Forall2 (fun c b => txt c = Ret b) extra bs /\ Forall2 (fun k b => txt (chars "extra_" ++ put_uint (Z.of_nat k), col_u64, map (fun r => nth k (rextra r) 0) p) = Ret b) (seq 0 n) bs).
  { assert (H : forall k, In k (seq 0 n) -> exists b, txt (chars "extra_" ++ put_uint (Z.of_nat k), col_u64, map (fun r => nth k (rextra r) 0) p) = Ret b).
    { intros k I. apply in_seq in I. unfold txt. cbn [fst snd]. apply summary_text; [exact Hs| |exact Logic.I|apply Zl]. apply Ze. intros r Ir. rewrite Forall_forall in P. pose proof (ok_extra r (P r Ir)) as X. rewrite Forall_forall in X.
      apply X. apply nth_In. rewrite (Lx r Ir). lia. }
    unfold extra, labels. revert H. generalize (seq 0 n). intros l H. induction l as [|k l IH]; [exists []; split; constructor|].
    destruct (H k (or_introl eq_refl)) as (b & E). destruct IH as (bs & B1 & B2); [intros j J; apply H; now right|]. exists (b :: bs). split; constructor; auto. }
  destruct Xb as (b1 & B1). destruct Xe as (b2 & B2 & B3).
  exists (base ++ extra), (b1 ++ b2). split; [|split].
  - exists n, labels. split; [unfold n; now intros ->|]. split; [exact Lx|]. split; [|reflexivity].
    unfold labels. clear. induction (seq 0 n) as [|k l IH]; constructor; auto. exists (put_uint (Z.of_nat k)). split; [apply put_uint_spec; lia|reflexivity].
  - apply Forall2_app; assumption.
  - rewrite concat_app. unfold summary_lines. apply appends_seq.
    + apply appends_iter. unfold InfoApp.columns, base in *. unfold get_x, get_y, get_z, get_c, get_p, get_i, get_r, get_g, get_b.
      clear - B1. do 9 (inversion_clear B1 as [|? ? ? ? E B]; rename B into B1; rename E into E0; match goal with |- Forall2 _ (_ :: _) (_ :: _) => constructor; [eapply appends_lift; [exact E0|apply appends_put]|]; clear E0 end).
      inversion B1. constructor.
    + apply appends_iter. assert (X : extra_indexes p = map Z.of_nat (seq 0 n)).
      { unfold n, extra_indexes. clear. destruct p as [|r p]; [reflexivity|]. cbn [extras_of]. now rewrite Nat2Z.id. }
      rewrite X. clear X. assert (I : forall k, In k (seq 0 n) -> (k < n)%nat) by (intros k I; apply in_seq in I; lia).
      clear - B3 I U. revert I. induction B3 as [|k b l b2 E B3 IH]; intros I; cbn [map]; constructor; [|apply IH; intros j J; apply I; now right].
      specialize (I k (or_introl eq_refl)). eapply appends_lift; [apply get_extra_ok; [exact U|unfold n in I; lia]|]. rewrite Nat2Z.id.
      eapply appends_lift; [|apply appends_put]. unfold txt in E. cbn [fst snd] in E. unfold tab. rewrite <- app_assoc in E. exact E.
Qed.

(** The text report: the sections asked for, in this order. *)
Theorem C80_sections : forall prt args f header summary classes metrics, ia_json args = false ->
  (ia_header args = true -> appends (header_lines f) header) ->
  (ia_summary args = true -> appends (summary_lines prt (f_prs f) (ia_compact args) (ia_quartiles args)) summary) ->
  (ia_classes args = true -> appends (class_lines (f_prs f)) classes) ->
  (ia_metrics args = true -> appends (metric_lines prt (f_prs f)) metrics) ->
  appends (process prt args f)
    ((if ia_header args then header else []) ++ (if ia_summary args then summary else []) ++ (if ia_classes args then classes else [])
     ++ (if ia_metrics args then metrics else [])).
Proof.
  intros prt args f header summary classes metrics J H S C M. unfold process. rewrite J.
  apply appends_seq; [now apply appends_when|]. apply appends_seq; [now apply appends_when|]. apply appends_seq; now apply appends_when.
Qed.

(** ** Files *)

(** Several files: their reports one after the other. *)
Theorem C80_files : forall z prt acc args fs input files texts, ia_fns args <> [] ->
  Forall2 (holds z acc fs) (ia_fns args) files -> Forall2 (fun f t => appends (process prt args f) t) files texts ->
  appends (info_main z prt acc args fs input) (List.concat texts).
Proof.
  intros z prt acc args fs input fl texts N H T. unfold info_main.
  assert (X : appends (w_iter (fun fn => w_bind (w_lift (open_input acc fs fn)) (fun bytes => from_input (read_spoc_file z (i_open bytes)) (process prt args))) (ia_fns args)) (List.concat texts)).
  { apply appends_iter. clear N. revert texts T. induction H as [|fn f fns fl (Rd & bytes & Eb & rest & R) H IH]; intros texts T; inversion T as [|? t ? ts Tf T']; subst; constructor; [|now apply IH].
    eapply appends_lift; [apply open_input_ok; eassumption|]. eapply appends_lift; [exact R|]. exact Tf. }
  destruct (ia_fns args) as [|fn fns]; [congruence|exact X].
Qed.

(** Without file names it is standard input. *)
Theorem C80_stdin : forall z prt acc args fs input f text, ia_fns args = [] ->
  file_of (read_spoc_file z) input f -> appends (process prt args f) text -> appends (info_main z prt acc args fs input) text.
Proof.
  intros z prt acc args fs input f text N (rest & R) T. unfold info_main. rewrite N. eapply appends_lift; [exact R|exact T].
Qed.

(** A file that cannot be opened or read ends the program with an error, after the reports
    of the files before it. *)
Theorem C80_stops : forall z prt acc args fs input before fn after files texts, ia_fns args = before ++ fn :: after ->
  Forall2 (holds z acc fs) before files -> Forall2 (fun f t => appends (process prt args f) t) files texts ->
  fs fn = None \/ can_read acc fn = false \/ (exists bytes, fs fn = Some bytes /\ forall f s, read_spoc_file z (i_open bytes) <> Ret (f, s)) ->
  forall os, healthy os -> exists os' r, info_main z prt acc args fs input os = (os', r) /\ r <> Ret tt /\ healthy os' /\ o_bytes os' = o_bytes os ++ List.concat texts.
Proof.
  intros z prt acc args fs input before fn after fl texts E H T F.
  set (one := fun fn => w_bind (w_lift (open_input acc fs fn)) (fun bytes => from_input (read_spoc_file z (i_open bytes)) (process prt args))).
  assert (M : info_main z prt acc args fs input = w_iter one (before ++ fn :: after)) by (unfold info_main; rewrite E; destruct before; reflexivity).
  assert (Fn : forall os, exists r, one fn os = (os, r) /\ r <> Ret tt).
  { intros os. unfold one, w_bind at 1, w_lift, open_input. destruct (fs fn) as [bytes|] eqn:Ef; [|eexists; split; [reflexivity|discriminate]].
    destruct (can_read acc fn) eqn:Er; [|eexists; split; [reflexivity|discriminate]].
    destruct F as [F|[F|(b & Eb & F)]]; try discriminate. injection Eb as <-. unfold from_input, w_bind, w_lift.
    destruct (read_spoc_file z (i_open bytes)) as [[f s]| | |]; [exfalso; now apply (F f s)| | |]; eexists; (split; [reflexivity|discriminate]). }
  rewrite M. clear M E. revert texts T. induction H as [|fn0 f fns fl (Rd & bytes & Eb & rest & R) H IH]; intros texts T os Ho; inversion T as [|? t ? ts Tf T']; subst.
  - cbn [app w_iter]. destruct (Fn os) as (r & Er & Nr). exists os. unfold w_seq, w_bind. rewrite Er. destruct r as [[]|e|u|]; [congruence| | |];
      (eexists; split; [reflexivity|]; split; [discriminate|]; split; [exact Ho|now rewrite app_nil_r]).
  - cbn [app w_iter List.concat]. assert (O : appends (one fn0) t) by (eapply appends_lift; [apply open_input_ok; eassumption|]; eapply appends_lift; [exact R|exact Tf]).
    destruct (O os Ho) as (o1 & E1 & H1 & B1). destruct (IH ts T' o1 H1) as (o2 & r & E2 & Nr & H2 & B2). exists o2, r. unfold w_seq, w_bind at 1. rewrite E1, E2.
    split; [reflexivity|]. split; [exact Nr|]. split; [exact H2|]. now rewrite B2, B1, app_assoc.
Qed.

(** A stored file: the report is that of the file as it is kept, and header and classes are
    those of the original. *)
Theorem C80_stored : forall z ZS prt acc args f, zlib_ok z ZS -> storable f ->
  exists bytes f1, appends (write_spoc_file z false f) bytes /\ kept f f1
  /\ (forall fn fs input text, ia_fns args = [fn] -> fs fn = Some bytes -> can_read acc fn = true ->
        appends (process prt args f1) text -> appends (info_main z prt acc args fs input) text)
  /\ (forall text, appends (header_lines f) text <-> appends (header_lines f1) text)
  /\ (forall text, appends (class_lines (f_prs f)) text <-> appends (class_lines (f_prs f1)) text).
Proof.
  intros z ZS prt acc args f Hz S. destruct (storable_one z ZS false f Hz S) as (bytes & f1 & W & _ & K & R).
  exists bytes, f1. split; [now apply emits_appends|]. split; [exact K|].
  assert (R0 : read_spoc_file z (i_open bytes) = Ret (f1, i_open [])) by (rewrite <- (app_nil_r bytes); apply R; constructor).
  split; [|split].
  - intros fn fs input text E Ef Rd T. rewrite <- (app_nil_r text). change (text ++ []) with (List.concat [text]).
    eapply C80_files with (files := [f1]); [rewrite E; discriminate| |constructor; [exact T|constructor]].
    rewrite E. constructor; [|constructor]. split; [exact Rd|]. exists bytes. split; [exact Ef|]. eexists. exact R0.
  - assert (E : get_header f1 = get_header f).
    { unfold kept in K. destruct (f_compressed f) eqn:Ec; [|now subst f1]. destruct K as (M1 & M2 & M3 & M4 & F).
      assert (L : zlen (f_prs f1) = zlen (f_prs f)) by (unfold zlen; f_equal; clear - F; revert F; generalize (f_prs f) at 1; intros all F; induction F; cbn; congruence).
      assert (X : get_extra_fields f1 = get_extra_fields f).
      { unfold get_extra_fields. destruct F as [|p p' l l' P F]; [reflexivity|]. destruct P as (_ & _ & _ & _ & _ & _ & _ & _ & _ & ->). reflexivity. }
      unfold get_header. now rewrite M1, M2, M3, M4, L, X. }
    intros text. unfold header_lines. now rewrite E.
  - assert (E : get_c (f_prs f1) = get_c (f_prs f)).
    { unfold kept in K. destruct (f_compressed f) eqn:Ec; [|now subst f1]. destruct K as (_ & _ & _ & _ & F). unfold get_c.
      clear - F. revert F. generalize (f_prs f) at 1. intros all F. induction F as [|p p' l l' P F IH]; [reflexivity|]. cbn [map]. f_equal; [apply P|exact IH]. }
    intros text. unfold class_lines. now rewrite E.
Qed.

(** ** Examples *)

Lemma json_file_storable : storable json_file.
Proof.
  split; [exact json_file_good|]. split; [vm_compute; reflexivity|]. exists 1. split; [|cbn; lia].
  intros p I. cbn in I. destruct I as [<-|[<-|[]]]; reflexivity.
Qed.

(** Header and classes of a file that is given twice. *)
Definition example_report : list Z :=
  List.concat (map text_line
    [[chars "major_version"; [9]; chars "0"]; [chars "minor_version"; [9]; chars "1"]; [chars "ogc_wkt"; [9]; chars "'EPSG:2193'"];
     [chars "total_points"; [9]; chars "2"]; [chars "compressed"; [9]; chars "false"]; [chars "cls_002"; [9]; chars "2"; [9]; chars "ground"]]).

Example C80_example :
  let args := mk_info_args false true false true false false false [chars "a"; chars "b"] in
  let acc := mk_access (fun _ => true) (fun _ => false) in
  exists bytes fs, appends (write_spoc_file toy false json_file) bytes
  /\ fs (chars "a") = Some bytes /\ fs (chars "b") = Some bytes
  /\ appends (info_main toy json_printing acc args fs []) (example_report ++ example_report).
Proof.
  cbv zeta. destruct (storable_one toy _ false json_file toy_ok json_file_storable) as (bytes & f1 & W & _ & K & R).
  assert (f1 = json_file) by exact K. subst f1. exists bytes, (fun _ => Some bytes). split; [now apply emits_appends|]. split; [reflexivity|]. split; [reflexivity|].
  assert (T : appends (process json_printing (mk_info_args false true false true false false false [chars "a"; chars "b"]) json_file) example_report).
  { destruct (C80_header json_file json_file_good) as (n & Dn & H).
    assert (n = chars "2") by (eapply decimal_unique; [exact Dn|apply (put_uint_spec 2); lia]). subst n.
    assert (C : appends (class_lines (f_prs json_file)) (text_line [chars "cls_002"; [9]; chars "2"; [9]; chars "ground"] ++ [])).
    { unfold class_lines. change (get_class_count_map (get_c (f_prs json_file))) with [(chars "002", 2)]. cbn [w_iter fst snd].
      apply appends_seq; [|apply appends_nil]. eapply appends_lift; [vm_compute; reflexivity|]. cbn [fst].
      change (class_find 2 get_asprs_class_map) with (Some (chars "ground")). apply appends_put. }
    pose proof (C80_sections json_printing (mk_info_args false true false true false false false [chars "a"; chars "b"]) json_file _ [] _ [] eq_refl (fun _ => H)
      ltac:(discriminate) (fun _ => C) ltac:(discriminate)) as P. exact P. }
  change (example_report ++ example_report) with (List.concat [example_report; example_report]).
  eapply C80_files with (files := [json_file; json_file]); [discriminate| |].
  - cbn [ia_fns]. repeat constructor; exists bytes; (split; [reflexivity|]); eexists; rewrite <- (app_nil_r bytes); apply R; constructor.
  - repeat (constructor; try exact T).
Qed.

Print Assumptions C80_header.
Print Assumptions C80_summary.
Print Assumptions C80_sections.
Print Assumptions C80_files.
Print Assumptions C80_stdin.
Print Assumptions C80_stops.
Print Assumptions C80_stored.
