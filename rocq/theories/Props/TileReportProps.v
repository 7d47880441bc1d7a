(** C126: the report on a file that was cut into tiles and merged again. *)
From Coq Require Import String Reals ZArith List Bool Permutation Lia.
From Verif.Model Require Import Base Double Arith Header PointRecord Point File Compression IO AppConvert AppUtils MergeApp TileApp Json InfoApp GetOpt
  Commands Programs.
From Verif.Spec Require Import Text Streams Files Apps ZlibContract Format CommandLines Fields Tiles Reports.
From Verif.Proofs Require Import BaseFacts HeaderCutFacts SummaryFacts FilterFacts StoreFacts ToyZlib CountFacts.
From Verif.Props Require Import SrsProps TileWidthProps TileProps ToolProgramProps CommandProps ProgramProps PipeProps ScenarioProps SummaryProps InfoProgramProps RecordOrderProps WorkflowProps.
Import ListNotations.
Open Scope Z_scope.

(** [p'] is [p] with another point id. *)
Definition renumbered (p p' : point_record) : Prop := p' = with_id (rp p') p.

Lemma but_id_plain p p' : plain_pt (pr_pt p) -> but_id p p' -> renumbered p p'.
Proof.
  intros (X & Y & Z) [[L O] C].
  assert (Co : forall sel, In sel [rx; ry; rz] -> plain (sel p) -> sel p' = sel p).
  { intros sel I (_ & _ & N). destruct (C sel I) as [E|[[E|E] E']]; [exact E| |contradiction]. now rewrite E, E'. }
  assert (Ex : rextra p' = rextra p).
  { apply nth_ext with (d := 0) (d' := 0); [exact L|]. intros n Hn. specialize (O (FE (Z.of_nat n))). cbn [value] in O.
    rewrite (proj2 (Z.ltb_ge _ _)) in O by lia. rewrite Nat2Z.id in O. specialize (O ltac:(cbn; intuition discriminate)).
    rewrite (nth_error_nth' _ 0) in O by exact Hn. rewrite (nth_error_nth' _ 0) in O by lia. now injection O. }
  assert (V : forall fld g, (forall q, value fld q = Some (g q)) -> ~ In fld [FX; FY; FZ; FP] -> g p' = g p).
  { intros fld g H N. specialize (O fld N). rewrite !H in O. now injection O. }
  pose proof (Co rx ltac:(cbn; auto) X) as E1. pose proof (Co ry ltac:(cbn; auto) Y) as E2. pose proof (Co rz ltac:(cbn; auto) Z) as E3.
  pose proof (V FC rc ltac:(reflexivity) ltac:(cbn; intuition discriminate)) as E4. pose proof (V FI ri ltac:(reflexivity) ltac:(cbn; intuition discriminate)) as E5.
  pose proof (V FR rr ltac:(reflexivity) ltac:(cbn; intuition discriminate)) as E6. pose proof (V FG rg ltac:(reflexivity) ltac:(cbn; intuition discriminate)) as E7.
  pose proof (V FB rb ltac:(reflexivity) ltac:(cbn; intuition discriminate)) as E8.
  unfold renumbered, with_id. destruct p' as [x y z c i0 i r g b e]. cbn in *. congruence.
Qed.

Lemma renumbered_map {B} (g : point_record -> B) ps qs : (forall i p, g (with_id i p) = g p) -> Forall2 renumbered ps qs -> map g qs = map g ps.
Proof. intros G F. induction F as [|p q ps qs H F IH]; [reflexivity|]. cbn [map]. rewrite IH. f_equal. rewrite H. apply G. Qed.

Lemma renumbered_len ps qs : Forall2 renumbered ps qs -> zlen qs = zlen ps.
Proof. intros F. rewrite <- (zlen_map rc qs), <- (zlen_map rc ps). f_equal. now apply renumbered_map. Qed.

Lemma Forall2_perm {A B} (R : A -> B -> Prop) l l' m : Permutation l l' -> Forall2 R l m -> exists m', Permutation m m' /\ Forall2 R l' m'.
Proof.
  intros P. revert m. induction P as [|a l l' P IH|a b l|l l' l'' P1 IH1 P2 IH2]; intros m F.
  - exists m. split; [apply Permutation_refl|exact F].
  - inversion F as [|? c ? m0 H F0]; subst. destruct (IH m0 F0) as (m' & Q & G). exists (c :: m'). split; [now constructor|now constructor].
  - inversion F as [|? c ? m0 H F0]; subst. inversion F0 as [|? d ? m1 H1 F1]; subst. exists (d :: c :: m1). split; [constructor|]. now repeat constructor.
  - destruct (IH1 m F) as (m1 & Q1 & G1). destruct (IH2 m1 G1) as (m2 & Q2 & G2). exists m2. split; [eapply Permutation_trans; eassumption|exact G2].
Qed.

Lemma renumbered_report prt args f prs : Forall2 renumbered (f_prs f) prs -> ia_summary args = false ->
  process prt args (with_prs f prs) = process prt args f.
Proof.
  intros F S.
  assert (H : get_header (with_prs f prs) = get_header f).
  { unfold get_header, get_extra_fields. cbn [f_major f_minor f_wkt f_compressed f_prs with_prs]. rewrite (renumbered_len _ _ F).
    destruct F as [|p q ps qs R F]; [reflexivity|]. now rewrite R. }
  assert (C : get_c prs = get_c (f_prs f)) by (now apply renumbered_map).
  assert (M : get_metric_values prs = get_metric_values (f_prs f)).
  { unfold get_metric_values. now rewrite (renumbered_len _ _ F), (renumbered_map pr_pt _ _ (fun _ _ => eq_refl) F). }
  unfold process, info_object, header_lines, class_lines, metric_lines. rewrite S. cbn [when w_when]. rewrite H. cbn [f_prs with_prs]. now rewrite C, M.
Qed.

(** What the reports on [f] and on [g] have in common when [g] has the records of [f] in
    some order and with point ids that are [id], unless [id] is negative. *)
Definition reports_alike (id : Z) (f g : spoc_file) : Prop :=
  (* without the summary of the columns they are the same, *)
  (forall prt args os, sorts (p_sort prt) -> ia_summary args = false -> process prt args g os = process prt args f os)
  (* in the summary the text on the point ids is the only difference, *)
  /\ (forall prt args, sorts (p_sort prt) -> ia_json args = false -> ia_header args = false -> ia_classes args = false -> ia_metrics args = false ->
        ia_summary args = true ->
        let of_ids h := get_summary_string (p_summary prt) (p_sort prt) col_u32 (chars "p" ++ [9]) (map rp (f_prs h)) (ia_compact args) (ia_quartiles args) in
        exists before ids_f ids_g after, of_ids f = Ret ids_f /\ of_ids g = Ret ids_g
        /\ appends (process prt args f) (before ++ ids_f ++ after) /\ appends (process prt args g) (before ++ ids_g ++ after))
  (* and if all records had the id [id] before, nothing is. *)
  /\ (0 <= id -> (forall p, In p (f_prs f) -> rp p = id mod 2 ^ 32) ->
      forall prt args os, sorts (p_sort prt) -> process prt args g os = process prt args f os).

Lemma Forall2_fun {A B} (R : A -> B -> Prop) l a b : (forall x y z, R x y -> R x z -> y = z) -> Forall2 R l a -> Forall2 R l b -> a = b.
Proof. intros U F. revert b. induction F as [|x y l a H F IH]; intros b G; inversion G as [|? z ? b' H' G']; subst; [reflexivity|]. f_equal; [eapply U; eassumption|now apply IH]. Qed.

Lemma summary_but_ids prt f h : good_file f -> good_file h -> sorts (p_sort prt) -> Forall (fun p => plain_pt (pr_pt p)) (f_prs f) ->
  Forall2 renumbered (f_prs f) (f_prs h) -> forall compact quartiles,
  let of_ids h := get_summary_string (p_summary prt) (p_sort prt) col_u32 (chars "p" ++ [9]) (map rp (f_prs h)) compact quartiles in
  exists before ids_f ids_h after, of_ids f = Ret ids_f /\ of_ids h = Ret ids_h
    /\ appends (summary_lines prt (f_prs f) compact quartiles) (before ++ ids_f ++ after)
    /\ appends (summary_lines prt (f_prs h) compact quartiles) (before ++ ids_h ++ after).
Proof.
  intros Gf Gh Hs Pl R compact quartiles of_ids.
  assert (Nan : forall ps, Forall (fun p => plain_pt (pr_pt p)) ps -> forall r, In r ps -> d_is_nan (rx r) = false /\ d_is_nan (ry r) = false /\ d_is_nan (rz r) = false).
  { intros ps F r I. rewrite Forall_forall in F. destruct (F r I) as ((_ & X & _) & (_ & Y & _) & (_ & Z & _)). auto. }
  assert (Plh : Forall (fun p => plain_pt (pr_pt p)) (f_prs h)).
  { clear - Pl R. induction R as [|p q ps qs E R IH]; [constructor|]. inversion Pl as [|? ? H1 H2]; subst. constructor; [now rewrite E|now apply IH]. }
  destruct (C80_summary prt f compact quartiles Gf Hs (Nan _ Pl)) as (cols & blocks & (n & labels & N0 & Nx & Lb & ->) & B & A).
  destruct (C80_summary prt h compact quartiles Gh Hs (Nan _ Plh)) as (cols' & blocks' & (n' & labels' & N0' & Nx' & Lb' & ->) & B' & A').
  assert (En : n' = n).
  { clear - N0 Nx N0' Nx' R. inversion R as [E1 E2|p q ps qs E F E1 E2].
    - rewrite N0, N0'; auto.
    - rewrite <- (Nx p), <- (Nx' q); [now rewrite E|rewrite <- E2; now left|rewrite <- E1; now left]. }
  subst n'.
  assert (labels' = labels) as ->.
  { eapply Forall2_fun; [|exact Lb'|exact Lb]. intros k a b (t & D & ->) (t' & D' & ->). now rewrite (decimal_unique _ _ _ D D'). }
  clear Lb Lb'.
  rewrite (renumbered_map rx _ _ (fun _ _ => eq_refl) R), (renumbered_map ry _ _ (fun _ _ => eq_refl) R), (renumbered_map rz _ _ (fun _ _ => eq_refl) R),
    (renumbered_map rc _ _ (fun _ _ => eq_refl) R), (renumbered_map ri _ _ (fun _ _ => eq_refl) R), (renumbered_map rr _ _ (fun _ _ => eq_refl) R),
    (renumbered_map rg _ _ (fun _ _ => eq_refl) R), (renumbered_map rb _ _ (fun _ _ => eq_refl) R) in B'.
  rewrite (map_ext (fun kl => (snd kl, col_u64, map (fun r => nth (fst kl) (rextra r) 0) (f_prs h)))
    (fun kl => (snd kl, col_u64, map (fun r => nth (fst kl) (rextra r) 0) (f_prs f)))) in B'
    by (intros kl; now rewrite (renumbered_map (fun r => nth (fst kl) (rextra r) 0) _ _ (fun _ _ => eq_refl) R)).
  set (rest := map _ (combine _ _)) in *. clearbody rest.
  match type of B with Forall2 _ ((?c1 :: ?c2 :: ?c3 :: ?c4 :: ?cp :: ?tl) ++ _) _ => change ((c1 :: c2 :: c3 :: c4 :: cp :: tl) ++ rest) with ([c1; c2; c3; c4] ++ cp :: tl ++ rest) in B end.
  match type of B' with Forall2 _ ((?c1 :: ?c2 :: ?c3 :: ?c4 :: ?cp :: ?tl) ++ _) _ => change ((c1 :: c2 :: c3 :: c4 :: cp :: tl) ++ rest) with ([c1; c2; c3; c4] ++ cp :: tl ++ rest) in B' end.
  apply Forall2_app_inv_l in B as (b1 & b2 & B1 & B2 & ->). apply Forall2_app_inv_l in B' as (b1' & b2' & B1' & B2' & ->).
  inversion B2 as [|? bf ? r1 Bf Br]; subst. inversion B2' as [|? bh ? r2 Bh Br']; subst.
  assert (b1' = b1) as -> by (eapply Forall2_fun; [|exact B1'|exact B1]; intros x y w E1 E2; cbv beta in E1, E2; congruence).
  assert (r2 = r1) as -> by (eapply Forall2_fun; [|exact Br'|exact Br]; intros x y w E1 E2; cbv beta in E1, E2; congruence).
  exists (List.concat b1), bf, bh, (List.concat r1). split; [exact Bf|]. split; [exact Bh|].
  rewrite concat_app in A, A'. now split.
Qed.

Lemma alike id f g ps : good_file f -> same_meta f g -> Forall (fun p => plain_pt (pr_pt p)) (f_prs f) -> Permutation ps (f_prs f) -> Forall2 but_id ps (f_prs g) ->
  (forall p, In p (f_prs g) -> 0 <= rp p < 2 ^ 32) -> (0 <= id -> forall p, In p (f_prs g) -> rp p = id mod 2 ^ 32) -> reports_alike id f g.
Proof.
  intros Gf (Mj & Mn & W & Cp) Pl P F I32 Ids.
  assert (F' : Forall2 renumbered ps (f_prs g)).
  { assert (Pl' : Forall (fun p => plain_pt (pr_pt p)) ps) by (eapply Permutation_Forall; [apply Permutation_sym; exact P|exact Pl]).
    clear - F Pl'. induction F as [|p q a b H F IH]; [constructor|]. inversion Pl' as [|? ? H1 H2]; subst. constructor; [now apply but_id_plain|now apply IH]. }
  destruct (Forall2_perm _ _ _ _ P F') as (qs & Q & R). clear F F' P.
  set (h := with_prs f qs).
  assert (Eh : with_prs g qs = h) by (unfold h, with_prs; now rewrite Mj, Mn, W, Cp).
  assert (Rq : forall q, In q qs -> exists p, In p (f_prs f) /\ renumbered p q) by (intros q I; exact (Forall2_In_r _ _ _ _ R I)).
  assert (Ug : uniform (f_prs g)).
  { intros p q Ip Iq. destruct (Rq p (Permutation_in _ Q Ip)) as (p' & Jp & Ep), (Rq q (Permutation_in _ Q Iq)) as (q' & Jq & Eq).
    rewrite Ep, Eq. cbn [with_id rextra]. exact (gf_uniform f Gf p' q' Jp Jq). }
  assert (Plg : Forall (fun p => plain_pt (pr_pt p)) (f_prs g)).
  { apply Forall_forall. intros q I. destruct (Rq q (Permutation_in _ Q I)) as (p & J & E). rewrite E. rewrite Forall_forall in Pl. exact (Pl p J). }
  assert (Gh : good_file h).
  { destruct Gf as [A1 A2 A3 A4 A5 A6 A7]. split; cbn [h with_prs f_major f_minor f_wkt f_prs]; auto.
    - apply Forall_forall. intros q I. destruct (Rq q I) as (p & J & E). rewrite Forall_forall in A5. specialize (A5 p J). destruct A5.
      specialize (I32 q (Permutation_in _ (Permutation_sym Q) I)). rewrite E. constructor; cbn; auto.
    - intros p q Ip Iq. apply Ug; eapply Permutation_in; try eassumption; now apply Permutation_sym.
    - pose proof (renumbered_len _ _ R) as E. unfold zlen in E. lia. }
  assert (Rep : forall prt args os, sorts (p_sort prt) -> process prt args g os = process prt args h os).
  { intros prt args os Hs. rewrite <- Eh. symmetry. now apply C115_info. }
  split; [|split].
  - intros prt args os Hs S. rewrite Rep by exact Hs. unfold h. now rewrite renumbered_report.
  - intros prt args Hs J H C M S of_ids.
    destruct (summary_but_ids prt f h Gf Gh Hs Pl R (ia_compact args) (ia_quartiles args)) as (before & idf & idh & after & E1 & E2 & A1 & A2).
    exists before, idf, idh, after. split; [exact E1|]. split.
    { rewrite <- E2. unfold of_ids.
      destruct (summary_same_int (p_sort prt) col_u32 (map rp (f_prs g)) (map rp qs) ltac:(discriminate) Hs ltac:(now apply Permutation_map)) as [_ B]. apply B. }
    assert (X : forall k t, appends (summary_lines prt (f_prs k) (ia_compact args) (ia_quartiles args)) t -> appends (process prt args k) t).
    { intros k t A. pose proof (C80_sections prt args k [] t [] [] J) as Y. rewrite H, S, C, M in Y. cbn [app] in Y. rewrite app_nil_r in Y. apply Y; try discriminate. auto. }
    split; [now apply X|]. intros os Ho. rewrite Rep by exact Hs. now apply X.
  - intros Hid Was prt args os Hs. rewrite Rep by exact Hs. f_equal. unfold h.
    assert (qs = f_prs f) as ->; [|now destruct f].
    assert (Iq : forall q, In q qs -> rp q = id mod 2 ^ 32) by (intros q I; apply (Ids Hid); apply (Permutation_in _ (Permutation_sym Q) I)).
    clear - R Was Iq. induction R as [|p q a b E R IH]; [reflexivity|]. f_equal.
    + rewrite E, (Iq q (or_introl eq_refl)), <- (Was p (or_introl eq_refl)). now destruct p.
    + apply IH; intros; [apply Was|apply Iq]; now right.
Qed.

(** Cut a file without NaN and -0 into tiles and merge them in any order: the report of
    spoc_info on the merged file is that on the file but for the summary of the point
    ids. *)
Theorem C126_report z ZS atof debug acc f fs a argv1 es1 in1 os1 : zlib_ok z ZS -> storable f -> all_bytes fs ->
  Forall (fun p => plain_pt (pr_pt p)) (f_prs f) ->
  reads z fs a f -> may_read acc a -> asks tile_options argv1 es1 [a] ->
  let run := spoc_tile z atof debug acc argv1 in1 os1 fs in
  status_of run = Ret 0 ->
  exists names, NoDup names /\ Forall (tile_file es1 [a]) names /\ (forall n, ~ In n names -> files_of run n = fs n) /\
  forall ns argv2 es2 os2, Permutation ns names -> asks merge_options argv2 es2 ns -> (2 <= List.length names)%nat ->
  (forall n, In n names -> can_read acc n = true) -> healthy os2 ->
  exists os' out g, spoc_merge z debug acc argv2 os2 (files_of run) = (os', files_of run, Ret 0) /\ o_bytes os' = o_bytes os2 ++ out
    /\ read_spoc_file z (i_open out) = Ret (g, i_open [])
    /\ reports_alike (final atoi "point-id" es2 (-1)) f g.
Proof.
  intros Hz Sf Bf Pl Rd Ma As run St.
  destruct (C93_tile_merge z ZS atof debug acc f fs a argv1 es1 in1 os1 Hz Sf Bf Rd Ma As St) as (names & Nd & Tf & Oth & X).
  exists names. split; [exact Nd|]. split; [exact Tf|]. split; [exact Oth|]. intros ns argv2 es2 os2 Pn As2 Len Cr Ho.
  destruct (X ns argv2 es2 os2 Pn As2 Len Cr Ho) as (os' & out & g & Run & O & R & Me & (ps & P & F) & ts & _ & Ids).
  exists os', out, g. split; [exact Run|]. split; [exact O|]. split; [exact R|].
  assert (Ig : forall p, In p (f_prs g) -> exists i, rp p = if final atoi "point-id" es2 (-1) <? 0 then i mod 2 ^ 32 else final atoi "point-id" es2 (-1) mod 2 ^ 32).
  { intros p I. apply (in_map rp) in I. cbv zeta in Ids. rewrite Ids in I. apply in_flat_map in I as ([i t] & _ & I). apply in_map_iff in I as (q & E & _). exists i. now symmetry. }
  apply (alike _ f g ps); auto.
  - now destruct Sf.
  - intros p I. destruct (Ig p I) as (i & ->). destruct (_ <? 0); apply Z.mod_pos_bound; lia.
  - intros N p I. destruct (Ig p I) as (i & ->). now rewrite (proj2 (Z.ltb_ge _ _)) by lia.
Qed.

(** The file of C93, three records with the point id 0 in two tiles.  Merged as they come,
    the records of the second tile get the id 1, and the summary tells the files apart.
    With --point-id=0 the reports are the same. *)
Definition tr_file : spoc_file := mk_file 0 1 (chars "W") true (f_prs t_file).
Definition tr_files : files := file_put (chars "in.zpoc") (sp_bytes tr_file) (fun _ => None).
Definition tr_run := spoc_tile toy w_atof false all_rights (words ["--tile-size=2"; "in.zpoc"]%string) [] at_start tr_files.
Definition tr_merged (argv : list (list Z)) : outcome (spoc_file * istream) :=
  read_spoc_file toy (i_open (o_bytes (stdout_of (spoc_merge toy false all_rights argv at_start (files_of tr_run))))).
Definition tr_prt : printing := mk_printing (mk_format put_int put_int) (mk_format put_int put_int) (fun x => x).
Definition tr_args (summary : bool) : info_args := mk_info_args false (negb summary) summary (negb summary) (negb summary) true false [].

Example C126_example :
  storable tr_file /\ Forall (fun p => plain_pt (pr_pt p)) (f_prs tr_file) /\ status_of tr_run = Ret 0
  /\ asks merge_options (words ["in017.zpoc"; "in000.zpoc"]%string) [] (words ["in017.zpoc"; "in000.zpoc"]%string)
  /\ match tr_merged (words ["in017.zpoc"; "in000.zpoc"]%string), tr_merged (words ["--point-id=0"; "in017.zpoc"; "in000.zpoc"]%string) with
     | Ret (g, _), Ret (h, _) =>
         process tr_prt (tr_args false) g at_start = process tr_prt (tr_args false) tr_file at_start
         /\ o_bytes (fst (process tr_prt (tr_args true) g at_start)) <> o_bytes (fst (process tr_prt (tr_args true) tr_file at_start))
         /\ process tr_prt (tr_args true) h at_start = process tr_prt (tr_args true) tr_file at_start
     | _, _ => False
     end.
Proof.
  split; [|split; [|split; [|split]]].
  - destruct t_storable as ([A1 A2 A3 A4 A5 A6 A7] & B & k & C & D). split; [split; assumption|]. split; [exact B|]. exists 0. split; [intros p I; cbn in I; intuition (subst; reflexivity)|vm_compute; try (split; discriminate); discriminate].
  - repeat constructor; try discriminate; vm_compute; discriminate.
  - now vm_compute.
  - apply asks_plain; operands.
  - vm_compute. split; [reflexivity|]. split; [discriminate|reflexivity].
Qed.

Print Assumptions C126_report.
