(** C114: programs that work on streams do not look ahead. *)
From Coq Require Import String ZArith List Bool Lia.
From Verif.Model Require Import Base Double Arith Header PointRecord Point File Compression IO Affine AppUtils Utils Par TransformApp Programs Examples.
From Verif.Spec Require Import Text Streams Files Format Fields Apps ZlibContract Truncation.
From Verif.Proofs Require Import BaseFacts FieldFacts HeaderFacts PointRecordFacts IOFacts FileFacts FileIOFacts PaddingFacts HeaderCutFacts TransformFacts.
From Verif.Props Require Import TransformProps ExampleProps.
Import ListNotations.
Open Scope Z_scope.

(** Whatever comes, the loop leaves some bytes and ends in some way. *)
Lemma points_leave e ops n : forall k s, exists bs o, leaves (transform_points n k e ops s) bs o.
Proof.
  induction n as [|n IH]; intros k s; cbn [transform_points].
  - exists [], (Ret tt). intros w Hw. unfold w_ret. now rewrite os_write_nil.
  - destruct (read_point_record e s) as [[p s1]|x|u|] eqn:R.
    2-4: (eexists [], _; intros w Hw; unfold w_bind, w_lift; rewrite os_write_nil by exact Hw; reflexivity).
    destruct (run_ops ops k p) as [p'|x|u|] eqn:O.
    2-4: (eexists [], _; intros w Hw; unfold w_bind, w_lift; rewrite O, os_write_nil by exact Hw; reflexivity).
    destruct (IH (k + 1) s1) as (bs & o & L). exists (pr_bytes p' ++ bs), o.
    intros w Hw. unfold w_bind at 1, w_lift at 1. unfold w_bind at 1, w_lift at 1. rewrite O.
    apply leaves_seq; [apply write_point_record_emits|exact L|exact Hw].
Qed.

(** The first record on which the operations fail, if any *)
Lemma runs_or_stops ops : forall prs k,
  (exists prs', all_run ops k prs prs')
  \/ (exists before p after prs', prs = before ++ p :: after /\ all_run ops k before prs'
        /\ forall p', run_ops ops (k + zlen before) p <> Ret p').
Proof.
  induction prs as [|p prs IH]; intros k; [left; exists []; constructor|].
  destruct (run_ops ops k p) as [p'|x|u|] eqn:O.
  - destruct (IH (k + 1)) as [(prs' & A)|(b & q & a & prs' & E & A & N)].
    + left. exists (p' :: prs'). constructor; [exact O|exact A].
    + right. exists (p :: b), q, a, (p' :: prs'). subst. split; [reflexivity|]. split; [constructor; [exact O|exact A]|].
      rewrite zlen_cons. replace (k + (1 + zlen b)) with (k + 1 + zlen b) by lia. exact N.
  - right. exists [], p, prs, []. split; [reflexivity|]. split; [constructor|]. rewrite zlen_nil, Z.add_0_r, O. discriminate.
  - right. exists [], p, prs, []. split; [reflexivity|]. split; [constructor|]. rewrite zlen_nil, Z.add_0_r, O. discriminate.
  - right. exists [], p, prs, []. split; [reflexivity|]. split; [constructor|]. rewrite zlen_nil, Z.add_0_r, O. discriminate.
Qed.

Section Streaming.
Variable stod : stod_fn.
Variable t : trig.
Variable noise : noise_fn.
Variable seed : Z.
Hypothesis stod_ok : forall s v n, stod s = Some (v, n) -> d_ok v.


Lemma mapM_not_understood e cs : ~ understood stod t noise seed e cs ->
  exists w, mapM (get_op stod t noise seed e) cs = Throw (runtime_error w).
Proof.
  revert cs. induction cs as [|c cs IH]; intros U; [exfalso; apply U; intros c []|]. cbn [mapM].
  pose proof (get_op_total stod t noise seed e c) as T.
  destruct (get_op stod t noise seed e c) as [op|[]|u|] eqn:O; try contradiction; cbn [bind]; [|eauto].
  destruct IH as (w & ->); [|cbn [bind]; eauto]. intros H. apply U. intros x [<-|I]; [eauto|]. now apply H.
Qed.

Lemma understood_or_not e cs : understood stod t noise seed e cs \/ ~ understood stod t noise seed e cs.
Proof.
  induction cs as [|c cs [IH|IH]]; [left; intros c []| |right; intros H; apply IH; intros x X; apply H; now right].
  destruct (get_op stod t noise seed e c) as [op|x|u|] eqn:O.
  - left. intros d [<-|D]; [eauto|now apply IH].
  - right. intros H. destruct (H c (or_introl eq_refl)) as (op & E). congruence.
  - right. intros H. destruct (H c (or_introl eq_refl)) as (op & E). congruence.
  - right. intros H. destruct (H c (or_introl eq_refl)) as (op & E). congruence.
Qed.

(** spoc_transform on a header, some of the records it announces, and anything after
    them.  What is written for the header and these records, and whether the program stops
    on one of them and how, does not depend on what comes after: either the header and the
    results of all these records are written, or the program has failed by then. *)
Theorem C114_transform : forall cs h hb recs rbs, good_header h -> header_layout h hb -> h_compressed h = 0 ->
  Forall2 record_layout recs rbs -> has_extras (h_extra h) recs -> Z.of_nat (List.length recs) <= h_total h ->
  exists written ending, forall rest os, healthy os ->
    exists os' r more, transform_tool stod t noise cs seed (hb ++ List.concat rbs ++ rest) os = (os', r)
    /\ o_bytes os' = o_bytes os ++ written ++ more
    /\ match ending with
       | Some e => more = [] /\ r = e /\ e <> Ret tt
       | None => exists results outs, written = hb ++ List.concat outs /\ Forall2 record_layout results outs
           /\ Forall2 (fun kp p' => applies stod t noise seed (h_extra h) cs (fst kp) (snd kp) p') (numbered 0 recs) results
       end.
Proof.
  intros cs h hb recs rbs G L C Lr X N. pose proof (header_layout_unique h hb G L) as ->.
  destruct (layouts_bytes _ _ Lr) as [Ok ->].
  destruct cs as [|c0 cs0].
  { exists [], (Some (Throw (runtime_error "No command was specified"))). intros rest os Ho.
    exists os, (Throw (runtime_error "No command was specified")), []. cbn [transform_tool]. unfold w_lift.
    split; [reflexivity|]. rewrite app_nil_r. split; [reflexivity|]. split; [reflexivity|]. split; [reflexivity|discriminate]. }
  set (cs := c0 :: cs0) in *.
  assert (Go : forall rest ops bs o, mapM (get_op stod t noise seed (h_extra h)) cs = Ret ops ->
    leaves (transform_points (Z.to_nat (h_total h)) 0 (h_extra h) ops (i_open (prs_bytes recs ++ rest))) bs o ->
    leaves (transform_tool stod t noise cs seed (header_bytes h ++ prs_bytes recs ++ rest)) (header_bytes h ++ bs) o).
  { intros rest ops bs o M Hl. unfold transform_tool, cs. fold cs. unfold transform_apply, read_header_uncompressed.
    rewrite (read_header_round_trip h _ G). cbn [bind]. rewrite C. cbn [Z.eqb negb]. intros s Hs. unfold w_bind at 1, w_lift at 1.
    apply leaves_seq; [apply write_header_emits, (gh_sig h G)| |exact Hs].
    intros s' Hs'. unfold w_bind, w_lift. rewrite M. apply Hl. exact Hs'. }
  assert (X' : Forall (fun p => zlen (rextra p) = h_extra h) recs) by (apply Forall_forall; intros p P; exact (X p P)).
  destruct (understood_or_not (h_extra h) cs) as [U|U].
  - destruct (understood_ops stod t noise seed _ cs U) as (ops & M & A).
    assert (A' : forall prs' k l, all_run ops k l prs' ->
      Forall2 (fun kp p' => applies stod t noise seed (h_extra h) cs (fst kp) (snd kp) p') (numbered k l) prs').
    { intros prs' k l R. unfold all_run in R. clear - R A. induction R as [|kp p' l' m R1 R IH]; constructor; [now apply A|exact IH]. }
    destruct (runs_or_stops ops recs 0) as [(res & R)|(b & p & a & res & E & R & St)].
    + exists (header_bytes h ++ prs_bytes res), None. intros rest os Ho.
      set (m := (Z.to_nat (h_total h) - List.length recs)%nat).
      assert (Em : Z.to_nat (h_total h) = (List.length recs + m)%nat) by (unfold m; lia).
      destruct (points_leave (h_extra h) ops m (0 + zlen recs) (i_open rest)) as (bs & o & Lv).
      pose proof (transform_points_run (h_extra h) ops recs 0 res m rest Ok X' (gh_extra h G) R bs o Lv) as T.
      rewrite <- Em in T. destruct (leaves_good _ _ _ _ (Go rest ops _ _ M T) Ho) as (os' & W & _ & B).
      exists os', o, bs. split; [exact W|]. split; [rewrite B; now rewrite !app_assoc|].
      exists res, (map pr_bytes res). assert (Q : List.concat (map pr_bytes res) = prs_bytes res).
      { unfold prs_bytes. now rewrite flat_map_concat_map. }
      rewrite Q. split; [reflexivity|]. split; [|now apply A'].
      assert (Or : Forall pr_ok res).
      { clear - R A Ok stod_ok. unfold all_run in R. revert R. generalize 0 as k. revert res.
        induction recs as [|p l IH]; intros res k R; inversion R; subst; constructor.
        - inversion Ok; subst. eapply applies_good; [exact stod_ok|apply A; eassumption|assumption].
        - inversion Ok; subst. eapply IH; eassumption. }
      clear - Or. induction Or; cbn [map]; constructor; [now apply pr_bytes_layout|assumption].
    + exists (header_bytes h ++ prs_bytes res), (Some match run_ops ops (0 + zlen b) p with Ret _ => Ret tt | Throw x => Throw x | UB u => UB u | Hang => Hang end).
      intros rest os Ho. subst recs.
      apply Forall_app in Ok as [Ok1 Ok2]. apply Forall_app in X' as [X1 X2]. inversion Ok2 as [|? ? Okp _]; subst. inversion X2 as [|? ? Xp _]; subst.
      set (m := (Z.to_nat (h_total h) - List.length b)%nat). rewrite app_length in N. cbn [List.length] in N.
      assert (Em : Z.to_nat (h_total h) = (List.length b + S (m - 1))%nat) by (unfold m; lia).
      assert (Eb : prs_bytes (b ++ p :: a) ++ rest = prs_bytes b ++ pr_bytes p ++ prs_bytes a ++ rest).
      { unfold prs_bytes. rewrite flat_map_app. cbn [flat_map]. now rewrite <- !app_assoc. }
      pose proof (transform_points_stop (h_extra h) ops p (0 + zlen b) (m - 1) (prs_bytes a ++ rest) Okp Xp (gh_extra h G) St) as T1.
      pose proof (transform_points_run (h_extra h) ops b 0 res (S (m - 1)) (pr_bytes p ++ prs_bytes a ++ rest) Ok1 X1 (gh_extra h G) R _ _ T1) as T.
      rewrite <- Em, <- Eb in T. destruct (leaves_good _ _ _ _ (Go rest ops _ _ M T) Ho) as (os' & W & _ & B).
      eexists os', _, []. split; [exact W|]. split; [rewrite B; now rewrite !app_nil_r|]. split; [reflexivity|]. split; [reflexivity|].
      destruct (run_ops ops (0 + zlen b) p) as [q|x|u|] eqn:Q; [now destruct (St q)| | |]; discriminate.
  - destruct (mapM_not_understood _ _ U) as (w & M). exists (header_bytes h), (Some (Throw (runtime_error w))). intros rest os Ho.
    assert (Lv : leaves (transform_tool stod t noise cs seed (header_bytes h ++ prs_bytes recs ++ rest)) (header_bytes h ++ []) (Throw (runtime_error w))).
    { unfold transform_tool, cs. fold cs. unfold transform_apply, read_header_uncompressed.
      rewrite (read_header_round_trip h _ G). cbn [bind]. rewrite C. cbn [Z.eqb negb]. intros s Hs. unfold w_bind at 1, w_lift at 1.
      apply leaves_seq; [apply write_header_emits, (gh_sig h G)| |exact Hs].
      intros s' Hs'. unfold w_bind, w_lift. rewrite M. now rewrite os_write_nil. }
    destruct (leaves_good _ _ _ _ Lv Ho) as (os' & W & _ & B). exists os', (Throw (runtime_error w)), [].
    split; [exact W|]. split; [rewrite B; now rewrite !app_nil_r|]. split; [reflexivity|]. split; [reflexivity|discriminate].
Qed.
End Streaming.

(** noop passes every byte of the announced records on, whatever follows them. *)
Theorem C114_noop : forall h hb data, good_header h -> header_layout h hb -> h_compressed h = 0 ->
  Z.of_nat (List.length data) <= announced h ->
  forall rest os, is_bytes (data ++ rest) -> healthy os ->
  exists os' more, noop (hb ++ data ++ rest) os = (os', Ret 0) /\ o_bytes os' = o_bytes os ++ (hb ++ data) ++ more.
Proof.
  intros h hb data G L C N rest os B Ho. pose proof (header_layout_unique h hb G L) as ->.
  destruct (C95_noop (header_bytes h ++ data ++ rest) h (i_open (data ++ rest))) as (hb & L' & H).
  - unfold is_bytes in *. apply Forall_app. split; [apply header_bytes_ok; exact G|exact B].
  - apply read_header_round_trip, G.
  - exact C.
  - destruct (H os Ho) as (os' & W & _ & O). pose proof (header_layout_unique h hb G L') as ->.
    exists os', (firstn (Z.to_nat (announced h) - List.length data) (rest ++ repeat 0 (Z.to_nat (announced h)))).
    split; [exact W|]. rewrite O. unfold padded. cbn [i_rest i_open]. rewrite <- !app_assoc. do 3 f_equal.
    rewrite firstn_app. rewrite firstn_all2 by lia. reflexivity.
Qed.

Lemma average_prefix late e : 0 <= e <= 255 -> forall prs m i before tl,
  Forall pr_ok prs -> Forall (fun p => zlen (rextra p) = e) prs -> i = List.length before ->
  Z.of_nat (List.length prs + m + i) < 2 ^ 64 -> bytes_ok tl ->
  exists more, average_points late (List.length prs + m) i e (running before) (i_open (prs_bytes prs ++ tl))
  = Ret (map (report (before ++ map pr_pt prs)) (filter late (seq i (List.length prs))) ++ more).
Proof.
  intros E. induction prs as [|p prs IH]; intros m i before tl P X I N B.
  - cbn [List.length Nat.add prs_bytes flat_map app map seq filter].
    destruct (average_points_run e E m i (i_open tl) before (fed_open tl) B I) as (prs & recs & _ & _ & _ & _ & _ & A); [cbn in N; lia|].
    rewrite A. eauto.
  - inversion P; subst. inversion X as [|? ? Xp X']; subst. cbn [List.length Nat.add average_points].
    unfold prs_bytes. cbn [flat_map]. rewrite <- app_assoc.
    rewrite read_point_record_round_trip; [|assumption|unfold PTRDIFF_MAX, two63; lia]. cbn [bind].
    rewrite update_running by (cbn [List.length] in N; unfold zlen; lia).
    destruct (IH m (S (List.length before)) (before ++ [pr_pt p]) tl) as (more & A); auto.
    { rewrite app_length. cbn. lia. }
    { cbn [List.length] in N. lia. }
    fold (prs_bytes prs). rewrite A. cbn [bind]. rewrite <- app_assoc. cbn [app seq filter map].
    destruct (late (List.length before)); [|eauto]. exists more. cbn [map app]. do 2 f_equal. rewrite average_of_running.
    unfold report. assert (Li : List.length (before ++ [pr_pt p]) = (List.length before + 1)%nat) by (rewrite app_length; reflexivity).
    unfold zlen. rewrite Li. f_equal. f_equal. change (pr_pt p :: map pr_pt prs) with ([pr_pt p] ++ map pr_pt prs). rewrite app_assoc, <- Li.
    rewrite firstn_app, Nat.sub_diag, firstn_all. cbn [firstn]. now rewrite app_nil_r.
Qed.

(** The reports of stream_averaging on the first records are the numbers and the centers of
    the points so far, whatever follows them. *)
Theorem C114_averages : forall h hb recs rbs, good_header h -> header_layout h hb -> h_compressed h = 0 ->
  Forall2 record_layout recs rbs -> has_extras (h_extra h) recs -> Z.of_nat (List.length recs) <= h_total h ->
  forall late rest, is_bytes rest ->
  exists more, stream_averaging late (hb ++ List.concat rbs ++ rest)
    = Ret (map (fun i => (Z.of_nat (i + 1), get_center (firstn (i + 1) (map pr_pt recs))))
             (filter late (seq 0 (List.length recs))) ++ more).
Proof.
  intros h hb recs rbs G L C Lr X N late rest B. pose proof (header_layout_unique h hb G L) as ->.
  destruct (layouts_bytes _ _ Lr) as [Ok ->].
  set (m := (Z.to_nat (h_total h) - List.length recs)%nat).
  assert (Em : Z.to_nat (h_total h) = (List.length recs + m)%nat) by (unfold m; lia).
  destruct (average_prefix late (h_extra h) (gh_extra h G) recs m 0 [] rest Ok) as (more & A); auto.
  { apply Forall_forall. intros p P. exact (X p P). }
  { rewrite <- Em. pose proof (gh_total h G). unfold two64 in *. lia. }
  exists more. unfold stream_averaging, read_header_uncompressed. rewrite (read_header_round_trip h _ G). cbn [bind].
  rewrite C. cbn [Z.eqb negb bind]. change (mk_sums 0 _) with (running []). rewrite Em, A. reflexivity.
Qed.

(** What generate_infinite_points has written stays as it is when it goes on. *)
Theorem C114_generated : forall coord, (forall k, d_ok (coord k)) -> forall n more, exists written further,
  appends (generate_infinite_points coord n) written /\ appends (generate_infinite_points coord (n + more)) (written ++ further).
Proof.
  intros coord O n more. destruct (C96_generate coord O) as (h & hb & _ & _ & _ & _ & _ & _ & H).
  destruct (H n) as (r1 & L1 & A1). destruct (H (n + more)%nat) as (r2 & L2 & A2).
  destruct (layouts_bytes _ _ L1) as [_ E1]. destruct (layouts_bytes _ _ L2) as [_ E2].
  unfold draws in *. rewrite seq_app, !map_app in E2. unfold prs_bytes in *. rewrite flat_map_app in E2.
  eexists (hb ++ List.concat r1), _. split; [exact A1|]. rewrite <- app_assoc.
  replace (List.concat r1 ++ _) with (List.concat r2) by (rewrite E2, <- E1; reflexivity). exact A2.
Qed.

(** A header that announces three records with two extra fields, and two of the records;
    "set c,2" succeeds on both and "set e2,1" fails on the first. *)
Definition st_header : header := mk_header SPOC 0 1 [65] 2 3 0.
Definition st_recs : list point_record := [tx_p; set_c 9 tx_p].

Example C114_hypotheses : good_header st_header /\ header_layout st_header (header_bytes st_header) /\ h_compressed st_header = 0
  /\ Forall2 record_layout st_recs (map pr_bytes st_recs) /\ has_extras (h_extra st_header) st_recs
  /\ Z.of_nat (List.length st_recs) <= h_total st_header.
Proof.
  assert (G : good_header st_header) by (constructor; try reflexivity; try (cbn; lia); cbn; repeat constructor; lia).
  split; [exact G|]. split; [now apply header_bytes_layout|]. split; [reflexivity|]. split; [|split].
  - repeat constructor; apply pr_bytes_layout; constructor; cbn; unfold u32_ok, u16_ok, two32, two16; try lia; repeat constructor; cbn; unfold d_ok, u64_ok, two64; try lia; now vm_compute.
  - intros p [<-|[<-|[]]]; reflexivity.
  - cbn. lia.
Qed.

(** The results are there although the third record never comes (its place is taken by
    zeros), and the failure is that of the first record. *)
Example C114_example :
  (let '(os, r) := transform_tool tx_stod tx_trig tx_noise [tx_cmd "set" "c,2"] 0 (header_bytes st_header ++ prs_bytes st_recs ++ [7]) o_open in
   firstn (List.length (header_bytes st_header ++ prs_bytes st_recs)) (o_bytes os) = header_bytes st_header ++ prs_bytes [tx_p; tx_p])
  /\ (let '(os, r) := transform_tool tx_stod tx_trig tx_noise [tx_cmd "set" "e2,1"] 0 (header_bytes st_header ++ prs_bytes st_recs ++ [7]) o_open in
   o_bytes os = header_bytes st_header /\ r <> Ret tt)
  /\ stream_averaging (fun i => Nat.eqb i 1) (header_bytes st_header ++ prs_bytes st_recs ++ [7]) = Ret [(2, pr_pt tx_p)].
Proof. vm_compute. repeat split. discriminate. Qed.

Print Assumptions C114_transform.
Print Assumptions C114_noop.
Print Assumptions C114_averages.
Print Assumptions C114_generated.
