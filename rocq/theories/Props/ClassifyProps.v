(** C127: subsample a file, classify the small file, and give its classes to the large one. *)
From Coq Require Import String ZArith List Bool Lia Permutation Reals.
From Flocq Require Import Core.
From Verif.Model Require Import Base Double Arith Header PointRecord Point File Subsampling Compression IO Affine AppConvert AppUtils FilterApp
  TransformApp ToolApp GetOpt Commands Programs.
From Verif.Spec Require Import Text Streams Files Apps ZlibContract Format CommandLines Rounding Geometry Tools Sampling Fields.
From Verif.Proofs Require Import BaseFacts HeaderCutFacts StoreFacts FilterFacts ToyZlib.
From Verif.Props Require Import FilterProps ToolGeometryProps SrsProps CommandProps ProgramProps PipeProps TransformProps ScenarioProps WorkflowProps.
Import ListNotations.
Open Scope Z_scope.

(** The record [p] with the class [k] *)
Definition with_class (k : Z) (p : point_record) : point_record :=
  mk_pr (rx p) (ry p) (rz p) k (rp p) (ri p) (rr p) (rg p) (rb p) (rextra p).

Lemma only_with_class p p' : only [FC] p p' -> p' = with_class (rc p') p.
Proof.
  intros [L H].
  assert (E : rextra p' = rextra p).
  { apply nth_ext with (d := 0) (d' := 0); [exact L|]. intros n Hn. specialize (H (FE (Z.of_nat n))). cbn [value] in H.
    rewrite (proj2 (Z.ltb_ge _ _)) in H by lia. rewrite Nat2Z.id in H. specialize (H ltac:(cbn; intuition discriminate)).
    rewrite (nth_error_nth' _ 0) in H by exact Hn. rewrite (nth_error_nth' _ 0) in H by lia. now injection H. }
  assert (V : forall fld g, (forall q, value fld q = Some (g q)) -> ~ In fld [FC] -> g p' = g p).
  { intros fld g G N. specialize (H fld N). rewrite !G in H. now injection H. }
  pose proof (V FX rx ltac:(reflexivity) ltac:(cbn; intuition discriminate)) as E1. pose proof (V FY ry ltac:(reflexivity) ltac:(cbn; intuition discriminate)) as E2.
  pose proof (V FZ rz ltac:(reflexivity) ltac:(cbn; intuition discriminate)) as E3. pose proof (V FP rp ltac:(reflexivity) ltac:(cbn; intuition discriminate)) as E4.
  pose proof (V FI ri ltac:(reflexivity) ltac:(cbn; intuition discriminate)) as E5. pose proof (V FR rr ltac:(reflexivity) ltac:(cbn; intuition discriminate)) as E6.
  pose proof (V FG rg ltac:(reflexivity) ltac:(cbn; intuition discriminate)) as E7. pose proof (V FB rb ltac:(reflexivity) ltac:(cbn; intuition discriminate)) as E8.
  unfold with_class. destruct p' as [x y w c i0 i r g b e]. cbn in *. congruence.
Qed.

(** What spoc_filter leaves in its output is a file as it is written. *)
Lemma filter_stored z ZS sh stod atof debug acc f fs a b argv es input os : zlib_ok z ZS -> permutes sh -> storable f ->
  reads z fs a f -> may_read acc a -> may_write acc b -> asks filter_options argv es [a; b] ->
  let run := spoc_filter z sh stod atof debug acc argv input os fs in
  status_of run = Ret 0 -> exists g, stored z debug (files_of run) b g /\ storable g /\ same_meta f g.
Proof.
  intros Hz P S (bytes & Ea & s & R0) Ra Wb (L & H & V) run. unfold run, spoc_filter.
  rewrite (program_runs _ _ _ _ _ _ _ (C84_filter atof _ _ _ L H)) by assumption || reflexivity.
  match goal with |- context [filter_work z sh stod debug ?A] => set (args := A) end.
  destruct (filter_process sh stod args f) as [g|e|u|] eqn:E.
  - assert (Me : same_meta f g /\ storable g).
    { destruct (C78_only_selects sh stod args f g P (storable_live f S) E) as (Me & (rest & Pm) & _). split; [exact Me|]. destruct Me as (M1 & M2 & M3 & M4).
      assert (G : with_prs f (f_prs g) = g) by (clear - M1 M2 M3 M4; destruct g, f; cbn in *; unfold with_prs; cbn; congruence).
      rewrite <- G. apply storable_pick; [exact S| |].
      - intros p I. eapply Permutation_in; [exact Pm|]. apply in_or_app. now left.
      - apply Permutation_length in Pm. rewrite app_length in Pm. lia. }
    destruct Me as [Me Sg]. destruct (written_reads z ZS debug g Hz Sg) as (out & g' & A & _).
    assert (Wk : filter_work z sh stod debug args bytes = Ret _) by (unfold filter_work; rewrite R0; cbn [bind]; rewrite E; reflexivity).
    rewrite (convert_run _ _ _ _ _ input os fs _ _ Ra Wb Ea Wk A). intros _. exists g. split; [|now split]. exists out. split; [apply put_same|exact A].
  - assert (Wk : filter_work z sh stod debug args bytes = Throw e) by (unfold filter_work; rewrite R0; cbn [bind]; rewrite E; reflexivity).
    rewrite (convert_throws _ _ _ _ _ input os fs _ Ra Ea Wk). discriminate.
  - destruct Ra as [Na Ra]. unfold convert. cbn [io_input]. rewrite (input_file acc a input fs bytes Na Ea Ra). cbn [bind].
    unfold filter_work. rewrite R0. cbn [bind]. rewrite E. discriminate.
  - destruct Ra as [Na Ra]. unfold convert. cbn [io_input]. rewrite (input_file acc a input fs bytes Na Ea Ra). cbn [bind].
    unfold filter_work. rewrite R0. cbn [bind]. rewrite E. discriminate.
Qed.

Lemma reads_one z fs n f g : reads z fs n f -> reads z fs n g -> f = g.
Proof. intros (b & E & s & R) (b' & E' & s' & R'). rewrite E in E'. injection E' as <-. rewrite R in R'. now injection R'. Qed.

Lemma stored_reads z ZS debug fs n f : zlib_ok z ZS -> storable f -> f_compressed f = false -> stored z debug fs n f -> reads z fs n f.
Proof.
  intros Hz S C St. destruct (C89_stored z ZS debug fs n f Hz S St) as (f' & R & K & _). unfold kept in K. rewrite C in K. now subst f'.
Qed.

(** Subsample [a] into [b] with the resolution [r], set the class of all records of [b]
    to the number written in [text], which gives [d], and upsample the classifications of
    [d] to [a]: the result [c] is [a] with that class in every record. *)
Theorem C127_classify z ZS sh stod t noise atof show rd debug acc f fs a b c d r m v n text argv1 argv2 argv3 es1 es2 es3 in1 in2 in3 os1 os2 os3 :
  zlib_ok z ZS -> permutes sh -> (forall s v n, stod s = Some (v, n) -> d_ok v) ->
  storable f -> f_compressed f = false -> reads z fs a f -> Forall (fun p => pt_finite (pr_pt p)) (f_prs f) -> f_prs f <> [] ->
  finite r -> (0 < d_val r)%R -> pt_finite m -> lowest (map pr_pt (f_prs f)) m ->
  may_read acc a -> may_read acc b -> may_write acc b -> may_read acc d -> may_write acc d -> may_write acc c -> a <> b -> a <> d -> b <> d ->
  asks filter_options argv1 es1 [a; b] -> subsamples atof es1 r ->
  asks transform_options argv2 es2 [b; d] -> chosen transform_commands es2 = [("set"%string, chars "c," ++ text)] -> chosen noise_options es2 = [] ->
  stod text = Some (v, n) -> finite v -> 0 <= Ztrunc (d_val v) < 2 ^ 32 ->
  asks tool_options argv3 es3 [d; c] -> upsamples atof es3 a r ->
  let run := spoc_filter z sh stod atof debug acc argv1 in1 os1 fs in
  status_of run = Ret 0 ->
  exists fs2 fs3, spoc_transform stod t noise acc argv2 in2 os2 (files_of run) = (os2, fs2, Ret 0)
    /\ spoc_tool z show rd atof debug acc argv3 in3 os3 fs2 = (os3, fs3, Ret 0)
    /\ reads z fs3 c (with_prs f (map (with_class (Ztrunc (d_val v))) (f_prs f))).
Proof.
  intros Hz P Sok Sf Cf Rf Ff Nf Fr Pr Fm Lm Ra Rb Wb Rd Wd Wc Nab Nad Nbd L1 U1 L2 Ch NN St Fv Rv L3 U3 run Ok.
  destruct (C92_upsample z ZS sh stod atof show rd debug acc f fs a b c r m argv1 argv3 es1 es3 in1 in3 os1 os3 Hz P Sf Rf Ff Nf Fr Pr Fm Lm Ra Wb L1 U1 Ok)
    as (s & Rs & Ss & Os & Or & Up). fold run in Rs, Os.
  destruct (filter_stored z ZS sh stod atof debug acc f fs a b argv1 es1 in1 os1 Hz P Sf Rf Ra Wb L1 Ok) as (g0 & Sg0 & Sg1 & M1 & M2 & M3 & M4). fold run in Sg0.
  assert (g0 = s) as ->.
  { eapply reads_one; [|exact Rs]. apply (stored_reads z ZS debug _ _ _ Hz Sg1); [congruence|exact Sg0]. }
  set (k := Ztrunc (d_val v)) in *.
  assert (Dv : d_ok v) by (eapply Sok; exact St).
  destruct Ss as (Gs & Sz & ke & Hk & Bk). pose proof Gs as [G1 G2 G3 G4 G5 G6 G7].
  set (cs := map (fun '(n, v) => mk_command (chars n) v) (chosen transform_commands es2)).
  set (seed := final (fun s => to_u64 (atol s)) "random-seed" es2 0).
  assert (Ecs : cs = [mk_command (chars "set") (chars "c," ++ text)]) by (unfold cs; rewrite Ch; reflexivity).
  assert (Op : exists op, get_op stod t noise seed (get_extra_fields s) (mk_command (chars "set") (chars "c," ++ text)) = Ret op
     /\ forall i p, op i p = Ret (with_class k p)).
  { destruct (C60_set stod t noise seed (get_extra_fields s) FC (chars "c") 44 text v n) as (op & E & H).
    - reflexivity.
    - repeat constructor; cbn; lia.
    - unfold alphanumeric. cbn. lia.
    - exact St.
    - exact Dv.
    - exists op. split; [exact E|]. intros i p. destruct (H i p) as (_ & _ & H3 & _).
      destruct H3 as (p' & E' & Va & On); [discriminate|unfold integer_field; cbn; intuition discriminate|exact Fv|exact Rv|]. rewrite E'. f_equal.
      rewrite (only_with_class p p' On). cbn [value] in Va. injection Va as ->. reflexivity. }
  destruct Op as (op & Eo & Ho).
  set (prs2 := map (with_class k) (f_prs s)).
  assert (Ck : ke <= 255) by (destruct (f_compressed s); lia).
  destruct (C90_transform z stod t noise debug acc s ke (files_of run) b d argv2 es2 prs2 in2 os2) as (fs2 & T1 & T2 & T3); auto.
  { congruence. }
  { fold cs. rewrite Ecs. discriminate. }
  { fold cs. fold seed. rewrite Ecs. intros x [<-|[]]. now exists op. }
  { fold cs. fold seed. rewrite Ecs. unfold prs2. generalize 0. clear - Eo Ho. induction (f_prs s) as [|p l IH]; intros i; cbn [numbered map]; constructor; [|apply IH].
    cbn [fst snd]. eapply ap_next; [exact Eo|apply Ho|constructor]. }
  set (l := with_prs s prs2) in *.
  assert (Sl : storable l).
  { split; [split; cbn [l with_prs f_major f_minor f_wkt f_prs]; auto|].
    - unfold prs2. apply Forall_map. eapply Forall_impl; [|exact G5]. intros p [A1 A2 A3 A4 A5 A6 A7 A8 A9 A10]. constructor; cbn; auto.
    - intros p q Ip Iq. apply in_map_iff in Ip as (p' & <- & Ip), Iq as (q' & <- & Iq). exact (G6 p' q' Ip Iq).
    - unfold prs2. now rewrite map_length.
    - cbn [l with_prs f_prs f_compressed]. unfold prs2. rewrite map_length. split; [exact Sz|]. exists ke. split; [|exact Bk].
      intros q I. apply in_map_iff in I as (p & <- & I). exact (Hk p I). }
  assert (Cl : f_compressed l = false) by (cbn; congruence).
  destruct (Up fs2 d l) as (fs3 & g & g' & E & _ & Rg & Kg & (N1 & N2 & N3 & N4) & A).
  { rewrite T3 by exact Nad. now apply Os. }
  { eapply stored_reads; eauto. }
  { exact Sl. }
  { cbn [l with_prs f_prs]. unfold prs2. clear - Or. induction (f_prs s) as [|q qs IH]; cbn [map]; constructor; [|apply IH; intros; apply Or; now right].
    destruct (Or q (or_introl eq_refl)) as (_ & _ & (F & _ & _) & _). split; [exact F|]. split; [exact F|reflexivity]. }
  { exact Rd. }
  { exact Wc. }
  { exact L3. }
  { exact U3. }
  exists fs2, fs3. split; [exact T1|]. split; [exact E|].
  assert (g' = g) as -> by (unfold kept in Kg; rewrite N4, Cf in Kg; exact Kg).
  assert (Q : f_prs g = map (with_class k) (f_prs f)).
  { clear - A. subst l prs2. cbn [with_prs f_prs] in A. induction A as [|p p' ps ps' (O & q & Iq & _ & C & _) A IH]; [reflexivity|]. cbn [map]. rewrite IH. f_equal.
    rewrite (only_with_class p p' O), C. apply in_map_iff in Iq as (q0 & <- & _). reflexivity. }
  rewrite <- Q. replace (with_prs f (f_prs g)) with g; [exact Rg|]. clear - N1 N2 N3 N4. destruct f, g. cbn in *. unfold with_prs. cbn. congruence.
Qed.
(** The file of C92, five records of the class 1 that are subsampled to two, with the
    class 2. *)
Definition cl_stod : stod_fn := fun s => if beq_bytes s (chars "2") then Some (d_two, 1) else None.

Example C127_example t noise show :
  let argv1 := words ["--subsample=2"; "a"; "b"]%string in
  let argv2 := words ["--set=c,2"; "b"; "e"]%string in
  let argv3 := words ["--upsample-classifications=a"; "--resolution=2"; "e"; "c"]%string in
  let es1 := [("subsample"%string, Some (chars "2"))] in
  let es2 := [("set"%string, Some (chars "c,2"))] in
  let es3 := [("upsample-classifications"%string, Some (chars "a")); ("resolution"%string, Some (chars "2"))] in
  let run := spoc_filter toy (fun _ l => l) cl_stod w_atof false all_rights argv1 [] at_start w_fs in
  let set := spoc_transform cl_stod t noise all_rights argv2 [] at_start (files_of run) in
  let up := spoc_tool toy show w_rd w_atof false all_rights argv3 [] at_start (files_of set) in
  storable high_file /\ f_compressed high_file = false /\ reads toy w_fs (chars "a") high_file
  /\ (forall s v n, cl_stod s = Some (v, n) -> d_ok v) /\ cl_stod (chars "2") = Some (d_two, 1) /\ finite d_two /\ Ztrunc (d_val d_two) = 2
  /\ asks filter_options argv1 es1 [chars "a"; chars "b"] /\ subsamples w_atof es1 d_two
  /\ asks transform_options argv2 es2 [chars "b"; chars "e"] /\ chosen transform_commands es2 = [("set"%string, chars "c," ++ chars "2")]
  /\ chosen noise_options es2 = []
  /\ asks tool_options argv3 es3 [chars "e"; chars "c"] /\ upsamples w_atof es3 (chars "a") d_two
  /\ status_of run = Ret 0 /\ status_of set = Ret 0 /\ status_of up = Ret 0
  /\ map rc (f_prs high_file) = [1; 1; 1; 1; 1]
  /\ option_map (fun g => map rc (f_prs g)) (seen (files_of up) "c") = Some [2; 2; 2; 2; 2].
Proof.
  cbv zeta. split; [exact high_storable|]. split; [reflexivity|]. split.
  { eexists. split; [vm_compute; reflexivity|]. exists (i_open []). now vm_compute. }
  split.
  { intros s v n. unfold cl_stod. destruct (beq_bytes s (chars "2")); [|discriminate]. intros [= <- _]. apply small_finite. }
  split; [reflexivity|]. split; [apply small_finite|]. split.
  { assert (E : exists k, d_to_int d_two = Ret k /\ k = 2) by (eexists; split; vm_compute; reflexivity). destruct E as (k & E & ->).
    unfold d_to_int in E. apply ArithFacts.d_cast_ret in E as (_ & E & _). now symmetry. }
  split; [option_asked "subsample"%string "s"%string "2"%string ["a"; "b"]%string|]. split; [repeat split|].
  split; [option_asked "set"%string ""%string "c,2"%string ["b"; "e"]%string|]. split; [reflexivity|]. split; [reflexivity|]. split.
  { refine (asks_more _ "upsample-classifications"%string ""%string "a"%string _ _ _ _ _ _ _ _); [cbn; tauto|cbn; intuition discriminate|discriminate|discriminate|].
    option_asked "resolution"%string ""%string "2"%string ["e"; "c"]%string. }
  split; [repeat split|]. split; [now vm_compute|]. split; [now vm_compute|]. split; [now vm_compute|]. split; now vm_compute.
Qed.

Print Assumptions C127_classify.
