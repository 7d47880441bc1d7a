(** Programs that are meant to be used together: spoc_filter --subsample and spoc_tool
    --upsample-classifications. *)
From Coq Require Import String ZArith List Bool Lia Permutation Sorted Reals Lra.
From Verif.Model Require Import Base Double Arith Header PointRecord Point File Subsampling Compression IO Affine AppConvert AppUtils FilterApp
  MergeApp TileApp TransformApp DiffApp ToolApp SrsApp Asprs Json InfoApp GetOpt Commands Programs.
From Verif.Spec Require Import Text Streams Files History Apps ZlibContract Format CommandLines Rounding Geometry Tools Sampling Fields Diffs Tiles.
From Verif.Proofs Require Import BaseFacts HeaderFacts HeaderCutFacts TextFacts CommandFacts OptionFacts FileIOFacts FilterFacts StoreFacts DoubleFacts ToolGeometryFacts TileSizeFacts ProgramFacts ToyZlib.
From Verif.Props Require Import FileProps SearchProps FilterProps TileProps ToolProps ToolGeometryProps ToolProgramProps SrsProps CommandProps
  ProgramProps PipeProps ScenarioProps.
Import ListNotations.
Open Scope Z_scope.

(** ** A command of spoc_tool that writes a file *)

Lemma tool_run z ZS show rd atof debug acc fs a c argv es x f g input os : zlib_ok z ZS -> storable g -> reads z fs a f ->
  may_read acc a -> may_write acc c -> asks tool_options argv es [a; c] -> one_command es = Some x ->
  cmd_name x <> [] -> cmd_name x <> chars "get-field" ->
  tool_command z rd debug (readable acc fs) (mk_targs x (final (fun s => s) "field-filename" es []) (final atof "resolution" es d_zero)) f = Ret g ->
  exists fs' g', spoc_tool z show rd atof debug acc argv input os fs = (os, fs', Ret 0)
    /\ reads z fs' c g' /\ kept g g' /\ storable g' /\ forall n, n <> c -> fs' n = fs n.
Proof.
  intros Hz Sg (bytes & Ea & s & R0) Ra Wc (L & H & V) O N1 N2 E.
  destruct (written_reads z ZS debug g Hz Sg) as (out & g' & A & Kg & Rg). exists (file_put c out fs), g'.
  unfold spoc_tool. pose proof (tool_line atof _ _ _ L H) as G. rewrite O in G. cbn [with_names input_and_output] in G.
  rewrite (program_runs _ _ _ _ _ _ _ G) by assumption || reflexivity. unfold tool_body. cbn [ta_command].
  replace (no_chars (cmd_name x)) with false by (destruct (cmd_name x); [now elim N1|reflexivity]).
  replace (beq_bytes (cmd_name x) (chars "get-field")) with false
    by (destruct (beq_bytes (cmd_name x) (chars "get-field")) eqn:B; [apply beq_bytes_eq in B; contradiction|reflexivity]).
  match goal with |- context [convert acc _ (tool_work z rd debug (readable acc fs) ?args)] =>
    assert (Wk : tool_work z rd debug (readable acc fs) args bytes = Ret _) by (unfold tool_work; rewrite R0; cbn [bind]; rewrite E; reflexivity) end.
  rewrite (convert_run _ _ _ _ _ input os fs _ _ Ra Wc Ea Wk A).
  split; [reflexivity|]. split; [apply Rg|]. split; [exact Kg|]. split; [now apply kept_storable with g|]. intros n N. now apply put_other.
Qed.

(** ** C92: subsample, change classes, upsample *)

Lemma zero_value d : is_zero_double d -> d_val d = 0%R /\ d_ok d /\ d_is_finite d = true.
Proof. intros [-> | ->]; (split; [reflexivity|split; [now vm_compute|now vm_compute]]). Qed.

Lemma kept_place prs p p' : In p prs -> pt_finite (pr_pt p) -> kept_record prs p p' -> same_place (pr_pt p') (pr_pt p) /\ rc p' = rc p.
Proof.
  intros I F (X & Y & Z & C & _). split; [|exact C].
  assert (Q : forall sel, d_ok (sel p) -> d_is_finite (sel p) = true -> kept_coord sel prs p p' -> d_ok (sel p') /\ d_is_finite (sel p') = true /\ d_val (sel p') = d_val (sel p)).
  { intros sel O D [[-> _]|[-> A]]; [auto|]. destruct (zero_value _ (A p I)) as (-> & _ & _). split; [now vm_compute|]. split; [now vm_compute|reflexivity]. }
  destruct F as ((O1 & O2 & O3) & D1 & D2 & D3). cbn [pr_pt px py pz] in *.
  destruct (Q rx O1 D1 X) as (A1 & A2 & A3). destruct (Q ry O2 D2 Y) as (B1 & B2 & B3). destruct (Q rz O3 D3 Z) as (C1 & C2 & C3).
  split; [split; [split|]; cbn; auto|]. split; [split; [split|]; cbn; auto|]. intros ax [<-|[<-|[<-|[]]]]; assumption.
Qed.

Lemma kept_places f f' : kept f f' -> Forall (fun p => pt_finite (pr_pt p)) (f_prs f) ->
  Forall2 (fun p' p => same_place (pr_pt p') (pr_pt p) /\ rc p' = rc p) (f_prs f') (f_prs f).
Proof.
  unfold kept. intros K F. rewrite Forall_forall in F. destruct (f_compressed f).
  - destruct K as (_ & _ & _ & _ & K).
    assert (G : forall all ps ps', Forall2 (kept_record all) ps ps' -> (forall p, In p ps -> In p all /\ pt_finite (pr_pt p)) ->
      Forall2 (fun p' p => same_place (pr_pt p') (pr_pt p) /\ rc p' = rc p) ps' ps).
    { clear. intros all ps ps'. induction 1 as [|p p' ps ps' H _ IH]; intros X; constructor; [|apply IH; intros; apply X; now right].
      destruct (X p (or_introl eq_refl)) as [I F]. now apply kept_place with all. }
    apply (G _ _ _ K). auto.
  - subst f'. induction (f_prs f) as [|p ps IH]; constructor; [|apply IH; intros; apply F; now right].
    assert (P : pt_finite (pr_pt p)) by (apply F; now left). repeat split; try apply P.
Qed.

(** spoc_filter with --subsample (and perhaps --random-seed), but nothing else *)
Definition subsamples (atof : atof_fn) (es : list setting) (r : double) : Prop :=
  given "keep-class" es = false /\ given "remove-class" es = false /\ given "unique-xyz" es = false /\ given "remove-coords" es = false
  /\ final atof "subsample" es d_zero = r.
(** spoc_tool with --upsample-classifications and --resolution *)
Definition upsamples (atof : atof_fn) (es : list setting) (fn : list Z) (r : double) : Prop :=
  one_command es = Some (mk_command (chars "upsample-classifications") fn) /\ final atof "resolution" es d_zero = r.

Lemma Forall2_In_l : forall {A B} (R : A -> B -> Prop) a b x, Forall2 R a b -> In x a -> exists y, In y b /\ R x y.
Proof.
  induction 1 as [|x0 y0 a b H _ IH]; intros I; [destruct I|]. destruct I as [->|I]; [exists y0; split; [now left|exact H]|].
  destruct (IH I) as (y & J & K). exists y. split; [now right|exact K].
Qed.

Lemma only_class p p' : only [FC] p p' -> rc p' = rc p -> p' = p.
Proof.
  intros (L & H) C.
  assert (E : rextra p' = rextra p).
  { assert (X : forall (l k : list Z), (forall n, nth_error l n = nth_error k n) -> l = k).
    { induction l as [|x l IH]; intros [|y k] Q; [reflexivity|discriminate (Q O)|discriminate (Q O)|].
      injection (Q O) as ->. f_equal. apply IH. intros n. exact (Q (S n)). }
    apply X. intros n. specialize (H (FE (Z.of_nat n))). cbn [value] in H. replace (Z.of_nat n <? 0) with false in H by (symmetry; apply Z.ltb_ge; lia).
    rewrite Nat2Z.id in H. apply H. intros [Y|[]]. discriminate Y. }
  assert (V : forall g, ~ In g [FC] -> value g p' = value g p) by exact H.
  pose proof (V FX) as X1. pose proof (V FY) as X2. pose proof (V FZ) as X3. pose proof (V FP) as X4. pose proof (V FI) as X5.
  pose proof (V FR) as X6. pose proof (V FG) as X7. pose proof (V FB) as X8. clear V H. cbn [value In] in *.
  destruct p, p'. cbn in *. f_equal; try assumption; (match goal with X : _ -> Some ?a = Some ?b |- ?a = ?b => 
    assert (Q : Some a = Some b) by (apply X; intros [Y|[]]; discriminate Y); now injection Q end).
Qed.

Lemma not_given n es : given n es = false -> arguments n es = [] /\ forall A (f : list Z -> A) d, final f n es d = d.
Proof.
  intros G. assert (X : arguments n es = []).
  { induction es as [|[m v] es IH]; [reflexivity|]. unfold given in G. cbn [existsb fst] in G. apply orb_false_iff in G as [G1 G2].
    unfold arguments. cbn [flat_map fst]. rewrite G1. now apply IH. }
  split; [exact X|]. intros A f d. unfold final. now rewrite X.
Qed.

(** Filtering [a] into [b] and upsampling from there into [c], with the same resolution.
    Between the two, the classes of the low resolution file may have been changed, and it
    may have been moved.  Then every record of [c] is that of [a], but with the class of the
    one and only low resolution record in its voxel. *)
Theorem C92_upsample z ZS sh stod atof show rd debug acc f fs a b c r m argv1 argv2 es1 es2 in1 in2 os1 os2 : zlib_ok z ZS -> permutes sh ->
  storable f -> reads z fs a f -> Forall (fun p => pt_finite (pr_pt p)) (f_prs f) -> f_prs f <> [] ->
  finite r -> (0 < d_val r)%R -> pt_finite m -> lowest (map pr_pt (f_prs f)) m ->
  may_read acc a -> may_write acc b -> asks filter_options argv1 es1 [a; b] -> subsamples atof es1 r ->
  let run := spoc_filter z sh stod atof debug acc argv1 in1 os1 fs in
  status_of run = Ret 0 ->
  exists s, reads z (files_of run) b s /\ storable s /\ (forall n, n <> b -> files_of run n = fs n) /\
  (forall q, In q (f_prs s) -> exists p, In p (f_prs f) /\ same_place (pr_pt q) (pr_pt p) /\ rc q = rc p) /\
  forall fs2 b2 l, fs2 a = fs a -> reads z fs2 b2 l -> storable l -> Forall2 (fun q p => same_place (pr_pt q) (pr_pt p)) (f_prs l) (f_prs s) ->
  may_read acc b2 -> may_write acc c -> asks tool_options argv2 es2 [b2; c] -> upsamples atof es2 a r ->
  exists fs3 g g', spoc_tool z show rd atof debug acc argv2 in2 os2 fs2 = (os2, fs3, Ret 0)
    /\ (forall n, n <> c -> fs3 n = fs2 n)
    /\ reads z fs3 c g' /\ kept g g' /\ same_meta f g
    /\ Forall2 (fun p p' => only [FC] p p' /\ exists q, In q (f_prs l) /\ same_voxel m r (pr_pt p) (pr_pt q) /\ rc p' = rc q
         /\ forall q', In q' (f_prs l) -> same_voxel m r (pr_pt p) (pr_pt q') -> q' = q) (f_prs f) (f_prs g).
Proof.
  intros Hz P Sf Rf Ff Nf Fr Pr Fm Lm Ra Wb L1 (K1 & K2 & K3 & K4 & K5) run St. subst run.
  pose proof (C89_filter z ZS sh stod atof debug acc f fs a b argv1 es1 in1 os1 Hz P Sf Rf Ra Wb L1) as Fl. cbv zeta in Fl.
  rewrite (proj1 (not_given _ _ K1)), (proj1 (not_given _ _ K2)), K3, K5, (proj2 (not_given _ _ K4)) in Fl.
  cbn [map] in Fl. set (seed := final _ "random-seed" es1 0) in Fl.
  pose proof (storable_live f Sf) as Lf.
  destruct (filter_process sh stod _ f) as [s0|e|u|] eqn:E; try (rewrite Fl in St; discriminate St).
  pose proof (C78_only_selects sh stod _ f s0 P Lf E) as (_ & (rest & Pm) & _).
  destruct Fl as (fs1 & s & E1 & R1 & Ks & Ss & Os). exists s. rewrite E1. cbn [files_of]. split; [exact R1|]. split; [exact Ss|]. split; [exact Os|].
  assert (Ff0 : Forall (fun p => pt_finite (pr_pt p)) (f_prs s0)).
  { apply Forall_forall. intros p I. rewrite Forall_forall in Ff. apply Ff. eapply Permutation_in; [exact Pm|]. apply in_or_app. now left. }
  pose proof (kept_places s0 s Ks Ff0) as Kp. split.
  { intros q Iq. destruct (Forall2_In_l _ _ _ _ Kp Iq) as (p & Ip & Sp & Cp). exists p. split; [|now split].
    eapply Permutation_in; [exact Pm|]. apply in_or_app. now left. }
  assert (Zr : d_gtb r d_zero = true) by (now apply TileSizeFacts.gtb_zero).
  unfold filter_process, assign_if in E. cbn [fa_keep fa_remove fa_unique fa_subsample fa_coords fa_seed nonempty bind] in E. rewrite Zr in E.
  destruct (subsample_file sh f r seed) as [s1|e|u|] eqn:Es; cbn [bind] in E; try discriminate E.
  assert (Q : f_prs s1 = f_prs s0).
  { unfold file_copy, file_ctor in E. destruct (negb _); [discriminate E|]. cbn [bind] in E. now injection E as <-. }
  clear E.
  intros fs2 b2 l Ea2 Rl Sl F2 Rb2 Wc L2 [U1 U2].
  assert (F3 : Forall2 (fun q p => same_place (pr_pt q) (pr_pt p)) (f_prs l) (f_prs s1)).
  { rewrite Q. clear - F2 Kp. revert F2. revert Kp. generalize (f_prs l), (f_prs s), (f_prs s0). intros l1 l2 l3 Kp. revert l1.
    induction Kp as [|p' p ps' ps [(A1 & A2 & A3) _] _ IH]; intros l1 F; inversion_clear F as [|q ? qs ? (B1 & B2 & B3) F']; constructor; [|now apply IH].
    split; [exact B1|]. split; [exact A2|]. intros ax I. now rewrite (B3 ax I), (A3 ax I). }
  destruct (C68_subsampled debug sh seed f s1 l r m P Lf (storable_live l Sl) Ff Nf Fr Pr Fm Lm Es F3) as (g & Eg & Lg & Mg & Ag).
  assert (Sg : storable g).
  { pose proof Sf as ([S1 S2 S3 S4 S5 S6 S7] & Sz & k & Hk & Bk). pose proof Sl as ([_ _ _ _ O5 _ _] & _).
    destruct (upsample_result debug l f r g (storable_live l Sl) Lf O5 S5 Eg) as (_ & (M1 & M2 & M3 & M4) & Og & Lg').
    split; [split; try congruence; try (rewrite M3; assumption); try exact Og; try apply Lg; lia|]. split; [lia|]. exists k. rewrite M4. split; [|exact Bk].
    intros p Ip. destruct (Forall2_In_r _ _ _ _ Ag Ip) as (q & Iq & ((Lq & _) & _)). rewrite Lq. now apply Hk. }
  destruct Rf as (bytes & Ea & sx & R0).
  destruct (tool_run z ZS show rd atof debug acc fs2 b2 c argv2 es2 _ l g in2 os2 Hz Sg Rl Rb2 Wc L2 U1) as (fs3 & g' & T1 & T2 & T3 & T4 & T5).
  - discriminate.
  - now vm_compute.
  - unfold tool_command. cbn [ta_command cmd_name cmd_params ta_resolution]. rewrite U2.
    repeat match goal with |- context [beq_bytes (chars ?x) (chars ?y)] =>
      let v := eval vm_compute in (beq_bytes (chars x) (chars y)) in change (beq_bytes (chars x) (chars y)) with v; cbv iota end.
    replace (d_leb r d_zero) with false.
    2: { symmetry. destruct (d_leb r d_zero) eqn:X; [|reflexivity]. exfalso. destruct Fr as [O1 O2].
         apply d_leb_val in X; auto; try (now vm_compute). change (d_val d_zero) with 0%R in X. lra. }
    unfold open_text, readable. destruct Ra as [_ Ra]. rewrite Ra, Ea2, Ea. cbn [bind].
    rewrite R0. cbn [bind]. rewrite Eg. cbn [bind]. now apply live_copy.
  - exists fs3, g, g'. split; [exact T1|]. split; [exact T5|]. split; [exact T2|]. split; [exact T3|]. split; [exact Mg|exact Ag].
Qed.

(** If nothing is changed in between, and the records of [a] that share a voxel have the
    same class, then [a] is back. *)
Theorem C92_restores z ZS sh stod atof show rd debug acc f fs a b c r m argv1 argv2 es1 es2 in1 in2 os1 os2 : zlib_ok z ZS -> permutes sh ->
  storable f -> reads z fs a f -> Forall (fun p => pt_finite (pr_pt p)) (f_prs f) -> f_prs f <> [] ->
  finite r -> (0 < d_val r)%R -> pt_finite m -> lowest (map pr_pt (f_prs f)) m ->
  may_read acc a -> may_read acc b -> may_write acc b -> may_write acc c -> a <> b ->
  asks filter_options argv1 es1 [a; b] -> subsamples atof es1 r -> asks tool_options argv2 es2 [b; c] -> upsamples atof es2 a r ->
  (forall p q, In p (f_prs f) -> In q (f_prs f) -> same_voxel m r (pr_pt p) (pr_pt q) -> rc p = rc q) ->
  let run := spoc_filter z sh stod atof debug acc argv1 in1 os1 fs in
  status_of run = Ret 0 ->
  exists fs3 g, spoc_tool z show rd atof debug acc argv2 in2 os2 (files_of run) = (os2, fs3, Ret 0) /\ reads z fs3 c g /\ kept f g.
Proof.
  intros Hz P Sf Rf Ff Nf Fr Pr Fm Lm Ra Rb Wb Wc Nab L1 U1 L2 U2 Same run St.
  destruct (C92_upsample z ZS sh stod atof show rd debug acc f fs a b c r m argv1 argv2 es1 es2 in1 in2 os1 os2 Hz P Sf Rf Ff Nf Fr Pr Fm Lm Ra Wb L1 U1 St)
    as (s & Rs & Ss & Os & Or & Up). fold run in Rs, Os.
  destruct (Up (files_of run) b s) as (fs3 & g & g' & E & _ & Rg & Kg & (M1 & M2 & M3 & M4) & A); auto.
  { clear - Or. induction (f_prs s) as [|q qs IH]; constructor; [|apply IH; intros; apply Or; now right].
    destruct (Or q (or_introl eq_refl)) as (_ & _ & (F & _ & _) & _). split; [exact F|]. split; [exact F|reflexivity]. }
  exists fs3, g'. split; [exact E|]. split; [exact Rg|]. replace f with g; [exact Kg|].
  assert (G : f_prs g = f_prs f).
  { assert (X : forall ps ps', (forall p, In p ps -> In p (f_prs f)) ->
      Forall2 (fun p p' => only [FC] p p' /\ exists q, In q (f_prs s) /\ same_voxel m r (pr_pt p) (pr_pt q) /\ rc p' = rc q
         /\ forall q', In q' (f_prs s) -> same_voxel m r (pr_pt p) (pr_pt q') -> q' = q) ps ps' -> ps' = ps).
    { clear - Or Same. intros ps ps' I F. induction F as [|p p' ps ps' (O & q & Iq & Sv & C & _) F IH]; [reflexivity|].
      rewrite IH by (intros; apply I; now right). f_equal. apply only_class; [exact O|]. rewrite C.
      destruct (Or q Iq) as (p0 & I0 & Sp & ->). symmetry. apply Same; [apply I; now left|exact I0|]. now apply (place_same m r (pr_pt p) _ _ Sp). }
    exact (X _ _ (fun _ I => I) A). }
  clear - M1 M2 M3 M4 G. destruct f, g. cbn in *. congruence.
Qed.

(** ** C93: cut into tiles, merge the tiles *)

(** [p'] is [p] but for the point id and the signs of zero coordinates. *)
Definition same_but_id (p p' : point_record) : Prop :=
  only [FX; FY; FZ; FP] p p' /\ forall sel, In sel [rx; ry; rz] -> sel p' = sel p \/ is_zero_double (sel p) /\ is_zero_double (sel p').

Lemma same_but_id_refl p : same_but_id p p.
Proof. split; [split; [reflexivity|auto]|]. intros sel _. now left. Qed.

Lemma same_but_id_trans p q r : same_but_id p q -> same_but_id q r -> same_but_id p r.
Proof.
  intros [[L1 O1] C1] [[L2 O2] C2]. split; [split; [congruence|]|].
  - intros g N. now rewrite O2, O1.
  - intros sel I. destruct (C2 sel I) as [E2|[A2 B2]], (C1 sel I) as [E1|[A1 B1]].
    + left. congruence.
    + right. split; [exact A1|now rewrite E2].
    + right. split; [now rewrite <- E1|exact B2].
    + right. now split.
Qed.

Lemma same_but_id_with i p : same_but_id p (with_id i p).
Proof.
  split; [split; [reflexivity|]|].
  - intros [] N; try reflexivity. elim N. right; right; right; now left.
  - intros sel [<-|[<-|[<-|[]]]]; now left.
Qed.

(** [p'] is [p] but for the point id; a zero coordinate may have lost its sign. *)
Definition but_id (p p' : point_record) : Prop :=
  only [FX; FY; FZ; FP] p p' /\ forall sel, In sel [rx; ry; rz] -> sel p' = sel p \/ is_zero_double (sel p) /\ sel p' = d_zero.

Lemma but_id_same p p' : but_id p p' -> same_but_id p p'.
Proof. intros [O C]. split; [exact O|]. intros sel I. destruct (C sel I) as [E|[A B]]; [now left|]. right. split; [exact A|now left]. Qed.

Lemma but_id_refl p : but_id p p.
Proof. split; [split; [reflexivity|auto]|]. intros sel _. now left. Qed.

Lemma but_id_trans p q r : but_id p q -> but_id q r -> but_id p r.
Proof.
  intros [[L1 O1] C1] [[L2 O2] C2]. split; [split; [congruence|]|].
  - intros g N. now rewrite O2, O1.
  - intros sel I. destruct (C2 sel I) as [E2|[A2 B2]], (C1 sel I) as [E1|[A1 B1]].
    + left. congruence.
    + right. split; [exact A1|now rewrite E2].
    + right. split; [now rewrite <- E1|exact B2].
    + right. now split.
Qed.

Lemma but_id_with i p : but_id p (with_id i p).
Proof.
  split; [split; [reflexivity|]|].
  - intros [] N; try reflexivity. elim N. right; right; right; now left.
  - intros sel [<-|[<-|[<-|[]]]]; now left.
Qed.

Lemma kept_but_id f f' : kept f f' -> Forall2 but_id (f_prs f) (f_prs f').
Proof.
  unfold kept. destruct (f_compressed f).
  - intros (_ & _ & _ & _ & K).
    assert (G : forall all ps ps', Forall2 (kept_record all) ps ps' -> (forall p, In p ps -> In p all) -> Forall2 but_id ps ps').
    { clear. intros all ps ps'. induction 1 as [|p p' ps ps' H _ IH]; intros I; constructor; [|apply IH; intros; apply I; now right].
      destruct H as (X & Y & Z & C & P & Ii & R & Gr & B & E).
      assert (Q : forall sel, kept_coord sel all p p' -> sel p' = sel p \/ is_zero_double (sel p) /\ sel p' = d_zero).
      { intros sel [[-> _]|[-> A]]; [now left|]. right. split; [apply A, I; now left|reflexivity]. }
      split; [split; [now rewrite E|]|].
      - intros [] N; cbn [value]; rewrite ?E; try congruence; elim N; cbn; auto.
      - intros sel [<-|[<-|[<-|[]]]]; now apply Q. }
    apply (G _ _ _ K). auto.
  - intros ->. induction (f_prs f); constructor; [apply but_id_refl|assumption].
Qed.
Lemma kept_same f f' : kept f f' -> Forall2 same_but_id (f_prs f) (f_prs f').
Proof. intros K. apply kept_but_id in K. induction K; constructor; [now apply but_id_same|assumption]. Qed.

Lemma kept_ids f f' : kept f f' -> map rp (f_prs f') = map rp (f_prs f).
Proof.
  unfold kept. destruct (f_compressed f); [|now intros ->]. intros (_ & _ & _ & _ & K). set (l := f_prs f) in K at 1. clearbody l.
  induction K as [|p q a b H K IH]; [reflexivity|]. cbn [map]. rewrite IH. now destruct H as (_ & _ & _ & _ & -> & _).
Qed.

Lemma kept_meta f f' : kept f f' -> f_wkt f' = f_wkt f /\ f_compressed f' = f_compressed f /\ f_major f' = f_major f /\ f_minor f' = f_minor f.
Proof. unfold kept. destruct (f_compressed f) eqn:C; [intros (A & B & D & E & _); rewrite E in *; auto|now intros ->]. Qed.

Lemma Forall2_trans {A B C} (P : A -> B -> Prop) (Q : B -> C -> Prop) (R : A -> C -> Prop) :
  (forall x y w, P x y -> Q y w -> R x w) -> forall a b c, Forall2 P a b -> Forall2 Q b c -> Forall2 R a c.
Proof.
  intros H a b c F. revert c. induction F; intros c' G; inversion G; subst; constructor; eauto.
Qed.

Lemma merged_same (id : Z -> Z) ts : forall i, Forall2 same_but_id (flat_map f_prs ts)
  (flat_map (fun '(i, h) => map (with_id (id i)) (f_prs h)) (numbered i ts)).
Proof.
  induction ts as [|h ts IH]; intros i; cbn [flat_map numbered]; [constructor|]. apply Forall2_app; [|apply IH].
  induction (f_prs h); cbn [map]; constructor; [apply same_but_id_with|assumption].
Qed.

Lemma merged_but_id (id : Z -> Z) ts : forall i, Forall2 but_id (flat_map f_prs ts)
  (flat_map (fun '(i, h) => map (with_id (id i)) (f_prs h)) (numbered i ts)).
Proof.
  induction ts as [|h ts IH]; intros i; cbn [flat_map numbered]; [constructor|]. apply Forall2_app; [|apply IH].
  induction (f_prs h); cbn [map]; constructor; [apply but_id_with|assumption].
Qed.

Lemma merged_ids (id : Z -> Z) ts : forall i, map rp (flat_map (fun '(i, h) => map (with_id (id i)) (f_prs h)) (numbered i ts))
  = flat_map (fun '(i, t) => map (fun _ => id i) (f_prs t)) (numbered i ts).
Proof. induction ts as [|h ts IH]; intros i; cbn [flat_map numbered]; [reflexivity|]. now rewrite map_app, map_map, IH. Qed.

Lemma same_ok p p' : same_but_id p p' -> u32_ok (rp p') -> pr_ok p -> pr_ok p'.
Proof.
  intros [[L O] C] I K. apply pr_ok_values. intros fld v V. pose proof (proj1 (pr_ok_values p) K) as Q.
  assert (Zr : forall sel f0, In sel [rx; ry; rz] -> (forall q, value f0 q = Some (sel q)) -> range f0 = 2 ^ 64 -> value f0 p' = Some v -> 0 <= v < range f0).
  { intros sel f0 Is E Rg V0. rewrite E in V0. injection V0 as <-. destruct (C sel Is) as [->|[_ [-> | ->]]]; [apply (Q f0); auto| |]; rewrite Rg; lia. }
  destruct fld; try (apply (Q _ v); rewrite <- V; symmetry; apply O; cbn; intuition discriminate).
  - apply (Zr rx FX); cbn; auto.
  - apply (Zr ry FY); cbn; auto.
  - apply (Zr rz FZ); cbn; auto.
  - cbn in V |- *. injection V as <-. exact I.
Qed.

(** The tiles of a file, given to spoc_merge in any order, make the file again: every
    record comes back once, changed only in its point id and in the signs of zeros.  The
    point ids are the number of the tile on the command line of spoc_merge, or the value
    of --point-id. *)
Theorem C93_tile_merge z ZS atof debug acc f fs a argv1 es1 in1 os1 : zlib_ok z ZS -> storable f -> all_bytes fs ->
  reads z fs a f -> may_read acc a -> asks tile_options argv1 es1 [a] ->
  let run := spoc_tile z atof debug acc argv1 in1 os1 fs in
  status_of run = Ret 0 ->
  exists names, NoDup names /\ Forall (tile_file es1 [a]) names /\ (forall n, ~ In n names -> files_of run n = fs n) /\
  forall ns argv2 es2 os2, Permutation ns names -> asks merge_options argv2 es2 ns -> (2 <= List.length names)%nat ->
  (forall n, In n names -> can_read acc n = true) -> healthy os2 ->
  exists os' out g, spoc_merge z debug acc argv2 os2 (files_of run) = (os', files_of run, Ret 0) /\ o_bytes os' = o_bytes os2 ++ out
    /\ read_spoc_file z (i_open out) = Ret (g, i_open []) /\ same_meta f g
    /\ (exists ps, Permutation ps (f_prs f) /\ Forall2 but_id ps (f_prs g))
    /\ exists ts, Forall2 (reads z (files_of run)) ns ts
       /\ let id := final atoi "point-id" es2 (-1) in
          map rp (f_prs g) = flat_map (fun '(i, t) => map (fun _ => if id <? 0 then i mod 2 ^ 32 else id mod 2 ^ 32) (f_prs t)) (numbered 0 ts).
Proof.
  intros Hz Sf Bf (bytes & Ea & s & R0) [Na Ra] (L1 & H1 & V1) run. subst run. unfold spoc_tile.
  pose proof (C84_tile atof _ _ _ L1 H1) as G. cbv zeta in G.
  assert (G' : tile_get_args atof argv1 = Ret (status es1, (mk_tile_args (given "force" es1) (final (fun s => to_u32 (atoi s)) "tiles" es1 2)
         (final (fun s => to_u32 (atoi s)) "digits" es1 3) (final atof "tile-size" es1 d_minus_one)
         (final atof "tile-size-x" es1 d_minus_one) (final atof "tile-size-y" es1 d_minus_one)
         (final (fun s => s) "prefix" es1 []) (Some (stem_extension a)), a))) by (rewrite G; destruct a; [now elim Na|reflexivity]).
  clear G. set (args := mk_tile_args _ _ _ _ _ _ _ _) in G'.
  rewrite (program_runs _ _ _ _ _ _ _ G') by assumption || reflexivity. rewrite (input_file acc a in1 fs bytes Na Ea Ra).
  destruct (tile_tool z debug acc args bytes fs) as [fs1 r] eqn:T. cbn [files_of status_of]. intros St.
  assert (r = Ret tt) as -> by (destruct r as [[]| | |]; try discriminate St; reflexivity). clear St.
  destruct (C52_partition z ZS debug acc args bytes f fs fs1 Hz Sf (ex_intro _ s R0) T) as (numbers & tiles & Nm & Srt & Pm & Tl & Oth).
  set (name k := tile_name args (f_compressed f) k) in *.
  assert (Nn : forall k t, In (k, t) tiles -> 0 <= k).
  { intros k t I. destruct (Tl k t I) as (_ & E & Ne & _). rewrite E in Ne. unfold numbered_with in Ne.
    assert (X : exists p, In (k, p) (combine numbers (f_prs f))).
    { clear - Ne. induction (combine numbers (f_prs f)) as [|[j q] l IH]; [now elim Ne|]. cbn [filter fst] in Ne.
      destruct (j =? k) eqn:J; [apply Z.eqb_eq in J as ->; exists q; now left|]. destruct (IH Ne) as (p & I). exists p. now right. }
    destruct X as (p & X). apply in_combine_l in X. apply numbers_facts in Nm as (_ & Nm). rewrite Forall_forall in Nm. now apply Nm in X. }
  exists (map (fun kt => name (fst kt)) tiles). split.
  { clear - Srt Nn. induction tiles as [|[k t] tl IH]; cbn [map]; [constructor|]. cbn [map fst] in Srt. apply StronglySorted_inv in Srt as [Srt Lt].
    constructor; [|apply IH; [exact Srt|intros; eapply Nn; right; eassumption]]. intros I. apply in_map_iff in I as ([k' t'] & E & I). cbn [fst] in E.
    apply C55_distinct_names in E; [|eapply Nn; right; exact I|eapply Nn; left; reflexivity]. subst k'.
    rewrite Forall_forall in Lt. specialize (Lt k (in_map fst _ _ I)). lia. }
  split.
  { apply Forall_forall. intros n I. apply in_map_iff in I as ([k t] & <- & I). eapply tile_named; [|left; discriminate|eapply Nn; exact I].
    destruct a; [now elim Na|reflexivity]. }
  split.
  { intros n Hn. apply Oth. intros k t I ->. apply Hn. apply in_map_iff. exists (k, t). now split. }
  intros ns argv2 es2 os2 Pn L2 Len Rd Ho.
  apply Permutation_map_inv in Pn as (tl & -> & Pt).
  assert (Len' : (2 <= List.length tl)%nat) by (rewrite map_length, (Permutation_length Pt) in Len; exact Len).
  assert (Tl' : forall kt, In kt tl -> In kt tiles) by (intros kt; apply Permutation_in; now symmetry).
  assert (X : exists ts, Forall2 (fun n h => may_read acc n /\ reads z fs1 n h) (map (fun kt => name (fst kt)) tl) ts
    /\ Forall2 (fun kt h => kept (snd kt) h) tl ts).
  { clear - Tl Tl' Na Rd Nn. assert (Rd' : forall k t, In (k, t) tl -> can_read acc (name k) = true).
    { intros k t I. apply Rd. apply in_map_iff. exists (k, t). auto. }
    clear Rd. induction tl as [|[k t] tl IH]; [exists []; split; constructor|].
    destruct IH as (ts & A & B); [intros; apply Tl'; now right|intros; eapply Rd'; right; eassumption|].
    destruct (Tl k t) as (_ & _ & _ & b & t' & E & _ & K & R); [apply Tl'; now left|].
    exists (t' :: ts). split; constructor; try assumption. split; [split|].
    - unfold name, tile_name, put_padded. intros Z0. apply app_eq_nil in Z0 as [_ Z0]. apply app_eq_nil in Z0 as [Z0 _]. apply app_eq_nil in Z0 as [_ Z0].
      apply (put_uint_spec k); [|exact Z0]. apply (Nn k t), Tl'. now left.
    - eapply Rd'. left. reflexivity.
    - exists b. split; [exact E|]. exists (i_open []). exact R. }
  destruct X as (ts & Rs & Ks).
  assert (Ps : Forall2 but_id (flat_map (fun kt => f_prs (snd kt)) tl) (flat_map f_prs ts)).
  { clear - Ks. induction Ks; cbn [flat_map]; [constructor|]. apply Forall2_app; [now apply kept_but_id|assumption]. }
  assert (Pp : Permutation (flat_map (fun kt => f_prs (snd kt)) tl) (f_prs f)).
  { rewrite <- Pm. apply Permutation_flat_map. now symmetry. }
  assert (Mt : forall h, In h ts -> f_wkt h = f_wkt f /\ f_compressed h = f_compressed f).
  { intros h I. destruct (Forall2_In_r _ _ _ _ Ks I) as ([k t] & J & K). destruct (Tl k t) as ((_ & _ & W & C) & _); [now apply Tl'|].
    cbn [snd] in K. destruct (kept_meta _ _ K) as (W' & C' & _). split; congruence. }
  assert (B1 : all_bytes fs1).
  { intros n b E. destruct (in_dec (list_eq_dec Z.eq_dec) n (map (fun kt => name (fst kt)) tiles)) as [I|I].
    - apply in_map_iff in I as ([k t] & <- & I). destruct (Tl k t I) as (_ & _ & _ & b' & t' & E' & B' & _). cbn [fst] in E. congruence.
    - apply (Bf n). rewrite <- E. symmetry. apply Oth. intros k t J ->. apply I. apply in_map_iff. exists (k, t). now split. }
  destruct Sf as ([G1 G2 G3 G4 G5 G6 G7] & Sz & ke & Hk & Bk).
  assert (Hx : forall ps, Forall2 but_id (flat_map (fun kt => f_prs (snd kt)) tl) ps -> has_extras ke ps /\ List.length ps = List.length (f_prs f)).
  { intros ps F2. split; [|rewrite <- (Permutation_length Pp); clear - F2; induction F2; cbn; congruence].
    intros q I. destruct (Forall2_In_r _ _ _ _ F2 I) as (p & J & [[L _] _]). rewrite L. apply Hk. now apply (Permutation_in _ Pp). }
  destruct (Hx _ Ps) as [He Hl].
  destruct ts as [|h rest]; [inversion Ks; subst; cbn in Len'; lia|].
  assert (Nr : rest <> []) by (intros ->; inversion Ks as [|? ? ? ? ? X2]; subst; inversion X2; subst; cbn in Len'; lia).
  destruct (C89_merge z ZS debug acc fs1 _ h rest argv2 es2 os2 Hz L2 B1 Rs Nr) as (g & Mj & Mn & W & C & P & K); [|exact Ho|].
  { intros p q I J. apply He in I, J. lia. }
  set (id := fun i => if final atoi "point-id" es2 (-1) <? 0 then i mod 2 ^ 32 else final atoi "point-id" es2 (-1) mod 2 ^ 32).
  assert (Pg : Forall2 but_id (flat_map (fun kt => f_prs (snd kt)) tl) (f_prs g)).
  { rewrite P. eapply (Forall2_trans _ _ _ but_id_trans); [exact Ps|]. exact (merged_but_id id (h :: rest) 0). }
  destruct (Hx _ Pg) as [Hg Lg].
  assert (Cg : f_compressed g = f_compressed f).
  { destruct (f_compressed f) eqn:Cf; [apply C; intros h' I; now apply Mt|].
    destruct (f_compressed g) eqn:Cg; [|reflexivity]. rewrite <- (proj1 C eq_refl h (or_introl eq_refl)). apply Mt. now left. }
  assert (Wg : f_wkt g = f_wkt f) by (rewrite W; apply Mt; now left).
  destruct K as (os' & out & g' & Run & O & Rg & K).
  { split; [split; try assumption|].
    - now rewrite Wg.
    - now rewrite Wg.
    - apply Forall_forall. intros q I. destruct (Forall2_In_r _ _ _ _ Pg I) as (p & J & Sm).
      apply (same_ok p q (but_id_same _ _ Sm)); [|rewrite Forall_forall in G5; apply G5; now apply (Permutation_in _ Pp)].
      rewrite P in I. apply in_flat_map in I as ([i h'] & _ & I). apply in_map_iff in I as (q' & <- & _). cbn [with_id rp].
      unfold u32_ok, two32. destruct (_ <? 0); apply Z.mod_pos_bound; lia.
    - intros p q I J. apply Hg in I, J. lia.
    - rewrite Lg. exact G7.
    - rewrite Lg. split; [exact Sz|]. exists ke. split; [exact Hg|]. now rewrite Cg. }
  exists os', out, g'. split; [exact Run|]. split; [exact O|]. split; [exact Rg|].
  destruct (kept_meta _ _ K) as (W' & C' & Mj' & Mn'). split; [unfold same_meta; repeat split; congruence|]. split.
  - exists (flat_map (fun kt => f_prs (snd kt)) tl). split; [exact Pp|].
    exact (Forall2_trans _ _ _ but_id_trans _ _ _ Pg (kept_but_id _ _ K)).
  - exists (h :: rest). split; [clear - Rs; induction Rs as [|n t ns ts [_ R] Rs IH]; constructor; auto|].
    cbv zeta. rewrite (kept_ids _ _ K), P. exact (merged_ids id (h :: rest) 0).
Qed.

(** ** Examples *)

(** One option more in front of a command line *)
Lemma asks_more t n l v argv es ops : In (mk_entry n l true) t -> ~ In equals (chars n) -> n <> "help"%string -> n <> "version"%string ->
  asks t argv es ops -> asks t ((dash :: dash :: chars n ++ equals :: chars v) :: argv) ((n, Some (chars v)) :: es) ops.
Proof.
  intros I E H V (L & Gh & Gv). split.
  - apply (Line_option t [dash :: dash :: chars n ++ equals :: chars v] [(n, Some (chars v))] argv es ops); [|exact L].
    apply (Use_long_equals t (chars n) (mk_entry n l true) (chars v)); [exact E|split; [exact I|now left]|reflexivity].
  - apply String.eqb_neq in H, V. unfold given in *. cbn [existsb fst]. rewrite H, V. now split.
Qed.

Definition w_fs : files := file_put (chars "a") (sp_bytes high_file) (file_put (chars "d") (sp_bytes (file_at [at_xz d_one d_one 3; at_xz d_three d_one 4])) (fun _ => None)).
Definition w_atof : atof_fn := fun t => if beq_bytes t (chars "2") then d_two else d_zero.
Definition w_rd : read_double_fn := fun t => (d_zero, true, t).
Definition w_stod : stod_fn := fun _ => None.

Lemma high_storable : storable high_file.
Proof.
  split; [|split; [cbn; lia|exists 1; split; [intros p I; cbn in I; intuition (subst; reflexivity)|cbn; lia]]].
  split; try reflexivity; try (cbn; lia).
  - constructor.
  - repeat constructor; vm_compute; try split; congruence.
  - intros p q I J. cbn in I, J. intuition (subst; reflexivity).
Qed.

(** Subsampling "a" into "b" keeps the points at 1 and 3.  Upsampling from "b" gives "a"
    back; upsampling from "d", which has other classes, changes the classes only. *)
Example C92_example show :
  let argv1 := words ["--subsample=2"; "a"; "b"]%string in
  let argv2 l := words ["--upsample-classifications=a"; "--resolution=2"; l; "c"]%string in
  let es1 := [("subsample"%string, Some (chars "2"))] in
  let es2 := [("upsample-classifications"%string, Some (chars "a")); ("resolution"%string, Some (chars "2"))] in
  let run := spoc_filter toy (fun _ l => l) w_stod w_atof false all_rights argv1 [] at_start w_fs in
  let up l := spoc_tool toy show w_rd w_atof false all_rights (argv2 l) [] at_start (files_of run) in
  storable high_file /\ reads toy w_fs (chars "a") high_file /\ f_prs high_file <> [] /\ permutes (fun _ l => l)
  /\ Forall (fun p => pt_finite (pr_pt p)) (f_prs high_file) /\ lowest (map pr_pt (f_prs high_file)) (mk_pt d_one d_one d_one)
  /\ finite d_two /\ (0 < d_val d_two)%R
  /\ asks filter_options argv1 es1 [chars "a"; chars "b"] /\ subsamples w_atof es1 d_two
  /\ (forall l, In l ["b"; "d"]%string -> asks tool_options (argv2 l) es2 [chars l; chars "c"]) /\ upsamples w_atof es2 (chars "a") d_two
  /\ (forall p q, In p (f_prs high_file) -> In q (f_prs high_file) -> same_voxel (mk_pt d_one d_one d_one) d_two (pr_pt p) (pr_pt q) -> rc p = rc q)
  /\ status_of run = Ret 0 /\ seen (files_of run) "b" = Some (file_at [at_xz d_one d_one 1; at_xz d_three d_one 1])
  /\ status_of (up "b"%string) = Ret 0 /\ seen (files_of (up "b"%string)) "c" = Some high_file
  /\ status_of (up "d"%string) = Ret 0 /\ option_map (fun g => map rc (f_prs g)) (seen (files_of (up "d"%string)) "c") = Some [3; 3; 4; 4; 3].
Proof.
  cbv zeta. split; [exact high_storable|]. split.
  { eexists. split; [vm_compute; reflexivity|]. exists (i_open []). now vm_compute. }
  split; [discriminate|]. split; [intros s l; reflexivity|]. split; [exact high_finite|]. split; [exact m_lowest|].
  split; [apply small_finite|]. split.
  { rewrite <- zero_val. apply d_ltb_val; try apply zero_finite; try apply small_finite; reflexivity. }
  split; [option_asked "subsample"%string "s"%string "2"%string ["a"; "b"]%string|]. split; [repeat split|]. split.
  { intros l [<-|[<-|[]]];
      (refine (asks_more _ "upsample-classifications"%string ""%string "a"%string _ _ _ _ _ _ _ _);
        [cbn; tauto|cbn; intuition discriminate|discriminate|discriminate|]).
    - option_asked "resolution"%string ""%string "2"%string ["b"; "c"]%string.
    - option_asked "resolution"%string ""%string "2"%string ["d"; "c"]%string. }
  split; [repeat split|]. split.
  { intros p q I J _. cbn in I, J. intuition (subst; reflexivity). }
  split; [now vm_compute|]. split; [now vm_compute|]. split; [now vm_compute|]. split; [now vm_compute|]. split; now vm_compute.
Qed.

(** Three records in two tiles, merged in the other order. *)
Example C93_example :
  let fs := file_put (chars "in.zpoc") (sp_bytes (mk_file 0 1 (chars "W") true (f_prs t_file))) (fun _ => None) in
  let run := spoc_tile toy w_atof false all_rights (words ["--tile-size=2"; "in.zpoc"]%string) [] at_start fs in
  let merge := spoc_merge toy false all_rights (words ["in017.zpoc"; "in000.zpoc"]%string) at_start (files_of run) in
  asks tile_options (words ["--tile-size=2"; "in.zpoc"]%string) [("tile-size"%string, Some (chars "2"))] [chars "in.zpoc"]
  /\ status_of run = Ret 0 /\ files_of run (chars "in.zpoc") = fs (chars "in.zpoc")
  /\ option_map (fun g => map rc (f_prs g)) (seen (files_of run) "in000.zpoc") = Some [1; 3]
  /\ asks merge_options (words ["in017.zpoc"; "in000.zpoc"]%string) [] (words ["in017.zpoc"; "in000.zpoc"]%string)
  /\ status_of merge = Ret 0
  /\ match read_spoc_file toy (i_open (o_bytes (stdout_of merge))) with
     | Ret (g, _) => f_wkt g = chars "W" /\ f_compressed g = true /\ map (fun p => (rc p, rp p)) (f_prs g) = [(2, 0); (1, 1); (3, 1)]
     | _ => False
     end.
Proof.
  cbv zeta. split; [option_asked "tile-size"%string "s"%string "2"%string ["in.zpoc"]%string|].
  split; [now vm_compute|]. split; [now vm_compute|]. split; [now vm_compute|].
  split; [apply asks_plain; operands|]. split; now vm_compute.
Qed.

Print Assumptions C92_upsample.
Print Assumptions C92_restores.
Print Assumptions C93_tile_merge.
