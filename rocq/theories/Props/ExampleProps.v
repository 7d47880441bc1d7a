(** C95, C96: the programs in /repo/examples. *)
From Coq Require Import String Reals ZArith List Bool Lia.
From Flocq Require Import Core.
From Verif.Model Require Import Base Double Arith Header PointRecord Point Compression IO File Utils Programs TransformApp Examples.
From Verif.Spec Require Import Rounding Format Streams Files Geometry Tools.
From Verif.Proofs Require Import BaseFacts HeaderFacts PointRecordFacts IOFacts FileFacts FileIOFacts HeaderCutFacts PaddingFacts ToolFacts ToyZlib.
From Verif.Props Require Import CenterProps.
Import ListNotations.
Open Scope Z_scope.
Open Scope outcome_scope.

(** The first [n] bytes of [bs], with zeros in place of those that are missing. *)
Definition padded (n : Z) (bs : list Z) : list Z :=
  firstn (Z.to_nat n) (bs ++ repeat 0 (Z.to_nat n)).

(** The size of all records that a header announces. *)
Definition announced (h : header) : Z := h_total h * (40 + 8 * h_extra h).

Lemma padded_zpad n bs : padded n bs = zpad n bs.
Proof. unfold padded, zpad. now rewrite ztake_firstn. Qed.

Lemma is_le_unique w v b : is_le w v b -> b = le_bytes w v.
Proof. intros (L & B & <-). rewrite positional_le_val, <- L. symmetry. now apply le_bytes_val. Qed.

Lemma header_layout_unique h hb : good_header h -> header_layout h hb -> hb = header_bytes h.
Proof.
  intros G (b1 & b2 & -> & L1 & L2). pose proof (header_bytes_layout h G) as (c1 & c2 & -> & M1 & M2).
  apply is_le_unique in L1, L2, M1, M2. congruence.
Qed.

Lemma prs_bytes_ok l : bytes_ok (prs_bytes l).
Proof.
  apply flat_map_ok. intros. apply pr_bytes_ok.
Qed.

Lemma noop_points_emits e : 0 <= e <= 255 -> forall n s, fed s -> bytes_ok (i_rest s) ->
  emits (noop_points n e s) (zpad (Z.of_nat n * (40 + 8 * e)) (i_rest s)) tt.
Proof.
  intros E. induction n as [|n IH]; intros s F B.
  - cbn [noop_points]. replace (zpad _ _) with (@nil Z) by (unfold zpad; now rewrite ztake_firstn). apply emits_ret.
  - destruct (read_record_padded e s F B E) as (p & s' & R & F' & D & P & _ & _). cbn [noop_points].
    eapply emits_lift; [exact R|]. replace (Z.of_nat (S n) * (40 + 8 * e)) with ((40 + 8 * e) + Z.of_nat n * (40 + 8 * e)) by lia.
    rewrite zpad_add by lia. apply emits_seq; [rewrite <- P; apply write_point_record_emits|]. rewrite <- D. apply IH; [exact F'|].
    rewrite D. now apply Forall_zdrop.
Qed.

(** ** C95 noop *)

(** Every input with an uncompressed header: the output is that header and as many records
    as it announces, the bytes of the input; once they are used up, zeros. *)
Theorem C95_noop : forall input h s, is_bytes input -> read_header (i_open input) = Ret (h, s) -> h_compressed h = 0 ->
  exists hb, header_layout h hb /\ forall os, healthy os ->
  exists os', noop input os = (os', Ret 0) /\ healthy os'
    /\ o_bytes os' = o_bytes os ++ hb ++ padded (announced h) (i_rest s).
Proof.
  intros input h s B R C. destruct (read_header_good (i_open input) h s B R) as [G Bs].
  exists (header_bytes h). split; [now apply header_bytes_layout|]. intros os H.
  assert (F : fed s) by (eapply read_header_fed; [apply fed_open|exact B|exact R]).
  pose proof (emits_appends _ _ (emits_seq _ _ _ _ _ (write_header_emits h (gh_sig h G))
    (noop_points_emits (h_extra h) (gh_extra h G) (Z.to_nat (h_total h)) s F Bs)) os H) as (os' & W & H' & O).
  exists os'. unfold noop, read_header_uncompressed. rewrite R. cbn [bind]. rewrite C. cbn [Z.eqb negb]. unfold w_bind at 1. cbn [w_lift].
  unfold w_lift. rewrite W. split; [reflexivity|]. split; [exact H'|]. rewrite O, padded_zpad. unfold announced.
  now rewrite Z2Nat.id by apply (gh_total h G).
Qed.

(** Every other input is refused and nothing is written. *)
Theorem C95_refused : forall input, (forall h s, read_header (i_open input) = Ret (h, s) -> h_compressed h <> 0) ->
  forall os, noop input os = (os, Ret (-1)).
Proof.
  intros input N os. unfold noop, read_header_uncompressed, w_bind at 1, w_lift.
  destruct (read_header_total (i_open input)) as [(h & s & R)|(e & R)]; rewrite R; cbn [bind]; [|reflexivity].
  specialize (N h s R). apply Z.eqb_neq in N. now rewrite N.
Qed.

(** A header, the records it announces, and perhaps more: all of it up to the last record
    is copied byte for byte, the rest is dropped. *)
Theorem C95_copy : forall h hb data rest, good_header h -> header_layout h hb -> h_compressed h = 0 ->
  is_bytes data -> is_bytes rest -> Z.of_nat (length data) = announced h ->
  forall os, healthy os ->
  exists os', noop (hb ++ data ++ rest) os = (os', Ret 0) /\ healthy os' /\ o_bytes os' = o_bytes os ++ hb ++ data.
Proof.
  intros h hb data rest G L C Bd Br N os H. pose proof (header_layout_unique h hb G L) as ->.
  pose proof (header_bytes_ok h G) as Bh.
  destruct (C95_noop (header_bytes h ++ data ++ rest) h (i_open (data ++ rest))) as (hb & L' & X); auto.
  { apply Forall_app. split; [exact Bh|]. apply Forall_app. now split. }
  { now apply read_header_round_trip. }
  rewrite (header_layout_unique h hb G L') in X. destruct (X os H) as (os' & E & H' & O). exists os'. split; [exact E|]. split; [exact H'|].
  rewrite O, padded_zpad. cbn [i_open i_rest]. rewrite <- N, zpad_long by (rewrite zlen_app; pose proof (zlen_nonneg rest); unfold zlen in *; lia).
  now rewrite ztake_app_exact.
Qed.

(** Every uncompressed file that the library writes is copied, also with so many extra
    fields that the library cannot read it again. *)
Theorem C95_file : forall z debug f k, good_file f -> f_compressed f = false -> has_extras k (f_prs f) -> k <= 255 ->
  exists bytes, appends (write_spoc_file z debug f) bytes
  /\ forall os, healthy os -> exists os', noop bytes os = (os', Ret 0) /\ healthy os' /\ o_bytes os' = o_bytes os ++ bytes.
Proof.
  intros z debug f k G C K K255.
  assert (He : 0 <= get_extra_fields f <= 255).
  { unfold get_extra_fields. destruct (f_prs f) as [|p ps]; [lia|]. pose proof (K p (or_introl eq_refl)). unfold zlen. lia. }
  destruct (get_header_spec f G ltac:(lia)) as (h & Hh & Gh & _ & Hx & Ht & Hc & _).
  exists (header_bytes h ++ prs_bytes (f_prs f)). split; [apply emits_appends, write_file_uncompressed_emits; auto; apply G|].
  intros os H. pose proof (C95_copy h (header_bytes h) (prs_bytes (f_prs f)) []) as X. rewrite app_nil_r in X. apply X; auto.
  - now apply header_bytes_layout.
  - rewrite Hc, C. reflexivity.
  - apply prs_bytes_ok.
  - constructor.
  - unfold announced. rewrite Ht, Hx. fold (zlen (prs_bytes (f_prs f))). rewrite (zlen_prs_bytes (get_extra_fields f)); [rewrite record_size_eq; lia|].
    apply Forall_forall. intros p P. unfold get_extra_fields. destruct (f_prs f) as [|q ps] eqn:Ep; [destruct P|].
    unfold zlen. rewrite (K p P). pose proof (K q (or_introl eq_refl)). lia.
Qed.

(** ** C96 stream_averaging and generate_infinite_points *)

(** What the log says after point [i] (counted from 0): the number of points so far and
    the center of their locations. *)
Definition report (pts : list point) (i : nat) : average :=
  (Z.of_nat (i + 1), get_center (firstn (i + 1) pts)).

Lemma filter_seq_shift (f : nat -> bool) a n : filter f (seq (S a) n) = map S (filter (fun i => f (S i)) (seq a n)).
Proof.
  revert a. induction n as [|n IH]; intros a; [reflexivity|]. cbn [seq filter]. rewrite IH. destruct (f (S a)); reflexivity.
Qed.

Definition running (pts : list point) : sums := mk_sums (zlen pts) (fold_left pt_add pts (mk_pt d_zero d_zero d_zero)).

Lemma average_of_running pts : average_of (running pts) = (zlen pts, get_center pts).
Proof. reflexivity. Qed.

Lemma update_running pts p : zlen pts + 1 < 2 ^ 64 -> update_sums p (running pts) = running (pts ++ [pr_pt p]).
Proof.
  intros L. unfold update_sums, running. cbn [total_points sum_xyz]. rewrite fold_left_app, zlen_app. f_equal.
  unfold to_u64. change (zlen [pr_pt p]) with 1. apply Z.mod_small. pose proof (zlen_nonneg pts). unfold two64. lia.
Qed.

Lemma average_points_run e : 0 <= e <= 255 -> forall n i s before, fed s -> bytes_ok (i_rest s) ->
  i = length before -> Z.of_nat (n + i) < 2 ^ 64 ->
  exists prs recs, length prs = n /\ Forall2 record_layout prs recs /\ Forall pr_ok prs /\ Forall (fun p => zlen (rextra p) = e) prs
  /\ concat recs = zpad (Z.of_nat n * (40 + 8 * e)) (i_rest s)
  /\ forall late, average_points late n i e (running before) s = Ret (map (report (before ++ map pr_pt prs)) (filter late (seq i n))).
Proof.
  intros E. induction n as [|n IH]; intros i s before F B I N.
  - exists [], []. do 4 (split; [constructor|]). split; [|reflexivity]. unfold zpad. now rewrite ztake_firstn.
  - destruct (read_record_padded e s F B E) as (p & s' & R & F' & D & P & X & O).
    destruct (IH (S i) s' (before ++ [pr_pt p])) as (prs & recs & L & Ls & Os & Es & C & A); [exact F'|rewrite D; now apply Forall_zdrop| |lia|].
    { rewrite app_length, I. cbn. lia. }
    exists (p :: prs), (pr_bytes p :: recs). split; [cbn; now rewrite L|]. split; [constructor; [now apply pr_bytes_layout|exact Ls]|].
    split; [now constructor|]. split; [now constructor|]. split.
    + cbn [concat]. rewrite C, P, D, <- zpad_add by lia. f_equal. lia.
    + intros late. cbn [average_points]. rewrite R. cbn [bind]. rewrite update_running by (unfold zlen; lia). rewrite A. cbn [bind map].
      rewrite <- app_assoc. cbn [app seq filter]. destruct (late i); [|reflexivity]. cbn [map]. do 2 f_equal. rewrite average_of_running.
      unfold report. assert (Li : length (before ++ [pr_pt p]) = (i + 1)%nat) by (rewrite app_length, I; reflexivity).
      unfold zlen. rewrite Li. f_equal. f_equal. change (pr_pt p :: map pr_pt prs) with ([pr_pt p] ++ map pr_pt prs). rewrite app_assoc, <- Li.
      rewrite firstn_app, Nat.sub_diag, firstn_all. cbn [firstn]. now rewrite app_nil_r.
Qed.

(** Whatever the clock says: the reports are the numbers and the centers of the points so
    far, among the records that the header announces, with zeros in place of the bytes
    that the input does not have. *)
Theorem C96_averages : forall input h s, is_bytes input -> read_header (i_open input) = Ret (h, s) -> h_compressed h = 0 ->
  exists prs recs, Forall2 record_layout prs recs /\ concat recs = padded (announced h) (i_rest s)
  /\ Z.of_nat (length prs) = h_total h /\ Forall (fun p => Z.of_nat (length (rextra p)) = h_extra h) prs
  /\ forall late, stream_averaging late input = Ret (map (report (map pr_pt prs)) (filter late (seq 0 (length prs)))).
Proof.
  intros input h s B R C. destruct (read_header_good (i_open input) h s B R) as [G Bs].
  assert (F : fed s) by (eapply read_header_fed; [apply fed_open|exact B|exact R]).
  assert (T : Z.of_nat (Z.to_nat (h_total h)) = h_total h) by (apply Z2Nat.id, (gh_total h G)).
  destruct (average_points_run (h_extra h) (gh_extra h G) (Z.to_nat (h_total h)) 0 s [] F Bs eq_refl) as (prs & recs & L & Ls & Os & Es & X & A).
  { rewrite Nat.add_0_r, T. apply (gh_total h G). }
  exists prs, recs. split; [exact Ls|]. split; [rewrite X, padded_zpad; unfold announced; now rewrite T|]. split; [lia|]. split; [exact Es|].
  intros late. unfold stream_averaging, read_header_uncompressed. rewrite R. cbn [bind]. rewrite C. cbn [Z.eqb negb bind].
  change (mk_sums 0 _) with (running []). rewrite A, L. reflexivity.
Qed.

Lemma is_le8_ok v b : is_le 8 v b -> d_ok v.
Proof.
  intros (L & B & <-). rewrite positional_le_val. pose proof (le_val_range b B) as R. unfold zlen in R. rewrite L in R.
  exact R.
Qed.

Lemma layouts_ok prs recs : Forall2 record_layout prs recs -> Forall pt_ok (map pr_pt prs).
Proof.
  induction 1 as [|p b prs recs L _ IH]; cbn [map]; constructor; [|exact IH].
  destruct L as (bx & by_ & bz & bc & bp & bi & br & bg & bb & bes & _ & Lx & Ly & Lz & _).
  apply is_le8_ok in Lx, Ly, Lz. split; [exact Lx|split; [exact Ly|exact Lz]].
Qed.

(** Each reported average is the mean of the coordinates so far, up to the rounding errors
    of the additions and of the division, if it is a number at all. *)
Theorem C96_mean : forall input h s, is_bytes input -> read_header (i_open input) = Ret (h, s) -> h_compressed h = 0 ->
  exists prs recs, Forall2 record_layout prs recs /\ concat recs = padded (announced h) (i_rest s)
  /\ forall late l, stream_averaging late input = Ret l -> forall m c, In (m, c) l ->
     1 <= m <= h_total h
     /\ forall ax, In ax axes -> d_is_finite (ax c) = true -> m <= 2 ^ 53 ->
        let xs := map ax (firstn (Z.to_nat m) (map pr_pt prs)) in
        (Rabs (d_val (ax c) - exact_sum xs / IZR m)
         <= ((1 + / 2 ^ 53) ^ (Z.to_nat m + 1) - 1) * (abs_sum xs / IZR m) + bpow radix2 (-1075))%R.
Proof.
  intros input h s B R C. destruct (C96_averages input h s B R C) as (prs & recs & Ls & X & L & _ & A).
  exists prs, recs. split; [exact Ls|]. split; [exact X|]. intros late l E m c I. rewrite A in E. injection E as <-.
  apply in_map_iff in I as (i & Q & I). apply filter_In in I as [I _]. apply in_seq in I. unfold report in Q. injection Q as <- <-.
  split; [lia|]. intros ax Ax F M xs. unfold xs. rewrite Nat2Z.id in *.
  assert (Ln : length (firstn (i + 1) (map pr_pt prs)) = (i + 1)%nat) by (rewrite firstn_length, map_length; lia).
  pose proof (C82_center (firstn (i + 1) (map pr_pt prs)) ax) as H. cbv zeta in H. rewrite Ln in H. rewrite INR_IZR_INZ in H. apply H; auto.
  - pose proof (layouts_ok prs recs Ls) as O. rewrite <- (firstn_skipn (i + 1)) in O. now apply Forall_app in O.
  - intros N. rewrite N in Ln. cbn in Ln. lia.
Qed.

(** Inputs without a header, or with that of a compressed file, are refused. *)
Theorem C96_refused : forall input, (forall h s, read_header (i_open input) = Ret (h, s) -> h_compressed h <> 0) ->
  forall late, exists e, stream_averaging late input = Throw e.
Proof.
  intros input N late. unfold stream_averaging, read_header_uncompressed.
  destruct (read_header_total (i_open input)) as [(h & s & R)|(e & R)]; rewrite R; cbn [bind]; [|eexists; reflexivity].
  specialize (N h s R). apply Z.eqb_neq in N. rewrite N. cbn [negb bind]. eexists. reflexivity.
Qed.

(** The record of one location; everything else is 0, with four extra fields. *)
Definition bare (q : point) : point_record :=
  mk_pr (px q) (py q) (pz q) 0 0 0 0 0 0 [0; 0; 0; 0].

(** The locations made of the first [3 * n] random numbers. *)
Definition draws (coord : Z -> double) (n : nat) : list point :=
  map (fun k => let i := 3 * Z.of_nat k in mk_pt (coord i) (coord (i + 1)) (coord (i + 2))) (seq 0 n).

(** generate_infinite_points writes one header, which promises as many points as can be, then
    one record for every three random numbers. *)
Theorem C96_generate : forall coord, (forall k, d_ok (coord k)) ->
  exists h hb, good_header h /\ header_layout h hb /\ h_wkt h = chars "Test WKT" /\ h_extra h = 4 /\ h_total h = 2 ^ 64 - 1 /\ h_compressed h = 0
  /\ forall n, exists recs, Forall2 record_layout (map bare (draws coord n)) recs
     /\ appends (generate_infinite_points coord n) (hb ++ concat recs).
Proof.
  intros coord O. set (h := mk_header SPOC MAJOR_VERSION MINOR_VERSION (chars "Test WKT") 4 (2 ^ 64 - 1) 0).
  assert (G : good_header h).
  { constructor; try reflexivity; try (cbn; lia). cbn. repeat constructor; lia. }
  exists h, (header_bytes h). split; [exact G|]. split; [now apply header_bytes_layout|]. do 4 (split; [reflexivity|]).
  intros n. exists (map pr_bytes (map bare (draws coord n))). split.
  - unfold draws. rewrite map_map. induction (seq 0 n) as [|k l IH]; cbn [map]; constructor; [|exact IH].
    apply pr_bytes_layout. constructor; cbn; try apply O; try (unfold u32_ok, u16_ok, two32, two16; lia).
    repeat constructor; unfold u64_ok, two64; lia.
  - apply emits_appends. unfold generate_infinite_points. eapply emits_lift; [reflexivity|]. apply emits_seq; [apply write_header_emits; reflexivity|].
    unfold draws. assert (K : forall m k, emits (generate_points coord m (3 * Z.of_nat k))
      (concat (map pr_bytes (map bare (map (fun k => let i := 3 * Z.of_nat k in mk_pt (coord i) (coord (i + 1)) (coord (i + 2))) (seq k m))))) tt); [|exact (K n 0%nat)].
    induction m as [|m IH]; intros k; [apply emits_ret|]. cbn [generate_points seq map concat]. apply emits_seq; [apply write_point_record_emits|].
    replace (3 * Z.of_nat k + 3) with (3 * Z.of_nat (S k)) by lia. apply IH.
Qed.

Lemma is_le_range w v b : is_le w v b -> 0 <= v < 256 ^ Z.of_nat w.
Proof.
  intros (L & B & <-). rewrite positional_le_val. pose proof (le_val_range b B) as R. unfold zlen in R. now rewrite L in R.
Qed.

Lemma record_layout_bytes p b : record_layout p b -> pr_ok p /\ b = pr_bytes p.
Proof.
  intros (bx & by_ & bz & bc & bp & bi & br & bg & bb & bes & -> & Lx & Ly & Lz & Lc & Lp & Li & Lr & Lg & Lb & Le).
  assert (Ex : Forall u64_ok (rextra p) /\ concat bes = u64s_image (rextra p)).
  { induction Le as [|x c xs cs L _ [IH1 IH2]]; [split; constructor|]. split; [constructor; [exact (is_le_range _ _ _ L)|exact IH1]|].
    cbn [concat]. rewrite IH2, (is_le_unique _ _ _ L). reflexivity. }
  destruct Ex as [Eo Eb]. split.
  - constructor; try exact Eo; match goal with H : is_le _ ?v _ |- _ ?v => exact (is_le_range _ _ _ H) end.
  - rewrite Eb, (is_le_unique _ _ _ Lx), (is_le_unique _ _ _ Ly), (is_le_unique _ _ _ Lz), (is_le_unique _ _ _ Lc), (is_le_unique _ _ _ Lp),
      (is_le_unique _ _ _ Li), (is_le_unique _ _ _ Lr), (is_le_unique _ _ _ Lg), (is_le_unique _ _ _ Lb).
    unfold pr_bytes, struct_image. rewrite <- !app_assoc. reflexivity.
Qed.

Lemma prs_bytes_prefix e : 0 <= e <= 255 -> forall l prs t, Forall pr_ok l -> Forall pr_ok prs ->
  Forall (fun p => zlen (rextra p) = e) l -> Forall (fun p => zlen (rextra p) = e) prs ->
  (length l <= length prs)%nat -> prs_bytes prs = prs_bytes l ++ t -> firstn (length l) prs = l.
Proof.
  intros E. induction l as [|p l IH]; intros prs t Ol Op Xl Xp L Q; [reflexivity|]. destruct prs as [|q prs]; [cbn in L; lia|].
  inversion Ol; inversion Op; inversion Xl; inversion Xp; subst. unfold prs_bytes in Q. cbn [flat_map] in Q. rewrite <- app_assoc in Q.
  assert (pr_bytes q = pr_bytes p /\ flat_map pr_bytes prs = flat_map pr_bytes l ++ t) as [Q1 Q2].
  { apply app_eq_app in Q as (m & [[Q1 Q2]|[Q1 Q2]]); assert (m = []) as -> by
      (apply zlen_zero_nil; apply (f_equal zlen) in Q1; rewrite zlen_app, !zlen_pr_bytes in Q1; lia);
    rewrite app_nil_r in Q1; cbn [app] in Q2; auto. }
  cbn [length firstn]. f_equal; [|eapply IH; eauto; cbn in L; lia].
  assert (Rq : read_point_record (zlen (rextra p)) (i_open (pr_bytes q ++ [])) = Ret (q, i_open [])).
  { replace (zlen (rextra p)) with (zlen (rextra q)) by assumption. apply read_point_record_round_trip; [assumption|]. unfold PTRDIFF_MAX, two63. lia. }
  assert (Rp : read_point_record (zlen (rextra p)) (i_open (pr_bytes p ++ [])) = Ret (p, i_open [])).
  { apply read_point_record_round_trip; [assumption|]. unfold PTRDIFF_MAX, two63. lia. }
  rewrite Q1, Rp in Rq. now injection Rq.
Qed.

Lemma layouts_bytes prs recs : Forall2 record_layout prs recs -> Forall pr_ok prs /\ concat recs = prs_bytes prs.
Proof.
  induction 1 as [|p b prs recs L _ [IH1 IH2]]; [split; constructor|]. apply record_layout_bytes in L as [O ->].
  split; [now constructor|]. unfold prs_bytes in *. cbn [concat flat_map]. now rewrite IH2.
Qed.

(** generate_infinite_points | stream_averaging: as long as points arrive, the reports are
    the centers of the points made so far. *)
Theorem C96_pipe : forall coord n, (forall k, d_ok (coord k)) -> Z.of_nat n < 2 ^ 64 ->
  exists output, appends (generate_infinite_points coord n) output
  /\ forall late, (forall i, (n <= i)%nat -> late i = false) ->
     stream_averaging late output = Ret (map (report (draws coord n)) (filter late (seq 0 n))).
Proof.
  intros coord n O N. destruct (C96_generate coord O) as (h & hb & G & Lh & _ & Hx & Ht & Hc & W).
  destruct (W n) as (recs & Ls & A). exists (hb ++ concat recs). split; [exact A|]. intros late Late.
  pose proof (header_layout_unique h hb G Lh) as ->. destruct (layouts_bytes _ _ Ls) as [Ol Cl].
  destruct (C96_averages (header_bytes h ++ concat recs) h (i_open (concat recs))) as (prs & recs' & Ls' & C' & L' & X' & S'); auto.
  { rewrite Cl. apply Forall_app. split; [now apply header_bytes_ok|apply prs_bytes_ok]. }
  { now apply read_header_round_trip. }
  rewrite S'. f_equal. destruct (layouts_bytes _ _ Ls') as [Op Cp]. cbn [i_open i_rest] in C'.
  assert (Ld : length (map bare (draws coord n)) = n) by (unfold draws; now rewrite !map_length, seq_length).
  assert (Xl : Forall (fun p => zlen (rextra p) = 4) (map bare (draws coord n))) by (apply Forall_map, Forall_forall; reflexivity).
  assert (P : firstn n prs = map bare (draws coord n)).
  { rewrite <- Ld at 1. rewrite Cp, Cl, padded_zpad in C'. unfold announced in C'. rewrite Hx in C'.
    assert (Len : zlen (prs_bytes (map bare (draws coord n))) = Z.of_nat n * 72).
    { rewrite (zlen_prs_bytes 4) by exact Xl. rewrite record_size_eq. unfold zlen. rewrite Ld. lia. }
    rewrite zpad_short in C' by (rewrite Len; lia). eapply (prs_bytes_prefix 4); [lia|exact Ol|exact Op|exact Xl| | |exact C'].
    - rewrite Hx in X'. exact X'.
    - rewrite Ld. lia. }
  assert (Pd : firstn n (map pr_pt prs) = draws coord n).
  { rewrite firstn_map, P, map_map. unfold draws. rewrite map_map. reflexivity. }
  assert (Nl : (n <= length prs)%nat) by lia.
  replace (length prs) with (n + (length prs - n))%nat by lia. rewrite seq_app, filter_app.
  replace (filter late (seq (0 + n) (length prs - n))) with (@nil nat).
  - rewrite app_nil_r. apply map_ext_in. intros i I. apply filter_In in I as [I _]. apply in_seq in I. unfold report. f_equal. f_equal.
    rewrite <- Pd, firstn_firstn. f_equal. lia.
  - symmetry. cbn [Nat.add]. clear - Late. assert (K : forall m a, (n <= a)%nat -> filter late (seq a m) = []).
    { induction m as [|m IH]; intros a La; [reflexivity|]. cbn [seq filter]. rewrite Late by exact La. apply IH. lia. }
    now apply K.
Qed.

(** A file of three records with one extra field; the third is cut after the coordinate x. *)
Definition e_record (x y : Z) : point_record := mk_pr (d_of_z x) (d_of_z y) 0 7 1 2 3 4 5 [x].
Definition e_file : spoc_file := mk_file 0 1 (chars "w") false [e_record 1 2; e_record 3 6; e_record 5 1].
Definition e_bytes : list Z := o_bytes (fst (write_spoc_file toy false e_file o_open)).

Example C95_example :
  noop e_bytes o_open = (mk_ostream e_bytes None false, Ret 0)
  /\ noop (ztake (zlen e_bytes - 40) e_bytes) o_open = (mk_ostream (ztake (zlen e_bytes - 40) e_bytes ++ zrepeat 0 40) None false, Ret 0)
  /\ noop (chars "SPAM") o_open = (o_open, Ret (-1)).
Proof. vm_compute. auto. Qed.

Example C95_hypotheses : is_bytes e_bytes /\ good_file e_file /\ has_extras 1 (f_prs e_file)
  /\ exists h s, read_header (i_open e_bytes) = Ret (h, s) /\ h_compressed h = 0 /\ announced h = 144.
Proof.
  split; [vm_compute; repeat constructor; discriminate|]. split; [|split].
  - constructor; try reflexivity; try (cbn; lia).
    + repeat constructor; cbn; lia.
    + repeat constructor; unfold u32_ok, u16_ok, u64_ok, two32, two16, two64; try apply d_of_z_ok; cbn; try lia; unfold d_ok, two64; lia.
    + intros p q [<-|[<-|[<-|[]]]] [<-|[<-|[<-|[]]]]; reflexivity.
  - intros p [<-|[<-|[<-|[]]]]; reflexivity.
  - eexists _, _. vm_compute. auto.
Qed.

(** With the third record cut to its x the program still reports three points. *)
Example C96_example :
  stream_averaging (fun i => negb (Nat.eqb i 0)) e_bytes = Ret [(2, mk_pt (d_of_z 2) (d_of_z 4) 0); (3, mk_pt (d_of_z 3) (d_of_z 3) 0)]
  /\ stream_averaging (fun i => Nat.eqb i 2) (ztake (zlen e_bytes - 40) e_bytes)
     = Ret [(3, mk_pt (d_of_z 3) (d_div (d_of_z 8) (d_of_z 3)) 0)].
Proof. vm_compute. auto. Qed.

Example C96_generate_example : o_bytes (fst (generate_infinite_points (fun k => d_of_z k) 2 o_open))
  = chars "SPOC" ++ [0; 1; 8; 0] ++ chars "Test WKT" ++ [4; 255; 255; 255; 255; 255; 255; 255; 255; 0]
    ++ pr_bytes (bare (mk_pt (d_of_z 0) (d_of_z 1) (d_of_z 2))) ++ pr_bytes (bare (mk_pt (d_of_z 3) (d_of_z 4) (d_of_z 5))).
Proof. vm_compute. reflexivity. Qed.

Print Assumptions C95_noop.
Print Assumptions C95_refused.
Print Assumptions C95_copy.
Print Assumptions C95_file.
Print Assumptions C96_averages.
Print Assumptions C96_mean.
Print Assumptions C96_refused.
Print Assumptions C96_generate.
Print Assumptions C96_pipe.
