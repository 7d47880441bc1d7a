(** C98: when spoc_merge warns about the area. *)
From Coq Require Import String Reals ZArith List Bool Lia Lra.
From Flocq Require Import Core IEEE754.Binary IEEE754.Bits IEEE754.BinarySingleNaN.
From Verif.Model Require Import Base Double Arith Header PointRecord Point Extent File Compression IO MergeApp.
From Verif.Spec Require Import Files Apps Streams ZlibContract Rounding Geometry Reports Areas.
From Verif.Proofs Require Import BaseFacts OrderFacts DoubleFacts ArithFacts VoxelFacts ToolGeometryFacts TileSizeFacts ToyZlib.
From Verif.Props Require Import GeometryProps MetricProps MergeProps.
Import ListNotations.
Open Scope Z_scope.
Open Scope outcome_scope.

(** ** The program reads every input and adds up the areas *)

Lemma area_loop_ok : forall z bs fs s, Forall2 (file_of (read_spoc_file z)) bs fs ->
  area_loop z (map Some bs) s = Ret (fold_left d_add (map (fun f => cloud_area (f_prs f)) fs) s).
Proof.
  intros z bs fs s H. revert s. induction H as [|b f bs fs (rest & R) _ IH]; intros s; [reflexivity|].
  cbn [map area_loop fold_left]. rewrite R. cbn [bind]. apply IH.
Qed.

Lemma merged_points : forall id fs i,
  map pr_pt (flat_map (fun '(j, h) => map (with_id (id j)) (f_prs h)) (numbered i fs)) = map pr_pt (flat_map f_prs fs).
Proof.
  intros id. induction fs as [|f fs IH]; intros i; [reflexivity|]. cbn [numbered flat_map]. rewrite !map_app, IH. f_equal.
  rewrite map_map. reflexivity.
Qed.

Lemma warning_eq : forall z ZS args bs f fs, zlib_ok z ZS -> Forall is_bytes bs ->
  Forall2 (file_of (read_spoc_file z)) bs (f :: fs) -> fs <> [] -> uniform (flat_map f_prs (f :: fs)) ->
  area_warning z args (map Some bs)
  = Ret (negb (ma_quiet args) && d_gtb (d_div (cloud_area (flat_map f_prs (f :: fs)))
                                              (fold_left d_add (map (fun f => cloud_area (f_prs f)) (f :: fs)) 0)) (d_of_z 100)).
Proof.
  intros z ZS args bs f fs Hz B R N U.
  destruct (C51_concatenates z ZS args bs f fs Hz B R N U) as (g & w & E & _ & _ & _ & _ & P & _).
  unfold area_warning. rewrite E. cbn [bind]. destruct (ma_quiet args); [reflexivity|].
  rewrite (area_loop_ok z bs (f :: fs) 0 R). cbn [bind negb andb]. unfold cloud_area at 1.
  rewrite P, (merged_points (fun i => if ma_point_id args <? 0 then i mod 2 ^ 32 else ma_point_id args mod 2 ^ 32)). reflexivity.
Qed.

(** ** Sums of areas *)

Definition pos (d : double) : Prop := finite d /\ (d = 0 \/ (0 < d_val d)%R).

Lemma pos_val : forall d, pos d -> (0 <= d_val d)%R.
Proof. intros d (_ & [->|P]); [rewrite d_val_zero; lra|lra]. Qed.
Lemma pos_zero : forall d, pos d -> d_val d = 0%R -> d = 0.
Proof. intros d (_ & [E|P]) Z; [exact E|lra]. Qed.

Lemma add_pos : forall a b, pos a -> pos b -> fits (d_val a + d_val b) ->
  pos (d_add a b) /\ d_val (d_add a b) = rnd (d_val a + d_val b).
Proof.
  intros a b (Fa & Pa) (Fb & Pb) Fi. pose proof (sign_pos a Fa Pa) as Sa. pose proof (sign_pos b Fb Pb) as Sb.
  pose proof (pos_val a (conj Fa Pa)) as Va. pose proof (pos_val b (conj Fb Pb)) as Vb.
  destruct (d_add_val a b) as (M1 & M2); try apply Fa; try apply Fb.
  assert (Fm : finite (d_add a b)) by (split; [apply d_add_ok|now apply M1]).
  assert (V : d_val (d_add a b) = rnd (d_val a + d_val b)) by auto. split; [|exact V]. split; [exact Fm|].
  destruct (Rle_lt_or_eq_dec 0 (rnd (d_val a + d_val b)) ltac:(apply rnd_pos; lra)) as [P|Z]; [right; now rewrite V|left].
  assert (Z' : (d_val a + d_val b)%R = 0%R).
  { destruct (Req_dec (d_val a + d_val b) 0) as [E|E]; [exact E|exfalso].
    destruct Pa as [Ea|Pa].
    - rewrite Ea, d_val_zero, Rplus_0_l, rnd_val in Z. rewrite Ea, d_val_zero in E. lra.
    - assert (L : (d_val a <= rnd (d_val a + d_val b))%R) by (rewrite <- (rnd_val a) at 1; apply rnd_le; lra). lra. }
  destruct Fa as [Oa Fa]. destruct Fb as [Ob Fb]. pose proof Fa as Fa'. pose proof Fb as Fb'. rewrite d_is_finite_B in Fa', Fb' by assumption.
  pose proof (Binary.Bplus_correct 53 1024 eq_refl eq_refl binop_nan_pl64 mode_NE (b64_of_bits a) (b64_of_bits b) Fa' Fb') as H.
  cbn [round_mode] in H. fold (d_val a) (d_val b) in H. rewrite Z' in H.
  change (round radix2 (SpecFloat.fexp 53 1024) ZnearestE 0) with (rnd 0) in H. rewrite rnd_0, Rabs_R0 in H.
  rewrite Rlt_bool_true in H by apply bpow_gt_0. destruct H as (V' & Fc & S).
  rewrite Rcompare_Eq in S by reflexivity. rewrite Sa, Sb in S. cbn in S.
  unfold d_add, b64_plus. rewrite (zero_false _ Fc V' S). reflexivity.
Qed.

Definition big : R := bpow radix2 802.

Lemma width_bound : forall (ax : point_record -> double) prs lo hi, (forall r, In r prs -> (Rabs (d_val (ax r)) <= bpow radix2 400)%R) ->
  is_least (map (fun r => d_val (ax r)) prs) lo -> is_greatest (map (fun r => d_val (ax r)) prs) hi ->
  (0 <= hi - lo)%R /\ (0 <= rnd (hi - lo) <= bpow radix2 401)%R /\ fits (hi - lo).
Proof.
  intros ax prs lo hi B (Il & L) (Ig & G). pose proof (L hi Ig) as Le.
  apply in_map_iff in Il as (p & <- & Ip). apply in_map_iff in Ig as (q & <- & Iq).
  pose proof (B p Ip) as Bp. pose proof (B q Iq) as Bq. apply Rabs_le_inv in Bp. apply Rabs_le_inv in Bq.
  assert (E : (bpow radix2 401 = 2 * bpow radix2 400)%R) by (change 401 with (1 + 400); rewrite bpow_plus; reflexivity).
  split; [lra|]. split.
  - split; [apply rnd_pos; lra|]. rewrite <- (rnd_bpow 401) by lia. apply rnd_le. lra.
  - apply (fits_bpow _ 401); [|lia]. rewrite Rabs_pos_eq; lra.
Qed.

Lemma area_ok : forall prs a, prs <> [] -> Forall ordinary prs -> rounded_area prs a ->
  pos (cloud_area prs) /\ d_val (cloud_area prs) = a /\ (0 <= a <= big)%R.
Proof.
  intros prs a N O (x0 & x1 & y0 & y1 & Lx & Gx & Ly & Gy & ->). rewrite Forall_forall in O.
  destruct (width_bound rx prs x0 x1) as (Wx & Bx & Fx); [intros r Hr; apply O, Hr|exact Lx|exact Gx|].
  destruct (width_bound ry prs y0 y1) as (Wy & By & Fy); [intros r Hr; apply O, Hr|exact Ly|exact Gy|].
  assert (F : Forall pt_finite (map pr_pt prs)) by (apply Forall_map, Forall_forall; intros r Hr; apply O, Hr).
  assert (N' : map pr_pt prs <> []) by (destruct prs; [congruence|discriminate]).
  assert (Vx : vals px (map pr_pt prs) = map (fun r => d_val (rx r)) prs) by (unfold vals; rewrite map_map; reflexivity).
  assert (Vy : vals py (map pr_pt prs) = map (fun r => d_val (ry r)) prs) by (unfold vals; rewrite map_map; reflexivity).
  rewrite <- Vx in Lx, Gx. rewrite <- Vy in Ly, Gy.
  destruct (span_spec px _ x0 x1 ltac:(cbn; tauto) F N' Lx Gx) as (_ & _ & Sx & _). destruct (Sx Fx) as (X1 & X2 & X3).
  destruct (span_spec py _ y0 y1 ltac:(cbn; tauto) F N' Ly Gy) as (_ & _ & Sy & _). destruct (Sy Fy) as (Y1 & Y2 & Y3).
  assert (Bb : (0 <= rnd (x1 - x0) * rnd (y1 - y0) <= big)%R).
  { split; [apply Rmult_le_pos; lra|]. unfold big. change 802 with (401 + 401). rewrite bpow_plus. apply Rmult_le_compat; lra. }
  assert (Fi : fits (d_val (span px (map pr_pt prs)) * d_val (span py (map pr_pt prs)))).
  { rewrite X2, Y2. apply (fits_bpow _ 802); [|lia]. rewrite Rabs_pos_eq; apply Bb. }
  destruct (mul_pos _ _ X1 Y1 X3 Y3 Fi) as (Fm & Vm & Zm). rewrite X2, Y2 in Vm, Zm.
  assert (Ba : (0 <= rnd (rnd (x1 - x0) * rnd (y1 - y0)) <= big)%R).
  { split; [apply rnd_pos; apply Bb|]. unfold big. rewrite <- (rnd_bpow 802) by lia. apply rnd_le. apply Bb. }
  change (cloud_area prs) with (d_mul (span px (map pr_pt prs)) (span py (map pr_pt prs))).
  split; [|split; [exact Vm|exact Ba]]. split; [exact Fm|].
  destruct (Req_dec (rnd (rnd (x1 - x0) * rnd (y1 - y0))) 0) as [Z|Z]; [left; auto|right; rewrite Vm; lra].
Qed.

Lemma big_format : forall k, 0 <= k <= 2 ^ 53 -> rnd (IZR k * big) = (IZR k * big)%R.
Proof.
  intros k K. unfold rnd. apply round_generic; [apply valid_rnd_N|].
  unfold big. change (bpow radix2 802) with (bpow radix2 802).
  assert (G : generic_format radix2 fexp64 (F2R (Float radix2 k 802))).
  { destruct (Z.eq_dec k 0) as [->|Nk]; [rewrite F2R_0; apply generic_format_0|].
    destruct (Z.eq_dec k (2 ^ 53)) as [->|N2].
    - unfold F2R. cbn [Fnum Fexp]. change (2 ^ 53) with (Zpower radix2 53). rewrite IZR_Zpower, <- bpow_plus by lia. apply bpow_format. lia.
    - apply generic_format_F2R. intros _. unfold cexp. rewrite fexp64_FLT. unfold FLT_exp.
      assert (M : (mag radix2 (F2R (Float radix2 k 802)) <= 53 + 802)%Z).
      { apply mag_le_bpow; [apply F2R_neq_0; exact Nk|]. unfold F2R. cbn [Fnum Fexp]. rewrite bpow_plus, Rabs_mult, (Rabs_pos_eq (bpow radix2 802)) by apply bpow_ge_0.
        apply Rmult_lt_compat_r; [apply bpow_gt_0|]. rewrite <- abs_IZR, <- IZR_Zpower by lia. apply IZR_lt. change (Zpower radix2 53) with (2 ^ 53). lia. }
      lia. }
  exact G.
Qed.

Lemma sum_ok : forall ds l s, Forall2 (fun d a => pos d /\ d_val d = a /\ (0 <= a <= big)%R) ds l ->
  forall k, 0 <= k -> k + zlen ds <= 2 ^ 53 -> pos s -> (d_val s <= IZR k * big)%R ->
  pos (fold_left d_add ds s) /\ d_val (fold_left d_add ds s) = fold_left (fun s a => rnd (s + a)) l (d_val s).
Proof.
  intros ds l s H. revert s. induction H as [|d a ds l (Pd & Vd & Ba) _ IH]; intros s k K Ks Ps Bs; [split; [exact Ps|reflexivity]|].
  cbn [fold_left]. assert (Zl : zlen (d :: ds) = 1 + zlen ds) by (unfold zlen; cbn [List.length]; lia). pose proof (zlen_nonneg ds).
  pose proof (pos_val s Ps) as Vs. pose proof (pos_val d Pd) as Vd'.
  assert (Bn : (d_val s + d_val d <= IZR (k + 1) * big)%R) by (rewrite plus_IZR; nra).
  assert (Fi : fits (d_val s + d_val d)).
  { apply (fits_bpow _ 900); [|lia]. rewrite Rabs_pos_eq by lra. eapply Rle_trans; [exact Bn|].
    apply Rle_trans with (bpow radix2 53 * big)%R; [|unfold big; rewrite <- bpow_plus; apply bpow_le; lia].
    apply Rmult_le_compat_r; [apply bpow_ge_0|]. rewrite <- IZR_Zpower by lia. apply IZR_le. change (Zpower radix2 53) with (2 ^ 53). lia. }
  destruct (add_pos s d Ps Pd Fi) as (Pa & Va). rewrite <- Vd, <- Va. apply (IH (d_add s d) (k + 1)); [lia|lia|exact Pa|].
  rewrite Va, <- (big_format (k + 1)) by lia. now apply rnd_le.
Qed.

Lemma pos_0 : pos 0.
Proof. split; [split; [unfold d_ok, two64; lia|reflexivity]|now left]. Qed.
Lemma hundred : finite (d_of_z 100) /\ d_val (d_of_z 100) = 100%R.
Proof. destruct (d_of_z_exact 100 ltac:(lia)) as (F & V). split; [split; [apply d_of_z_ok|exact F]|exact V]. Qed.

Lemma ratio : forall a s, pos a -> pos s ->
  (d_gtb (d_div a s) (d_of_z 100) = true
   <-> (d_val s = 0%R /\ (0 < d_val a)%R) \/ (d_val s <> 0%R /\ (100 < rnd (d_val a / d_val s))%R)).
Proof.
  intros a s Pa Ps. destruct hundred as (Fh & Vh). pose proof (pos_val a Pa) as Va. pose proof (pos_val s Ps) as Vs.
  assert (I : d_gtb d_inf (d_of_z 100) = true) by (vm_compute; reflexivity).
  destruct (Req_dec (d_val s) 0) as [Z|Z].
  - rewrite (pos_zero s Ps Z). rewrite d_val_zero. destruct Pa as (Fa & [->|P]).
    + replace (d_gtb (d_div 0 0) (d_of_z 100)) with false by (vm_compute; reflexivity). rewrite d_val_zero. split; [discriminate|lra].
    + rewrite (div_pos_zero a Fa P), I. split; [left; lra|reflexivity].
  - destruct Ps as (Fs & Ps). destruct Ps as [->|Ps]; [rewrite d_val_zero in Z; lra|]. destruct Pa as (Fa & Pa).
    destruct (Rlt_dec (Rabs (rnd (d_val a / d_val s))) (bpow radix2 1024)) as [Fi|Fi].
    + destruct (d_div_val a s) as (D1 & D2); try apply Fa; try apply Fs; [exact Z|].
      unfold d_gtb. rewrite d_ltb_val; [|apply Fh|apply d_div_ok|apply Fh|now apply D1]. rewrite Vh, (D2 Fi). split; [right; auto|lra].
    + assert (Q : (bpow radix2 1024 <= rnd (d_val a / d_val s))%R).
      { apply Rnot_lt_le in Fi. rewrite Rabs_pos_eq in Fi; [exact Fi|]. apply rnd_pos. apply div_nonneg; lra. }
      assert (H : (100 < bpow radix2 1024)%R).
      { apply Rlt_le_trans with (bpow radix2 7); [|apply bpow_le; lia]. rewrite <- IZR_Zpower by lia. apply IZR_lt. reflexivity. }
      destruct Pa as [->|Pa].
      * rewrite d_val_zero in Q. unfold Rdiv in Q. rewrite Rmult_0_l, rnd_0 in Q. pose proof (bpow_gt_0 radix2 1024). lra.
      * rewrite (div_overflow a s Fa Fs Pa Ps Fi), I. split; [right; split; lra|reflexivity].
Qed.

(** ** The warning *)

(** For inputs with points of ordinary size, the warning about the area is printed exactly
    when the program is not told to be quiet and the area of all points together, divided
    by the sum of the areas of the inputs, exceeds 100; if that sum is 0, when the area of
    all points together is not 0. *)
Theorem C98_warns : forall z ZS args bs f fs areas total, zlib_ok z ZS -> Forall is_bytes bs ->
  Forall2 (file_of (read_spoc_file z)) bs (f :: fs) -> fs <> [] -> uniform (flat_map f_prs (f :: fs)) ->
  Forall (fun g => f_prs g <> []) (f :: fs) -> Forall ordinary (flat_map f_prs (f :: fs)) -> zlen (f :: fs) <= 2 ^ 53 ->
  Forall2 (fun g a => rounded_area (f_prs g) a) (f :: fs) areas -> rounded_area (flat_map f_prs (f :: fs)) total ->
  exists warned, area_warning z args (map Some bs) = Ret warned
  /\ (warned = true <-> ma_quiet args = false
        /\ let s := rounded_sum areas in (s = 0 /\ 0 < total \/ s <> 0 /\ 100 < rnd (total / s))%R).
Proof.
  intros z ZS args bs f fs areas total Hz B R N U Ne O L A T.
  rewrite (warning_eq z ZS args bs f fs Hz B R N U). eexists. split; [reflexivity|].
  destruct (area_ok (flat_map f_prs (f :: fs)) total) as (Pt & Vt & _); [|exact O|exact T|].
  { inversion Ne; subst. cbn [flat_map]. now destruct (f_prs f). }
  assert (H : Forall2 (fun d a => pos d /\ d_val d = a /\ (0 <= a <= big)%R) (map (fun f => cloud_area (f_prs f)) (f :: fs)) areas).
  { clear - Ne O A. revert Ne O A. generalize (f :: fs). intros l Ne O A. induction A as [|g a l areas Ha _ IH]; [constructor|].
    inversion Ne; subst. cbn [flat_map] in O. apply Forall_app in O as (O1 & O2). cbn [map]. constructor; [now apply area_ok|now apply IH]. }
  destruct (sum_ok _ _ 0 H 0) as (Ps & Vs); [lia|unfold zlen in *; rewrite map_length; lia|exact pos_0|rewrite d_val_zero; lra|].
  rewrite d_val_zero in Vs. fold (rounded_sum areas) in Vs.
  rewrite andb_true_iff, negb_true_iff, (ratio _ _ Pt Ps), Vt, Vs. cbn zeta. tauto.
Qed.

Lemma sum_above : forall l s, Forall (fun a => 0 <= a /\ rnd a = a)%R l -> (0 <= s)%R -> (rnd s = s) ->
  (s <= fold_left (fun s a => rnd (s + a)) l s)%R /\ forall a, In a l -> (a <= fold_left (fun s a => rnd (s + a)) l s)%R.
Proof.
  induction l as [|b l IH]; intros s H P F; [split; [apply Rle_refl|intros a []]|]. inversion H as [|? ? (P0 & F0) Hl]; subst. cbn [fold_left].
  assert (Q : (s <= rnd (s + b))%R) by (rewrite <- F at 1; apply rnd_le; lra).
  assert (Q' : (b <= rnd (s + b))%R) by (rewrite <- F0 at 1; apply rnd_le; lra).
  destruct (IH (rnd (s + b)) Hl ltac:(lra) (rnd_rnd _)) as (I1 & I2). split; [lra|].
  intros a [<-|I]; [lra|auto].
Qed.

Lemma rounded_area_unique : forall prs a b, rounded_area prs a -> rounded_area prs b -> a = b.
Proof.
  intros prs a b (x0 & x1 & y0 & y1 & A1 & A2 & A3 & A4 & ->) (u0 & u1 & v0 & v1 & B1 & B2 & B3 & B4 & ->).
  rewrite (is_least_unique _ _ _ A1 B1), (is_greatest_unique _ _ _ A2 B2), (is_least_unique _ _ _ A3 B3), (is_greatest_unique _ _ _ A4 B4). reflexivity.
Qed.

Lemma least_exists : forall l : list R, l <> [] -> (exists m, is_least l m) /\ exists m, is_greatest l m.
Proof.
  induction l as [|a l IH]; [congruence|]. intros _. destruct l as [|b l].
  - split; exists a; (split; [now left|]); intros x [<-|[]]; lra.
  - destruct (IH ltac:(discriminate)) as ((m & Im & Lm) & (g & Ig & Gg)). split.
    + destruct (Rle_dec a m) as [L|L]; [exists a|exists m]; (split; [cbn in *; tauto|]); intros x [<-|I]; try specialize (Lm x I); lra.
    + destruct (Rle_dec g a) as [L|L]; [exists a|exists g]; (split; [cbn in *; tauto|]); intros x [<-|I]; try specialize (Gg x I); lra.
Qed.

Lemma rounded_area_exists : forall prs, prs <> [] -> exists a, rounded_area prs a.
Proof.
  intros prs N. destruct (least_exists (map (fun r => d_val (rx r)) prs)) as ((x0 & A1) & (x1 & A2)); [now destruct prs|].
  destruct (least_exists (map (fun r => d_val (ry r)) prs)) as ((y0 & A3) & (y1 & A4)); [now destruct prs|].
  eexists. exists x0, x1, y0, y1. split; [exact A1|split; [exact A2|split; [exact A3|split; [exact A4|reflexivity]]]].
Qed.

(** No warning if the points of one input already span the bounding box of all points. *)
Theorem C98_covered : forall z ZS args bs f fs c, zlib_ok z ZS -> Forall is_bytes bs ->
  Forall2 (file_of (read_spoc_file z)) bs (f :: fs) -> fs <> [] -> uniform (flat_map f_prs (f :: fs)) ->
  Forall (fun g => f_prs g <> []) (f :: fs) -> Forall ordinary (flat_map f_prs (f :: fs)) -> zlen (f :: fs) <= 2 ^ 53 ->
  In c (f :: fs) ->
  (forall r, In r (flat_map f_prs (f :: fs)) ->
     (exists p, In p (f_prs c) /\ d_val (rx p) <= d_val (rx r)) /\ (exists p, In p (f_prs c) /\ d_val (rx r) <= d_val (rx p))
     /\ (exists p, In p (f_prs c) /\ d_val (ry p) <= d_val (ry r)) /\ (exists p, In p (f_prs c) /\ d_val (ry r) <= d_val (ry p)))%R ->
  area_warning z args (map Some bs) = Ret false.
Proof.
  intros z ZS args bs f fs c Hz B R N U Ne O L I Cv.
  assert (AX : exists areas, Forall2 (fun g a => rounded_area (f_prs g) a) (f :: fs) areas).
  { clear - Ne. revert Ne. generalize (f :: fs). intros l. induction 1 as [|g l Hg _ (areas & IH)]; [exists []; constructor|].
    destruct (rounded_area_exists _ Hg) as (a & Ha). exists (a :: areas). now constructor. }
  destruct AX as (areas & A). pose proof Ne as Nc. rewrite Forall_forall in Nc. specialize (Nc c I).
  destruct (rounded_area_exists _ Nc) as (t & Tc).
  assert (T : rounded_area (flat_map f_prs (f :: fs)) t).
  { assert (S : forall r, In r (f_prs c) -> In r (flat_map f_prs (f :: fs))) by (intros r Hr; apply in_flat_map; eauto).
    destruct Tc as (x0 & x1 & y0 & y1 & (Ix0 & Lx) & (Ix1 & Gx) & (Iy0 & Ly) & (Iy1 & Gy) & ->). exists x0, x1, y0, y1.
    assert (Sub : forall ax : point_record -> double, forall v, In v (map (fun r => d_val (ax r)) (f_prs c)) -> In v (map (fun r => d_val (ax r)) (flat_map f_prs (f :: fs)))).
    { intros ax v Hv. apply in_map_iff in Hv as (r & <- & Hr). apply (in_map (fun r => d_val (ax r))). auto. }
    repeat split; try (apply Sub; assumption); intros v Hv; apply in_map_iff in Hv as (r & <- & Hr);
      destruct (Cv r Hr) as ((p1 & I1 & C1) & (p2 & I2 & C2) & (p3 & I3 & C3) & (p4 & I4 & C4)).
    - specialize (Lx _ (in_map (fun r => d_val (rx r)) _ _ I1)). cbn beta in Lx. lra.
    - specialize (Gx _ (in_map (fun r => d_val (rx r)) _ _ I2)). cbn beta in Gx. lra.
    - specialize (Ly _ (in_map (fun r => d_val (ry r)) _ _ I3)). cbn beta in Ly. lra.
    - specialize (Gy _ (in_map (fun r => d_val (ry r)) _ _ I4)). cbn beta in Gy. lra. }
  destruct (C98_warns z ZS args bs f fs areas t Hz B R N U Ne O L A T) as (w & E & W). rewrite E. f_equal.
  destruct w; [exfalso|reflexivity]. destruct (proj1 W eq_refl) as (_ & H). cbn zeta in H.
  assert (Al : Forall (fun a => 0 <= a /\ rnd a = a)%R areas).
  { clear - A Ne O. revert Ne O A. generalize (f :: fs). intros l Ne O A. induction A as [|g a l areas Ha _ IH]; [constructor|].
    inversion Ne; subst. cbn [flat_map] in O. apply Forall_app in O as (O1 & O2). constructor; [|now apply IH].
    destruct (area_ok _ _ H1 O1 Ha) as (_ & V & Bd). split; [lra|]. rewrite <- V. apply rnd_val. }
  assert (It : In t areas).
  { clear - A I Tc. revert I A. generalize (f :: fs). intros l I A. induction A as [|g a l areas Ha _ IH]; [destruct I|].
    destruct I as [->|I]; [left; eapply rounded_area_unique; eauto|right; auto]. }
  destruct (sum_above areas 0 Al (Rle_refl 0) rnd_0) as (S0 & S1). specialize (S1 t It). fold (rounded_sum areas) in S0, S1.
  rewrite Forall_forall in Al. destruct (Al t It) as (Pt & _).
  destruct H as [(Hs & Ht)|(Hs & Ht)]; [lra|].
  assert (Q : (rnd (t / rounded_sum areas) <= rnd 1)%R).
  { apply rnd_le. apply (Rmult_le_reg_r (rounded_sum areas)); [lra|]. unfold Rdiv. rewrite Rmult_assoc, Rinv_l, Rmult_1_l, Rmult_1_r by exact Hs. exact S1. }
  rewrite (rnd_int 1) in Q by lia. lra.
Qed.

(** ** Inputs without points *)

(** The sum of the areas once an input without points has been added. *)
Definition lost (d : double) : Prop :=
  b64_of_bits d = Binary.B754_infinity 53 1024 false \/ Binary.is_nan 53 1024 (b64_of_bits d) = true.

Lemma add_empty : forall s, lost (d_add s (cloud_area [])).
Proof.
  intros s. assert (E : cloud_area [] = d_inf) by (vm_compute; reflexivity). rewrite E. unfold lost, d_add. rewrite b64_bits.
  change (b64_of_bits d_inf) with (Binary.B754_infinity 53 1024 false).
  destruct (b64_of_bits s) as [[]|[]|[] p e|[] m e H]; cbn; auto.
Qed.
Lemma add_lost : forall s d, lost s -> lost (d_add s d).
Proof.
  intros s d [H|H]; unfold lost, d_add; rewrite b64_bits; unfold b64_plus.
  - rewrite H. destruct (b64_of_bits d) as [[]|[]|[] p e|[] m e Hm]; cbn; auto.
  - right. destruct (b64_of_bits s); cbn in H; try discriminate. now destruct (b64_of_bits d).
Qed.
Lemma sum_lost : forall l s, lost s -> lost (fold_left d_add l s).
Proof. induction l as [|a l IH]; intros s H; [exact H|]. cbn [fold_left]. apply IH. now apply add_lost. Qed.
Lemma div_lost : forall a s, lost s -> d_gtb (d_div a s) (d_of_z 100) = false.
Proof.
  intros a s H. unfold d_gtb.
  assert (X : d_is_nan (d_div a s) = true \/ exists b, d_div a s = bits_of_b64 (Binary.B754_zero 53 1024 b)).
  { unfold d_div. rewrite nan_bits. destruct H as [H|H].
    - rewrite H. assert (Y : Binary.is_nan 53 1024 (b64_div mode_NE (b64_of_bits a) (Binary.B754_infinity 53 1024 false)) = true
        \/ exists b, b64_div mode_NE (b64_of_bits a) (Binary.B754_infinity 53 1024 false) = Binary.B754_zero 53 1024 b).
      { destruct (b64_of_bits a) as [b|b|b p e|b m e Hm]; [right; exists (xorb b false)|left|left|right; exists (xorb b false)]; reflexivity. }
      destruct Y as [Y|(b & Y)]; [now left|right; exists b; now rewrite Y].
    - left. unfold b64_div. destruct (b64_of_bits s); cbn in H; try discriminate. now destruct (b64_of_bits a). }
  destruct X as [X|([] & ->)]; [now apply d_ltb_nan_r|vm_compute; reflexivity|vm_compute; reflexivity].
Qed.

(** One input without points silences the warning, whatever the others hold: the area of
    no points counts as infinite. *)
Theorem C98_empty_input : forall z ZS args bs f fs e, zlib_ok z ZS -> Forall is_bytes bs ->
  Forall2 (file_of (read_spoc_file z)) bs (f :: fs) -> fs <> [] -> uniform (flat_map f_prs (f :: fs)) ->
  In e (f :: fs) -> f_prs e = [] ->
  area_warning z args (map Some bs) = Ret false.
Proof.
  intros z ZS args bs f fs e Hz B R N U I E. rewrite (warning_eq z ZS args bs f fs Hz B R N U), div_lost; [now rewrite andb_false_r|].
  apply in_split in I as (l1 & l2 & ->). rewrite map_app, fold_left_app. cbn [map fold_left]. rewrite E. apply sum_lost. apply add_empty.
Qed.

(** ** Examples *)

Definition at_xy (x y : double) : point_record := mk_pr x y 0 2 0 0 0 0 0 [].
Definition near_file : spoc_file := mk_file 0 1 (chars "A") false [at_xy 0 0; at_xy d_one d_one].
Definition far_file : spoc_file := mk_file 0 1 (chars "A") true [at_xy (d_of_z 100) (d_of_z 100)].
Definition wide_file : spoc_file := mk_file 0 1 (chars "A") false [at_xy 0 0; at_xy (d_of_z 100) (d_of_z 100); at_xy d_one d_one].
Definition no_points : spoc_file := mk_file 0 1 (chars "A") false [].

Lemma ordinary_int : forall a b, Z.abs a <= 1000 -> Z.abs b <= 1000 -> ordinary (at_xy (d_of_z a) (d_of_z b)).
Proof.
  intros a b A B. destruct (d_of_z_exact a ltac:(lia)) as (Fa & Va). destruct (d_of_z_exact b ltac:(lia)) as (Fb & Vb).
  assert (K : forall k, Z.abs k <= 1000 -> (Rabs (IZR k) <= bpow radix2 400)%R).
  { intros k Hk. rewrite <- abs_IZR. apply Rle_trans with (bpow radix2 10); [|apply bpow_le; lia]. rewrite <- IZR_Zpower by lia. apply IZR_le.
    change (Zpower radix2 10) with 1024. lia. }
  split; [|cbn [rx ry at_xy]; rewrite Va, Vb; auto]. split; [split; [apply d_of_z_ok|split; [apply d_of_z_ok|]]|split; [exact Fa|split; [exact Fb|reflexivity]]].
  unfold d_ok, two64; cbn; lia.
Qed.

Example C98_example : exists areas total,
  Forall2 (file_of (read_spoc_file toy)) [m_written near_file; m_written far_file] [near_file; far_file]
  /\ uniform (flat_map f_prs [near_file; far_file])
  /\ Forall (fun g => f_prs g <> []) [near_file; far_file] /\ Forall ordinary (flat_map f_prs [near_file; far_file])
  /\ Forall2 (fun g a => rounded_area (f_prs g) a) [near_file; far_file] areas
  /\ rounded_area (flat_map f_prs [near_file; far_file]) total
  /\ area_warning toy (mk_merge_args false (-1)) [Some (m_written near_file); Some (m_written far_file)] = Ret true
  /\ area_warning toy (mk_merge_args true (-1)) [Some (m_written near_file); Some (m_written far_file)] = Ret false
  (* one input spans everything, or holds nothing *)
  /\ area_warning toy (mk_merge_args false (-1)) [Some (m_written near_file); Some (m_written wide_file)] = Ret false
  /\ area_warning toy (mk_merge_args false (-1)) [Some (m_written near_file); Some (m_written far_file); Some (m_written no_points)] = Ret false.
Proof.
  destruct (rounded_area_exists (f_prs near_file) ltac:(discriminate)) as (a & A).
  destruct (rounded_area_exists (f_prs far_file) ltac:(discriminate)) as (b & B).
  destruct (rounded_area_exists (flat_map f_prs [near_file; far_file]) ltac:(discriminate)) as (t & T).
  exists [a; b], t. split; [repeat constructor; eexists; vm_compute; reflexivity|].
  split; [intros p q Hp Hq; cbn in Hp, Hq; intuition (subst; reflexivity)|].
  split; [repeat constructor; discriminate|]. split.
  { cbn [flat_map f_prs near_file far_file app].
    replace (at_xy 0 0) with (at_xy (d_of_z 0) (d_of_z 0)) by (vm_compute; reflexivity).
    replace (at_xy d_one d_one) with (at_xy (d_of_z 1) (d_of_z 1)) by (vm_compute; reflexivity).
    repeat (apply Forall_cons; [apply ordinary_int; lia|]). apply Forall_nil. }
  split; [repeat constructor; assumption|]. split; [exact T|]. repeat split; vm_compute; reflexivity.
Qed.

Print Assumptions C98_warns.
Print Assumptions C98_covered.
Print Assumptions C98_empty_input.
