(** C45, C46: what the radius search finds, in terms of true distances. *)
From Coq Require Import String Reals ZArith List Bool Permutation Lia Lra.
From Flocq Require Import Core IEEE754.Binary IEEE754.Bits.
From Verif.Model Require Import Base Double Arith PointRecord Point Extent Voxel Subsampling RadiusSearch.
From Verif.Spec Require Import Rounding Sampling Geometry Distance.
From Verif.Proofs Require Import BaseFacts OrderFacts DoubleFacts ArithFacts VoxelFacts ErrorFacts SubsampleFacts RadiusFacts.
From Verif.Props Require Import GeometryProps VoxelProps SearchProps.
Import ListNotations.
Open Scope Z_scope.

Lemma modest_finite : forall p, modest_pt p -> pt_finite p.
Proof. intros p (((A & B) & _) & ((C & D) & _) & ((E & F) & _)). unfold pt_finite, pt_ok. tauto. Qed.

Lemma modest_axis : forall p ax, modest_pt p -> In ax axes -> modest (ax p).
Proof. intros p ax (A & B & C) [<-|[<-|[<-|[]]]]; assumption. Qed.

(** The cloud spans at most 2^30 radii along every axis. *)
Definition spans (points : list point) (radius : double) : Prop :=
  forall p q ax, In p points -> In q points -> In ax axes ->
    (d_val (ax p) - d_val (ax q) <= 1073741824 * d_val radius)%R.

Lemma min_facts : forall points p ax, Forall modest_pt points -> In p points -> In ax axes ->
  let m := ax (minp (get_extent points)) in
  finite m /\ (d_val m <= d_val (ax p))%R
  /\ exists q, In q points /\ d_val (ax q) = d_val m.
Proof.
  intros points p ax Hf Ip Hax m.
  assert (Hf' : Forall pt_finite points) by (eapply Forall_impl; [|exact Hf]; intros; now apply modest_finite).
  destruct (extent_finite points Hf') as [Fm _].
  destruct (axis_finite ax _ Hax Fm) as [Om Fm'].
  assert (Fp : finite (ax p)) by (apply modest_axis; [rewrite Forall_forall in Hf; auto|exact Hax]).
  split; [split; assumption|]. split.
  - destruct (C32_extent_contains points p ax Hf' Ip Hax) as [L _]. destruct Fp. apply d_leb_val in L; auto.
  - destruct (C32_extent_attained points ax Hf') as [(q & Iq & E) _]; [intros ->; destruct Ip|exact Hax|].
    exists q. split; [exact Iq|]. assert (Fq : finite (ax q)) by (apply modest_axis; [rewrite Forall_forall in Hf; auto|exact Hax]).
    destruct Fq. apply d_eqb_val in E; auto.
Qed.

Lemma fits_diff : forall a b, modest a -> modest b -> fits (d_val a - d_val b).
Proof.
  intros a b [_ Ma] [_ Mb]. apply (fits_bpow _ 501); [|lia].
  change 501 with (500 + 1). rewrite bpow_plus. change (bpow radix2 1) with 2%R.
  eapply Rle_trans; [apply Rabs_triang|]. rewrite Rabs_Ropp. lra.
Qed.

(** Every point has a voxel, and its numbers are small. *)
Lemma voxel_exists : forall points p radius, Forall modest_pt points -> In p points -> finite radius ->
  (0 < d_val radius)%R -> spans points radius ->
  exists v, get_voxel_index p (minp (get_extent points)) radius = Ret v /\ vox_int v.
Proof.
  intros points p radius Hf Ip Fr Pr Sp.
  assert (A : forall ax, In ax axes -> exists a, voxel1 (ax p) (ax (minp (get_extent points))) radius = Ret a
                                    /\ 0 <= a <= 1073741825).
  { intros ax Hax. destruct (min_facts points p ax Hf Ip Hax) as (Fm & L & q & Iq & E).
    rewrite Forall_forall in Hf.
    apply voxel1_small; auto.
    - apply (modest_axis p ax); auto.
    - rewrite <- E. apply fits_diff; apply modest_axis; auto.
    - rewrite <- E. now apply Sp. }
  destruct (A px ltac:(cbn; tauto)) as (a & Ea & Ba). destruct (A py ltac:(cbn; tauto)) as (b & Eb & Bb).
  destruct (A pz ltac:(cbn; tauto)) as (c & Ec & Bc).
  exists (mk_vox a b c). rewrite get_voxel_index_ret. cbn [vi vj vk]. split; [auto|].
  unfold vox_int. cbn [vi vj vk]. lia.
Qed.

Lemma voxels_exist : forall points is radius, Forall modest_pt points -> finite radius ->
  (0 < d_val radius)%R -> spans points radius -> Forall (fun i => 0 <= i < zlen points) is ->
  exists vs, get_voxel_indexes_of points is radius = Ret vs /\ Forall vox_int vs.
Proof.
  intros points is radius Hf Fr Pr Sp V. unfold get_voxel_indexes_of.
  induction V as [|i is Hi V IH]; cbn; [eexists; split; [reflexivity|constructor]|].
  destruct (znth_in_range points i Hi) as [p Hp]. unfold vec_get. rewrite Hp. cbn [bind].
  destruct (voxel_exists points p radius Hf (znth_In _ _ _ Hp) Fr Pr Sp) as (v & -> & Iv). cbn [bind].
  destruct IH as (vs & E & IH). unfold vec_get in E. rewrite E. cbn. eexists. split; [reflexivity|]. now constructor.
Qed.

(** For clouds of moderate size the search returns. *)
Theorem C45_defined : forall rand points pis nis radius max, rand_ok rand -> 0 <= max ->
  Forall modest_pt points -> finite radius -> (0 < d_val radius)%R -> spans points radius ->
  Forall (fun i => 0 <= i < zlen points) pis -> Forall (fun i => 0 <= i < zlen points) nis ->
  exists calls, radius_search rand points pis nis radius max = Ret calls.
Proof.
  intros rand points pis nis radius max R Pm Hf Fr Pr Sp Vp Vn.
  destruct (voxels_exist points pis radius Hf Fr Pr Sp Vp) as (pvi & Ep & Ip).
  destruct (voxels_exist points nis radius Hf Fr Pr Sp Vn) as (nvi & En & _).
  eapply C45_returns; eassumption.
Qed.

(** What is reported is within the radius, up to a relative error of 2^-50. *)
Theorem C45_true_distance : forall rand points pis nis radius max calls i ns j a b p q, rand_ok rand -> 0 <= max ->
  radius_search rand points pis nis radius max = Ret calls ->
  modest_pt p -> modest_pt q -> finite radius -> (bpow radix2 (-500) <= d_val radius)%R ->
  In (i, ns) calls -> In j ns ->
  znth pis i = Some a -> znth points a = Some p -> znth nis j = Some b -> znth points b = Some q ->
  (dist2 p q <= sq ((1 + / 1125899906842624) * d_val radius))%R.
Proof.
  intros rand points pis nis radius max calls i ns j a b p q R Pm H Mp Mq Fr Br I J Ha Hp Hb Hq.
  destruct (C45_sound _ _ _ _ _ _ _ R Pm H) as [_ S]. destruct (S _ _ I) as (_ & _ & W).
  destruct (W _ J) as (_ & a' & b' & p' & q' & Ha' & Hp' & Hb' & Hq' & D).
  rewrite Ha in Ha'. injection Ha' as <-. rewrite Hp in Hp'. injection Hp' as <-.
  rewrite Hb in Hb'. injection Hb' as <-. rewrite Hq in Hq'. injection Hq' as <-.
  now apply distance_sound.
Qed.

Lemma sq_le_abs : forall x y, (0 <= y)%R -> (sq x <= sq y)%R -> (Rabs x <= y)%R.
Proof.
  intros x y Py H. unfold sq in H. apply Rabs_le. 
  destruct (Rle_lt_dec x y) as [L|L]; [|nra]. split; [|exact L].
  destruct (Rle_lt_dec (- y) x) as [L'|L']; [exact L'|nra].
Qed.

(** Uncapped, every point closer than the radius, by a relative margin of
    2^-19, is reported. *)
Theorem C46_complete : forall rand points pis nis radius max calls i ns j a b p q, rand_ok rand ->
  radius_search rand points pis nis radius max = Ret calls ->
  Forall modest_pt points -> finite radius -> (bpow radix2 (-500) <= d_val radius)%R -> spans points radius ->
  In (i, ns) calls -> zlen ns < max ->
  znth pis i = Some a -> znth points a = Some p -> znth nis j = Some b -> znth points b = Some q ->
  (dist2 p q <= sq ((1 - / 524288) * d_val radius))%R ->
  In j ns.
Proof.
  intros rand points pis nis radius max calls i ns j a b p q R H Hf Fr Br Sp I Lt Ha Hp Hb Hq D.
  pose proof (bpow_gt_0 radix2 (-500)) as P500. assert (Pr : (0 < d_val radius)%R) by lra.
  destruct (radius_search_calls _ _ _ _ _ _ _ H) as (pvi & nvi & Ep & En & _ & _).
  assert (VI : forall is vs, get_voxel_indexes_of points is radius = Ret vs -> Forall vox_int vs).
  { intros is vs E. apply Forall_forall. intros v Iv. destruct (In_nth_error _ _ Iv) as [n Hn].
    assert (Z.of_nat n < zlen vs) by (apply nth_error_Some_length in Hn || (pose proof (proj1 (nth_error_Some vs n)); unfold zlen; enough (n < length vs)%nat by lia; apply H0; congruence)).
    destruct (voxels_of_ret _ _ _ _ E) as [_ V]. destruct (V (Z.of_nat n) v) as (k & x & _ & Hx & G).
    - rewrite znth_nth_error, Nat2Z.id by lia. exact Hn.
    - destruct (voxel_exists points x radius Hf (znth_In _ _ _ Hx) Fr Pr Sp) as (v' & G' & Iv').
      congruence. }
  apply (C46_touching_voxels rand points pis nis radius max calls pvi nvi R H Ep En (VI _ _ Ep) (VI _ _ En) i ns I Lt).
  assert (Mp : modest_pt p) by (rewrite Forall_forall in Hf; apply Hf; eapply znth_In; exact Hp).
  assert (Mq : modest_pt q) by (rewrite Forall_forall in Hf; apply Hf; eapply znth_In; exact Hq).
  split.
  - exists a, b, p, q. split; [exact Ha|]. split; [exact Hp|]. split; [exact Hb|]. split; [exact Hq|].
    now apply distance_le.
  - destruct (voxels_of_ret _ _ _ _ Ep) as [Lp Vp]. destruct (voxels_of_ret _ _ _ _ En) as [Ln Vn].
    destruct (znth_in_range pvi i) as [v Hv]; [rewrite Lp; eapply znth_Some_range; exact Ha|].
    destruct (znth_in_range nvi j) as [w Hw]; [rewrite Ln; eapply znth_Some_range; exact Hb|].
    exists v, w. split; [exact Hv|]. split; [exact Hw|].
    destruct (Vp _ _ Hv) as (a' & p' & Ha' & Hp' & Gv). destruct (Vn _ _ Hw) as (b' & q' & Hb' & Hq' & Gw).
    rewrite Ha in Ha'. injection Ha' as <-. rewrite Hp in Hp'. injection Hp' as <-.
    rewrite Hb in Hb'. injection Hb' as <-. rewrite Hq in Hq'. injection Hq' as <-.
    apply get_voxel_index_ret in Gv as (V1 & V2 & V3). apply get_voxel_index_ret in Gw as (W1 & W2 & W3).
    assert (P1 : forall x, (0 <= sq x)%R) by (intros x; apply Rle_0_sqr).
    assert (Pm : (0 <= (1 - / 524288) * d_val radius)%R) by (apply Rmult_le_pos; lra).
    assert (C : forall ax, In ax axes -> (Rabs (d_val (ax p) - d_val (ax q)) <= (1 - / 524288) * d_val radius)%R).
    { intros ax Hax. apply sq_le_abs; [exact Pm|]. eapply Rle_trans; [|exact D]. unfold dist2.
      pose proof (P1 (d_val (px p) - d_val (px q))%R). pose proof (P1 (d_val (py p) - d_val (py q))%R).
      pose proof (P1 (d_val (pz p) - d_val (pz q))%R).
      destruct Hax as [<-|[<-|[<-|[]]]]; lra. }
    assert (N : forall ax x y, In ax axes ->
       voxel1 (ax p) (ax (minp (get_extent points))) radius = Ret x ->
       voxel1 (ax q) (ax (minp (get_extent points))) radius = Ret y -> Z.abs (x - y) <= 1).
    { intros ax x y Hax Ex Ey. pose proof (znth_In _ _ _ Hp) as Ip. pose proof (znth_In _ _ _ Hq) as Iq.
      destruct (min_facts points p ax Hf Ip Hax) as (Fm & Lp' & m & Im & Em).
      destruct (min_facts points q ax Hf Iq Hax) as (_ & Lq' & _).
      eapply (voxel1_close (ax p) (ax q) (ax (minp (get_extent points))) radius); eauto.
      - apply (modest_axis p ax); auto.
      - apply (modest_axis q ax); auto.
      - rewrite <- Em. now apply Sp.
      - rewrite <- Em. now apply Sp. }
    unfold near. split; [|split].
    + apply (N px); [cbn; tauto|exact V1|exact W1].
    + apply (N py); [cbn; tauto|exact V2|exact W2].
    + apply (N pz); [cbn; tauto|exact V3|exact W3].
Qed.

Definition r_05 : double := 4602678819172646912.
Definition d_025 : double := 4598175219545276416.

(** The hypotheses hold of the cloud 0, 0.25, 1 with radius 0.5. *)
Example C46_complete_example : Forall modest_pt line3 /\ finite r_05
  /\ (bpow radix2 (-500) <= d_val r_05)%R /\ spans line3 r_05
  /\ (dist2 (mk_pt 0 0 0) (mk_pt d_025 0 0) <= sq ((1 - / 524288) * d_val r_05))%R.
Proof.
  assert (V0 : d_val (0%Z) = 0%R) by reflexivity.
  assert (V25 : d_val d_025 = (/ 4)%R).
  { unfold d_val. vm_compute (b64_of_bits d_025). unfold Binary.B2R, F2R, Fnum, Fexp. cbn. lra. }
  assert (V5 : d_val r_05 = (/ 2)%R).
  { unfold d_val. vm_compute (b64_of_bits r_05). unfold Binary.B2R, F2R, Fnum, Fexp. cbn. lra. }
  assert (V1 : d_val d_one = 1%R).
  { unfold d_val. vm_compute (b64_of_bits d_one). unfold Binary.B2R, F2R, Fnum, Fexp. cbn. lra. }
  assert (B : forall x, (0 <= x <= 1)%R -> (Rabs x <= bpow radix2 500)%R).
  { intros x Hx. rewrite Rabs_pos_eq by lra. apply Rle_trans with (bpow radix2 0); [cbn; lra|apply bpow_le; lia]. }
  assert (M0 : modest 0) by (split; [split; [unfold d_ok, r_05, d_025, two64; lia|reflexivity]|rewrite V0; apply B; lra]).
  assert (M25 : modest d_025) by (split; [split; [unfold d_ok, r_05, d_025, two64; lia|reflexivity]|rewrite V25; apply B; lra]).
  assert (M1 : modest d_one) by (split; [split; [unfold d_ok, d_one, two64; lia|reflexivity]|rewrite V1; apply B; lra]).
  split; [|split; [|split; [|split]]].
  - unfold line3. fold d_025. constructor; [|constructor; [|constructor; [|constructor]]]; repeat split; cbn [px py pz]; try apply M0; try apply M25; apply M1.
  - split; [unfold d_ok, r_05, d_025, two64; lia|reflexivity].
  - rewrite V5. apply Rle_trans with (bpow radix2 (-1)); [apply bpow_le; lia|cbn; lra].
  - intros p q ax Ip Iq Hax. rewrite V5. unfold line3 in *. fold d_025 in *.
    destruct Ip as [<-|[<-|[<-|[]]]], Iq as [<-|[<-|[<-|[]]]], Hax as [<-|[<-|[<-|[]]]]; cbn [px py pz];
      rewrite ?V0, ?V25, ?V1; lra.
  - unfold dist2, sq. cbn [px py pz]. rewrite V0, V25, V5. lra.
Qed.

Print Assumptions C45_defined.
Print Assumptions C45_true_distance.
Print Assumptions C46_complete.
