(** C101, C102: how far apart points of one voxel can be, how near the kept points of a
    subsampling are, how far quantize moves a coordinate. *)
From Coq Require Import String Reals ZArith List Bool Permutation Lia Lra.
From Flocq Require Import Core IEEE754.Binary IEEE754.Bits.
From Verif.Model Require Import Base Double Arith PointRecord Point Extent Voxel Utils Subsampling RadiusSearch File FilterApp TransformApp.
From Verif.Spec Require Import Rounding Sampling Geometry Distance Files Apps Fields.
From Verif.Proofs Require Import BaseFacts OrderFacts DoubleFacts ArithFacts VoxelFacts ScaleFacts ErrorFacts SubsampleFacts RadiusFacts FileFacts FilterFacts TileSizeFacts.
From Verif.Props Require Import GeometryProps VoxelProps SearchProps RadiusProps FilterProps ToolGeometryProps.
Import ListNotations.
Open Scope Z_scope.

(** ** C101: the size of a voxel *)

Lemma trunc_same : forall A B, (0 <= A)%R -> (0 <= B)%R -> Ztrunc A = Ztrunc B -> (Rabs (A - B) < 1)%R.
Proof.
  intros A B PA PB H. rewrite !Ztrunc_floor in H by assumption.
  pose proof (Zfloor_lb A). pose proof (Zfloor_ub A). pose proof (Zfloor_lb B). pose proof (Zfloor_ub B).
  rewrite H in *. apply Rabs_def1; lra.
Qed.

Lemma voxel1_same : forall p q m r a, finite p -> finite q -> finite m -> finite r ->
  (0 < d_val r -> d_val m <= d_val p -> d_val m <= d_val q ->
   d_val p - d_val m <= 1073741824 * d_val r -> d_val q - d_val m <= 1073741824 * d_val r ->
   voxel1 p m r = Ret a -> voxel1 q m r = Ret a ->
   Rabs (d_val p - d_val q) < (1 + / 1048576) * d_val r)%R.
Proof.
  intros p q m r a [Op Fp] [Oq Fq] [Om Fm] [Or Fr] Pr Lp Lq Bp Bq Ha Hb.
  apply voxel1_ret in Ha; auto. apply voxel1_ret in Hb; auto.
  destruct Ha as (_ & _ & _ & [(_ & _ & _ & Ea & _)|(X & _)]); [|congruence].
  destruct Hb as (_ & _ & _ & [(_ & _ & _ & Eb & _)|(X & _)]); [|congruence].
  unfold voxel_number in *.
  pose proof (quotient_error p m (d_val r) Lp Pr Bp) as Q1. pose proof (quotient_error q m (d_val r) Lq Pr Bq) as Q2.
  assert (T : (Rabs (rnd (rnd (d_val p - d_val m) / d_val r) - rnd (rnd (d_val q - d_val m) / d_val r)) < 1)%R).
  { apply trunc_same; [| |congruence]; apply rnd_pos; (apply Rmult_le_pos; [apply rnd_pos; lra|left; now apply Rinv_0_lt_compat]). }
  set (A := rnd (rnd (d_val p - d_val m) / d_val r)) in *. set (B := rnd (rnd (d_val q - d_val m) / d_val r)) in *.
  apply Rabs_le_inv in Q1. apply Rabs_le_inv in Q2. apply Rabs_def2 in T.
  assert (E : (d_val p - d_val q = ((d_val p - d_val m) / d_val r - (d_val q - d_val m) / d_val r) * d_val r)%R) by (field; lra).
  set (u := ((d_val p - d_val m) / d_val r)%R) in *. set (w := ((d_val q - d_val m) / d_val r)%R) in *.
  rewrite E. rewrite Rabs_mult, (Rabs_pos_eq (d_val r)) by lra. apply Rmult_lt_compat_r; [exact Pr|].
  apply Rabs_def1; lra.
Qed.

(** Points of one voxel differ by less than the resolution on every axis, up to a relative
    error of 2^-20. *)
Theorem C101_one_voxel : forall points res p q v ax, Forall modest_pt points -> finite res -> (0 < d_val res)%R ->
  spans points res -> In p points -> In q points ->
  get_voxel_index p (minp (get_extent points)) res = Ret v ->
  get_voxel_index q (minp (get_extent points)) res = Ret v ->
  In ax axes -> (Rabs (d_val (ax p) - d_val (ax q)) < (1 + / 1048576) * d_val res)%R.
Proof.
  intros points res p q v ax Hf Fr Pr Sp Ip Iq Gp Gq Hax.
  assert (M : forall x, In x points -> modest_pt x) by (now apply Forall_forall).
  destruct (min_facts points p ax Hf Ip Hax) as (Fm & Lp & a & Ia & Ea).
  destruct (min_facts points q ax Hf Iq Hax) as (_ & Lq & _).
  apply get_voxel_index_ret in Gp as (V1 & V2 & V3). apply get_voxel_index_ret in Gq as (W1 & W2 & W3).
  assert (exists n, voxel1 (ax p) (ax (minp (get_extent points))) res = Ret n
                 /\ voxel1 (ax q) (ax (minp (get_extent points))) res = Ret n) as (n & Np & Nq).
  { destruct Hax as [<-|[<-|[<-|[]]]]; eauto. }
  eapply voxel1_same with (m := ax (minp (get_extent points))); eauto.
  - apply (modest_axis p ax); auto.
  - apply (modest_axis q ax); auto.
  - rewrite <- Ea. now apply Sp.
  - rewrite <- Ea. now apply Sp.
Qed.

(** Subsampling: every point of the cloud has a kept point that near. *)
Theorem C101_indexes : forall sh points res seed, permutes sh ->
  Forall modest_pt points -> finite res -> (0 < d_val res)%R -> spans points res ->
  exists r, get_subsample_indexes sh points res seed = Ret r
    /\ forall p, In p points -> exists i q, In i r /\ znth points i = Some q
         /\ forall ax, In ax axes -> (Rabs (d_val (ax p) - d_val (ax q)) < (1 + / 1048576) * d_val res)%R.
Proof.
  intros sh points res seed Sh Hf Fr Pr Sp.
  assert (exists vs, get_voxel_indexes points res = Ret vs) as [vs V].
  { unfold get_voxel_indexes, get_voxel_indexes_ext.
    assert (A : Forall (fun p => exists v, get_voxel_index p (minp (get_extent points)) res = Ret v) points).
    { apply Forall_forall. intros p Ip. destruct (voxel_exists points p res Hf Ip Fr Pr Sp) as (v & E & _). eauto. }
    revert A. generalize (minp (get_extent points)) as m. intros m A. clear - A.
    induction A as [|p ps [v E] A [vs IH]]; cbn; [eauto|]. rewrite E. cbn [bind]. rewrite IH. cbn. eauto. }
  destruct (proj2 (C41_succeeds sh points res seed Sh) (ex_intro _ vs V)) as [r R].
  exists r. split; [exact R|]. destruct (C41_one_per_voxel sh points res seed vs r Sh V R) as (_ & Bd & _ & Al).
  intros p Ip. destruct (In_nth_error _ _ Ip) as [k Hk].
  assert (Zk : znth points (Z.of_nat k) = Some p) by (rewrite znth_nth_error, Nat2Z.id by lia; exact Hk).
  destruct (Al (Z.of_nat k)) as (i & Ii & Ev); [eapply znth_Some_range; exact Zk|].
  destruct (znth_in_range points i (Bd i Ii)) as [q Hq]. exists i, q. split; [exact Ii|]. split; [exact Hq|].
  unfold get_voxel_indexes, get_voxel_indexes_ext in V. apply mapM_Ret_inv in V.
  destruct (Forall2_znth _ _ _ _ _ V Zk) as (v & Iv & Gp). destruct (Forall2_znth _ _ _ _ _ V Hq) as (w & Iw & Gq).
  assert (w = v) by congruence. subst w.
  intros ax Hax. eapply C101_one_voxel; eauto using znth_In.
Qed.

(** The program [spoc_filter --subsample]: it succeeds, its records are records of the
    input, and every record of the input has one of them that near. *)
Theorem C101_filter : forall sh stod f res seed, permutes sh -> live f ->
  Forall (fun p => modest_pt (pr_pt p)) (f_prs f) -> finite res -> (0 < d_val res)%R ->
  spans (map pr_pt (f_prs f)) res ->
  exists g, filter_process sh stod (mk_filter_args [] seed [] false res []) f = Ret g
    /\ same_meta f g
    /\ (forall q, In q (f_prs g) -> In q (f_prs f))
    /\ forall p, In p (f_prs f) -> exists q, In q (f_prs g)
         /\ (forall ax, In ax axes -> (Rabs (d_val (ax (pr_pt p)) - d_val (ax (pr_pt q))) < (1 + / 1048576) * d_val res)%R)
         /\ (dist2 (pr_pt p) (pr_pt q) < 3 * sq ((1 + / 1048576) * d_val res))%R.
Proof.
  intros sh stod f res seed Sh Lf Hf Fr Pr Sp.
  assert (Hf' : Forall modest_pt (map pr_pt (f_prs f))) by (apply Forall_map; exact Hf).
  destruct (C101_indexes sh _ res seed Sh Hf' Fr Pr Sp) as (r & R & Near).
  assert (Bd : forall i, In i r -> 0 <= i < zlen (f_prs f)) by (apply (index_facts sh _ res seed r Sh R)).
  assert (exists l, map Some l = map (znth (f_prs f)) r) as [l M].
  { clear - Bd. induction r as [|i r IH]; [now exists []|]. destruct IH as [l M]; [intros; apply Bd; now right|].
    destruct (znth_in_range (f_prs f) i) as [a Ha]; [apply Bd; now left|]. exists (a :: l). cbn. now rewrite Ha, M. }
  assert (Sub : forall q, In q l -> In q (f_prs f)).
  { intros q Iq. apply (in_map Some) in Iq. rewrite M in Iq. apply in_map_iff in Iq as (i & E & _). eapply znth_In; exact E. }
  pose proof (live_sub f l Lf Sub) as Ll.
  assert (E : subsample_file sh f res seed = Ret (with_prs f l)).
  { unfold subsample_file. rewrite (live_clone f Lf). cbn [bind].
    rewrite (proj2 (C41_points point_record pr_pt sh (f_prs f) res seed l)) by eauto. cbn [bind].
    unfold after, set_point_records, m_then, m_throw_if. destruct Ll as [_ _ U]. cbn in U.
    apply all_same_size_uniform in U. rewrite U. reflexivity. }
  assert (G : d_gtb res d_zero = true).
  { now apply TileSizeFacts.gtb_zero. }
  exists (with_prs f l). split; [|split; [apply with_prs_same|split; [exact Sub|]]].
  - unfold filter_process, assign_if. cbn [fa_keep fa_remove fa_unique fa_subsample fa_coords fa_seed nonempty bind].
    rewrite G, E. cbn [bind]. now rewrite live_copy.
  - intros p Ip. destruct (Near (pr_pt p)) as (i & q & Ii & Hq & C); [now apply in_map|].
    rewrite znth_map in Hq. destruct (znth (f_prs f) i) as [s|] eqn:Hs; [|discriminate Hq]. injection Hq as <-.
    exists s. split; [|split; [exact C|]].
    + cbn [f_prs with_prs]. assert (I : In (Some s) (map Some l)) by (rewrite M, <- Hs; now apply in_map).
      apply in_map_iff in I as (s' & [= ->] & I). exact I.
    + pose proof (C px ltac:(cbn; tauto)) as C1. pose proof (C py ltac:(cbn; tauto)) as C2. pose proof (C pz ltac:(cbn; tauto)) as C3.
      apply Rabs_def2 in C1. apply Rabs_def2 in C2. apply Rabs_def2 in C3. unfold dist2, sq.
      set (b := ((1 + / 1048576) * d_val res)%R) in *.
      set (u := (d_val (px (pr_pt p)) - d_val (px (pr_pt s)))%R) in *. set (v := (d_val (py (pr_pt p)) - d_val (py (pr_pt s)))%R) in *.
      set (w := (d_val (pz (pr_pt p)) - d_val (pz (pr_pt s)))%R) in *.
      assert (Q : forall t, (t < b /\ - b < t -> t * t < b * b)%R) by (intros t []; nra).
      pose proof (Q _ C1). pose proof (Q _ C2). pose proof (Q _ C3). lra.
Qed.

(** The hypotheses hold of the line 0, 0.25, 1 at resolution 0.5: 0 and 0.25 share a voxel, and the
    second is left out. *)
Example C101_example : Forall modest_pt line3 /\ finite r_05 /\ (0 < d_val r_05)%R /\ spans line3 r_05
  /\ get_subsample_indexes (fun _ l => rev l) line3 r_05 0 = Ret [0; 2]
  /\ get_voxel_index (mk_pt d_025 0 0) (minp (get_extent line3)) r_05 = get_voxel_index (mk_pt 0 0 0) (minp (get_extent line3)) r_05.
Proof.
  destruct C46_complete_example as (A & B & C & D & _). pose proof (bpow_gt_0 radix2 (-500)).
  split; [exact A|]. split; [exact B|]. split; [lra|]. split; [exact D|]. split; vm_compute; reflexivity.
Qed.

(** The kept points need not be far apart: of 0, the double before 0.5 and 0.5, at
    resolution 0.5, the last two are next to each other; 0 and 0.5 are kept in one order of
    visiting and the two neighbours in the other. *)
Example C101_close_points :
  let near := [mk_pt 0 0 0; mk_pt (r_05 - 1) 0 0; mk_pt r_05 0 0] in
  get_subsample_indexes (fun _ l => rev l) near r_05 0 = Ret [0; 2]
  /\ get_subsample_indexes (fun _ l => rev l) near r_05 7 = Ret [2; 1].
Proof. split; vm_compute; reflexivity. Qed.

(** ** C102: how far quantize moves a coordinate *)

Lemma trunc_facts : forall a, (Rabs (IZR (Ztrunc a) - a) < 1)%R /\ (Rabs (IZR (Ztrunc a)) <= Rabs a)%R
  /\ (0 <= a -> 0 <= IZR (Ztrunc a))%R /\ (a <= 0 -> IZR (Ztrunc a) <= 0)%R.
Proof.
  intros a. destruct (Rle_lt_dec 0 a) as [P|P].
  - rewrite Ztrunc_floor by exact P. pose proof (Zfloor_lb a). pose proof (Zfloor_ub a).
    assert (0 <= IZR (Zfloor a))%R by (apply IZR_le; rewrite <- (Zfloor_IZR 0); now apply Zfloor_le).
    split; [apply Rabs_def1; lra|]. split; [rewrite !Rabs_pos_eq; lra|]. split; intros; lra.
  - rewrite Ztrunc_ceil by lra. pose proof (Zceil_ub a). pose proof (Zceil_lb a).
    assert (IZR (Zceil a) <= 0)%R by (apply IZR_le; rewrite <- (Zceil_IZR 0); apply Zceil_le; lra).
    split; [apply Rabs_def1; lra|]. split; [rewrite !Rabs_left1; lra|]. split; intros; lra.
Qed.

(** The result differs from the coordinate by less than the precision, up to a relative
    error of 2^-20; it is not further from zero than the coordinate, up to 2^-50, nor on the other side. *)
Theorem C102_error : forall x p y, modest x -> finite p -> (bpow radix2 (-1022) <= d_val p)%R ->
  quantize1 x p = Ret y ->
  finite y /\ (Rabs (d_val y - d_val x) < (1 + / 1048576) * d_val p)%R
  /\ (Rabs (d_val y) <= (1 + / 1125899906842624) * Rabs (d_val x))%R /\ (0 <= d_val y * d_val x)%R.
Proof.
  intros x p y [Fx Mx] Fp Bp H.
  pose proof (bpow_gt_0 radix2 (-1022)) as P0. assert (Pp : (0 < d_val p)%R) by lra.
  apply C37_value in H; [|exact Fx|exact Fp|lra]. destruct H as (n & En & Ft & Bn & ->).
  destruct (d_of_z_exact n) as [Fn Vn]; [unfold two31 in Bn; lia|].
  destruct Fp as [Op Fp]. destruct (d_mul_val (d_of_z n) p (d_of_z_ok n) Op Fn Fp) as [M1 M2].
  rewrite Vn in *.
  set (X := d_val x) in *. set (P := d_val p) in *. set (t := (X / P)%R) in *.
  assert (Ex : X = (t * P)%R) by (unfold t; field; lra).
  destruct (trunc_facts (rnd t)) as (T1 & T2 & T3 & T4). rewrite <- En in T1, T2, T3, T4.
  assert (Bn' : (Rabs (IZR n) <= 2147483648)%R).
  { rewrite <- abs_IZR. apply IZR_le. unfold two31 in Bn. lia. }
  assert (Tn : (tiny <= eps)%R) by (apply bpow_le; lia).
  assert (Te : (tiny <= eps * P)%R).
  { apply Rle_trans with (eps * bpow radix2 (-1022))%R; [unfold eps, tiny; rewrite <- bpow_plus; apply Rle_refl|].
    apply Rmult_le_compat_l; [left; apply eps_pos|exact Bp]. }
  assert (Pe := eps_pos). assert (Ve := eps_val).
  (* the quotient *)
  destruct (rnd_err t) as (e & m & He & Hm & Er).
  assert (Bt : (Rabs (rnd t - t) <= eps * Rabs t + eps)%R).
  { rewrite Er. replace (t * (1 + e) + m - t)%R with (t * e + m)%R by ring.
    eapply Rle_trans; [apply Rabs_triang|]. rewrite Rabs_mult. pose proof (Rabs_pos t). nra. }
  assert (Ut : (Rabs t <= Rabs (rnd t) + Rabs (rnd t - t))%R).
  { replace t with (rnd t + - (rnd t - t))%R at 1 by ring. eapply Rle_trans; [apply Rabs_triang|]. rewrite Rabs_Ropp. lra. }
  assert (Vt : (Rabs (rnd t) <= Rabs t + Rabs (rnd t - t))%R).
  { replace (rnd t) with (t + (rnd t - t))%R at 1 by ring. apply Rabs_triang. }
  assert (Un : (Rabs (rnd t) <= Rabs (IZR n) + 1)%R).
  { replace (rnd t) with (IZR n + - (IZR n - rnd t))%R by ring. eapply Rle_trans; [apply Rabs_triang|]. rewrite Rabs_Ropp. lra. }
  assert (Small : (Rabs t <= 2147483650)%R) by (rewrite Ve in *; lra).
  assert (AX : (Rabs X = Rabs t * P)%R) by (rewrite Ex, Rabs_mult, (Rabs_pos_eq P); lra).
  pose proof (Rabs_pos t) as Pt. pose proof (Rabs_pos (IZR n)) as Pn.
  (* the size of the integer *)
  assert (Sz : (Rabs (IZR n) <= Rabs t * (1 + 3 * eps))%R /\ (IZR n = 0 \/ 1 <= Rabs (IZR n))%R).
  { destruct (Z.eq_dec n 0) as [->|N].
    - split; [rewrite Rabs_R0; rewrite Ve; lra|now left].
    - assert (O : (1 <= Rabs (IZR n))%R) by (rewrite <- abs_IZR; apply IZR_le; lia).
      split; [|now right]. assert (/ 2 <= Rabs t)%R by (rewrite Ve in *; lra). nra. }
  destruct Sz as [Sz Cz].
  assert (Anp : (Rabs (IZR n * P) = Rabs (IZR n) * P)%R) by (rewrite Rabs_mult, (Rabs_pos_eq P); lra).
  assert (Fnp : fits (IZR n * P)).
  { apply (fits_bpow _ 501); [|lia]. rewrite Anp. apply Rle_trans with (Rabs X * (1 + 3 * eps))%R.
    - rewrite AX. nra.
    - change 501 with (500 + 1). rewrite bpow_plus. change (bpow radix2 1) with 2%R. pose proof (Rabs_pos X). rewrite Ve. nra. }
  specialize (M2 Fnp). rewrite M2. split; [split; [apply d_mul_ok|now apply M1]|].
  destruct (rnd_err (IZR n * P)) as (e2 & m2 & He2 & Hm2 & Er2).
  assert (Bnp : (Rabs (rnd (IZR n * P) - IZR n * P) <= eps * (Rabs (IZR n) * P) + eps * P)%R).
  { rewrite Er2. replace (IZR n * P * (1 + e2) + m2 - IZR n * P)%R with (IZR n * P * e2 + m2)%R by ring.
    eapply Rle_trans; [apply Rabs_triang|]. rewrite Rabs_mult, Anp. assert (0 <= Rabs (IZR n) * P)%R by nra. nra. }
  split; [|split].
  - replace (rnd (IZR n * P) - X)%R with ((rnd (IZR n * P) - IZR n * P) + ((IZR n - rnd t) * P + (rnd t - t) * P))%R by (rewrite Ex at 1; ring).
    eapply Rle_lt_trans; [apply Rabs_triang|]. 
    eapply Rle_lt_trans; [apply Rplus_le_compat_l, Rabs_triang|]. rewrite !Rabs_mult, !(Rabs_pos_eq P) by lra.
    assert (K1 : (Rabs (IZR n - rnd t) * P < 1 * P)%R) by (apply Rmult_lt_compat_r; lra).
    assert (K2 : (Rabs (rnd t - t) * P <= (eps * 2147483650 + eps) * P)%R) by (apply Rmult_le_compat_r; [lra|]; nra).
    assert (K3 : (eps * (Rabs (IZR n) * P) <= eps * 2147483648 * P)%R) by (rewrite <- Rmult_assoc; apply Rmult_le_compat_r; [lra|]; nra).
    rewrite Ve in *. lra.
  - destruct Cz as [Z|O].
    + rewrite Z, Rmult_0_l, rnd_0, Rabs_R0. pose proof (Rabs_pos X). nra.
    + assert (U : (Rabs (rnd (IZR n * P)) <= Rabs (IZR n) * P * (1 + 2 * eps))%R).
      { replace (rnd (IZR n * P)) with (IZR n * P + (rnd (IZR n * P) - IZR n * P))%R by ring.
        eapply Rle_trans; [apply Rabs_triang|]. rewrite Anp. nra. }
      eapply Rle_trans; [exact U|]. rewrite AX.
      apply Rle_trans with (Rabs t * (1 + 3 * eps) * P * (1 + 2 * eps))%R.
      * apply Rmult_le_compat_r; [lra|]. apply Rmult_le_compat_r; [lra|exact Sz].
      * replace (Rabs t * (1 + 3 * eps) * P * (1 + 2 * eps))%R with ((1 + 3 * eps) * (1 + 2 * eps) * (Rabs t * P))%R by ring.
        apply Rmult_le_compat_r; [nra|]. rewrite Ve. lra.
  - destruct (Rle_lt_dec 0 X) as [S|S].
    + assert (St : (0 <= t)%R) by (unfold t; apply Rmult_le_pos; [exact S|left; now apply Rinv_0_lt_compat]).
      apply Rmult_le_pos; [|exact S]. apply rnd_pos. apply Rmult_le_pos; [apply T3, rnd_pos, St|lra].
    + assert (St : (t <= 0)%R) by nra.
      assert (R0 : (rnd t <= 0)%R) by (rewrite <- rnd_0; now apply rnd_le). specialize (T4 R0).
      assert (R1 : (rnd (IZR n * P) <= 0)%R) by (rewrite <- rnd_0; apply rnd_le; nra). nra.
Qed.

(** It is defined when the coordinate is at most 2^31 - 1 precisions. *)
Theorem C102_defined : forall x p, finite x -> finite p -> (0 < d_val p)%R ->
  (Rabs (d_val x) <= 2147483647 * d_val p)%R -> exists y, quantize1 x p = Ret y.
Proof.
  intros x p Fx Fp Pp B.
  assert (T : (Rabs (d_val x / d_val p) <= 2147483647)%R).
  { unfold Rdiv. rewrite Rabs_mult, (Rabs_pos_eq (/ d_val p)) by (left; now apply Rinv_0_lt_compat).
    apply Rmult_le_reg_r with (d_val p); [exact Pp|]. rewrite Rmult_assoc, Rinv_l by lra. lra. }
  eexists. apply C37_value; [exact Fx|exact Fp|lra|]. eexists. split; [reflexivity|]. split; [|split; [|reflexivity]].
  - apply (fits_bpow _ 31); [|lia]. eapply Rle_trans; [exact T|]. cbn. lra.
  - assert (R : (Rabs (rnd (d_val x / d_val p)) <= 2147483647)%R).
    { rewrite rnd_abs. rewrite <- (rnd_int 2147483647) by lia. now apply rnd_le. }
    destruct (trunc_facts (rnd (d_val x / d_val p))) as (_ & T2 & _).
    assert (Z.abs (Ztrunc (rnd (d_val x / d_val p))) <= 2147483647); [|unfold two31; lia].
    apply le_IZR. rewrite abs_IZR. lra.
Qed.

(** The library's function, on a list of points. *)
Theorem C102_points : forall debug ps p qs, Forall modest_pt ps -> finite p -> (bpow radix2 (-1022) <= d_val p)%R ->
  quantize debug ps p = Ret qs ->
  Forall2 (fun a b => forall ax, In ax axes ->
     finite (ax b) /\ (Rabs (d_val (ax b) - d_val (ax a)) < (1 + / 1048576) * d_val p)%R
     /\ (Rabs (d_val (ax b)) <= (1 + / 1125899906842624) * Rabs (d_val (ax a)))%R /\ (0 <= d_val (ax b) * d_val (ax a))%R) ps qs.
Proof.
  intros debug ps p qs Hf Fp Bp H. unfold quantize in H. destruct (debug && _); [discriminate|].
  apply mapM_Ret_inv in H. induction H as [|a b ps qs E H IH]; [constructor|].
  inversion Hf as [|? ? Ha Hf']; subst. constructor; [|now apply IH].
  unfold quantize_point in E.
  apply bind_Ret_inv in E. destruct E as (x & E1 & E). apply bind_Ret_inv in E. destruct E as (y & E2 & E).
  apply bind_Ret_inv in E. destruct E as (z & E3 & E). injection E as <-.
  destruct Ha as (A1 & A2 & A3).
  intros ax [<-|[<-|[<-|[]]]]; cbn [px py pz]; eapply C102_error; eassumption.
Qed.

(** [spoc_transform --quantize-xyz]: the same of every record, and the rest of the record stays. *)
Theorem C102_transform : forall p k a b, modest_pt (pr_pt a) -> finite p -> (bpow radix2 (-1022) <= d_val p)%R ->
  get_quantize_op p k a = Ret b ->
  only [FX; FY; FZ] a b
  /\ forall ax, In ax axes ->
     finite (ax (pr_pt b)) /\ (Rabs (d_val (ax (pr_pt b)) - d_val (ax (pr_pt a))) < (1 + / 1048576) * d_val p)%R
     /\ (Rabs (d_val (ax (pr_pt b))) <= (1 + / 1125899906842624) * Rabs (d_val (ax (pr_pt a))))%R
     /\ (0 <= d_val (ax (pr_pt b)) * d_val (ax (pr_pt a)))%R.
Proof.
  intros p k a b (A1 & A2 & A3) Fp Bp E. unfold get_quantize_op in E.
  apply bind_Ret_inv in E. destruct E as (x & E1 & E). apply bind_Ret_inv in E. destruct E as (y & E2 & E).
  apply bind_Ret_inv in E. destruct E as (z & E3 & E). injection E as <-. destruct a.
  split; [split; [reflexivity|]; intros g Hg; destruct g; try reflexivity; exfalso; apply Hg; cbn; tauto|].
  intros ax [<-|[<-|[<-|[]]]]; cbn in *; eapply C102_error; eassumption.
Qed.

(** The bound is the best one of its kind: 0.99999... quantized at 1 is 0. *)
Example C102_example : quantize1 (d_one - 1) d_one = Ret 0 /\ quantize1 4613374868287651840 r_05 = Ret 4612811918334230528
  /\ modest d_one /\ finite r_05 /\ (bpow radix2 (-1022) <= d_val r_05)%R.
Proof.
  destruct C46_complete_example as (A & B & C & D & _). 
  split; [vm_compute; reflexivity|]. split; [vm_compute; reflexivity|].
  split; [|split; [exact B|eapply Rle_trans; [|exact C]; apply bpow_le; lia]].
  inversion A as [|? ? _ A1]; subst. inversion A1 as [|? ? _ A2]; subst. inversion A2 as [|? ? (M & _) _]; subst. exact M.
Qed.

Print Assumptions C101_one_voxel.
Print Assumptions C101_indexes.
Print Assumptions C101_filter.
Print Assumptions C102_error.
Print Assumptions C102_defined.
Print Assumptions C102_points.
Print Assumptions C102_transform.
