(** Lemmas about spoc_tool: shifting the coordinates, upsampling. *)
From Coq Require Import Reals ZArith List Bool Lia Lra Psatz.
From Flocq Require Import Core IEEE754.BinarySingleNaN IEEE754.Binary IEEE754.Bits.
From Verif.Model Require Import Base Double Arith Header PointRecord Point File Utils Par Affine Extent Voxel
  AppUtils FilterApp ToolApp.
From Verif.Spec Require Import Rounding Geometry Fields Files Apps Tools.
From Verif.Proofs Require Import BaseFacts DoubleFacts ArithFacts ErrorFacts FieldFacts FilterFacts VoxelFacts ToolFacts.
Import ListNotations.
Open Scope Z_scope.

(** ** Differences *)

Lemma zero_finite : finite d_zero.
Proof. split; [unfold d_ok, d_zero, two64; lia|reflexivity]. Qed.

Lemma zero_val : d_val d_zero = 0%R.
Proof. reflexivity. Qed.

Lemma not_fits_pos : forall x, (0 <= x)%R -> ~ fits x -> (0 < x)%R.
Proof. intros x P N. destruct (Req_dec x 0) as [->|H]; [|lra]. elim N. apply fits_0. Qed.

Lemma B2FF_infinity : forall s (x : Binary.binary_float 53 1024), Binary.B2FF 53 1024 x = F754_infinity s -> x = Binary.B754_infinity 53 1024 s.
Proof. intros s [?|?|? ? ?|? ? ? ?]; cbn; intros H; try discriminate H. injection H as ->. reflexivity. Qed.

(** A difference that is too large is an infinity. *)
Lemma d_sub_overflow : forall a b, finite a -> finite b -> (d_val b <= d_val a)%R -> ~ fits (d_val a - d_val b) ->
  d_sub a b = d_inf.
Proof.
  intros a b [Oa Fa] [Ob Fb] L N. assert (P : (0 < d_val a - d_val b)%R) by (apply not_fits_pos; [lra|exact N]).
  rewrite d_is_finite_B in Fa, Fb by assumption.
  pose proof (Binary.Bminus_correct 53 1024 eq_refl eq_refl binop_nan_pl64 mode_NE (b64_of_bits a) (b64_of_bits b) Fa Fb) as H.
  cbn [round_mode] in H. fold (d_val a) (d_val b) in H. unfold fits, rnd, fexp64 in N.
  destruct (Rlt_bool_spec (Rabs (round radix2 (SpecFloat.fexp 53 1024) ZnearestE (d_val a - d_val b))) (bpow radix2 1024)) as [K|K]; [contradiction|].
  destruct H as [H S]. unfold d_sub, b64_minus.
  assert (Sa : Binary.Bsign 53 1024 (b64_of_bits a) = false).
  { destruct (Binary.Bsign 53 1024 (b64_of_bits a)) eqn:E; [|reflexivity]. exfalso.
    assert (A : (d_val a <= 0)%R).
    { unfold d_val. destruct (b64_of_bits a) as [s|s|s p e|s m e B]; cbn in *; try discriminate; try lra. subst s.
      apply F2R_le_0. cbn. lia. }
    assert (B : (0 <= d_val b)%R).
    { unfold d_val. destruct (b64_of_bits b) as [s|s|s p e|s m e B]; cbn in *; try discriminate; try lra.
      destruct s; [discriminate|]. apply F2R_ge_0. cbn. lia. }
    lra. }
  rewrite Sa in H. cbn in H.
  match goal with |- bits_of_b64 ?x = _ => assert (X : x = Binary.B754_infinity 53 1024 false) end.
  { apply B2FF_infinity. exact H. }
  rewrite X. reflexivity.
Qed.

Lemma d_sub_nonneg : forall a b, finite a -> finite b -> (d_val b <= d_val a)%R -> d_leb d_zero (d_sub a b) = true.
Proof.
  intros a b Ha Hb L. destruct (d_sub_val a b) as [F V]; try apply Ha; try apply Hb.
  destruct (Rlt_dec (Rabs (rnd (d_val a - d_val b))) (bpow radix2 1024)) as [K|K].
  - apply d_leb_val; try apply zero_finite; [apply d_sub_ok|now apply F|]. rewrite (V K), zero_val, <- rnd_0. apply rnd_le. lra.
  - rewrite d_sub_overflow by assumption. reflexivity.
Qed.

Lemma d_sub_zero : forall a b, finite a -> finite b -> d_val a = d_val b -> d_eqb (d_sub a b) d_zero = true.
Proof.
  intros a b Ha Hb E. destruct (d_sub_val a b) as [F V]; try apply Ha; try apply Hb.
  rewrite E, Rminus_diag_eq in F, V by reflexivity. specialize (V fits_0).
  apply d_eqb_val; try apply zero_finite; [apply d_sub_ok|apply F, fits_0|]. now rewrite V, rnd_0, zero_val.
Qed.

Lemma d_sub_mono : forall a b c, finite a -> finite b -> finite c -> (d_val c <= d_val a <= d_val b)%R ->
  d_leb (d_sub a c) (d_sub b c) = true.
Proof.
  intros a b c Ha Hb Hc L. destruct (d_sub_val a c) as [Fa Va]; try apply Ha; try apply Hc.
  destruct (d_sub_val b c) as [Fb Vb]; try apply Hb; try apply Hc.
  assert (R : (0 <= rnd (d_val a - d_val c) <= rnd (d_val b - d_val c))%R).
  { rewrite <- rnd_0 at 1. split; apply rnd_le; lra. }
  destruct (Rlt_dec (Rabs (rnd (d_val b - d_val c))) (bpow radix2 1024)) as [K|K].
  - assert (K' : fits (d_val a - d_val c)).
    { unfold fits. rewrite Rabs_pos_eq by lra. rewrite Rabs_pos_eq in K by lra. lra. }
    apply d_leb_val; try apply d_sub_ok; [now apply Fa|now apply Fb|]. rewrite (Va K'), (Vb K). lra.
  - rewrite (d_sub_overflow b c) by (auto; lra).
    destruct (Rlt_dec (Rabs (rnd (d_val a - d_val c))) (bpow radix2 1024)) as [K'|K'].
    + apply Fa in K'. unfold d_leb. rewrite (d_finite_not_nan _ K'). cbn [negb andb].
      change (d_is_nan d_inf) with false. cbn [negb andb]. apply Z.leb_le. change (d_key d_inf) with d_inf.
      pose proof (d_sub_ok a c) as [O1 O2]. unfold d_is_finite, d_mag in K'. apply Z.ltb_lt in K'. unfold d_key.
      destruct (Z.ltb_spec (d_sub a c) two63); [rewrite Z.mod_small in K' by lia; lia|unfold d_inf; lia].
    + rewrite (d_sub_overflow a c) by (auto; lra). reflexivity.
Qed.

Lemma d_sub_val_zero : forall a b, finite a -> finite b -> d_val b = 0%R -> d_eqb (d_sub a b) a = true.
Proof.
  intros a b Ha Hb E. destruct (d_sub_val a b) as [F V]; try apply Ha; try apply Hb. rewrite E, Rminus_0_r in F, V.
  pose proof (fits_val a) as K. apply d_eqb_val; [apply d_sub_ok|apply Ha|now apply F|apply Ha|].
  rewrite (V K). apply rnd_val.
Qed.

(** ** Shifted records *)

Lemma pr_minus_only : forall z_flag x y z p, only (coordinate_fields z_flag) p (pr_minus z_flag x y z p).
Proof.
  intros z_flag x y z p. unfold pr_minus, coordinate_fields. destruct z_flag.
  all: split; [reflexivity|]; intros g G; destruct g; try reflexivity; exfalso; apply G; cbn; tauto.
Qed.

Lemma minus_uniform : forall z_flag x y z prs, uniform prs -> uniform (map (pr_minus z_flag x y z) prs).
Proof.
  intros z_flag x y z prs U p q Hp Hq. apply in_map_iff in Hp. apply in_map_iff in Hq.
  destruct Hp as (p0 & <- & Ip). destruct Hq as (q0 & <- & Iq).
  destruct (pr_minus_only z_flag x y z p0) as [-> _]. destruct (pr_minus_only z_flag x y z q0) as [-> _]. now apply U.
Qed.

Lemma Forall2_map_self : forall {A} (R : A -> A -> Prop) f l, (forall a, In a l -> R a (f a)) -> Forall2 R l (map f l).
Proof. intros A R f l H. induction l as [|a l IH]; cbn; constructor; [apply H; now left|]. apply IH. intros b I. apply H. now right. Qed.

(** ** The mean *)

Lemma d_add_finite : forall a b, d_ok a -> d_ok b -> d_is_finite (d_add a b) = true -> d_is_finite a = true /\ d_is_finite b = true.
Proof.
  intros a b Oa Ob F. unfold d_add in F. rewrite finite_bits in F. rewrite !d_is_finite_B by assumption.
  unfold b64_plus in F. destruct (b64_of_bits a) as [s|s|s p e|s m e B], (b64_of_bits b) as [s'|s'|s' p' e'|s' m' e' B']; cbn in *;
    try (split; reflexivity); try discriminate F.
  destruct s, s'; discriminate F.
Qed.

Local Open Scope R_scope.

Lemma abs_sum_nonneg : forall l, 0 <= abs_sum l.
Proof. induction l as [|d l IH]; cbn [abs_sum]; [lra|]. pose proof (Rabs_pos (d_val d)). lra. Qed.

Lemma pow_eps_ge : forall n, 1 <= (1 + eps) ^ n.
Proof. intros n. apply pow_R1_Rle. pose proof eps_pos. lra. Qed.

Lemma sum_error : forall l a, Forall d_ok l -> d_ok a -> d_is_finite (fold_left d_add l a) = true ->
  d_is_finite a = true
  /\ Rabs (d_val (fold_left d_add l a) - (d_val a + exact_sum l)) <= ((1 + eps) ^ List.length l - 1) * (Rabs (d_val a) + abs_sum l).
Proof.
  induction l as [|x l IH]; intros a O Oa F; cbn [fold_left exact_sum abs_sum List.length] in *.
  - split; [exact F|]. rewrite Rplus_0_r. unfold Rminus. rewrite Rplus_opp_r, Rabs_R0. cbn. lra.
  - inversion O as [|? ? Ox Ol]; subst. destruct (IH (d_add a x) Ol (d_add_ok a x) F) as [F1 E].
    destruct (d_add_finite a x Oa Ox F1) as [Fa Fx]. split; [exact Fa|].
    destruct (d_add_val a x Oa Ox Fa Fx) as [K V]. apply K in F1. rewrite (V F1) in E.
    destruct (rnd_sum_err (d_val a) (d_val x) (d_val_format a) (d_val_format x)) as (e & He & R). rewrite R in E.
    set (A := d_val a) in *. set (X := d_val x) in *. set (S := exact_sum l) in *. set (B := abs_sum l) in *.
    pose proof (abs_sum_nonneg l) as PB. fold B in PB.
    set (r := d_val (fold_left d_add l (d_add a x))) in *. pose proof (pow_eps_ge (List.length l)) as PE.
    cbn [pow]. set (P := (1 + eps) ^ List.length l) in *. pose proof eps_pos as Pe.
    assert (T : Rabs (A + X) <= Rabs A + Rabs X) by apply Rabs_triang.
    assert (M : Rabs ((A + X) * (1 + e)) <= (Rabs A + Rabs X) * (1 + eps)).
    { rewrite Rabs_mult. apply Rmult_le_compat; try apply Rabs_pos; [exact T|].
      eapply Rle_trans; [apply Rabs_triang|]. rewrite Rabs_R1. lra. }
    assert (D : Rabs ((A + X) * e) <= (Rabs A + Rabs X) * eps).
    { rewrite Rabs_mult. apply Rmult_le_compat; try apply Rabs_pos; assumption. }
    replace (r - (A + (X + S))) with ((r - ((A + X) * (1 + e) + S)) + (A + X) * e) by ring.
    eapply Rle_trans; [apply Rabs_triang|].
    assert (Q : (P - 1) * (Rabs ((A + X) * (1 + e)) + B) <= (P - 1) * ((Rabs A + Rabs X) * (1 + eps) + B)).
    { apply Rmult_le_compat_l; lra. }
    assert (Z0 : 0 <= Rabs A + Rabs X) by (pose proof (Rabs_pos A); pose proof (Rabs_pos X); lra).
    assert (G : 0 <= eps * P * B) by (apply Rmult_le_pos; [apply Rmult_le_pos; lra|exact PB]).
    apply Rle_trans with ((P - 1) * ((Rabs A + Rabs X) * (1 + eps) + B) + (Rabs A + Rabs X) * eps); [apply Rplus_le_compat; lra|].
    replace (((1 + eps) * P - 1) * (Rabs A + (Rabs X + B)))
      with ((P - 1) * ((Rabs A + Rabs X) * (1 + eps) + B) + (Rabs A + Rabs X) * eps + eps * P * B) by ring. lra.
Qed.

(** The computed mean. *)
Lemma mean_error : forall l, Forall d_ok l -> l <> [] -> (zlen l <= 2 ^ 53)%Z -> d_is_finite (d_mean l) = true ->
  Rabs (d_val (d_mean l) - exact_sum l / IZR (zlen l))
  <= ((1 + eps) ^ S (List.length l) - 1) * (abs_sum l / IZR (zlen l)) + tiny.
Proof.
  intros l O N L F. unfold d_mean in *. assert (Z1 : (1 <= zlen l)%Z).
  { destruct l; [congruence|]. rewrite zlen_cons. pose proof (zlen_nonneg l). lia. }
  destruct (Z.eqb_spec (zlen l) 0) as [?|_]; [lia|].
  destruct (d_of_z_exact (zlen l)) as [Fn Vn]; [lia|]. pose proof (d_of_z_ok (zlen l)) as On.
  assert (Nn : d_val (d_of_z (zlen l)) <> 0) by (rewrite Vn; apply IZR_neq; lia).
  assert (Os : d_ok (d_sum l)).
  { unfold d_sum. destruct l as [|x l]; [congruence|]. cbn [fold_left].
    generalize (d_add_ok d_zero x). generalize (d_add d_zero x). clear. intros a. revert a. induction l as [|y l IH]; intros a Oa; [exact Oa|]. apply IH, d_add_ok. }
  destruct (d_div_finite_inv (d_sum l) (d_of_z (zlen l)) Os On F) as [Fs _].
  destruct (d_div_val (d_sum l) (d_of_z (zlen l)) Os On Fs Nn) as [K V]. apply K in F. rewrite (V F), Vn.
  destruct (sum_error l d_zero O (proj1 zero_finite) Fs) as [_ E]. fold (d_sum l) in E. rewrite zero_val, Rplus_0_l, Rabs_R0, Rplus_0_l in E.
  destruct (rnd_err (d_val (d_sum l) / IZR (zlen l))) as (e & t & He & Ht & ->).
  set (s := d_val (d_sum l)) in *. assert (PN : 0 < IZR (zlen l)) by (apply IZR_lt; lia). set (n := IZR (zlen l)) in *.
  set (S := exact_sum l) in *. set (A := abs_sum l) in *. assert (PA : 0 <= A) by apply abs_sum_nonneg.
  assert (SA : Rabs S <= A).
  { unfold S, A. clear. induction l as [|x l IH]; cbn [exact_sum abs_sum]; [rewrite Rabs_R0; lra|].
    eapply Rle_trans; [apply Rabs_triang|]. lra. }
  pose proof (pow_eps_ge (List.length l)) as PE. cbn [pow]. set (P := (1 + eps) ^ List.length l) in *. pose proof eps_pos as Pe.
  assert (I : 0 < / n) by now apply Rinv_0_lt_compat. unfold Rdiv. set (i := / n) in *.
  replace (s * i * (1 + e) + t - S * i) with (((s - S) * (1 + e) + S * e) * i + t) by ring.
  eapply Rle_trans; [apply Rabs_triang|]. apply Rplus_le_compat; [|exact Ht].
  rewrite Rabs_mult, (Rabs_pos_eq i) by lra. rewrite <- Rmult_assoc. apply Rmult_le_compat_r; [lra|].
  eapply Rle_trans; [apply Rabs_triang|]. rewrite !Rabs_mult.
  assert (M : Rabs (s - S) * Rabs (1 + e) <= ((P - 1) * A) * (1 + eps)).
  { apply Rmult_le_compat; try apply Rabs_pos; [exact E|]. eapply Rle_trans; [apply Rabs_triang|]. rewrite Rabs_R1. lra. }
  assert (D : Rabs S * Rabs e <= A * eps) by (apply Rmult_le_compat; try apply Rabs_pos; assumption).
  nra.
Qed.

Local Close Scope R_scope.

(** ** Upsampling *)

Definition recolor (v : voxel_index) (vcs : list (voxel_index * Z)) (p : point_record) : point_record :=
  fold_left (fun p vc => if vox_eqb (fst vc) v then set_c (snd vc) p else p) vcs p.

Lemma recolor_extra : forall v vcs p, rextra (recolor v vcs p) = rextra p.
Proof.
  intros v vcs. induction vcs as [|[w c] t IH]; intros p; [reflexivity|].
  change (rextra (recolor v t (if vox_eqb w v then set_c c p else p)) = rextra p). rewrite IH. now destruct (vox_eqb w v).
Qed.

Lemma set_c_idem : forall c d p, set_c c (set_c d p) = set_c c p.
Proof. reflexivity. Qed.

(** Only the last one counts. *)
Lemma recolor_last : forall v vcs p,
  (Forall (fun vc => fst vc <> v) vcs /\ recolor v vcs p = p)
  \/ exists a c b, vcs = a ++ (v, c) :: b /\ Forall (fun vc => fst vc <> v) b /\ recolor v vcs p = set_c c p.
Proof.
  intros v vcs. induction vcs as [|[w c] t IH]; intros p; [left; now split|]. unfold recolor. cbn [fold_left fst snd].
  fold (recolor v t (if vox_eqb w v then set_c c p else p)).
  destruct (IH (if vox_eqb w v then set_c c p else p)) as [[N E]|(a & d & b & -> & N & E)]; rewrite E.
  - destruct (vox_eqb_spec w v) as [->|Nw]; [|left; split; [now constructor|reflexivity]].
    right. exists [], c, t. auto.
  - right. exists ((w, c) :: a), d, b. split; [reflexivity|]. split; [exact N|]. destruct (vox_eqb w v); [apply set_c_idem|reflexivity].
Qed.

(** What a loop over indexes does to the records. *)
Definition painted (c : Z) (js : list Z) (prs prs' : list point_record) : Prop :=
  zlen prs' = zlen prs /\ forall i p, znth prs i = Some p ->
    znth prs' i = Some (if existsb (Z.eqb i) js then set_c c p else p).

Lemma znth_zset : forall {A} (l : list A) j a l', zset l j a = Some l' ->
  zlen l' = zlen l /\ forall i, znth l' i = if i =? j then Some a else znth l i.
Proof.
  intros A l j a l' H. destruct (Z_lt_ge_dec j 0) as [J|J].
  { rewrite zset_None in H by lia. discriminate H. }
  destruct (Z_lt_ge_dec j (zlen l)) as [K|K].
  2: { rewrite zset_None in H by lia. discriminate H. }
  rewrite zset_spec in H by lia. injection H as <-. pose proof (zlen_ztake j l) as T. rewrite Z.min_l, Z.max_r in T by lia.
  split. { rewrite zlen_app, zlen_cons, T, zlen_zdrop. lia. }
  intros i. destruct (Z.eqb_spec i j) as [->|N].
  - rewrite znth_app_r, T by lia. now rewrite Z.sub_diag.
  - destruct (Z_lt_ge_dec i j) as [I|I].
    + rewrite znth_app_l by lia. destruct (Z_lt_ge_dec i 0) as [Q|Q]; [now rewrite !znth_neg by lia|].
      rewrite ztake_firstn, !znth_nth_error by lia. rewrite <- (firstn_skipn (Z.to_nat j) l) at 2. rewrite nth_error_app1; [reflexivity|].
      rewrite firstn_length. unfold zlen in *. lia.
    + rewrite znth_app_r, T by lia. rewrite zdrop_skipn, !znth_nth_error by lia.
      replace (Z.to_nat (i - j)) with (S (Z.to_nat (i - j - 1))) by lia. cbn [nth_error].
      rewrite <- (firstn_skipn (Z.to_nat (j + 1)) l) at 2. rewrite nth_error_app2; rewrite firstn_length_le by (unfold zlen in *; lia); [|lia].
      f_equal. lia.
Qed.

Lemma painted_uniform : forall c js prs prs', painted c js prs prs' -> uniform prs -> uniform prs'.
Proof.
  intros c js prs prs' [L P] U. assert (A : forall p', In p' prs' -> exists p, In p prs /\ List.length (rextra p') = List.length (rextra p)).
  { intros p' I. apply In_nth_error in I. destruct I as [n I]. assert (I' : znth prs' (Z.of_nat n) = Some p') by (rewrite znth_nth_error by lia; now rewrite Nat2Z.id).
    pose proof (znth_Some_range _ _ _ I') as R. destruct (znth_in_range prs (Z.of_nat n)) as [p Q]; [lia|]. exists p.
    split; [eapply znth_In; exact Q|]. rewrite (P _ _ Q) in I'. injection I' as <-. now destruct (existsb _ js). }
  intros p q Ip Iq. destruct (A p Ip) as (p0 & I0 & ->). destruct (A q Iq) as (q0 & J0 & ->). now apply U.
Qed.

Lemma assign_class_ok : forall debug c js h, live h -> (forall j, In j js -> 0 <= j < zlen (f_prs h)) ->
  exists prs, assign_class debug c js h = Ret (with_prs h prs) /\ painted c js (f_prs h) prs.
Proof.
  intros debug c js. induction js as [|j js IH]; intros h Lh B.
  { exists (f_prs h). split; [cbn [assign_class]; now rewrite <- (HistoryFacts.file_eta h) at 1|]. split; [reflexivity|]. intros i p H. exact H. }
  cbn [assign_class]. destruct (znth_in_range (f_prs h) j) as [r R]; [apply B; now left|]. unfold vec_get. rewrite R. cbn [bind].
  assert (J : 0 <= j < zlen (f_prs h)) by (apply B; now left).
  unfold after, set_point_record, m_then, m_throw_if. destruct (Z.ltb_spec j (zlen (f_prs h))); [|lia]. cbn [negb]. rewrite andb_false_r.
  change (rextra (set_c c r)) with (rextra r). rewrite (live_extras h r Lh) by (eapply znth_In; exact R). rewrite Z.eqb_refl. cbn [negb].
  unfold m_store, vec_set. destruct (zset (f_prs h) j (set_c c r)) as [prs1|] eqn:S.
  2: { rewrite zset_spec in S by exact J. discriminate S. }
  destruct (znth_zset _ _ _ _ S) as [L1 N1].
  assert (P1 : painted c [j] (f_prs h) prs1).
  { split; [exact L1|]. intros i p I. rewrite N1. cbn [existsb]. rewrite orb_false_r. destruct (Z.eqb_spec i j) as [->|]; [|exact I].
    rewrite R in I. now injection I as ->. }
  destruct (IH (with_prs h prs1)) as (prs2 & E & P2).
  { apply live_with_prs; [exact Lh|]. eapply painted_uniform; [exact P1|apply Lh]. }
  { cbn [f_prs with_prs]. rewrite L1. intros k K. apply B. now right. }
  cbn [bind]. rewrite E. exists prs2. split; [reflexivity|]. cbn [f_prs with_prs] in P2. destruct P1 as [_ P1]. destruct P2 as [L2 P2].
  split; [now rewrite L2, L1|]. intros i p I. rewrite (P2 _ _ (P1 i p I)). f_equal. cbn [existsb]. rewrite orb_false_r.
  destruct (i =? j); cbn [orb]; [|reflexivity]. now destruct (existsb (Z.eqb i) js).
Qed.

Lemma vox_eqb_sym : forall a b, vox_eqb a b = vox_eqb b a.
Proof. intros a b. destruct (vox_eqb_spec a b) as [->|N]; [destruct (vox_eqb_spec b b); congruence|]. destruct (vox_eqb_spec b a); congruence. Qed.

Lemma upsample_loop_ok : forall debug vh l pl pre vl h, f_prs l = pre ++ pl -> List.length vl = List.length pl ->
  live h -> zlen vh = zlen (f_prs h) ->
  exists prs, upsample_loop debug (get_voxel_index_map vh) l (zlen pre) vl h = Ret (with_prs h prs)
    /\ zlen prs = zlen (f_prs h) /\ uniform prs
    /\ forall i p v, znth (f_prs h) i = Some p -> znth vh i = Some v -> znth prs i = Some (recolor v (combine vl (map rc pl)) p).
Proof.
  intros debug vh l pl. induction pl as [|q pl IH]; intros pre vl h El Lv Lh Z.
  { destruct vl; [|discriminate Lv]. exists (f_prs h). cbn [upsample_loop combine map]. split; [now rewrite <- (HistoryFacts.file_eta h) at 1|].
    split; [reflexivity|]. split; [apply Lh|]. intros i p v I _. exact I. }
  destruct vl as [|w vl]; [discriminate Lv|]. injection Lv as Lv. cbn [upsample_loop].
  assert (Ep : f_prs l = (pre ++ [q]) ++ pl) by (rewrite El, <- app_assoc; reflexivity).
  assert (Zp : zlen pre + 1 = zlen (pre ++ [q])) by (rewrite zlen_app; reflexivity).
  unfold get_voxel_index_map at 1. rewrite vim_loop_find. cbn [map_find opt_app].
  assert (M : forall i v, znth vh i = Some v -> existsb (Z.eqb i) (positions w 0 vh) = vox_eqb w v).
  { intros i v I. pose proof (znth_Some_range _ _ _ I) as B. pose proof (positions_In vh w 0 i) as Q. rewrite Z.sub_0_r in Q.
    destruct (vox_eqb_spec w v) as [->|N].
    - apply existsb_exists. exists i. split; [|apply Z.eqb_refl]. apply Q. split; [lia|exact I].
    - apply not_true_iff_false. intros X. apply existsb_exists in X. destruct X as (k & Ik & Ek). apply Z.eqb_eq in Ek. subst k.
      apply Q in Ik. destruct Ik as [_ Ik]. congruence. }
  assert (RC : forall v p, recolor v (combine (w :: vl) (map rc (q :: pl))) p
               = recolor v (combine vl (map rc pl)) (if vox_eqb w v then set_c (rc q) p else p)) by reflexivity.
  destruct (positions w 0 vh) as [|j js] eqn:EP.
  - rewrite Zp. destruct (IH (pre ++ [q]) vl h Ep Lv Lh Z) as (prs & E & Lp & U & P). exists prs. split; [exact E|].
    split; [exact Lp|]. split; [exact U|]. intros i p v Ip Iv. rewrite RC. specialize (M i v Iv). cbn in M. rewrite <- M. now apply P.
  - assert (G : vec_get (f_prs l) (zlen pre) = Ret q).
    { unfold vec_get. rewrite El, znth_app_r by lia. rewrite Z.sub_diag. reflexivity. }
    rewrite G. cbn [bind].
    destruct (assign_class_ok debug (rc q) (j :: js) h Lh) as (prs1 & E1 & P1).
    { intros k K. rewrite <- EP in K. apply positions_In in K. destruct K as [_ K]. rewrite Z.sub_0_r in K. rewrite <- Z.
      eapply znth_Some_range; exact K. }
    rewrite E1. cbn [bind]. rewrite Zp.
    destruct (IH (pre ++ [q]) vl (with_prs h prs1) Ep Lv) as (prs & E & Lp & U & P).
    { apply live_with_prs; [exact Lh|]. eapply painted_uniform; [exact P1|apply Lh]. }
    { cbn [f_prs with_prs]. destruct P1 as [-> _]. exact Z. }
    exists prs. split; [exact E|]. cbn [f_prs with_prs] in Lp, P. destruct P1 as [L1 P1]. split; [now rewrite Lp, L1|]. split; [exact U|].
    intros i p v Ip Iv. rewrite RC. rewrite <- (M i v Iv). apply P; [|exact Iv]. now apply P1.
Qed.
