(** C48 (continued) and C82: restoring rescaled points, and the center of a cloud. *)
From Coq Require Import Reals ZArith List Bool Lia Lra.
From Flocq Require Import Core.
From Verif.Model Require Import Base Double Arith PointRecord Point Extent Utils ToolApp.
From Verif.Spec Require Import Rounding Geometry Tools.
From Verif.Proofs Require Import BaseFacts DoubleFacts ArithFacts ErrorFacts VoxelFacts ScaleFacts ToolFacts ToolGeometryFacts RestoreFacts.
From Verif.Props Require Import GeometryProps VoxelProps.
Import ListNotations.
Open Scope Z_scope.
Open Scope outcome_scope.

(** ** C48: restore undoes rescale *)

Lemma eps_inverse : (/ 2 ^ 53 = eps)%R.
Proof. unfold eps. change (-53) with (- (53)). rewrite bpow_opp. f_equal. rewrite (bpow_powerRZ radix2 53). reflexivity. Qed.

Lemma four_tiny : (3 * tiny <= bpow radix2 (-1073))%R.
Proof.
  assert (H : (tiny * bpow radix2 2 = bpow radix2 (-1073))%R) by (unfold tiny; now rewrite <- bpow_plus).
  assert (P : (0 < tiny)%R) by apply bpow_gt_0. assert (F : bpow radix2 2 = 4%R) by reflexivity. revert H P. rewrite F.
  generalize tiny, (bpow radix2 (-1073)). intros. lra.
Qed.

Lemma sub_axis ax a b : In ax axes -> ax (pt_sub a b) = d_sub (ax a) (ax b).
Proof. now intros [<-|[<-|[<-|[]]]]. Qed.

Lemma restore_axis ax q s m : In ax axes -> ax (restore_point q s m) = restore1 (ax q) (ax s) (ax m).
Proof. now intros [<-|[<-|[<-|[]]]]. Qed.

Lemma bind3 (a b c : outcome Z) q : (x <- a ;; y <- b ;; z <- c ;; Ret (mk_pt x y z)) = Ret q -> a = Ret (px q) /\ b = Ret (py q) /\ c = Ret (pz q).
Proof.
  destruct a; cbn [bind]; try discriminate. destruct b; cbn [bind]; try discriminate. destruct c; cbn [bind]; try discriminate.
  intros E. injection E as <-. auto.
Qed.

Lemma rescale_point_eq p s m : rescale_point p s m =
  (x <- rescale1 (px p) (px s) (px m) ;; y <- rescale1 (py p) (py s) (py m) ;; z <- rescale1 (pz p) (pz s) (pz m) ;; Ret (mk_pt x y z)).
Proof. exact (eq_refl (x <- rescale1 (px p) (px s) (px m) ;; y <- rescale1 (py p) (py s) (py m) ;; z <- rescale1 (pz p) (pz s) (pz m) ;; Ret (mk_pt x y z))). Qed.

Lemma rescale_axis ax p q s m : In ax axes -> rescale_point p s m = Ret q -> rescale1 (ax p) (ax s) (ax m) = Ret (ax q).
Proof.
  rewrite rescale_point_eq. intros I E. destruct (bind3 _ _ _ _ E) as (E1 & E2 & E3). destruct I as [<-|[<-|[<-|[]]]]; assumption.
Qed.

(** Restoring what rescale made of the points of a box gives as many points, in the same
    order, and each coordinate up to one unit in the last place of itself and eight of the size
    of the box, and what underflows. *)
Theorem C48_restore : forall ps e qs, Forall pt_finite ps -> pt_finite (minp e) -> pt_finite (maxp e) ->
  Forall (in_box e) ps ->
  (forall ax, In ax axes -> d_ltb (ax (minp e)) (ax (maxp e)) = true
              /\ d_is_finite (d_mul (d_sub (ax (maxp e)) (ax (minp e))) max_value) = true) ->
  rescale ps e = Ret qs ->
  Forall2 (fun p r => forall ax, In ax axes ->
             d_is_finite (ax r) = true
             /\ (Rabs (d_val (ax r) - d_val (ax p))
                 <= / 2 ^ 53 * (Rabs (d_val (ax p)) + 8 * (d_val (ax (maxp e)) - d_val (ax (minp e)))) + bpow radix2 (-1073))%R)
    ps (restore qs e).
Proof.
  intros ps e qs Hf Hm HM Hb Hax E. unfold rescale in E. apply mapM_Ret_inv in E. unfold restore.
  induction E as [|p q ps qs E _ IH]; cbn [map]; constructor.
  - inversion Hf as [|? ? Fp Ft]; subst. inversion Hb as [|? ? Bp Bt]; subst. intros ax I.
    assert (G : rescale1 (ax p) (d_sub (ax (maxp e)) (ax (minp e))) (ax (minp e)) = Ret (ax q)
                /\ ax (restore_point q (pt_sub (maxp e) (minp e)) (minp e)) = restore1 (ax q) (d_sub (ax (maxp e)) (ax (minp e))) (ax (minp e))).
    { split; [rewrite <- (sub_axis ax) by exact I; exact (rescale_axis ax p q _ _ I E)|rewrite <- (sub_axis ax) by exact I; now apply restore_axis]. }
    destruct G as [G ->]. destruct (Hax ax I) as [Lt F]. destruct (Bp ax I) as [B1 B2].
    assert (Xp : finite (ax p)) by (split; now apply axis_finite).
    assert (Xm : finite (ax (minp e))) by (split; now apply axis_finite).
    assert (XM : finite (ax (maxp e))) by (split; now apply axis_finite).
    apply d_ltb_val in Lt; try apply Xm; try apply XM.
    apply d_leb_val in B1; try apply Xm; try apply Xp. apply d_leb_val in B2; try apply XM; try apply Xp.
    destruct (restore_rescale1 (ax p) (ax (minp e)) (ax (maxp e)) (ax q) Xp Xm XM (conj B1 B2) Lt F G) as [R1 R2].
    split; [exact R1|]. eapply Rle_trans; [exact R2|]. apply Rplus_le_compat.
    + rewrite eps_inverse. apply Rle_refl.
    + exact four_tiny.
  - inversion Hf; subst. inversion Hb; subst. now apply IH.
Qed.

(** Three points of a box of size 10 x 4 x 1, there and back, without any loss. *)
Definition restore_box : extent := mk_ext (mk_pt 0 0 0) (mk_pt (d_of_z 10) (d_of_z 4) (d_of_z 1)).
Definition restore_points : list point := [mk_pt (d_of_z 10) 0 (d_of_z 1); mk_pt (d_of_z 5) (d_of_z 3) 0].
Example C48_restore_example : exists qs, rescale restore_points restore_box = Ret qs /\ restore qs restore_box = restore_points
  /\ Forall pt_finite restore_points /\ Forall (in_box restore_box) restore_points
  /\ (forall ax, In ax axes -> d_ltb (ax (minp restore_box)) (ax (maxp restore_box)) = true
                /\ d_is_finite (d_mul (d_sub (ax (maxp restore_box)) (ax (minp restore_box))) max_value) = true).
Proof.
  eexists. split; [vm_compute; reflexivity|]. split; [vm_compute; reflexivity|].
  split; [|split].
  - constructor; [|constructor; [|constructor]]; (split; [repeat split; try apply d_of_z_ok; unfold d_ok, two64; cbn [px py pz]; lia|vm_compute; auto]).
  - constructor; [|constructor; [|constructor]]; intros ax [<-|[<-|[<-|[]]]]; vm_compute; auto.
  - intros ax [<-|[<-|[<-|[]]]]; vm_compute; auto.
Qed.

(** ** C82: the center *)

Lemma fold_axis : forall ax ps c, In ax axes -> ax (fold_left pt_add ps c) = fold_left d_add (map ax ps) (ax c).
Proof.
  intros ax ps c I. revert c. induction ps as [|p ps IH]; intros c; cbn [fold_left map]; [reflexivity|]. rewrite IH. f_equal.
  destruct I as [<-|[<-|[<-|[]]]]; reflexivity.
Qed.

Lemma center_axis : forall ax ps, In ax axes -> ps <> [] -> ax (get_center ps) = d_mean (map ax ps).
Proof.
  intros ax ps I N. unfold d_mean, d_sum. rewrite zlen_map. destruct (Z.eqb_spec (zlen ps) 0) as [E|E].
  - destruct ps; [congruence|]. rewrite zlen_cons in E. pose proof (zlen_nonneg ps). lia.
  - unfold get_center. pose proof (fold_axis ax ps (mk_pt d_zero d_zero d_zero) I) as H.
    destruct I as [<-|[<-|[<-|[]]]]; cbn [px py pz] in *; now rewrite H.
Qed.

(** Each coordinate of the center is the mean of that coordinate over the points, up to the
    rounding errors of the additions and of the division, if it is a number at all. *)
Theorem C82_center : forall ps ax, Forall pt_ok ps -> ps <> [] -> In ax axes ->
  d_is_finite (ax (get_center ps)) = true ->
  let n := length ps in
  Z.of_nat n <= 2 ^ 53 ->
  (Rabs (d_val (ax (get_center ps)) - exact_sum (map ax ps) / INR n)
   <= ((1 + / 2 ^ 53) ^ (n + 1) - 1) * (abs_sum (map ax ps) / INR n) + bpow radix2 (-1075))%R.
Proof.
  intros ps ax O N I F n B. rewrite center_axis in * by assumption.
  assert (Ol : Forall d_ok (map ax ps)).
  { apply Forall_map. eapply Forall_impl; [|exact O]. intros p Q. destruct I as [<-|[<-|[<-|[]]]]; apply Q. }
  pose proof (mean_error (map ax ps) Ol) as E. rewrite zlen_map in E. unfold zlen in E. fold n in E. rewrite map_length in E. fold n in E.
  rewrite <- INR_IZR_INZ in E. rewrite Nat.add_1_r.
  assert (X : (1 + / 2 ^ 53 = 1 + eps)%R) by (unfold eps; cbn; lra). rewrite X.
  apply E; [|exact B|exact F]. destruct ps; [congruence|discriminate].
Qed.

Lemma sum_bounded : forall l a k n b, Forall finite l -> finite a ->
  Forall (fun d => Rabs (d_val d) <= b)%R l -> (0 <= b)%R -> (INR n * b <= bpow radix2 1000)%R -> (INR n <= bpow radix2 52)%R ->
  (k + length l <= n)%nat -> (Rabs (d_val a) <= INR k * (b + bpow radix2 948))%R ->
  finite (fold_left d_add l a) /\ (Rabs (d_val (fold_left d_add l a)) <= bpow radix2 1001)%R.
Proof.
  induction l as [|x l IH]; intros a k n b Fl Fa Bl Pb Nb N K A; cbn [fold_left length] in *.
  - split; [exact Fa|]. eapply Rle_trans; [exact A|]. pose proof (bpow_gt_0 radix2 948) as P.
    assert (Kn : (INR k <= INR n)%R) by (apply le_INR; lia). pose proof (pos_INR k) as Pk.
    apply Rle_trans with (INR n * (b + bpow radix2 948))%R; [apply Rmult_le_compat_r; lra|].
    rewrite Rmult_plus_distr_l. apply Rle_trans with (bpow radix2 1000 + bpow radix2 52 * bpow radix2 948)%R.
    + apply Rplus_le_compat; [exact Nb|]. apply Rmult_le_compat_r; lra.
    + rewrite <- bpow_plus. change (52 + 948) with 1000. rewrite <- (half_bpow 1000). change (1000 + 1) with 1001. lra.
  - inversion Fl as [|? ? Fx Fl']; subst. inversion Bl as [|? ? Bx Bl']; subst.
    pose proof (bpow_gt_0 radix2 948) as P.
    assert (Kn : (INR k + 1 <= INR n)%R) by (rewrite <- S_INR; apply le_INR; lia). pose proof (pos_INR k) as Pk.
    assert (Sm : (Rabs (d_val a + d_val x) <= INR k * (b + bpow radix2 948) + b)%R)
      by (eapply Rle_trans; [apply Rabs_triang|]; lra).
    assert (Bg : (INR k * (b + bpow radix2 948) + b <= bpow radix2 1001)%R).
    { apply Rle_trans with (INR n * (b + bpow radix2 948))%R; [nra|].
      rewrite Rmult_plus_distr_l. apply Rle_trans with (bpow radix2 1000 + bpow radix2 52 * bpow radix2 948)%R.
      - apply Rplus_le_compat; [exact Nb|]. apply Rmult_le_compat_r; lra.
      - rewrite <- bpow_plus. change (52 + 948) with 1000. rewrite <- (half_bpow 1000). change (1000 + 1) with 1001. lra. }
    destruct Fa as [Oa Fa], Fx as [Ox Fx]. destruct (d_add_val a x Oa Ox Fa Fx) as [F V].
    assert (Ft : fits (d_val a + d_val x)) by (apply (fits_bpow _ 1001); [lra|lia]).
    apply IH with (k := S k) (n := n) (b := b); auto; [split; [apply d_add_ok|now apply F]|lia|].
    rewrite (V Ft), S_INR. destruct (rnd_sum_err (d_val a) (d_val x) (d_val_format a) (d_val_format x)) as (e & He & ->).
    replace ((d_val a + d_val x) * (1 + e))%R with ((d_val a + d_val x) + e * (d_val a + d_val x))%R by ring.
    eapply Rle_trans; [apply Rabs_triang|].
    assert (E : (Rabs (e * (d_val a + d_val x)) <= eps * bpow radix2 1001)%R).
    { apply abs_mul_le; [apply Rlt_le, eps_pos|exact He|apply bpow_ge_0|lra]. }
    unfold eps in E. rewrite <- bpow_plus in E. change (-53 + 1001) with 948 in E. lra.
Qed.

(** It is a number if the coordinates are so small that no sum of them can overflow. *)
Theorem C82_finite : forall ps ax b, Forall pt_finite ps -> ps <> [] -> In ax axes -> Z.of_nat (length ps) <= 2 ^ 52 ->
  (0 <= b)%R -> (INR (length ps) * b <= bpow radix2 1000)%R ->
  (forall p, In p ps -> Rabs (d_val (ax p)) <= b)%R ->
  d_is_finite (ax (get_center ps)) = true.
Proof.
  intros ps ax b Hf N I L Pb Nb B. rewrite center_axis by assumption. unfold d_mean. rewrite zlen_map.
  assert (Z1 : 1 <= zlen ps) by (destruct ps; [congruence|]; rewrite zlen_cons; pose proof (zlen_nonneg ps); lia).
  destruct (Z.eqb_spec (zlen ps) 0) as [?|_]; [lia|].
  assert (Fl : Forall finite (map ax ps)).
  { apply Forall_map. eapply Forall_impl; [|exact Hf]. intros p Q. split; now apply axis_finite. }
  assert (Bl : Forall (fun d => Rabs (d_val d) <= b)%R (map ax ps)).
  { apply Forall_map, Forall_forall. exact B. }
  assert (N52 : (INR (length ps) <= bpow radix2 52)%R).
  { rewrite <- (IZR_Zpower radix2) by lia. rewrite INR_IZR_INZ. apply IZR_le. exact L. }
  destruct (sum_bounded (map ax ps) d_zero 0 (length ps) b Fl zero_finite Bl Pb Nb N52) as [[Os Fs] Bs].
  - rewrite map_length. lia.
  - rewrite zero_val, Rabs_R0. cbn. lra.
  - destruct (d_of_z_exact (zlen ps)) as [Fn Vn]; [unfold zlen; lia|].
    assert (Nn : d_val (d_of_z (zlen ps)) <> 0%R) by (rewrite Vn; apply IZR_neq; lia).
    apply (d_div_val (d_sum (map ax ps)) (d_of_z (zlen ps)) Os (d_of_z_ok _) Fs Nn).
    apply (fits_bpow _ 1001); [|lia]. rewrite Vn. unfold Rdiv. rewrite Rabs_mult.
    assert (P : (1 <= IZR (zlen ps))%R) by (apply IZR_le; lia).
    assert (Iv : (Rabs (/ IZR (zlen ps)) <= 1)%R).
    { rewrite Rabs_pos_eq; [|apply Rlt_le, Rinv_0_lt_compat; lra]. rewrite <- Rinv_1. apply Rinv_le; lra. }
    unfold d_sum. rewrite <- (Rmult_1_r (bpow radix2 1001)). apply Rmult_le_compat; try apply Rabs_pos; assumption.
Qed.

(** The center of no points is not a number. *)
Theorem C82_empty : forall ax, In ax axes -> d_is_nan (ax (get_center [])) = true.
Proof. intros ax [<-|[<-|[<-|[]]]]; vm_compute; reflexivity. Qed.

(** The corners of a square and its middle, which is the center. *)
Definition square : list point :=
  [mk_pt 0 0 0; mk_pt (d_of_z 2) 0 0; mk_pt (d_of_z 2) (d_of_z 2) 0; mk_pt 0 (d_of_z 2) 0].
Example C82_example : get_center square = mk_pt (d_of_z 1) (d_of_z 1) 0
  /\ Forall pt_finite square /\ (forall ax, In ax axes -> d_is_finite (ax (get_center square)) = true).
Proof.
  split; [vm_compute; reflexivity|]. split.
  - unfold square. repeat (apply Forall_cons; [split; [repeat split; try apply d_of_z_ok; unfold d_ok, two64; cbn [px py pz]; lia|vm_compute; auto]|]).
    apply Forall_nil.
  - intros ax [<-|[<-|[<-|[]]]]; vm_compute; reflexivity.
Qed.

Print Assumptions C48_restore.
Print Assumptions C82_center.
Print Assumptions C82_finite.
Print Assumptions C82_empty.
