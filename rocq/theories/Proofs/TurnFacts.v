(** Facts for the rotations: pi, the angle, the two sums of products. *)
From Coq Require Import Reals Machin QArith Qreals Lra Lia ZArith.
From Flocq Require Import Core IEEE754.Binary IEEE754.Bits.
From Verif.Model Require Import Base Double Arith Affine.
From Verif.Spec Require Import Rounding Turning Distance.
From Verif.Proofs Require Import BaseFacts OrderFacts DoubleFacts ArithFacts ErrorFacts.
Open Scope R_scope.
Fixpoint qsum (n : nat) : Q :=
  let t := (let k := Z.of_nat (2 * n + 1) in
     ((if Nat.even n then 1 else -1) * (2 * / inject_Z (k * 3 ^ k) + / inject_Z (k * 7 ^ k)))%Q) in
  match n with O => t | S m => Qred (qsum m + t) end.

Lemma ratan_inv : forall z n, (0 < z)%Z -> Ratan_seq (/ IZR z) n
  = Q2R (/ inject_Z (Z.of_nat (2 * n + 1) * z ^ Z.of_nat (2 * n + 1))).
Proof.
  intros z n Pz. unfold Ratan_seq.
  assert (0 < z ^ Z.of_nat (2 * n + 1))%Z by (apply Z.pow_pos_nonneg; lia).
  rewrite Q2R_inv by (intros H'; unfold Qeq, inject_Z in H'; cbn in H'; nia).
  replace (Q2R (inject_Z (Z.of_nat (2 * n + 1) * z ^ Z.of_nat (2 * n + 1)))) with (IZR (Z.of_nat (2 * n + 1) * z ^ Z.of_nat (2 * n + 1)))
    by (unfold Q2R, inject_Z; cbn; field).
  rewrite mult_IZR, <- pow_IZR, <- INR_IZR_INZ.
  rewrite pow_inv. unfold Rdiv. rewrite Rinv_mult. apply Rmult_comm.
Qed.

Lemma tg_q : forall n, tg_alt PI_2_3_7_tg n
  = Q2R (let k := Z.of_nat (2 * n + 1) in
     ((if Nat.even n then 1 else -1) * (2 * / inject_Z (k * 3 ^ k) + / inject_Z (k * 7 ^ k)))%Q).
Proof.
  intros n. cbv zeta. unfold tg_alt, PI_2_3_7_tg. rewrite !ratan_inv by lia. rewrite Q2R_mult, Q2R_plus, Q2R_mult.
  replace (Q2R 2) with 2 by (unfold Q2R; cbn; lra). f_equal.
  induction n as [n IH] using lt_wf_ind. destruct n as [|[|n]]; [cbn; unfold Q2R; cbn; lra..|].
  cbn [Nat.even]. rewrite <- (IH n) by lia. cbn [pow]. ring.
Qed.

Lemma sum_q : forall n, sum_f_R0 (tg_alt PI_2_3_7_tg) n = Q2R (qsum n).
Proof.
  induction n as [|n IH].
  - cbn [sum_f_R0]. rewrite tg_q. reflexivity.
  - cbn [sum_f_R0 qsum]. rewrite IH, tg_q. rewrite (Qeq_eqR _ _ (Qred_correct _)). rewrite Q2R_plus. reflexivity.
Qed.

Lemma pi_near : Rabs (884279719003555 / 281474976710656 - PI) <= / 4503599627370496.
Proof.
  destruct (PI_2_3_7_ineq 10) as [L U]. rewrite sum_q in L, U.
  assert (A : Q2R (884279719003555 # 281474976710656) = 884279719003555 / 281474976710656) by reflexivity.
  assert (B : Q2R (1 # 4503599627370496) = / 4503599627370496) by (unfold Q2R; cbn; lra).
  assert (C1 : Q2R ((884279719003555 # 281474976710656) + -(1 # 4503599627370496)) <= Q2R (4 * qsum (S (2 * 10)))) by (apply Qle_Rle; vm_compute; discriminate).
  assert (C2 : Q2R (4 * qsum (2 * 10)) <= Q2R ((884279719003555 # 281474976710656) + (1 # 4503599627370496))) by (apply Qle_Rle; vm_compute; discriminate).
  rewrite Q2R_mult, Q2R_plus, ?Q2R_opp, A, B in C1. rewrite Q2R_mult, Q2R_plus, A, B in C2.
  replace (Q2R 4) with 4 in * by (unfold Q2R; cbn; lra).
  apply Rabs_le. lra.
Qed.

Lemma d_pi_val : d_val d_pi = 884279719003555 / 281474976710656.
Proof. unfold d_val. vm_compute (b64_of_bits d_pi). unfold Binary.B2R, F2R, Fnum, Fexp. cbn. lra. Qed.
Lemma d_180_val : d_val d_180 = 180.
Proof. unfold d_val. vm_compute (b64_of_bits d_180). unfold Binary.B2R, F2R, Fnum, Fexp. cbn. lra. Qed.

Lemma pi_range : 3 <= PI <= 4.
Proof. pose proof pi_near as H. apply Rabs_le_inv in H. lra. Qed.

Lemma sin_le_abs : forall x, Rabs (sin x) <= Rabs x.
Proof.
  assert (P : forall x, 0 <= x -> Rabs (sin x) <= x).
  { intros x [Hx|<-]; [|rewrite sin_0, Rabs_R0; lra]. destruct (Rle_lt_dec x 1) as [L|L].
    - rewrite Rabs_pos_eq; [left; now apply sin_lt_x|]. pose proof pi_range. apply sin_ge_0; lra.
    - apply Rle_trans with 1; [|lra]. apply Rabs_le. pose proof (SIN_bound x). lra. }
  intros x. unfold Rabs at 2. destruct (Rcase_abs x) as [H|H]; [|apply P; lra].
  rewrite <- Rabs_Ropp, <- sin_neg. apply P. lra.
Qed.

Lemma cos_lip : forall a b, Rabs (cos a - cos b) <= Rabs (a - b).
Proof.
  intros a b. rewrite form2. rewrite !Rabs_mult. rewrite (Rabs_left1 (-2)) by lra.
  pose proof (sin_le_abs ((a - b) / 2)) as H. assert (S : Rabs (sin ((a + b) / 2)) <= 1) by (apply Rabs_le; pose proof (SIN_bound ((a + b) / 2)); lra).
  unfold Rdiv in H at 2. rewrite Rabs_mult, (Rabs_pos_eq (/ 2)) in H by lra.
  pose proof (Rabs_pos (sin ((a - b) / 2))). pose proof (Rabs_pos (sin ((a + b) / 2))). nra.
Qed.

Lemma sin_lip : forall a b, Rabs (sin a - sin b) <= Rabs (a - b).
Proof.
  intros a b. rewrite form4. rewrite !Rabs_mult. rewrite (Rabs_pos_eq 2) by lra.
  pose proof (sin_le_abs ((a - b) / 2)) as H. assert (S : Rabs (cos ((a + b) / 2)) <= 1) by (apply Rabs_le; pose proof (COS_bound ((a + b) / 2)); lra).
  unfold Rdiv in H at 2. rewrite Rabs_mult, (Rabs_pos_eq (/ 2)) in H by lra.
  pose proof (Rabs_pos (sin ((a - b) / 2))). pose proof (Rabs_pos (cos ((a + b) / 2))). nra.
Qed.

Lemma bpow_small : forall e, (e <= 0)%Z -> bpow radix2 e <= 1.
Proof. intros e H. change 1 with (bpow radix2 0). now apply bpow_le. Qed.

Lemma tiny2 : 2 * tiny = bpow radix2 (-1074).
Proof. unfold tiny. change (-1074)%Z with (1 + -1075)%Z. rewrite bpow_plus. reflexivity. Qed.

(** One product or quotient, rounded. *)
Lemma rnd_near : forall x, Rabs (rnd x - x) <= eps * Rabs x + tiny.
Proof.
  intros x. destruct (rnd_err x) as (e & m & He & Hm & ->).
  replace (x * (1 + e) + m - x) with (x * e + m) by ring.
  eapply Rle_trans; [apply Rabs_triang|]. rewrite Rabs_mult. pose proof (Rabs_pos x). nra.
Qed.

Lemma radians_near : forall d, finite d -> Rabs (d_val d) <= 1048576 ->
  finite (radians d)
  /\ Rabs (d_val (radians d) - angle d) <= / 2251799813685248 * Rabs (angle d) + bpow radix2 (-1074).
Proof.
  intros d [Od Fd] Bd. unfold radians.
  assert (Opi : d_ok d_pi) by (unfold d_ok, d_pi, two64; lia). assert (O180 : d_ok d_180) by (unfold d_ok, d_180, two64; lia).
  set (D := d_val d) in *. pose proof pi_range as Pi. pose proof pi_near as Pn. rewrite <- d_pi_val in Pn.
  set (q := d_val d_pi) in *. apply Rabs_le_inv in Pn. assert (Q : 3 <= q <= 4).
  { unfold q. rewrite d_pi_val. lra. }
  pose proof eps_val as Ve. assert (Tn : tiny <= eps) by (apply bpow_le; lia). pose proof tiny_pos as Tp.
  pose proof (Rabs_pos D) as PD.
  assert (Bm : Rabs (D * q) <= 4194304) by (rewrite Rabs_mult, (Rabs_pos_eq q) by lra; nra).
  assert (B23 : 4194304 <= bpow radix2 23) by (cbn; lra).
  assert (Fm : fits (D * q)) by (apply (fits_bpow _ 23); [lra|lia]).
  destruct (d_mul_val d d_pi Od Opi Fd eq_refl) as [M1 M2]. fold D q in M1, M2. specialize (M2 Fm). apply M1 in Fm as Fmm.
  destruct (d_div_val (d_mul d d_pi) d_180 (d_mul_ok _ _) O180 Fmm) as [D1 D2]; [rewrite d_180_val; lra|].
  rewrite M2, d_180_val in D1, D2.
  pose proof (rnd_near (D * q)) as N1.
  assert (U1 : Rabs (rnd (D * q)) <= 4194305).
  { replace (rnd (D * q)) with (D * q + (rnd (D * q) - D * q)) by ring. eapply Rle_trans; [apply Rabs_triang|]. rewrite Ve in *. lra. }
  assert (U2 : Rabs (rnd (D * q) / 180) <= Rabs (rnd (D * q)) / 180).
  { unfold Rdiv. rewrite Rabs_mult, (Rabs_pos_eq (/ 180)) by lra. lra. }
  assert (Fv : fits (rnd (D * q) / 180)) by (apply (fits_bpow _ 23); [lra|lia]).
  split; [split; [apply d_div_ok|now apply D1]|]. rewrite (D2 Fv).
  pose proof (rnd_near (rnd (D * q) / 180)) as N2.
  set (v := rnd (D * q)) in *. set (w := rnd (v / 180)) in *.
  unfold angle. fold D.
  assert (Adq : Rabs (D * q) = Rabs D * q) by (rewrite Rabs_mult, (Rabs_pos_eq q) by lra; reflexivity).
  assert (Vb : Rabs v <= Rabs D * q * (1 + eps) + tiny).
  { replace v with (D * q + (v - D * q)) by ring. eapply Rle_trans; [apply Rabs_triang|]. rewrite Adq in *. lra. }
  replace (w - D * PI / 180) with ((w - v / 180) + ((v - D * q) / 180 + D * (q - PI) / 180)) by field.
  eapply Rle_trans; [apply Rabs_triang|]. eapply Rle_trans; [apply Rplus_le_compat_l, Rabs_triang|].
  unfold Rdiv. rewrite !Rabs_mult, (Rabs_pos_eq (/ 180)) by lra. rewrite (Rabs_pos_eq PI) by lra.
  assert (K : Rabs (q - PI) <= / 4503599627370496) by (apply Rabs_le; lra).
  pose proof (Rabs_pos (q - PI)).
  assert (K1 : Rabs D * Rabs (q - PI) <= Rabs D * / 4503599627370496) by (apply Rmult_le_compat_l; lra).
  assert (K2 : Rabs D * q <= Rabs D * PI + Rabs D * / 4503599627370496).
  { rewrite <- Rmult_plus_distr_l. apply Rmult_le_compat_l; lra. }
  assert (K3 : Rabs D * 3 <= Rabs D * PI) by (apply Rmult_le_compat_l; lra).
  unfold Rdiv in U2. rewrite <- tiny2.
  assert (N2' : Rabs (w - v * / 180) <= eps * (Rabs v * / 180) + tiny) by (unfold Rdiv in N2; nra).
  rewrite Adq in N1. rewrite Ve in *.
  assert (E1 : 0 <= Rabs D * PI) by nra. set (T := Rabs D * PI) in *. set (Q' := Rabs D * q) in *. set (X := Rabs D) in *.
  set (Y := Rabs v) in *. set (Z1 := Rabs (v - D * q)) in *. set (Z2 := Rabs (w - v * / 180)) in *.
  lra.
Qed.

Lemma angle_bound : forall d, Rabs (d_val d) <= 1048576 -> Rabs (angle d) <= 32768.
Proof.
  intros d H. unfold angle, Rdiv. rewrite !Rabs_mult, (Rabs_pos_eq PI), (Rabs_pos_eq (/ 180)) by (pose proof pi_range; lra).
  pose proof pi_range. pose proof (Rabs_pos (d_val d)). nra.
Qed.

(** The sum of two products: [a c + b s] with either sign. *)
Lemma sum_near : forall a b C S c s E y, Rabs (C - c) <= E -> Rabs (S - s) <= E -> Rabs c <= 1 -> Rabs s <= 1 ->
  0 <= E <= / 1024 -> y = rnd (rnd (a * C) + rnd (b * S)) ->
  Rabs (y - (a * c + b * s)) <= (E + 3 * eps) * (Rabs a + Rabs b) + 3 * tiny.
Proof.
  intros a b C S c s E y HC HS Hc Hs [PE BE] ->.
  destruct (rnd_sum_err (rnd (a * C)) (rnd (b * S)) (rnd_format _) (rnd_format _)) as (e & He & ->).
  pose proof (rnd_near (a * C)) as N1. pose proof (rnd_near (b * S)) as N2.
  set (u := rnd (a * C)) in *. set (w := rnd (b * S)) in *.
  assert (BC : Rabs C <= 1 + E) by (replace C with (c + (C - c)) by ring; eapply Rle_trans; [apply Rabs_triang|]; lra).
  assert (BS : Rabs S <= 1 + E) by (replace S with (s + (S - s)) by ring; eapply Rle_trans; [apply Rabs_triang|]; lra).
  rewrite Rabs_mult in N1, N2.
  pose proof (Rabs_pos a) as Pa. pose proof (Rabs_pos b) as Pb. pose proof (Rabs_pos C). pose proof (Rabs_pos S).
  pose proof tiny_pos as Tp. pose proof eps_pos as Ep. assert (Es : eps <= / 1024) by (rewrite eps_val; lra).
  assert (A1 : Rabs a * Rabs C <= Rabs a * (1 + E)) by (apply Rmult_le_compat_l; lra).
  assert (A2 : Rabs b * Rabs S <= Rabs b * (1 + E)) by (apply Rmult_le_compat_l; lra).
  assert (M1 : Rabs (u - a * C) <= eps * (Rabs a * (1 + E)) + tiny) by nra.
  assert (M2 : Rabs (w - b * S) <= eps * (Rabs b * (1 + E)) + tiny) by nra.
  assert (U : Rabs (u + w) <= (Rabs a + Rabs b) * (1 + E) * (1 + eps) + 2 * tiny).
  { replace (u + w) with ((a * C + b * S) + ((u - a * C) + (w - b * S))) by ring.
    eapply Rle_trans; [apply Rabs_triang|]. eapply Rle_trans; [apply Rplus_le_compat; apply Rabs_triang|].
    rewrite !(Rabs_mult a), !(Rabs_mult b). nra. }
  replace ((u + w) * (1 + e) - (a * c + b * s))
    with ((u + w) * e + (((u - a * C) + (w - b * S)) + (a * (C - c) + b * (S - s)))) by ring.
  eapply Rle_trans; [apply Rabs_triang|].
  assert (V1 : Rabs ((u + w) * e) <= ((Rabs a + Rabs b) * (1 + E) * (1 + eps) + 2 * tiny) * eps).
  { rewrite Rabs_mult. apply Rmult_le_compat; try apply Rabs_pos; assumption. }
  assert (V2 : Rabs ((u - a * C) + (w - b * S)) <= eps * ((Rabs a + Rabs b) * (1 + E)) + 2 * tiny).
  { eapply Rle_trans; [apply Rabs_triang|]. lra. }
  assert (V3 : Rabs (a * (C - c) + b * (S - s)) <= (Rabs a + Rabs b) * E).
  { eapply Rle_trans; [apply Rabs_triang|]. rewrite !Rabs_mult. rewrite Rmult_plus_distr_r.
    apply Rplus_le_compat; apply Rmult_le_compat_l; assumption. }
  eapply Rle_trans; [apply Rplus_le_compat_l, Rabs_triang|].
  set (T := Rabs a + Rabs b) in *. assert (PT : 0 <= T) by (unfold T; lra).
  assert (G : T * (1 + E) * (1 + eps) <= T * (3 / 2)).
  { rewrite Rmult_assoc. apply Rmult_le_compat_l; [exact PT|]. nra. }
  assert (G2 : T * (1 + E) <= T * (3 / 2)) by (apply Rmult_le_compat_l; lra).
  assert (V1' : Rabs ((u + w) * e) <= (T * (3 / 2) + 2 * tiny) * eps).
  { eapply Rle_trans; [exact V1|]. apply Rmult_le_compat_r; lra. }
  assert (V2' : Rabs ((u - a * C) + (w - b * S)) <= eps * (T * (3 / 2)) + 2 * tiny).
  { eapply Rle_trans; [exact V2|]. apply Rplus_le_compat_r. apply Rmult_le_compat_l; lra. }
  assert (2 * tiny * eps <= tiny) by nra. nra.
Qed.

(** One turn. *)
Lemma turn_near : forall t d a b, accurate t -> finite d -> Rabs (d_val d) <= 1048576 ->
  finite a -> finite b -> Rabs (d_val a) <= bpow radix2 502 -> Rabs (d_val b) <= bpow radix2 502 ->
  turned (angle d) (turn_error (angle d) (d_val a) (d_val b)) a b
    (turn_minus t (radians d) a b) (turn_plus t (radians d) a b).
Proof.
  intros t d a b Ht Fd Bd [Oa Fa] [Ob Fb] Ba Bb.
  destruct (radians_near d Fd Bd) as [Fr Nr]. pose proof (angle_bound d Bd) as Ab.
  destruct (Ht _ Fr) as ([Oc Fc] & Ec & [Os Fs] & Es).
  pose proof (cos_lip (d_val (radians d)) (angle d)) as Lc. pose proof (sin_lip (d_val (radians d)) (angle d)) as Ls.
  set (th := angle d) in *. set (r := radians d) in *.
  set (C := d_val (d_cos t r)) in *. set (S := d_val (d_sin t r)) in *.
  pose proof tiny2 as T2. pose proof eps_val as Ve. pose proof tiny_pos as Tp.
  assert (Tn : tiny <= bpow radix2 (-200)) by (apply bpow_le; lia).
  assert (Tn' : bpow radix2 (-200) <= / 1125899906842624 / 1125899906842624).
  { apply Rle_trans with (bpow radix2 (-100)); [apply bpow_le; lia|]. cbn. lra. }
  pose (E := / 4503599627370496 + / 2251799813685248 * Rabs th + bpow radix2 (-1074)).
  pose proof (Rabs_pos th) as Pth.
  assert (BE : 0 <= E <= / 1024) by (unfold E; rewrite <- T2; lra).
  assert (NC : Rabs (C - cos th) <= E).
  { replace (C - cos th) with ((C - cos (d_val r)) + (cos (d_val r) - cos th)) by ring.
    eapply Rle_trans; [apply Rabs_triang|]. unfold E. lra. }
  assert (NS : Rabs (S - sin th) <= E).
  { replace (S - sin th) with ((S - sin (d_val r)) + (sin (d_val r) - sin th)) by ring.
    eapply Rle_trans; [apply Rabs_triang|]. unfold E. lra. }
  assert (Hc : Rabs (cos th) <= 1) by (apply Rabs_le; pose proof (COS_bound th); lra).
  assert (Hs : Rabs (sin th) <= 1) by (apply Rabs_le; pose proof (SIN_bound th); lra).
  assert (BC : Rabs C <= 2) by (replace C with (cos th + (C - cos th)) by ring; eapply Rle_trans; [apply Rabs_triang|]; lra).
  assert (BS : Rabs S <= 2) by (replace S with (sin th + (S - sin th)) by ring; eapply Rle_trans; [apply Rabs_triang|]; lra).
  assert (P503 : bpow radix2 502 * 2 = bpow radix2 503) by (change 503%Z with (502 + 1)%Z; rewrite bpow_plus; reflexivity).
  assert (P504 : bpow radix2 503 + bpow radix2 503 = bpow radix2 504) by (change 504%Z with (503 + 1)%Z; rewrite bpow_plus; change (bpow radix2 1) with 2; ring).
  (* a product *)
  assert (M : forall x y, d_ok x -> d_ok y -> d_is_finite x = true -> d_is_finite y = true ->
     Rabs (d_val x) <= bpow radix2 502 -> Rabs (d_val y) <= 2 ->
     d_is_finite (d_mul x y) = true /\ d_val (d_mul x y) = rnd (d_val x * d_val y) /\ Rabs (d_val (d_mul x y)) <= bpow radix2 503).
  { intros x y Ox Oy Fx Fy Bx By. destruct (d_mul_val x y Ox Oy Fx Fy) as [M1 M2].
    assert (B : Rabs (d_val x * d_val y) <= bpow radix2 503).
    { rewrite Rabs_mult, <- P503. apply Rmult_le_compat; try apply Rabs_pos; assumption. }
    assert (F : fits (d_val x * d_val y)) by (apply (fits_bpow _ 503); [exact B|lia]).
    split; [now apply M1|]. split; [now apply M2|]. rewrite (M2 F). apply rnd_le_bpow; [lia|exact B]. }
  destruct (M a (d_cos t r) Oa Oc Fa Fc Ba BC) as (F1 & V1 & B1). destruct (M b (d_sin t r) Ob Os Fb Fs Bb BS) as (F2 & V2 & B2).
  destruct (M a (d_sin t r) Oa Os Fa Fs Ba BS) as (F3 & V3 & B3). destruct (M b (d_cos t r) Ob Oc Fb Fc Bb BC) as (F4 & V4 & B4).
  fold C in V1, V4. fold S in V2, V3.
  unfold turn_minus, turn_plus.
  destruct (d_sub_val (d_mul a (d_cos t r)) (d_mul b (d_sin t r)) (d_mul_ok _ _) (d_mul_ok _ _) F1 F2) as [S1 S2].
  destruct (d_add_val (d_mul a (d_sin t r)) (d_mul b (d_cos t r)) (d_mul_ok _ _) (d_mul_ok _ _) F3 F4) as [A1 A2].
  assert (G1 : fits (d_val (d_mul a (d_cos t r)) - d_val (d_mul b (d_sin t r)))).
  { apply (fits_bpow _ 504); [|lia]. eapply Rle_trans; [apply Rabs_triang|]. rewrite Rabs_Ropp. lra. }
  assert (G2 : fits (d_val (d_mul a (d_sin t r)) + d_val (d_mul b (d_cos t r)))).
  { apply (fits_bpow _ 504); [|lia]. eapply Rle_trans; [apply Rabs_triang|]. lra. }
  specialize (S2 G1). specialize (A2 G2). apply S1 in G1. apply A1 in G2.
  rewrite V1, V2 in S2. rewrite V3, V4 in A2.
  assert (Err : (E + 3 * eps) * (Rabs (d_val a) + Rabs (d_val b)) + 3 * tiny <= turn_error th (d_val a) (d_val b)).
  { unfold turn_error. change (-1073)%Z with (1 + -1074)%Z. rewrite bpow_plus. change (bpow radix2 1) with 2. rewrite <- T2.
    apply Rplus_le_compat; [|lra]. apply Rmult_le_compat_r; [pose proof (Rabs_pos (d_val a)); pose proof (Rabs_pos (d_val b)); lra|].
    unfold E. rewrite Ve, <- T2. lra. }
  split; [split; [apply d_sub_ok|exact G1]|]. split; [split; [apply d_add_ok|exact G2]|]. split.
  - eapply Rle_trans; [|exact Err].
    replace (d_val a * cos th - d_val b * sin th) with (d_val a * cos th + (- d_val b) * sin th) by ring.
    rewrite <- (Rabs_Ropp (d_val b)). eapply sum_near; eauto. rewrite S2. f_equal. unfold Rminus. f_equal.
    rewrite <- rnd_opp. f_equal. ring.
  - eapply Rle_trans; [|exact Err]. rewrite A2. eapply sum_near; eauto.
Qed.
