(** Facts about moving and scaling coordinates and undoing it. *)
From Coq Require Import Reals ZArith List Bool Lia Lra.
From Flocq Require Import Core Relative Mult_error Plus_error IEEE754.Binary IEEE754.Bits.
From Verif.Model Require Import Base Double Arith.
From Verif.Spec Require Import Rounding.
From Verif.Proofs Require Import DoubleFacts ArithFacts ErrorFacts ScaleFacts.
Open Scope R_scope.

Lemma rnd_nearest : forall x y, generic_format radix2 fexp64 y -> Rabs (rnd x - x) <= Rabs (y - x).
Proof.
  intros x y Fy. unfold rnd. destruct (round_N_pt radix2 fexp64 (fun z => negb (Z.even z)) x) as [_ H]. now apply H.
Qed.

Lemma back_error : forall x v, generic_format radix2 fexp64 x -> generic_format radix2 fexp64 v ->
  Rabs (rnd (rnd (x + v) + - v) - x) <= 2 * eps * Rabs (x + v).
Proof.
  intros x v Fx Fv. destruct (rnd_sum_err x v Fx Fv) as (e & He & E).
  set (s := rnd (x + v)) in *. pose proof (rnd_nearest (s + - v) x Fx) as N.
  assert (D : x - (s + - v) = - ((x + v) * e)) by (rewrite E; ring).
  assert (B : Rabs (x - (s + - v)) <= eps * Rabs (x + v)).
  { rewrite D, Rabs_Ropp, Rabs_mult, Rmult_comm. apply Rmult_le_compat_r; [apply Rabs_pos|exact He]. }
  replace (rnd (s + - v) - x) with ((rnd (s + - v) - (s + - v)) - (x - (s + - v))) by ring.
  unfold Rminus at 1. eapply Rle_trans; [apply Rabs_triang|]. rewrite Rabs_Ropp. lra.
Qed.

Lemma rnd_relative : forall x, bpow radix2 (-1022) <= Rabs x -> exists e, Rabs e <= eps /\ rnd x = x * (1 + e).
Proof.
  intros x Hx. assert (P : Prec_gt_0 53) by (unfold Prec_gt_0; lia).
  destruct (relative_error_N_FLT_ex radix2 (-1074) 53 P (fun z => negb (Z.even z)) x) as (e & He & H); [exact Hx|].
  exists e. split; [|exact H]. eapply Rle_trans; [exact He|]. unfold eps.
  change (-53)%Z with (-53)%Z. replace (- (53) + 1)%Z with (-53 + 1)%Z by lia. rewrite half_bpow. lra.
Qed.

Lemma triple : forall a b c, Rabs a <= eps -> Rabs b <= eps -> Rabs c <= eps ->
  Rabs ((1 + a) * (1 + b) * (1 + c) - 1) <= 4 * eps.
Proof.
  intros a b c Ha Hb Hc. rewrite eps_val in *. apply Rabs_le_inv in Ha, Hb, Hc.
  set (u := / 9007199254740992) in *. assert (U : 0 < u < / 1000) by (unfold u; split; [lra|lra]). clearbody u.
  assert (A : Rabs (a + b + c) <= 3 * u) by (apply Rabs_le; lra).
  assert (P : forall p q, - u <= p <= u -> - u <= q <= u -> - (u * u) <= p * q <= u * u) by (intros; nra).
  pose proof (P a b Ha Hb). pose proof (P a c Ha Hc). pose proof (P b c Hb Hc).
  assert (T : - (u * u) <= a * b * c <= u * u) by nra.
  apply Rabs_le_inv in A. apply Rabs_le. replace ((1 + a) * (1 + b) * (1 + c) - 1) with (a + b + c + (a * b + a * c + b * c) + a * b * c) by ring.
  nra.
Qed.

Lemma scale_back_error : forall x v, bpow radix2 (-500) <= Rabs v <= bpow radix2 500 -> bpow radix2 (-500) <= Rabs x <= bpow radix2 500 ->
  Rabs (rnd (rnd (x * v) * rnd (1 / v)) - x) <= 4 * eps * Rabs x.
Proof.
  intros x v [Vl Vu] [Xl Xu].
  assert (V0 : v <> 0) by (intros ->; rewrite Rabs_R0 in Vl; pose proof (bpow_gt_0 radix2 (-500)); lra).
  assert (Pv : 0 < Rabs v) by now apply Rabs_pos_lt.
  assert (B : forall e f, (e <= f)%Z -> bpow radix2 e <= bpow radix2 f) by (intros; now apply bpow_le).
  assert (G : forall e, 0 < bpow radix2 e) by (intros; apply bpow_gt_0).
  assert (L1 : bpow radix2 (-1000) <= Rabs (x * v)).
  { rewrite Rabs_mult. change (-1000)%Z with (-500 + -500)%Z. rewrite bpow_plus.
    apply Rmult_le_compat; auto; apply Rlt_le; apply G. }
  destruct (rnd_relative (x * v)) as (a & Ha & Ea); [eapply Rle_trans; [|exact L1]; apply B; lia|].
  assert (L2 : bpow radix2 (-500) <= Rabs (1 / v)).
  { unfold Rdiv. rewrite Rmult_1_l, Rabs_inv. change (-500)%Z with (- (500))%Z. rewrite bpow_opp. now apply Rinv_le_contravar. }
  destruct (rnd_relative (1 / v)) as (b & Hb & Eb); [eapply Rle_trans; [|exact L2]; apply B; lia|].
  assert (E : rnd (x * v) * rnd (1 / v) = x * ((1 + a) * (1 + b))) by (rewrite Ea, Eb; field; exact V0).
  assert (K : / 4 <= Rabs ((1 + a) * (1 + b))).
  { rewrite eps_val in Ha, Hb. apply Rabs_le_inv in Ha, Hb. rewrite Rabs_pos_eq; nra. }
  destruct (rnd_relative (rnd (x * v) * rnd (1 / v))) as (c & Hc & Ec).
  { rewrite E, Rabs_mult. apply Rle_trans with (bpow radix2 (-500) * / 4).
    - replace (/ 4) with (bpow radix2 (-2)) by (cbn; lra). rewrite <- bpow_plus. apply B. lia.
    - apply Rmult_le_compat; auto; [apply Rlt_le; apply G|lra]. }
  rewrite Ec, E. replace (x * ((1 + a) * (1 + b)) * (1 + c) - x) with (((1 + a) * (1 + b) * (1 + c) - 1) * x) by ring.
  rewrite Rabs_mult. apply Rmult_le_compat_r; [apply Rabs_pos|]. now apply triple.
Qed.

(** Multiples of a power of two. *)
Lemma back_exact : forall k n m, (-1074 <= k)%Z -> (Z.abs n <= 2 ^ 53)%Z -> (Z.abs m <= 2 ^ 53)%Z -> (Z.abs (n + m) <= 2 ^ 53)%Z ->
  let x := IZR n * bpow radix2 k in let v := IZR m * bpow radix2 k in
  rnd (x + v) = x + v /\ rnd (rnd (x + v) + - v) = x.
Proof.
  intros k n m Hk Hn Hm Hs x v.
  assert (E : x + v = IZR (n + m) * bpow radix2 k) by (unfold x, v; rewrite plus_IZR; ring).
  assert (A : rnd (x + v) = x + v) by (unfold rnd; apply round_generic; [apply valid_rnd_N|]; rewrite E; now apply int_bpow_format).
  split; [exact A|]. rewrite A. replace (x + v + - v) with x by ring.
  unfold rnd; apply round_generic; [apply valid_rnd_N|]. now apply int_bpow_format.
Qed.

Lemma bpow_scale : forall x k, generic_format radix2 fexp64 x -> x = 0 \/ bpow radix2 (-1022) <= Rabs (x * bpow radix2 k) ->
  generic_format radix2 fexp64 (x * bpow radix2 k).
Proof.
  intros x k Fx [->|H]; [rewrite Rmult_0_l; apply generic_format_0|].
  assert (P : Prec_gt_0 53) by (unfold Prec_gt_0; lia).
  change (generic_format radix2 (FLT_exp (-1074) 53) (x * bpow radix2 k)). apply mult_bpow_exact_FLT; [exact Fx|].
  assert (N : x <> 0). { intros ->. rewrite Rmult_0_l, Rabs_R0 in H. pose proof (bpow_gt_0 radix2 (-1022)). lra. }
  apply mag_ge_bpow with (e := (-1021)%Z) in H. rewrite mag_mult_bpow in H by exact N. lia.
Qed.
