(** C120: the Gaussian cloud of test data. *)
From Coq Require Import String Reals ZArith List Bool Lia Lra Psatz.
From Flocq Require Import Core.
From Verif.Model Require Import Base Double Arith PointRecord Point Affine TestUtils GaussianCloud.
From Verif.Spec Require Import Rounding Geometry Testing.
From Verif.Proofs Require Import BaseFacts DoubleFacts ArithFacts VoxelFacts ErrorFacts RestoreFacts TileSizeFacts.
From Verif.Props Require Import TestUtilsProps.
Import ListNotations.
Open Scope Z_scope.

Definition d_minus_inf : double := 18442240474082181120.   (* 0xFFF0000000000000 *)

(** What is assumed of the C library's functions and of the normal distribution. *)
Record library_ok (r : rng) (n : normal r) (log : double -> double) (t : trig) : Prop := mk_library_ok {
  lib_log : forall x, finite x -> (0 < d_val x <= 1)%R -> between (-1024) 0 (log x);
  lib_log_0 : log d_zero = d_minus_inf;
  lib_cos : forall a, finite a -> between (-1) 1 (d_cos t a);
  lib_sin : forall a, finite a -> between (-1) 1 (d_sin t a);
  lib_normal : forall s, between (-64) 64 (fst (nd_draw n s))
}.

(** The engine never gives zero for a number in [0, 1). *)
Definition never_zero (r : rng) : Prop := forall s, (0 < d_val (fst (rng_real r d_zero d_one s)))%R.

Lemma bounded_mul a b e f : between (- bpow radix2 e) (bpow radix2 e) a -> between (- bpow radix2 f) (bpow radix2 f) b -> -1074 <= e + f < 1024 ->
  between (- bpow radix2 (e + f)) (bpow radix2 (e + f)) (d_mul a b).
Proof.
  intros [[Oa Fa] Ba] [[Ob Fb] Bb] H.
  assert (A : (Rabs (d_val a * d_val b) <= bpow radix2 (e + f))%R).
  { rewrite Rabs_mult, bpow_plus. apply Rmult_le_compat; try apply Rabs_pos; now apply Rabs_le. }
  destruct (d_mul_val a b Oa Ob Fa Fb) as [F V]. assert (Ft : fits (d_val a * d_val b)) by (apply fits_bpow with (e + f); [exact A|lia]).
  split; [split; [apply d_mul_ok|now apply F]|]. rewrite (V Ft). apply Rabs_le_inv. apply rnd_le_bpow; [lia|exact A].
Qed.

Lemma minus_two : finite d_minus_two /\ d_val d_minus_two = (-2)%R.
Proof. split; [split; vm_compute; intuition congruence|]. unfold d_val. vm_compute. lra. Qed.

Lemma two_pi : between (- bpow radix2 3) (bpow radix2 3) d_two_pi.
Proof. split; [split; vm_compute; intuition congruence|]. unfold d_val. vm_compute. lra. Qed.

Lemma within a lo hi lo' hi' : between lo hi a -> (lo' <= lo)%R -> (hi <= hi')%R -> between lo' hi' a.
Proof. intros [F [L H]] A B. split; [exact F|lra]. Qed.

Lemma radius_ok (log : double -> double) (l : double) : between (-1024) 0 (log l) -> between (- bpow radix2 6) (bpow radix2 6) (d_sqrt (d_mul d_minus_two (log l))).
Proof.
  intros B. destruct minus_two as [F2 V2].
  assert (M : between (- bpow radix2 (1 + 10)) (bpow radix2 (1 + 10)) (d_mul d_minus_two (log l))).
  { apply bounded_mul; [split; [exact F2|rewrite V2; cbn; lra]| |lia]. apply (within _ _ _ _ _ B); cbn; lra. }
  destruct B as [[Ol Fl] [L H]]. destruct F2 as [O2 F2]. destruct M as [[Om Fm] [M1 M2]].
  destruct (d_mul_val d_minus_two (log l) O2 Ol F2 Fl) as [Fi V]. rewrite V2 in *.
  assert (P : (0 <= d_val (d_mul d_minus_two (log l)))%R).
  { rewrite V by now apply Fi. rewrite <- rnd_0. apply rnd_le. lra. }
  destruct (d_sqrt_val _ Om Fm P) as [Fs Vs]. split; [split; [apply d_sqrt_ok|exact Fs]|]. rewrite Vs. apply Rabs_le_inv. apply rnd_le_bpow; [lia|].
  rewrite Rabs_pos_eq by apply sqrt_pos. replace (bpow radix2 6) with (sqrt (bpow radix2 6 * bpow radix2 6)) by (apply sqrt_square; apply bpow_ge_0).
  apply sqrt_le_1_alt. rewrite <- bpow_plus. apply (Rle_trans _ _ _ M2). apply bpow_le. lia.
Qed.

(** As many points as asked for; if the engine never gives zero, all coordinates are numbers,
    at most 64 times the radius from the axis and 64 standard deviations from the plane. *)
Theorem C120_cloud : forall r n log t count radius stddev seed e k, rng_ok r -> library_ok r n log t -> never_zero r -> 0 <= count ->
  between (- bpow radix2 e) (bpow radix2 e) radius -> between (- bpow radix2 k) (bpow radix2 k) stddev -> -1000 <= e <= 1000 -> -1000 <= k <= 1000 ->
  let pts := get_noisy_gaussian_point_cloud r n log t count radius stddev seed in
  Z.of_nat (List.length pts) = count
  /\ Forall (fun p => between (- bpow radix2 (e + 6)) (bpow radix2 (e + 6)) (px p)
       /\ between (- bpow radix2 (e + 6)) (bpow radix2 (e + 6)) (py p)
       /\ between (- bpow radix2 (k + 6)) (bpow radix2 (k + 6)) (pz p)) pts.
Proof.
  intros r n log t count radius stddev seed e k Hr Hl Nz Hc Br Bs He Hk pts. unfold pts, get_noisy_gaussian_point_cloud.
  match goal with |- _ /\ Forall ?P _ => destruct (times_all P (gaussian_point r n log t radius stddev)) with (n := Z.to_nat count) (s := (nd_init n, rng_seed r seed)) as [F L] end.
  - intros [d g]. unfold gaussian_point.
    pose proof (zero_draw r g Hr) as Bx. pose proof (Nz g) as Px. destruct (rng_real r d_zero d_one g) as [x g1]. cbn [fst] in Bx, Px.
    pose proof (zero_draw r g1 Hr) as By. destruct (rng_real r d_zero d_one g1) as [y g2]. cbn [fst] in By.
    pose proof (lib_normal r n log t Hl (d, g2)) as Bv. destruct (nd_draw n (d, g2)) as [v s']. cbn [fst] in Bv |- *. cbn [px py pz].
    assert (Bl : between (-1024) 0 (log x)) by (apply (lib_log r n log t Hl); [apply Bx|destruct Bx as [_ Bx]; lra]).
    pose proof (radius_ok log x Bl) as Bq. pose proof (bounded_mul _ _ _ _ Br Bq ltac:(lia)) as Bm.
    assert (Fa : finite (d_mul d_two_pi y)).
    { assert (Y : between (- bpow radix2 0) (bpow radix2 0) y) by (apply (within _ _ _ _ _ By); cbn; lra).
      destruct (bounded_mul _ _ _ _ two_pi Y ltac:(lia)) as [Fa _]. exact Fa. }
    assert (Q : forall c, between (-1) 1 c -> between (- bpow radix2 (e + 6)) (bpow radix2 (e + 6)) (d_mul (d_mul radius (d_sqrt (d_mul d_minus_two (log x)))) c)).
    { intros c Bc. replace (e + 6) with (e + 6 + 0) by lia. apply bounded_mul; [exact Bm| |lia]. apply (within _ _ _ _ _ Bc); cbn; lra. }
    split; [apply Q, (lib_cos r n log t Hl), Fa|]. split; [apply Q, (lib_sin r n log t Hl), Fa|].
    apply bounded_mul; [exact Bs| |lia]. apply (within _ _ _ _ _ Bv); cbn; lra.
  - split; [rewrite L; lia|exact F].
Qed.

(** When the engine gives zero, which [0, 1) allows, the point is at infinity or nowhere: x and y are
    not finite, whatever the radius. *)
Theorem C120_zero_draw : forall r n log t radius stddev d g, library_ok r n log t -> d_ok radius ->
  (forall a, d_ok (d_cos t a) /\ d_ok (d_sin t a)) -> fst (rng_real r d_zero d_one g) = d_zero ->
  let p := fst (gaussian_point r n log t radius stddev (d, g)) in
  d_is_finite (px p) = false /\ d_is_finite (py p) = false.
Proof.
  intros r n log t radius stddev d g Hl Or Ot Z0 p. unfold p, gaussian_point. destruct (rng_real r d_zero d_one g) as [x g1]. cbn [fst] in Z0. subst x.
  destruct (rng_real r d_zero d_one g1) as [y g2]. destruct (nd_draw n (d, g2)) as [v s']. cbn [fst px py]. rewrite (lib_log_0 r n log t Hl).
  assert (I : d_is_finite (d_sqrt (d_mul d_minus_two d_minus_inf)) = false) by (vm_compute; reflexivity).
  assert (Q : forall c, d_ok c -> d_is_finite (d_mul (d_mul radius (d_sqrt (d_mul d_minus_two d_minus_inf))) c) = false).
  { intros c Oc. apply not_true_is_false. intros F. apply d_mul_finite_inv in F as [F _]; [|apply d_mul_ok|exact Oc].
    apply d_mul_finite_inv in F as [_ F]; [|exact Or|apply d_sqrt_ok]. congruence. }
  split; apply Q, Ot.
Qed.

(** A library that meets the contract: the crudest one *)
Definition crude_log (x : double) : double := if x =? d_zero then d_minus_inf else d_minus_two.
Definition crude_trig : trig := mk_trig (fun _ => d_one) (fun _ => d_zero).
Definition toy_normal (r : rng) : normal r := mk_normal r unit tt (fun s => (d_one, s)).

Lemma crude_ok r : library_ok r (toy_normal r) crude_log crude_trig.
Proof.
  destruct one_finite as [F1 V1]. pose proof zero_finite as F0. assert (V0 : d_val d_zero = 0%R) by apply d_val_zero. destruct minus_two as [F2 V2]. split.
  - intros x F B. unfold crude_log. destruct (Z.eqb_spec x d_zero) as [->|N]; [rewrite V0 in B; lra|]. split; [exact F2|rewrite V2; lra].
  - reflexivity.
  - intros a _. split; [exact F1|cbn [crude_trig d_cos d_sin toy_normal nd_draw fst]; rewrite V1; lra].
  - intros a _. split; [exact F0|cbn [crude_trig d_cos d_sin]; rewrite V0; lra].
  - intros s. split; [exact F1|cbn [crude_trig d_cos d_sin toy_normal nd_draw fst]; rewrite V1; lra].
Qed.

(** An engine that never gives zero *)
Definition top_rng : rng := mk_rng unit (fun _ => tt) tt (fun _ hi s => (hi, s)) (fun _ hi s => (hi, s)).

(** The points are not in the disk of the given radius: with radius 1 there is one at (2, 0, 1). *)
Example C120_example : rng_ok top_rng /\ never_zero top_rng /\ library_ok top_rng (toy_normal top_rng) crude_log crude_trig
  /\ get_noisy_gaussian_point_cloud top_rng (toy_normal top_rng) crude_log crude_trig 1 d_one d_one 123 = [mk_pt (d_add d_one d_one) d_zero d_one]
  /\ fst (rng_real toy_rng d_zero d_one 2) = d_zero.
Proof.
  destruct one_finite as [F1 V1]. split; [split; cbn; [lia|intros lo hi s Fl Fh L _; split; [exact Fh|lra]]|].
  split; [intros s; cbn [crude_trig d_cos d_sin toy_normal nd_draw fst top_rng rng_real]; rewrite V1; lra|]. split; [apply crude_ok|]. split; vm_compute; reflexivity.
Qed.

Print Assumptions C120_cloud.
Print Assumptions C120_zero_draw.
