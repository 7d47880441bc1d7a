(** C103: a rotation by a number of degrees turns by that angle. *)
From Coq Require Import String Reals ZArith List Bool Lia Lra.
From Flocq Require Import Core IEEE754.Binary IEEE754.Bits.
From Verif.Model Require Import Base Double Arith PointRecord Point Utils Par Affine TransformApp.
From Verif.Spec Require Import Rounding Geometry Distance Fields Schedules Turning.
From Verif.Proofs Require Import BaseFacts OrderFacts DoubleFacts ArithFacts ErrorFacts TurnFacts.
From Verif.Props Require Import ParProps.
Import ListNotations.
Open Scope Z_scope.

(** The commands of [spoc_transform]: around X, Y turns towards Z; around Z, X turns towards Y; but
    around Y, X turns towards Z, against the right-hand rule. *)
Theorem C103_commands : forall t d k p, accurate t -> finite d -> (Rabs (d_val d) <= 1048576)%R -> modest_pt (pr_pt p) ->
  let th := angle d in
  (exists q, get_rotate_x_op t d k p = Ret q /\ only [FY; FZ] p q
     /\ turned th (turn_error th (d_val (ry p)) (d_val (rz p))) (ry p) (rz p) (ry q) (rz q))
  /\ (exists q, get_rotate_y_op t d k p = Ret q /\ only [FX; FZ] p q
     /\ turned th (turn_error th (d_val (rx p)) (d_val (rz p))) (rx p) (rz p) (rx q) (rz q))
  /\ (exists q, get_rotate_z_op t d k p = Ret q /\ only [FX; FY] p q
     /\ turned th (turn_error th (d_val (rx p)) (d_val (ry p))) (rx p) (ry p) (rx q) (ry q)).
Proof.
  intros t d k p Ht Fd Bd ((Fx & Mx) & (Fy & My) & (Fz & Mz)) th. cbn [pr_pt px py pz] in *.
  assert (B : forall x, (Rabs x <= bpow radix2 500 -> Rabs x <= bpow radix2 502)%R).
  { intros x H. eapply Rle_trans; [exact H|]. apply bpow_le. lia. }
  apply B in Mx, My, Mz.
  split; [|split]; (eexists; split; [reflexivity|]; split;
    [split; [reflexivity|]; intros g G; destruct g; try reflexivity; exfalso; apply G; cbn; tauto|]);
    cbn [rx ry rz set_x set_y set_z]; now apply turn_near.
Qed.

(** The library's [rotate_x], [rotate_y], [rotate_z], however the loop is scheduled. *)
Theorem C103_library : forall t d prs, accurate t -> finite d -> (Rabs (d_val d) <= 1048576)%R ->
  Forall (fun p => modest_pt (pr_pt p)) prs ->
  let th := angle d in
  (exists qs, schedule_free (par_for (length prs) (rotate_x_body t d) prs) (Ret qs)
     /\ Forall2 (fun p q => only [FY; FZ] p q
          /\ turned th (turn_error th (d_val (ry p)) (d_val (rz p))) (ry p) (rz p) (ry q) (rz q)) prs qs)
  /\ (exists qs, schedule_free (par_for (length prs) (rotate_y_body t d) prs) (Ret qs)
     /\ Forall2 (fun p q => only [FX; FZ] p q
          /\ turned th (turn_error th (d_val (rx p)) (d_val (rz p))) (rx p) (rz p) (rx q) (rz q)) prs qs)
  /\ (exists qs, schedule_free (par_for (length prs) (rotate_z_body t d) prs) (Ret qs)
     /\ Forall2 (fun p q => only [FX; FY] p q
          /\ turned th (turn_error th (d_val (rx p)) (d_val (ry p))) (rx p) (ry p) (rx q) (ry q)) prs qs).
Proof.
  intros t d prs Ht Fd Bd Hf th. destruct (C38_rotate t d prs) as (X & Y & Z). cbv zeta in X, Y, Z.
  assert (A : forall (R : point_record -> point_record -> Prop) (f : point_record -> point_record),
    (forall p, modest_pt (pr_pt p) -> R p (f p)) -> Forall2 R prs (map f prs)).
  { intros R f H. clear - Hf H. induction Hf; cbn; constructor; auto. }
  assert (B : forall x, modest x -> finite x /\ (Rabs (d_val x) <= bpow radix2 502)%R).
  { intros x [F H]. split; [exact F|]. eapply Rle_trans; [exact H|]. apply bpow_le. lia. }
  split; [|split]; (eexists; split; [eassumption|]; apply A; intros p (Mx & My & Mz); cbn [pr_pt px py pz] in Mx, My, Mz;
    apply B in Mx as [Fx Mx]; apply B in My as [Fy My]; apply B in Mz as [Fz Mz]; split;
    [split; [reflexivity|]; intros g G; destruct g; try reflexivity; exfalso; apply G; cbn; tauto|]).
  - unfold moved; cbn [rx ry rz fst snd]. fold (radians d). fold (turn_minus t (radians d) (ry p) (rz p)). fold (turn_plus t (radians d) (ry p) (rz p)).
    now apply turn_near.
  - unfold moved; cbn [rx ry rz fst snd]. fold (radians d). fold (turn_minus t (radians d) (rx p) (rz p)). fold (turn_plus t (radians d) (rx p) (rz p)).
    now apply turn_near.
  - unfold moved; cbn [rx ry rz fst snd]. fold (radians d). fold (turn_minus t (radians d) (rx p) (ry p)). fold (turn_plus t (radians d) (rx p) (ry p)).
    now apply turn_near.
Qed.

(** Turning back: rotating by [d] and then by [-d] leads back, up to 2^-46 of the coordinates
    and the angle. *)
Lemma back_reals : forall A C A' B' y1 y2 cs sn K s tt1 tt2, (sn * sn + cs * cs = 1 -> Rabs cs <= 1 -> Rabs sn <= 1 ->
  Rabs (A' - (A * cs - C * sn)) <= K * s + tt1 -> Rabs (B' - (A * sn + C * cs)) <= K * s + tt1 ->
  Rabs (y1 - (A' * cs - B' * - sn)) <= tt2 -> Rabs (y2 - (A' * - sn + B' * cs)) <= tt2 ->
  Rabs (y1 - A) <= tt2 + 2 * (K * s + tt1) /\ Rabs (y2 - C) <= tt2 + 2 * (K * s + tt1))%R.
Proof.
  intros A C A' B' y1 y2 cs sn K s tt1 tt2 SC Hc Hs Na Nb Na2 Nb2.
  assert (Lin : forall x y u v, (Rabs u <= 1 -> Rabs v <= 1 -> Rabs (x * u + y * v) <= Rabs x + Rabs y)%R).
  { intros x y u v Hu Hv. eapply Rle_trans; [apply Rabs_triang|]. rewrite !Rabs_mult.
    pose proof (Rabs_pos x). pose proof (Rabs_pos y). nra. }
  set (da := (A' - (A * cs - C * sn))%R) in *. set (db := (B' - (A * sn + C * cs))%R) in *.
  split.
  - replace (y1 - A)%R with ((y1 - (A' * cs - B' * - sn)) + (da * cs + db * sn))%R.
    + eapply Rle_trans; [apply Rabs_triang|]. pose proof (Lin da db _ _ Hc Hs). lra.
    + unfold da, db. transitivity (y1 - A * (sn * sn + cs * cs))%R; [ring|rewrite SC; ring].
  - replace (y2 - C)%R with ((y2 - (A' * - sn + B' * cs)) + (da * - sn + db * cs))%R.
    + eapply Rle_trans; [apply Rabs_triang|]. assert (Hs' : (Rabs (- sn) <= 1)%R) by (now rewrite Rabs_Ropp).
      pose proof (Lin da db _ _ Hs' Hc). lra.
    + unfold da, db. transitivity (y2 - C * (sn * sn + cs * cs))%R; [ring|rewrite SC; ring].
Qed.

Lemma size_reals : forall A C A' B' cs sn E, (Rabs cs <= 1 -> Rabs sn <= 1 ->
  Rabs (A' - (A * cs - C * sn)) <= E -> Rabs (B' - (A * sn + C * cs)) <= E ->
  Rabs A' <= Rabs A + Rabs C + E /\ Rabs B' <= Rabs A + Rabs C + E)%R.
Proof.
  intros A C A' B' cs sn E Hc Hs Na Nb.
  assert (Lin : forall x y u v, (Rabs u <= 1 -> Rabs v <= 1 -> Rabs (x * u + y * v) <= Rabs x + Rabs y)%R).
  { intros x y u v Hu Hv. eapply Rle_trans; [apply Rabs_triang|]. rewrite !Rabs_mult.
    pose proof (Rabs_pos x). pose proof (Rabs_pos y). nra. }
  split.
  - replace A' with ((A * cs + C * (- sn)) + (A' - (A * cs - C * sn)))%R by ring.
    eapply Rle_trans; [apply Rabs_triang|]. apply Rplus_le_compat; [|exact Na]. apply Lin; [exact Hc|now rewrite Rabs_Ropp].
  - replace B' with ((A * sn + C * cs) + (B' - (A * sn + C * cs)))%R by ring.
    eapply Rle_trans; [apply Rabs_triang|]. apply Rplus_le_compat; [|exact Nb]. now apply Lin.
Qed.

Lemma bpow_502 : bpow radix2 502 = (4 * bpow radix2 500)%R.
Proof. change 502%Z with (2 + 500)%Z. rewrite bpow_plus. reflexivity. Qed.
Lemma bpow_1069 : bpow radix2 (-1069) = (16 * bpow radix2 (-1073))%R.
Proof. change (-1069)%Z with (4 + -1073)%Z. rewrite bpow_plus. reflexivity. Qed.

Lemma error_reals : forall h s s' t, (0 <= h <= 32768 -> 0 <= s -> 0 < t ->
  0 <= s' <= 2 * (s + (/ 1125899906842624 * (1 + h) * s + t)) ->
  (/ 1125899906842624 * (1 + h) * s' + t) + 2 * (/ 1125899906842624 * (1 + h) * s + t)
  <= / 70368744177664 * (1 + h) * s + 16 * t)%R.
Proof.
  intros h s s' t Hh Hs Ht Hs'. set (K := (/ 1125899906842624 * (1 + h))%R) in *.
  assert (BK : (0 <= K <= / 1073741824)%R) by (unfold K; lra).
  assert (Sec : (K * s' <= 3 * (K * s) + t)%R).
  { apply Rle_trans with (K * (2 * (s + (K * s + t))))%R; [apply Rmult_le_compat_l; lra|].
    assert (0 <= K * s)%R by (apply Rmult_le_pos; lra). assert (K * (K * s) <= / 4 * (K * s))%R by (apply Rmult_le_compat_r; lra).
    assert (K * t <= / 4 * t)%R by (apply Rmult_le_compat_r; lra). lra. }
  assert (0 <= (1 + h) * s)%R by (apply Rmult_le_pos; lra). unfold K in *. lra.
Qed.

Theorem C103_back : forall t d e a b, accurate t -> finite d -> finite e -> d_val e = (- d_val d)%R ->
  (Rabs (d_val d) <= 1048576)%R -> modest a -> modest b ->
  let a' := turn_minus t (radians d) a b in let b' := turn_plus t (radians d) a b in
  let err := (/ 70368744177664 * (1 + Rabs (angle d)) * (Rabs (d_val a) + Rabs (d_val b)) + bpow radix2 (-1069))%R in
  (Rabs (d_val (turn_minus t (radians e) a' b') - d_val a) <= err
   /\ Rabs (d_val (turn_plus t (radians e) a' b') - d_val b) <= err)%R.
Proof.
  intros t d e a b Ht Fd Fe Ve Bd [Fa Ma] [Fb Mb] a' b' err.
  assert (B : forall x, (Rabs x <= bpow radix2 500 -> Rabs x <= bpow radix2 502)%R).
  { intros x H. eapply Rle_trans; [exact H|]. apply bpow_le. lia. }
  assert (Be : (Rabs (d_val e) <= 1048576)%R) by (rewrite Ve, Rabs_Ropp; exact Bd).
  assert (Ae : angle e = (- angle d)%R) by (unfold angle; rewrite Ve; unfold Rdiv; ring).
  destruct (turn_near t d a b Ht Fd Bd Fa Fb (B _ Ma) (B _ Mb)) as (Fa' & Fb' & Na & Nb). fold a' b' in Fa', Fb', Na, Nb.
  clearbody a' b'.
  pose proof (angle_bound d Bd) as Ba. pose proof (Rabs_pos (angle d)) as Pth.
  pose proof (bpow_gt_0 radix2 (-1073)) as Pt.
  pose proof (Rabs_pos (d_val a)) as Pa. pose proof (Rabs_pos (d_val b)) as Pb.
  assert (Hc : (Rabs (cos (angle d)) <= 1)%R) by (apply Rabs_le; pose proof (COS_bound (angle d)); lra).
  assert (Hs : (Rabs (sin (angle d)) <= 1)%R) by (apply Rabs_le; pose proof (SIN_bound (angle d)); lra).
  destruct (size_reals _ _ _ _ _ _ _ Hc Hs Na Nb) as [Ua Ub].
  assert (S502 : (Rabs (d_val a) + Rabs (d_val b) + turn_error (angle d) (d_val a) (d_val b) <= bpow radix2 502)%R).
  { rewrite bpow_502. unfold turn_error. assert (bpow radix2 (-1073) <= bpow radix2 500)%R by (apply bpow_le; lia).
    set (u := bpow radix2 (-1073)) in *. set (v := bpow radix2 500) in *. clearbody u v.
    set (s := (Rabs (d_val a) + Rabs (d_val b))%R) in *. assert (0 <= s <= 2 * v)%R by (unfold s; lra). clearbody s.
    set (h := Rabs (angle d)) in *. clearbody h.
    assert (/ 1125899906842624 * (1 + h) * s <= / 1073741824 * s)%R by (apply Rmult_le_compat_r; lra). lra. }
  destruct (turn_near t e a' b' Ht Fe Be Fa' Fb') as (_ & _ & Na2 & Nb2); [lra|lra|].
  rewrite Ae, cos_neg, sin_neg in Na2, Nb2. unfold turn_error in Na, Nb, Na2, Nb2, Ua, Ub. rewrite Rabs_Ropp in Na2, Nb2.
  pose proof (sin2_cos2 (angle d)) as SC. unfold Rsqr in SC.
  destruct (back_reals _ _ _ _ _ _ _ _ _ _ _ _ SC Hc Hs Na Nb Na2 Nb2) as [R1 R2].
  assert (Fin := error_reals (Rabs (angle d)) (Rabs (d_val a) + Rabs (d_val b)) (Rabs (d_val a') + Rabs (d_val b')) (bpow radix2 (-1073))).
  unfold err. rewrite bpow_1069. pose proof (Rabs_pos (d_val a')). pose proof (Rabs_pos (d_val b')).
  split; (eapply Rle_trans; [eassumption|]; apply Fin; lra).
Qed.

(** ** The hypotheses can be met: a cosine and a sine cut to a multiple of 2^-52 *)

Definition d_2m52 : double := 4372995238176751616.     (* 2^-52 *)
Definition cut (x : R) : double := d_mul (d_of_z (Zfloor (x * 4503599627370496))) d_2m52.
Definition cut_trig : trig := mk_trig (fun r => cut (cos (d_val r))) (fun r => cut (sin (d_val r))).

Lemma cut_near : forall x, (-1 <= x <= 1)%R -> finite (cut x) /\ (Rabs (d_val (cut x) - x) <= / 4503599627370496)%R.
Proof.
  intros x Hx. unfold cut. set (n := Zfloor (x * 4503599627370496)).
  pose proof (Zfloor_lb (x * 4503599627370496)) as L. pose proof (Zfloor_ub (x * 4503599627370496)) as U. fold n in L, U.
  assert (Bn : Z.abs n <= 2 ^ 52).
  { assert (n <= 4503599627370496) by (apply le_IZR; lra).
    assert (-4503599627370497 < n) by (apply lt_IZR; lra). change (2 ^ 52) with 4503599627370496. lia. }
  destruct (d_of_z_exact n) as [Fn Vn]; [change (2 ^ 53) with 9007199254740992; change (2 ^ 52) with 4503599627370496 in Bn; lia|].
  assert (O2 : d_ok d_2m52) by (unfold d_ok, d_2m52, two64; lia).
  assert (V2 : d_val d_2m52 = (/ 4503599627370496)%R).
  { unfold d_val. vm_compute (b64_of_bits d_2m52). unfold Binary.B2R, F2R, Fnum, Fexp. cbn. lra. }
  destruct (d_mul_val (d_of_z n) d_2m52 (d_of_z_ok n) O2 Fn eq_refl) as [M1 M2]. rewrite Vn, V2 in M1, M2.
  assert (Fit : fits (IZR n * / 4503599627370496)).
  { apply (fits_bpow _ 1); [|lia]. change (bpow radix2 1) with 2%R. apply Rabs_le. lra. }
  specialize (M2 Fit). split; [split; [apply d_mul_ok|now apply M1]|]. rewrite M2.
  assert (E : rnd (IZR n * / 4503599627370496) = (IZR n * / 4503599627370496)%R).
  { unfold rnd. apply round_generic; [apply valid_rnd_N|].
    apply (generic_format_FLT radix2 (-1074) 53). exists (Float radix2 n (-52)).
    - unfold F2R. cbn [Fnum Fexp]. f_equal.
    - cbn [Fnum]. change (radix_val radix2 ^ 53) with 9007199254740992. change (2 ^ 52) with 4503599627370496 in Bn. lia.
    - cbn [Fexp]. lia. }
  rewrite E. apply Rabs_le. lra.
Qed.

Example C103_accurate : accurate cut_trig.
Proof.
  intros r _. cbn [d_cos d_sin cut_trig].
  destruct (cut_near (cos (d_val r)) (COS_bound _)) as [A B]. destruct (cut_near (sin (d_val r)) (SIN_bound _)) as [C D]. auto.
Qed.

(** A quarter turn of (1, 0) around Z: 90 degrees are half of pi, and the result is (0, 1)
    with errors below 10^-14. *)
Definition d_90 : double := 4636033603912859648.
Example C103_example : 
  finite d_90 /\ (Rabs (d_val d_90) <= 1048576)%R /\ angle d_90 = (PI / 2)%R
  /\ modest d_one /\ modest 0
  /\ turned (PI / 2) (/ 100000000000000) d_one 0
       (turn_minus cut_trig (radians d_90) d_one 0) (turn_plus cut_trig (radians d_90) d_one 0).
Proof.
  assert (V90 : d_val d_90 = 90%R).
  { unfold d_val. vm_compute (b64_of_bits d_90). unfold Binary.B2R, F2R, Fnum, Fexp. cbn. lra. }
  assert (V1 : d_val d_one = 1%R).
  { unfold d_val. vm_compute (b64_of_bits d_one). unfold Binary.B2R, F2R, Fnum, Fexp. cbn. lra. }
  assert (V0 : d_val (0%Z) = 0%R) by reflexivity.
  assert (F90 : finite d_90) by (split; [unfold d_ok, d_90, two64; lia|reflexivity]).
  assert (B90 : (Rabs (d_val d_90) <= 1048576)%R) by (rewrite V90, Rabs_pos_eq; lra).
  assert (A90 : angle d_90 = (PI / 2)%R) by (unfold angle; rewrite V90; field).
  assert (B : forall x, (0 <= x <= 1)%R -> (Rabs x <= bpow radix2 500)%R).
  { intros x Hx. rewrite Rabs_pos_eq by lra. apply Rle_trans with (bpow radix2 0); [cbn; lra|apply bpow_le; lia]. }
  assert (M1 : modest d_one) by (split; [split; [unfold d_ok, d_one, two64; lia|reflexivity]|rewrite V1; apply B; lra]).
  assert (M0 : modest 0) by (split; [split; [unfold d_ok, two64; lia|reflexivity]|rewrite V0; apply B; lra]).
  split; [exact F90|]. split; [exact B90|]. split; [exact A90|]. split; [exact M1|]. split; [exact M0|].
  assert (L : forall x, modest x -> (Rabs (d_val x) <= bpow radix2 502)%R).
  { intros x [_ H]. eapply Rle_trans; [exact H|]. apply bpow_le. lia. }
  destruct (turn_near cut_trig d_90 d_one 0 C103_accurate F90 B90 (proj1 M1) (proj1 M0) (L _ M1) (L _ M0)) as (X & Y & Z & W).
  rewrite A90 in *. assert (T : (turn_error (PI / 2) (d_val d_one) (d_val 0%Z) <= / 100000000000000)%R).
  { unfold turn_error. rewrite V1, V0, Rabs_R0, (Rabs_pos_eq 1), (Rabs_pos_eq (PI / 2)) by (pose proof pi_range; lra).
    assert (bpow radix2 (-1073) <= bpow radix2 (-60))%R by (apply bpow_le; lia). assert (bpow radix2 (-60) = / 1152921504606846976)%R by reflexivity.
    pose proof pi_range. lra. }
  split; [exact X|]. split; [exact Y|]. split; (eapply Rle_trans; [eassumption|exact T]).
Qed.

Print Assumptions C103_commands.
Print Assumptions C103_library.
Print Assumptions C103_back.
