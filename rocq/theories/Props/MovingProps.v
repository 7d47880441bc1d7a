(** C108: moving and scaling a cloud moves its extent along, and can be undone up to rounding. *)
From Coq Require Import Reals ZArith List Bool Lia Lra.
From Flocq Require Import Core IEEE754.Binary IEEE754.Bits.
From Verif.Model Require Import Base Double Arith PointRecord Point Extent Par Affine TransformApp.
From Verif.Spec Require Import Rounding Geometry Distance Fields Schedules Moving.
From Verif.Proofs Require Import BaseFacts OrderFacts DoubleFacts ArithFacts ErrorFacts ScaleFacts TileSizeFacts MovingFacts.
From Verif.Props Require Import GeometryProps ParProps VoxelProps.
Import ListNotations.
Open Scope Z_scope.

Lemma along_axes : forall a, In (along a) axes.
Proof. intros []; cbn; auto. Qed.

(** The record [p] with another coordinate. *)
Definition placed (a : axis) (x : double) (p : point_record) : point_record :=
  match a with AX => moved p x (ry p) (rz p) | AY => moved p (rx p) x (rz p) | AZ => moved p (rx p) (ry p) x end.

Lemma placed_same : forall a x p, along a (pr_pt (placed a x p)) = x.
Proof. now intros []. Qed.
Lemma placed_other : forall a b x p, b <> a -> along b (pr_pt (placed a x p)) = along b (pr_pt p).
Proof. intros [] [] x p H; (contradiction H; reflexivity) || reflexivity. Qed.
Lemma placed_only : forall a x p, only [as_field a] p (placed a x p).
Proof.
  intros a x p. split; [now destruct a|]. intros g G. destruct a, g; try reflexivity; exfalso; apply G; cbn; auto.
Qed.
Lemma placed_finite : forall a x p, finite x -> pt_finite (pr_pt p) -> pt_finite (pr_pt (placed a x p)).
Proof. intros a x p [O F] H. unfold pt_finite, pt_ok in *. destruct a; cbn in *; tauto. Qed.

Lemma add_placed : forall a v prs,
  schedule_free (par_for (length prs) (add_along a v) prs) (Ret (map (fun p => placed a (d_add (along a (pr_pt p)) v) p) prs)).
Proof. intros a v prs. destruct (C38_add v prs) as (X & Y & Z). destruct a; assumption. Qed.
Lemma scale_placed : forall a v prs,
  schedule_free (par_for (length prs) (scale_along a v) prs) (Ret (map (fun p => placed a (d_mul (along a (pr_pt p)) v) p) prs)).
Proof. intros a v prs. destruct (C38_scale v prs) as (X & Y & Z). destruct a; assumption. Qed.

(** ** Extents *)

(** The greatest and least values of a coordinate characterise the extent. *)
Lemma extent_is : forall a qs lo hi, Forall pt_finite qs -> qs <> [] -> finite lo -> finite hi ->
  (exists q, In q qs /\ d_val (along a q) = d_val lo) -> (exists q, In q qs /\ d_val (along a q) = d_val hi) ->
  (forall q, In q qs -> (d_val lo <= d_val (along a q) <= d_val hi)%R) ->
  d_eqb (along a (minp (get_extent qs))) lo = true /\ d_eqb (along a (maxp (get_extent qs))) hi = true.
Proof.
  intros a qs lo hi F N Flo Fhi (ql & Il & El) (qh & Ih & Eh) B. pose proof (along_axes a) as Ia.
  destruct (extent_finite qs F) as [Fm FM].
  destruct (axis_finite _ _ Ia Fm) as [Om Fm']. destruct (axis_finite _ _ Ia FM) as [OM FM'].
  assert (Fq : forall q, In q qs -> finite (along a q)).
  { intros q Iq. rewrite Forall_forall in F. destruct (axis_finite _ _ Ia (F q Iq)). now split. }
  destruct (C32_extent_attained qs (along a) F N Ia) as [(m & Im & Em) (M & IM & EM)].
  destruct (C32_extent_contains qs ql (along a) F Il Ia) as [L1 _]. destruct (C32_extent_contains qs qh (along a) F Ih Ia) as [_ L2].
  apply d_eqb_val in Em; try assumption; try apply (Fq m Im). apply d_eqb_val in EM; try assumption; try apply (Fq M IM).
  apply d_leb_val in L1; try assumption; try apply (Fq ql Il). apply d_leb_val in L2; try assumption; try apply (Fq qh Ih).
  pose proof (B m Im). pose proof (B M IM).
  split; apply d_eqb_val; try assumption; try apply Flo; try apply Fhi; lra.
Qed.

Lemma extent_other : forall a b g prs, b <> a ->
  let e := get_extent (map pr_pt prs) in
  let e' := get_extent (map pr_pt (map (fun p => placed a (g p) p) prs)) in
  along b (minp e') = along b (minp e) /\ along b (maxp e') = along b (maxp e).
Proof.
  intros a b g prs H e e'. unfold e, e', get_extent.
  destruct (extent_axis _ (along_axes b) (map pr_pt prs) extent_start) as [-> ->].
  destruct (extent_axis _ (along_axes b) (map pr_pt (map (fun p => placed a (g p) p) prs)) extent_start) as [-> ->].
  assert (E : map (along b) (map pr_pt (map (fun p => placed a (g p) p) prs)) = map (along b) (map pr_pt prs)).
  { rewrite !map_map. apply map_ext. intros p. now apply placed_other. }
  now rewrite E.
Qed.

(** [between_bounds a prs x]: the number [x] lies between the least and the greatest coordinate. *)
Lemma extent_range : forall a prs, Forall (fun p => pt_finite (pr_pt p)) prs -> prs <> [] ->
  let e := get_extent (map pr_pt prs) in
  finite (along a (minp e)) /\ finite (along a (maxp e))
  /\ (exists p, In p prs /\ coordinate a p = d_val (along a (minp e)))
  /\ (exists p, In p prs /\ coordinate a p = d_val (along a (maxp e)))
  /\ (forall p, In p prs -> (d_val (along a (minp e)) <= coordinate a p <= d_val (along a (maxp e)))%R).
Proof.
  intros a prs F N e. assert (Fm : Forall pt_finite (map pr_pt prs)) by now apply Forall_map.
  pose proof (along_axes a) as Ia. destruct (extent_finite _ Fm) as [E1 E2]. fold e in E1, E2.
  destruct (axis_finite _ _ Ia E1) as [O1 F1]. destruct (axis_finite _ _ Ia E2) as [O2 F2].
  split; [now split|]. split; [now split|]. rewrite Forall_forall in F.
  assert (Fq : forall p, In p prs -> finite (along a (pr_pt p))) by (intros p Ip; destruct (axis_finite _ _ Ia (F p Ip)); now split).
  assert (N' : map pr_pt prs <> []) by (destruct prs; [congruence|discriminate]).
  destruct (C32_extent_attained _ (along a) Fm N' Ia) as [(m & Im & Em) (M & IM & EM)]. fold e in Em, EM.
  apply in_map_iff in Im. destruct Im as (p & <- & Ip). apply in_map_iff in IM. destruct IM as (q & <- & Iq).
  split; [exists p|split; [exists q|]].
  - split; [exact Ip|]. apply d_eqb_val in Em; try assumption; try apply (Fq p Ip).
  - split; [exact Iq|]. apply d_eqb_val in EM; try assumption; try apply (Fq q Iq).
  - intros r Ir. destruct (C32_extent_contains _ (pr_pt r) (along a) Fm (in_map _ _ _ Ir) Ia) as [L1 L2]. fold e in L1, L2.
    apply d_leb_val in L1; try assumption; try apply (Fq r Ir). apply d_leb_val in L2; try assumption; try apply (Fq r Ir).
    unfold coordinate. lra.
Qed.

(** [add_x], [add_y] and [add_z] move the extent by the same amount, with the same rounding, and
    leave the other two coordinates of the extent alone. *)
Theorem C108_add_extent : forall a v prs, finite v -> Forall (fun p => pt_finite (pr_pt p)) prs -> prs <> [] ->
  Forall (fun p => fits (coordinate a p + d_val v)) prs ->
  exists qs, schedule_free (par_for (length prs) (add_along a v) prs) (Ret qs)
    /\ let e := get_extent (map pr_pt prs) in
       let e' := get_extent (map pr_pt qs) in
       d_eqb (along a (minp e')) (d_add (along a (minp e)) v) = true
       /\ d_eqb (along a (maxp e')) (d_add (along a (maxp e)) v) = true
       /\ forall b, b <> a -> along b (minp e') = along b (minp e) /\ along b (maxp e') = along b (maxp e).
Proof.
  intros a v prs Fv F N B. eexists. split; [apply add_placed|]. cbv zeta.
  destruct (extent_range a prs F N) as (Flo & Fhi & (pl & Il & El) & (ph & Ih & Eh) & R).
  set (e := get_extent (map pr_pt prs)) in *. rewrite Forall_forall in F, B.
  assert (Fq : forall p, In p prs -> finite (along a (pr_pt p))).
  { intros p Ip. destruct (axis_finite _ _ (along_axes a) (F p Ip)). now split. }
  assert (V : forall x, finite x -> fits (d_val x + d_val v) -> finite (d_add x v) /\ d_val (d_add x v) = rnd (d_val x + d_val v)).
  { intros x [Ox Fx] Ft. destruct (d_add_val x v Ox (proj1 Fv) Fx (proj2 Fv)) as [A1 A2]. split; [split; [apply d_add_ok|now apply A1]|now apply A2]. }
  assert (Bl : fits (d_val (along a (minp e)) + d_val v)) by (rewrite <- El; now apply B).
  assert (Bh : fits (d_val (along a (maxp e)) + d_val v)) by (rewrite <- Eh; now apply B).
  destruct (V _ Flo Bl) as [Fl' Vl]. destruct (V _ Fhi Bh) as [Fh' Vh].
  assert (Vp : forall p, In p prs -> finite (d_add (along a (pr_pt p)) v) /\ d_val (d_add (along a (pr_pt p)) v) = rnd (coordinate a p + d_val v)).
  { intros p Ip. apply V; [now apply Fq|now apply B]. }
  assert (X : forall b, b <> a -> let e' := get_extent (map pr_pt (map (fun p => placed a (d_add (along a (pr_pt p)) v) p) prs)) in
    along b (minp e') = along b (minp e) /\ along b (maxp e') = along b (maxp e)).
  { intros b Hb. apply (extent_other a b (fun p => d_add (along a (pr_pt p)) v) prs Hb). }
  cut (d_eqb (along a (minp (get_extent (map pr_pt (map (fun p => placed a (d_add (along a (pr_pt p)) v) p) prs))))) (d_add (along a (minp e)) v) = true
    /\ d_eqb (along a (maxp (get_extent (map pr_pt (map (fun p => placed a (d_add (along a (pr_pt p)) v) p) prs))))) (d_add (along a (maxp e)) v) = true).
  { intros [C1 C2]. split; [exact C1|]. split; [exact C2|exact X]. }
  clear X. generalize dependent (d_add (along a (minp e)) v). generalize dependent (d_add (along a (maxp e)) v). intros hi Fh' Vh lo Fl' Vl.
  apply extent_is; auto.
  - rewrite map_map. apply Forall_map, Forall_forall. intros p Ip. apply placed_finite; [now apply Vp|now apply F].
  - destruct prs; [congruence|discriminate].
  - exists (pr_pt (placed a (d_add (along a (pr_pt pl)) v) pl)). split; [apply in_map; apply (in_map (fun p => placed a (d_add (along a (pr_pt p)) v) p)), Il|].
    rewrite placed_same. destruct (Vp pl Il) as [_ ->]. now rewrite Vl, El.
  - exists (pr_pt (placed a (d_add (along a (pr_pt ph)) v) ph)). split; [apply in_map; apply (in_map (fun p => placed a (d_add (along a (pr_pt p)) v) p)), Ih|].
    rewrite placed_same. destruct (Vp ph Ih) as [_ ->]. now rewrite Vh, Eh.
  - intros q Iq. rewrite map_map in Iq. apply in_map_iff in Iq. destruct Iq as (p & <- & Ip). rewrite placed_same.
    destruct (Vp p Ip) as [_ ->]. rewrite Vl, Vh. destruct (R p Ip). split; apply rnd_le; lra.
Qed.

(** [scale_x], [scale_y] and [scale_z] scale the extent; a negative factor exchanges its ends. *)
Theorem C108_scale_extent : forall a v prs, finite v -> Forall (fun p => pt_finite (pr_pt p)) prs -> prs <> [] ->
  Forall (fun p => fits (coordinate a p * d_val v)) prs ->
  exists qs, schedule_free (par_for (length prs) (scale_along a v) prs) (Ret qs)
    /\ let e := get_extent (map pr_pt prs) in
       let e' := get_extent (map pr_pt qs) in
       ((0 <= d_val v)%R -> d_eqb (along a (minp e')) (d_mul (along a (minp e)) v) = true
          /\ d_eqb (along a (maxp e')) (d_mul (along a (maxp e)) v) = true)
       /\ ((d_val v <= 0)%R -> d_eqb (along a (minp e')) (d_mul (along a (maxp e)) v) = true
          /\ d_eqb (along a (maxp e')) (d_mul (along a (minp e)) v) = true)
       /\ forall b, b <> a -> along b (minp e') = along b (minp e) /\ along b (maxp e') = along b (maxp e).
Proof.
  intros a v prs Fv F N B. eexists. split; [apply scale_placed|]. cbv zeta.
  destruct (extent_range a prs F N) as (Flo & Fhi & (pl & Il & El) & (ph & Ih & Eh) & R).
  set (e := get_extent (map pr_pt prs)) in *. rewrite Forall_forall in F, B.
  assert (Fq : forall p, In p prs -> finite (along a (pr_pt p))).
  { intros p Ip. destruct (axis_finite _ _ (along_axes a) (F p Ip)). now split. }
  assert (V : forall x, finite x -> fits (d_val x * d_val v) -> finite (d_mul x v) /\ d_val (d_mul x v) = rnd (d_val x * d_val v)).
  { intros x [Ox Fx] Ft. destruct (d_mul_val x v Ox (proj1 Fv) Fx (proj2 Fv)) as [A1 A2]. split; [split; [apply d_mul_ok|now apply A1]|now apply A2]. }
  assert (Bl : fits (d_val (along a (minp e)) * d_val v)) by (rewrite <- El; now apply B).
  assert (Bh : fits (d_val (along a (maxp e)) * d_val v)) by (rewrite <- Eh; now apply B).
  destruct (V _ Flo Bl) as [Fl' Vl]. destruct (V _ Fhi Bh) as [Fh' Vh].
  assert (Vp : forall p, In p prs -> finite (d_mul (along a (pr_pt p)) v) /\ d_val (d_mul (along a (pr_pt p)) v) = rnd (coordinate a p * d_val v)).
  { intros p Ip. apply V; [now apply Fq|now apply B]. }
  assert (X : forall b, b <> a -> let e' := get_extent (map pr_pt (map (fun p => placed a (d_mul (along a (pr_pt p)) v) p) prs)) in
    along b (minp e') = along b (minp e) /\ along b (maxp e') = along b (maxp e)).
  { intros b Hb. apply (extent_other a b (fun p => d_mul (along a (pr_pt p)) v) prs Hb). }
  apply and_assoc. split; [|exact X]. clear X.
  set (qs := map (fun p => placed a (d_mul (along a (pr_pt p)) v) p) prs).
  generalize dependent (d_mul (along a (minp e)) v). generalize dependent (d_mul (along a (maxp e)) v). intros hi Fh' Vh lo Fl' Vl.
  assert (Fs : Forall pt_finite (map pr_pt qs)).
  { unfold qs. rewrite map_map. apply Forall_map, Forall_forall. intros p Ip. apply placed_finite; [now apply Vp|now apply F]. }
  assert (Ns : map pr_pt qs <> []) by (unfold qs; destruct prs; [congruence|discriminate]).
  assert (Wl : exists q, In q (map pr_pt qs) /\ d_val (along a q) = d_val lo).
  { exists (pr_pt (placed a (d_mul (along a (pr_pt pl)) v) pl)). split; [apply in_map; apply (in_map (fun p => placed a (d_mul (along a (pr_pt p)) v) p)), Il|].
    rewrite placed_same. destruct (Vp pl Il) as [_ ->]. now rewrite Vl, El. }
  assert (Wh : exists q, In q (map pr_pt qs) /\ d_val (along a q) = d_val hi).
  { exists (pr_pt (placed a (d_mul (along a (pr_pt ph)) v) ph)). split; [apply in_map; apply (in_map (fun p => placed a (d_mul (along a (pr_pt p)) v) p)), Ih|].
    rewrite placed_same. destruct (Vp ph Ih) as [_ ->]. now rewrite Vh, Eh. }
  assert (Rq : forall q, In q (map pr_pt qs) -> exists p, In p prs /\ d_val (along a q) = rnd (coordinate a p * d_val v)).
  { intros q Iq. unfold qs in Iq. rewrite map_map in Iq. apply in_map_iff in Iq. destruct Iq as (p & <- & Ip). exists p. split; [exact Ip|].
    rewrite placed_same. now apply Vp. }
  split; intros S; apply extent_is; auto; intros q Iq; destruct (Rq q Iq) as (p & Ip & ->); rewrite Vl, Vh; destruct (R p Ip); split; apply rnd_le; nra.
Qed.

(** ** Moving and moving back *)

Lemma two_loops : forall (l1 l2 : double -> Z -> thread point_record) (f : double -> double -> double) a v w prs
    (P : point_record -> Prop) (Q : double -> double -> Prop),
  (forall v prs, schedule_free (par_for (length prs) (l1 v) prs) (Ret (map (fun p => placed a (f (along a (pr_pt p)) v) p) prs))) ->
  (forall v prs, schedule_free (par_for (length prs) (l2 v) prs) (Ret (map (fun p => placed a (f (along a (pr_pt p)) v) p) prs))) ->
  Forall P prs -> (forall p, P p -> Q (along a (pr_pt p)) (f (f (along a (pr_pt p)) v) w)) ->
  exists qs rs, schedule_free (par_for (length prs) (l1 v) prs) (Ret qs)
    /\ schedule_free (par_for (length qs) (l2 w) qs) (Ret rs)
    /\ Forall2 (fun p r => only [as_field a] p r /\ Q (along a (pr_pt p)) (along a (pr_pt r))) prs rs.
Proof.
  intros l1 l2 f a v w prs P Q H1 H2 F H. eexists. eexists. split; [apply H1|]. split; [apply H2|].
  rewrite map_map. clear H1 H2. induction F as [|p l Hp F IH]; [constructor|]. cbn [map]. constructor; [|exact IH].
  rewrite !placed_same. split; [|now apply H].
  split; [now destruct a|]. intros g G. destruct a, g; try reflexivity; exfalso; apply G; cbn; auto.
Qed.

(** What is left after adding [v] and adding [-v]: not more than 2^-52 times the coordinate in between. *)
Lemma back_near : forall x v w, modest x -> modest v -> finite w -> d_val w = (- d_val v)%R ->
  (Rabs (d_val (d_add (d_add x v) w) - d_val x) <= bpow radix2 (-52) * Rabs (d_val x + d_val v))%R.
Proof.
  intros x v w [[Ox Fx] Bx] [[Ov Fv] Bv] [Ow Fw] Ew.
  assert (G : forall e, (0 < bpow radix2 e)%R) by (intros; apply bpow_gt_0).
  assert (Bs : (Rabs (d_val x + d_val v) <= bpow radix2 501)%R).
  { eapply Rle_trans; [apply Rabs_triang|]. change 501%Z with (500 + 1)%Z. rewrite bpow_plus_1. cbn [radix_val radix2]. simpl IZR. lra. }
  destruct (d_add_val x v Ox Ov Fx Fv) as [A1 A2].
  assert (T1 : fits (d_val x + d_val v)) by (apply fits_bpow with 501%Z; [exact Bs|lia]).
  specialize (A2 T1). apply A1 in T1. assert (Os := d_add_ok x v). set (s := d_add x v) in *. clearbody s.
  destruct (d_add_val s w Os Ow T1 Fw) as [_ A3].
  assert (Bs' : (Rabs (d_val s) <= bpow radix2 501)%R) by (rewrite A2; apply rnd_le_bpow; [lia|exact Bs]).
  assert (T2 : fits (d_val s + d_val w)).
  { apply fits_bpow with 502%Z; [|lia]. eapply Rle_trans; [apply Rabs_triang|]. rewrite Ew, Rabs_Ropp.
    change 502%Z with (501 + 1)%Z. rewrite bpow_plus_1. cbn [radix_val radix2]. simpl IZR.
    assert (bpow radix2 500 <= bpow radix2 501)%R by (apply bpow_le; lia). lra. }
  rewrite (A3 T2), A2, Ew.
  replace (bpow radix2 (-52)) with (2 * eps)%R by (unfold eps; change (-52)%Z with (-53 + 1)%Z; rewrite bpow_plus_1; reflexivity).
  apply back_error; apply d_val_format.
Qed.

(** Adding [v] and then its opposite: every coordinate returns to within 2^-52 times the coordinate
    it had in between; nothing else changes. *)
Theorem C108_add_back : forall a v w prs, modest v -> finite w -> d_val w = (- d_val v)%R ->
  Forall (fun p => modest (along a (pr_pt p))) prs ->
  exists qs rs, schedule_free (par_for (length prs) (add_along a v) prs) (Ret qs)
    /\ schedule_free (par_for (length qs) (add_along a w) qs) (Ret rs)
    /\ Forall2 (fun p r => only [as_field a] p r
         /\ (Rabs (coordinate a r - coordinate a p) <= bpow radix2 (-52) * Rabs (coordinate a p + d_val v))%R) prs rs.
Proof.
  intros a v w prs Mv Fw Ew F.
  apply (two_loops (add_along a) (add_along a) d_add a v w prs (fun p => modest (along a (pr_pt p)))
    (fun x y => (Rabs (d_val y - d_val x) <= bpow radix2 (-52) * Rabs (d_val x + d_val v))%R)).
  - intros; apply add_placed.
  - intros; apply add_placed.
  - exact F.
  - intros p Mp. now apply back_near.
Qed.

Lemma small_modest : forall x, finite x -> (Rabs (d_val x) <= 16777216)%R -> modest x.
Proof.
  intros x F B. split; [exact F|]. eapply Rle_trans; [exact B|]. replace 16777216%R with (bpow radix2 24) by (cbn; lra). apply bpow_le. lia.
Qed.

(** Up to 16777216 (2^24) in magnitude, both the coordinate and the offset: within 2^-27.  With
    metres as the unit, that is 7.5 nanometres. *)
Theorem C108_add_back_near : forall a v w prs, finite v -> (Rabs (d_val v) <= 16777216)%R -> finite w -> d_val w = (- d_val v)%R ->
  Forall (fun p => finite (along a (pr_pt p)) /\ (Rabs (coordinate a p) <= 16777216)%R) prs ->
  exists qs rs, schedule_free (par_for (length prs) (add_along a v) prs) (Ret qs)
    /\ schedule_free (par_for (length qs) (add_along a w) qs) (Ret rs)
    /\ Forall2 (fun p r => only [as_field a] p r /\ (Rabs (coordinate a r - coordinate a p) <= / 134217728)%R) prs rs.
Proof.
  intros a v w prs Fv Bv Fw Ew F.
  apply (two_loops (add_along a) (add_along a) d_add a v w prs
    (fun p => finite (along a (pr_pt p)) /\ (Rabs (coordinate a p) <= 16777216)%R) (fun x y => (Rabs (d_val y - d_val x) <= / 134217728)%R)).
  - intros; apply add_placed.
  - intros; apply add_placed.
  - exact F.
  - intros p [Fp Bp]. eapply Rle_trans; [apply back_near; auto using small_modest|].
    replace (bpow radix2 (-52)) with (/ 4503599627370496)%R by (cbn; lra).
    assert (Rabs (d_val (along a (pr_pt p)) + d_val v) <= 33554432)%R by (eapply Rle_trans; [apply Rabs_triang|]; unfold coordinate in Bp; lra).
    lra.
Qed.

(** When coordinates and offset are multiples of the same power of two, not beyond 2^52 times it,
    as with coordinates in steps of 1/1024 up to 2^42, moving back is exact. *)
Theorem C108_add_back_exact : forall a v w k prs, -1074 <= k <= 900 -> finite v -> finite w -> d_val w = (- d_val v)%R ->
  (exists m, Z.abs m <= 2 ^ 52 /\ d_val v = (IZR m * bpow radix2 k)%R) ->
  Forall (fun p => finite (along a (pr_pt p)) /\ exists n, Z.abs n <= 2 ^ 52 /\ coordinate a p = (IZR n * bpow radix2 k)%R) prs ->
  exists qs rs, schedule_free (par_for (length prs) (add_along a v) prs) (Ret qs)
    /\ schedule_free (par_for (length qs) (add_along a w) qs) (Ret rs)
    /\ Forall2 (fun p r => only [as_field a] p r /\ d_eqb (along a (pr_pt r)) (along a (pr_pt p)) = true) prs rs.
Proof.
  intros a v w k prs Hk [Ov Fv] [Ow Fw] Ew (m & Hm & Em) F.
  apply (two_loops (add_along a) (add_along a) d_add a v w prs
    (fun p => finite (along a (pr_pt p)) /\ exists n, Z.abs n <= 2 ^ 52 /\ coordinate a p = (IZR n * bpow radix2 k)%R)
    (fun x y => d_eqb y x = true)).
  - intros; apply add_placed.
  - intros; apply add_placed.
  - exact F.
  - intros p ([Op Fp] & n & Hn & En). unfold coordinate in En. set (x := along a (pr_pt p)) in *. clearbody x.
    assert (W : forall y j, Z.abs j <= 2 ^ 53 -> y = (IZR j * bpow radix2 k)%R -> fits y).
    { intros y j Hj ->. apply fits_bpow with (53 + k)%Z; [|lia]. rewrite bpow_plus, Rabs_mult, (Rabs_pos_eq (bpow radix2 k)) by apply bpow_ge_0.
      apply Rmult_le_compat_r; [apply bpow_ge_0|]. rewrite <- abs_IZR. replace (bpow radix2 53) with (IZR (2 ^ 53)) by reflexivity. now apply IZR_le. }
    destruct (back_exact k n m) as [B1 B2]; try lia. rewrite <- En, <- Em in B1, B2.
    destruct (d_add_val x v Op Ov Fp Fv) as [A1 A2].
    assert (T1 : fits (d_val x + d_val v)) by (apply W with (n + m); [lia|rewrite plus_IZR, En, Em; ring]).
    specialize (A2 T1). apply A1 in T1. assert (Os := d_add_ok x v). set (s := d_add x v) in *. clearbody s.
    destruct (d_add_val s w Os Ow T1 Fw) as [A3 A4].
    assert (E : (d_val s + d_val w)%R = d_val x) by (rewrite A2, B1, Ew; ring).
    assert (T2 : fits (d_val s + d_val w)) by (rewrite E; apply fits_val).
    specialize (A4 T2). apply A3 in T2. apply d_eqb_val; auto using d_add_ok. now rewrite A4, A2, Ew.
Qed.

(** ** Scaling and scaling back *)

Lemma one_over : forall v, finite v -> (bpow radix2 (-500) <= Rabs (d_val v) <= bpow radix2 500)%R ->
  finite (d_div d_one v) /\ d_val (d_div d_one v) = rnd (1 / d_val v) /\ (Rabs (1 / d_val v) <= bpow radix2 500)%R.
Proof.
  intros v [Ov Fv] [Vl Vu]. assert (N : d_val v <> 0%R).
  { intros Q. rewrite Q, Rabs_R0 in Vl. pose proof (bpow_gt_0 radix2 (-500)). lra. }
  assert (E1 : d_val d_one = 1%R) by (unfold d_val; cbv; lra).
  assert (B : (Rabs (1 / d_val v) <= bpow radix2 500)%R).
  { unfold Rdiv. rewrite Rmult_1_l, Rabs_inv. change 500%Z with (- (-500))%Z. rewrite bpow_opp. apply Rinv_le_contravar; [apply bpow_gt_0|exact Vl]. }
  destruct (d_div_val d_one v (proj1 (proj1 one_finite)) Ov (proj2 (proj1 one_finite)) N) as [A1 A2]. rewrite E1 in A1, A2.
  assert (T : fits (1 / d_val v)) by (apply fits_bpow with 500; [exact B|lia]).
  split; [split; [apply d_div_ok|now apply A1]|]. split; [now apply A2|exact B].
Qed.

Lemma scale_back_near : forall x v, finite x -> finite v -> (bpow radix2 (-500) <= Rabs (d_val v) <= bpow radix2 500)%R ->
  d_val x = 0%R \/ (bpow radix2 (-500) <= Rabs (d_val x) <= bpow radix2 500)%R ->
  (Rabs (d_val (d_mul (d_mul x v) (d_div d_one v)) - d_val x) <= bpow radix2 (-51) * Rabs (d_val x))%R.
Proof.
  intros x v [Ox Fx] Fv Bv Bx. destruct (one_over v Fv Bv) as ([Ow Fw] & Ew & Bw).
  set (w := d_div d_one v) in *. clearbody w. destruct Fv as [Ov Fv].
  assert (Mx : (Rabs (d_val x) <= bpow radix2 500)%R).
  { destruct Bx as [Q|Q]; [rewrite Q, Rabs_R0; apply bpow_ge_0|apply Q]. }
  assert (B1 : (Rabs (d_val x * d_val v) <= bpow radix2 1000)%R).
  { rewrite Rabs_mult. change 1000%Z with (500 + 500)%Z. rewrite bpow_plus. apply Rmult_le_compat; try apply Rabs_pos; [exact Mx|apply Bv]. }
  destruct (d_mul_val x v Ox Ov Fx Fv) as [A1 A2].
  assert (T1 : fits (d_val x * d_val v)) by (apply fits_bpow with 1000; [exact B1|lia]).
  specialize (A2 T1). apply A1 in T1. assert (Os := d_mul_ok x v). set (s := d_mul x v) in *. clearbody s.
  destruct (d_mul_val s w Os Ow T1 Fw) as [_ A3].
  assert (K : (Rabs (rnd (rnd (d_val x * d_val v) * rnd (1 / d_val v)) - d_val x) <= 4 * eps * Rabs (d_val x))%R).
  { destruct Bx as [Q|Q]; [|now apply scale_back_error]. rewrite Q, Rmult_0_l, rnd_0, Rmult_0_l, rnd_0, Rminus_0_r, Rabs_R0. lra. }
  replace (bpow radix2 (-51)) with (4 * eps)%R.
  2: { unfold eps. replace 4%R with (bpow radix2 2) by (cbn; lra). rewrite <- bpow_plus. reflexivity. }
  assert (E : (d_val s * d_val w)%R = (rnd (d_val x * d_val v) * rnd (1 / d_val v))%R) by (now rewrite A2, Ew).
  rewrite A3; [now rewrite E|]. rewrite E. unfold fits.
  apply Rle_lt_trans with (bpow radix2 502); [|apply bpow_lt; lia].
  replace (rnd (rnd (d_val x * d_val v) * rnd (1 / d_val v)))%R with
    ((rnd (rnd (d_val x * d_val v) * rnd (1 / d_val v)) - d_val x) + d_val x)%R by ring.
  eapply Rle_trans; [apply Rabs_triang|]. pose proof eps_val as EV.
  change 502%Z with (2 + 500)%Z. rewrite bpow_plus. replace (bpow radix2 2) with 4%R by (cbn; lra).
  pose proof (Rabs_pos (d_val x)). assert (4 * eps * Rabs (d_val x) <= Rabs (d_val x))%R by (rewrite EV; lra). lra.
Qed.

(** Scaling by [v] and by [1 / v], as computed: a relative error of at most 2^-51. *)
Theorem C108_scale_back : forall a v prs, finite v -> (bpow radix2 (-500) <= Rabs (d_val v) <= bpow radix2 500)%R ->
  Forall (fun p => finite (along a (pr_pt p))
    /\ (coordinate a p = 0 \/ bpow radix2 (-500) <= Rabs (coordinate a p) <= bpow radix2 500)%R) prs ->
  exists qs rs, schedule_free (par_for (length prs) (scale_along a v) prs) (Ret qs)
    /\ schedule_free (par_for (length qs) (scale_along a (d_div d_one v)) qs) (Ret rs)
    /\ Forall2 (fun p r => only [as_field a] p r
         /\ (Rabs (coordinate a r - coordinate a p) <= bpow radix2 (-51) * Rabs (coordinate a p))%R) prs rs.
Proof.
  intros a v prs Fv Bv F.
  apply (two_loops (scale_along a) (scale_along a) d_mul a v (d_div d_one v) prs
    (fun p => finite (along a (pr_pt p)) /\ (coordinate a p = 0 \/ bpow radix2 (-500) <= Rabs (coordinate a p) <= bpow radix2 500)%R)
    (fun x y => (Rabs (d_val y - d_val x) <= bpow radix2 (-51) * Rabs (d_val x))%R)).
  - intros; apply scale_placed.
  - intros; apply scale_placed.
  - exact F.
  - intros p [Fp Bp]. now apply scale_back_near.
Qed.

(** The commands of [spoc_transform] of the same names. *)
Theorem C108_commands : forall a k p,
  (forall v w, modest v -> finite w -> d_val w = (- d_val v)%R -> modest (along a (pr_pt p)) ->
     exists q r, add_command a v k p = Ret q /\ add_command a w k q = Ret r /\ only [as_field a] p r
       /\ (Rabs (coordinate a r - coordinate a p) <= bpow radix2 (-52) * Rabs (coordinate a p + d_val v))%R)
  /\ (forall v, finite v -> (bpow radix2 (-500) <= Rabs (d_val v) <= bpow radix2 500)%R -> finite (along a (pr_pt p)) ->
     (coordinate a p = 0 \/ bpow radix2 (-500) <= Rabs (coordinate a p) <= bpow radix2 500)%R ->
     exists q r, scale_command a v k p = Ret q /\ scale_command a (d_div d_one v) k q = Ret r /\ only [as_field a] p r
       /\ (Rabs (coordinate a r - coordinate a p) <= bpow radix2 (-51) * Rabs (coordinate a p))%R).
Proof.
  intros a k p.
  assert (O : forall x y, only [as_field a] p (placed a y (placed a x p))).
  { intros x y. split; [now destruct a|]. intros g G. destruct a, g; try reflexivity; exfalso; apply G; cbn; auto. }
  assert (A : forall v q, add_command a v k q = Ret (placed a (d_add (along a (pr_pt q)) v) q)) by (now destruct a).
  assert (M : forall v q, scale_command a v k q = Ret (placed a (d_mul (along a (pr_pt q)) v) q)) by (now destruct a).
  split.
  - intros v w Mv Fw Ew Mp. eexists. eexists. split; [apply A|]. split; [apply A|]. split; [apply O|].
    unfold coordinate. rewrite !placed_same. now apply back_near.
  - intros v Fv Bv Fp Bp. eexists. eexists. split; [apply M|]. split; [apply M|]. split; [apply O|].
    unfold coordinate. rewrite !placed_same. now apply scale_back_near.
Qed.

(** Two records: x is 0.1 and 10, y and z are 0. *)
Definition m_pr (x : double) (c : Z) : point_record := mk_pr x d_zero d_zero c 0 0 0 0 0 [7].
Definition d_tenth : double := 4591870180066957722.
Definition m_prs : list point_record := [m_pr d_tenth 2; m_pr 4621819117588971520 3].
Definition d_far : double := 4715268809856909312.          (* 16777216 *)
Definition d_back : double := d_far + two63.               (* -16777216 *)
Definition d_three : double := 4613937818241073152.

Lemma m_numbers : d_val d_tenth = (3602879701896397 / 36028797018963968)%R /\ d_val 4621819117588971520 = 10%R
  /\ d_val d_far = 16777216%R /\ d_val d_back = (-16777216)%R /\ d_val d_three = 3%R /\ d_val d_zero = 0%R.
Proof. unfold d_val. repeat split; cbv -[Rmult Rplus Rinv Ropp IZR Rdiv]; lra. Qed.

(** After moving by 16777216 and back, x is 0.10000000149..., and the extent moved along. *)
Example C108_example :
  modest d_far /\ finite d_back /\ d_val d_back = (- d_val d_far)%R /\ (Rabs (d_val d_far) <= 16777216)%R
  /\ Forall (fun p => pt_finite (pr_pt p)) m_prs
  /\ Forall (fun p => finite (along AX (pr_pt p)) /\ (Rabs (coordinate AX p) <= 16777216)%R) m_prs
  /\ Forall (fun p => fits (coordinate AX p + d_val d_far) /\ fits (coordinate AX p * d_val d_three)) m_prs
  /\ (bpow radix2 (-500) <= Rabs (d_val d_three) <= bpow radix2 500)%R
  /\ Forall (fun p => (coordinate AX p = 0 \/ bpow radix2 (-500) <= Rabs (coordinate AX p) <= bpow radix2 500)%R) m_prs
  /\ Forall (fun p => exists n, Z.abs n <= 2 ^ 52 /\ coordinate AY p = (IZR n * bpow radix2 (-10))%R) m_prs
  /\ d_add (d_add d_tenth d_far) d_back = 4591870180174331904
  /\ d_eqb (d_mul (d_mul 4604480259023595110 d_three) (d_div d_one d_three)) 4604480259023595110 = false.
Proof.
  destruct m_numbers as (E1 & E2 & E3 & E4 & E5 & E6).
  assert (P : forall e, (0 <= e)%Z -> (1 <= bpow radix2 e)%R) by (intros e He; change 1%R with (bpow radix2 0); now apply bpow_le).
  assert (P24 : bpow radix2 24 = 16777216%R) by (cbn; lra).
  assert (B500 : (16777216 <= bpow radix2 500)%R) by (rewrite <- P24; apply bpow_le; lia).
  assert (L500 : (bpow radix2 (-500) <= / 1024)%R) by (replace (/ 1024)%R with (bpow radix2 (-10)) by (cbn; lra); apply bpow_le; lia).
  assert (A : forall x, (0 <= x)%R -> Rabs x = x) by (intros; now apply Rabs_pos_eq).
  assert (Ft : forall x, (Rabs x <= 2 * 16777216)%R -> fits x).
  { intros x H. apply fits_bpow with 25; [|lia]. replace (bpow radix2 25) with (2 * 16777216)%R by (cbn; lra). exact H. }
  split; [split; [split; [unfold d_ok; vm_compute; intuition congruence|reflexivity]|rewrite E3, A; lra]|].
  split; [split; [unfold d_ok; vm_compute; intuition congruence|reflexivity]|].
  split; [rewrite E3, E4; lra|]. split; [rewrite E3, A; lra|].
  split; [unfold m_prs; repeat (apply Forall_cons || apply Forall_nil); unfold pt_finite, pt_ok, d_ok; vm_compute; intuition congruence|].
  split; [unfold m_prs; repeat (apply Forall_cons || apply Forall_nil); (split; [split; [unfold d_ok; vm_compute; intuition congruence|reflexivity]|]); unfold coordinate; cbn [along pr_pt px rx m_pr]; rewrite ?E1, ?E2, A; lra|].
  split; [unfold m_prs; repeat (apply Forall_cons || apply Forall_nil); unfold coordinate; cbn [along pr_pt px rx m_pr]; rewrite ?E1, ?E2, E3, E5; (split; apply Ft; rewrite A; lra)|].
  split; [rewrite E5, A by lra; lra|].
  split; [unfold m_prs; repeat (apply Forall_cons || apply Forall_nil); unfold coordinate; cbn [along pr_pt px rx m_pr]; rewrite ?E1, ?E2; right; rewrite A by lra; lra|].
  split; [unfold m_prs; repeat (apply Forall_cons || apply Forall_nil); exists 0; (split; [vm_compute; congruence|]); unfold coordinate; cbn [along pr_pt py ry m_pr]; rewrite E6; lra|].
  split; reflexivity.
Qed.

Print Assumptions C108_add_extent.
Print Assumptions C108_scale_extent.
Print Assumptions C108_add_back.
Print Assumptions C108_add_back_near.
Print Assumptions C108_add_back_exact.
Print Assumptions C108_scale_back.
Print Assumptions C108_commands.
