(** C81: the densities that spoc_info reports. *)
From Coq Require Import String Reals ZArith List Bool Permutation Lia Lra.
From Flocq Require Import Core IEEE754.Binary IEEE754.Bits IEEE754.BinarySingleNaN.
From Verif.Model Require Import Base Double Arith PointRecord Point Extent Voxel AppUtils Json InfoApp.
From Verif.Spec Require Import Format Rounding Geometry Streams Text Reports.
From Verif.Proofs Require Import BaseFacts OrderFacts DoubleFacts ArithFacts HeaderCutFacts VoxelFacts ToolGeometryFacts MapFacts.
From Verif.Props Require Import GeometryProps VoxelProps.
Import ListNotations.
Open Scope Z_scope.
Open Scope outcome_scope.

(** ** Spans of an extent *)

Lemma val_inj : forall a b, finite a -> finite b -> d_val a = d_val b -> d_val a <> 0%R -> a = b.
Proof.
  intros a b [Oa Fa] [Ob Fb] E N. pose proof E as E'. apply d_eqb_val in E'; auto. unfold d_eqb in E'.
  rewrite !d_finite_not_nan in E' by assumption. cbn [negb andb] in E'. apply Z.eqb_eq in E'.
  assert (K : d_key a <> 0).
  { intros K. apply N. rewrite <- d_val_zero. apply d_eqb_val; auto; [unfold d_ok, two64; lia|]. unfold d_eqb.
    rewrite (d_finite_not_nan a Fa). cbn [negb andb]. change (d_is_nan 0) with false. cbn [negb andb]. apply Z.eqb_eq. exact K. }
  revert E' K. unfold d_ok in Oa, Ob. unfold d_key. change two63 with (2 ^ 63). destruct (Z.ltb_spec a (2 ^ 63)), (Z.ltb_spec b (2 ^ 63)); lia.
Qed.

Lemma zero_false : forall (x : Binary.binary_float 53 1024), Binary.is_finite 53 1024 x = true -> Binary.B2R 53 1024 x = 0%R -> Binary.Bsign 53 1024 x = false ->
  x = Binary.B754_zero 53 1024 false.
Proof.
  intros [s|s|s p e|s m e H] F Z S; cbn in *; try discriminate.
  - now subst s.
  - subst s. exfalso. apply (F2R_cond_neq false m e). exact Z.
Qed.

Lemma sub_same : forall d, finite d -> d_sub d d = 0.
Proof.
  intros d [O F]. rewrite d_is_finite_B in F by exact O. unfold d_sub, b64_minus.
  pose proof (Binary.Bminus_correct 53 1024 eq_refl eq_refl binop_nan_pl64 mode_NE (b64_of_bits d) (b64_of_bits d) F F) as H.
  replace (Binary.B2R 53 1024 (b64_of_bits d) - Binary.B2R 53 1024 (b64_of_bits d))%R with 0%R in H by ring. cbn [round_mode] in H.
  change (round radix2 (SpecFloat.fexp 53 1024) ZnearestE 0) with (rnd 0) in H. rewrite rnd_0, Rabs_R0 in H.
  rewrite Rlt_bool_true in H by apply bpow_gt_0. destruct H as (V & Fi & S). rewrite Rcompare_Eq in S by reflexivity.
  rewrite andb_negb_r in S. rewrite (zero_false _ Fi V S). reflexivity.
Qed.

Lemma sign_pos : forall d, finite d -> (d = 0 \/ (0 < d_val d)%R) -> Binary.Bsign 53 1024 (b64_of_bits d) = false.
Proof.
  intros d [O F] [->|P]; [reflexivity|]. rewrite d_is_finite_B in F by exact O. unfold d_val in P.
  destruct (b64_of_bits d) as [s|s|s p e|s m e H]; cbn in *; try discriminate; [lra|].
  destruct s; [|reflexivity]. exfalso. pose proof (F2R_lt_0 radix2 (Float radix2 (Zneg m) e)) as X. cbn in X. specialize (X ltac:(lia)).
  change (cond_Zopp true (Zpos m)) with (Zneg m) in P. lra.
Qed.

(** The values of a column, its span, and what the span is. *)
Definition vals (ax : point -> double) (ps : list point) : list R := map (fun p => d_val (ax p)) ps.
Definition span (ax : point -> double) (ps : list point) : double := d_sub (ax (maxp (get_extent ps))) (ax (minp (get_extent ps))).

Lemma run_same : forall xs m M k, xs <> [] -> (forall x, In x xs -> d_is_nan x = false /\ d_key x = k) ->
  d_is_nan m = false -> d_is_nan M = false -> k <= d_key m -> d_key M <= k -> run_min xs m = run_max xs M.
Proof.
  assert (G : forall xs w k, (forall x, In x xs -> d_is_nan x = false /\ d_key x = k) -> d_is_nan w = false -> d_key w = k -> run_min xs w = run_max xs w).
  { induction xs as [|x xs IH]; intros w k H N K; [reflexivity|]. destruct (H x (or_introl eq_refl)) as (Nx & Kx). cbn.
    assert (E1 : d_min x w = x) by (unfold d_min, d_ltb; rewrite N, Nx; cbn [negb andb]; destruct (Z.ltb_spec (d_key w) (d_key x)); [lia|reflexivity]).
    assert (E2 : d_max2 x w = x) by (unfold d_max2, d_ltb; rewrite N, Nx; cbn [negb andb]; destruct (Z.ltb_spec (d_key x) (d_key w)); [lia|reflexivity]).
    unfold run_min, run_max in *. cbn [fold_left]. rewrite E1, E2. apply (IH x k); auto. intros y Hy. apply H. now right. }
  intros [|x xs] m M k N H Nm NM Km KM; [congruence|]. destruct (H x (or_introl eq_refl)) as (Nx & Kx).
  assert (E1 : d_min x m = x) by (unfold d_min, d_ltb; rewrite Nm, Nx; cbn [negb andb]; destruct (Z.ltb_spec (d_key m) (d_key x)); [lia|reflexivity]).
  assert (E2 : d_max2 x M = x) by (unfold d_max2, d_ltb; rewrite NM, Nx; cbn [negb andb]; destruct (Z.ltb_spec (d_key x) (d_key M)); [lia|reflexivity]).
  pose proof (G xs x k (fun y Hy => H y (or_intror Hy)) Nx Kx) as X. unfold run_min, run_max in *. cbn [fold_left]. rewrite E1, E2. exact X.
Qed.

Lemma key_val : forall a b, finite a -> finite b -> (d_key a = d_key b <-> d_val a = d_val b).
Proof.
  intros a b [Oa Fa] [Ob Fb]. rewrite <- d_eqb_val by assumption. unfold d_eqb. rewrite !d_finite_not_nan by assumption. cbn [negb andb]. now rewrite Z.eqb_eq.
Qed.

Lemma extremes : forall ax ps, In ax axes -> Forall pt_finite ps -> ps <> [] ->
  finite (ax (minp (get_extent ps))) /\ finite (ax (maxp (get_extent ps)))
  /\ is_least (vals ax ps) (d_val (ax (minp (get_extent ps)))) /\ is_greatest (vals ax ps) (d_val (ax (maxp (get_extent ps)))).
Proof.
  intros ax ps A F N. destruct (extent_finite ps F) as (F1 & F2).
  destruct (axis_finite ax _ A F1) as (O1 & D1). destruct (axis_finite ax _ A F2) as (O2 & D2).
  destruct (C32_extent_attained ps ax F N A) as ((p & Ip & Ep) & (q & Iq & Eq)).
  pose proof F as F'. rewrite Forall_forall in F'.
  split; [now split|]. split; [now split|]. split; split.
  - destruct (axis_finite ax p A (F' p Ip)). apply d_eqb_val in Ep; auto. rewrite <- Ep. unfold vals. now apply (in_map (fun p => d_val (ax p))).
  - intros x I. unfold vals in I. apply in_map_iff in I as (r & <- & Ir). destruct (C32_extent_contains ps r ax F Ir A) as (L & _).
    destruct (axis_finite ax r A (F' r Ir)). now apply d_leb_val in L.
  - destruct (axis_finite ax q A (F' q Iq)). apply d_eqb_val in Eq; auto. rewrite <- Eq. unfold vals. now apply (in_map (fun p => d_val (ax p))).
  - intros x I. unfold vals in I. apply in_map_iff in I as (r & <- & Ir). destruct (C32_extent_contains ps r ax F Ir A) as (_ & L).
    destruct (axis_finite ax r A (F' r Ir)). now apply d_leb_val in L.
Qed.

Lemma is_least_unique : forall l a b, is_least l a -> is_least l b -> a = b.
Proof. intros l a b (I & A) (J & B). specialize (A b J). specialize (B a I). lra. Qed.
Lemma is_greatest_unique : forall l a b, is_greatest l a -> is_greatest l b -> a = b.
Proof. intros l a b (I & A) (J & B). specialize (A b J). specialize (B a I). lra. Qed.

Lemma span_spec : forall ax ps lo hi, In ax axes -> Forall pt_finite ps -> ps <> [] -> is_least (vals ax ps) lo -> is_greatest (vals ax ps) hi ->
  (lo <= hi)%R
  /\ (lo = hi -> span ax ps = 0)
  /\ (fits (hi - lo) -> finite (span ax ps) /\ d_val (span ax ps) = rnd (hi - lo) /\ (span ax ps = 0 \/ (0 < d_val (span ax ps))%R))
  /\ (~ fits (hi - lo) -> span ax ps = d_inf).
Proof.
  intros ax ps lo hi A F N L G. destruct (extremes ax ps A F N) as (F1 & F2 & L' & G').
  assert (El : lo = d_val (ax (minp (get_extent ps)))) by (eapply is_least_unique; eauto).
  assert (Eh : hi = d_val (ax (maxp (get_extent ps)))) by (eapply is_greatest_unique; eauto).
  assert (Le : (lo <= hi)%R) by (apply L; apply G).
  assert (Z : lo = hi -> span ax ps = 0).
  { intros E. unfold span. replace (ax (maxp (get_extent ps))) with (ax (minp (get_extent ps))); [now apply sub_same|].
    unfold get_extent. destruct (extent_axis ax A ps extent_start) as (-> & ->). destruct (axis_start ax A) as (-> & ->).
    destruct ps as [|p0 ps0]; [congruence|].
    apply (run_same _ _ _ (d_key (ax p0))); [discriminate| |reflexivity|reflexivity| |].
    - intros x I. apply in_map_iff in I as (r & <- & Ir). pose proof F as F'. rewrite Forall_forall in F'.
      destruct (axis_finite ax r A (F' r Ir)) as (Or & Fr). split; [now apply d_finite_not_nan|].
      destruct (axis_finite ax p0 A (F' p0 (or_introl eq_refl))) as (O0 & F0).
      apply key_val; try (now split). destruct L as (_ & L). destruct G as (_ & G).
      pose proof (L _ (in_map (fun p => d_val (ax p)) _ _ Ir)). pose proof (G _ (in_map (fun p => d_val (ax p)) _ _ Ir)).
      pose proof (L _ (in_map (fun p => d_val (ax p)) _ _ (or_introl eq_refl : In p0 (p0 :: ps0)))).
      pose proof (G _ (in_map (fun p => d_val (ax p)) _ _ (or_introl eq_refl : In p0 (p0 :: ps0)))). cbn beta in *. lra.
    - inversion F as [|? ? Fp _]; subst. destruct (axis_finite ax p0 A Fp) as (O0 & F0). now apply d_finite_key.
    - inversion F as [|? ? Fp _]; subst. destruct (axis_finite ax p0 A Fp) as (O0 & F0). now apply d_finite_key. }
  split; [exact Le|]. split; [exact Z|]. split.
  - intros Fi. rewrite El, Eh in Fi. destruct (d_sub_val (ax (maxp (get_extent ps))) (ax (minp (get_extent ps)))) as (S1 & S2); try apply F1; try apply F2.
    specialize (S2 Fi). rewrite <- El, <- Eh in S2. assert (Fs : finite (span ax ps)) by (split; [apply d_sub_ok|now apply S1]).
    split; [exact Fs|]. split; [exact S2|]. destruct (Req_dec lo hi) as [E|E]; [left; now apply Z|right].
    unfold span. rewrite S2, El, Eh in *. pose proof (rnd_sub_neq _ _ (fun H => E (eq_sym H))) as X.
    pose proof (rnd_pos (d_val (ax (maxp (get_extent ps))) - d_val (ax (minp (get_extent ps)))) ltac:(lra)). lra.
  - intros Fi. unfold span. apply d_sub_overflow; auto; [lra|]. now rewrite <- El, <- Eh.
Qed.

Lemma span_perm : forall ax ps qs, In ax axes -> Forall pt_finite ps -> ps <> [] -> Permutation ps qs -> span ax ps = span ax qs.
Proof.
  intros ax ps qs A F N P. assert (F' : Forall pt_finite qs) by (eapply Permutation_Forall; eauto).
  assert (N' : qs <> []) by (intros ->; apply Permutation_sym, Permutation_nil in P; congruence).
  destruct (extremes ax ps A F N) as (_ & _ & L & G). set (lo := d_val (ax (minp (get_extent ps)))) in *. set (hi := d_val (ax (maxp (get_extent ps)))) in *.
  assert (I : forall x, In x (vals ax ps) <-> In x (vals ax qs)).
  { intros x. assert (Pv : Permutation (vals ax ps) (vals ax qs)) by now apply Permutation_map.
    split; apply Permutation_in; [exact Pv|now apply Permutation_sym]. }
  assert (L' : is_least (vals ax qs) lo) by (destruct L as (L1 & L2); split; [now apply I|intros x Hx; apply L2; now apply I]).
  assert (G' : is_greatest (vals ax qs) hi) by (destruct G as (L1 & L2); split; [now apply I|intros x Hx; apply L2; now apply I]).
  destruct (span_spec ax ps lo hi A F N L G) as (Le & Z1 & S1 & T1). destruct (span_spec ax qs lo hi A F' N' L' G') as (_ & Z2 & S2 & T2).
  destruct (Req_dec lo hi) as [E|E]; [now rewrite Z1, Z2|].
  destruct (Rlt_dec (Rabs (rnd (hi - lo))) (bpow radix2 1024)) as [K|K]; [|now rewrite T1, T2].
  destruct (S1 K) as (Fa & Va & _). destruct (S2 K) as (Fb & Vb & _). apply val_inj; auto; [congruence|].
  rewrite Va. unfold hi, lo. apply rnd_sub_neq. fold hi lo. congruence.
Qed.

(** ** Counting *)

Lemma F2_length : forall {A B} (R : A -> B -> Prop) l l', Forall2 R l l' -> List.length l = List.length l'.
Proof. intros A B R l l' H. induction H; cbn; congruence. Qed.


Lemma distinct_map : forall {A B} (f : A -> B) l n, (forall a b, In a l -> In b l -> f a = f b -> a = b) -> distinct l n -> distinct (map f l) n.
Proof.
  intros A B f l n Inj (s & N & I & L). exists (map f s). split; [|split].
  - assert (I' : forall a, In a s -> In a l) by (intros a; apply I). clear - N I' Inj.
    induction N as [|a s Na N IH]; cbn [map]; [constructor|]. constructor; [|apply IH; intros b Hb; apply I'; now right].
    intros H. apply in_map_iff in H as (b & E & Ib). apply Na. rewrite (Inj a b); auto; [apply I'; now left|apply I'; now right].
  - intros b. rewrite !in_map_iff. split; intros (a & E & Ia); exists a; (split; [exact E|]); now apply I.
  - unfold zlen in *. now rewrite map_length.
Qed.

Lemma distinct_le : forall {A} (l : list A) n, distinct l n -> n <= zlen l.
Proof. intros A l n (s & N & I & <-). unfold zlen. apply inj_le. apply NoDup_incl_length; [exact N|]. intros a. apply I. Qed.
Lemma distinct_pos : forall {A} (l : list A) n, distinct l n -> l <> [] -> 0 < n.
Proof.
  intros A [|a l] n (s & N & I & <-) H; [congruence|]. destruct s as [|b s]; [|unfold zlen; cbn [List.length]; lia].
  exfalso. apply (I a). now left.
Qed.
Lemma distinct_map_le : forall {A B} (f : A -> B) l n k, distinct l n -> distinct (map f l) k -> k <= n.
Proof.
  intros A B f l n k (s & N & I & <-) (t & M & J & <-). unfold zlen. rewrite <- (map_length f s). apply inj_le. apply NoDup_incl_length; [exact M|].
  intros b Hb. apply J in Hb. apply in_map_iff in Hb as (a & <- & Ha). apply in_map. now apply I.
Qed.
Lemma distinct_unique : forall {A} (l : list A) n k, distinct l n -> distinct l k -> n = k.
Proof.
  intros A l n k D E. apply Z.le_antisymm.
  - pose proof (distinct_map_le (fun a => a) l k n E). rewrite map_id in *. auto.
  - pose proof (distinct_map_le (fun a => a) l n k D). rewrite map_id in *. auto.
Qed.
Lemma distinct_perm : forall {A} (l l' : list A) n, Permutation l l' -> distinct l n -> distinct l' n.
Proof.
  intros A l l' n P (s & N & I & L). exists s. split; [exact N|]. split; [|exact L]. intros a. rewrite I. split; apply Permutation_in; [exact P|now apply Permutation_sym].
Qed.

Lemma distinct_set : forall vs, distinct vs (zlen (get_voxel_index_set vs)).
Proof. intros vs. destruct (C40_set vs) as (N & I). now exists (get_voxel_index_set vs). Qed.

(** ** Voxel numbers with a resolution of 1 *)

Lemma one_val : d_val d_one = 1%R.
Proof. unfold d_val. cbn. unfold F2R. cbn. lra. Qed.
Lemma div_one : forall x, (x / 1 = x)%R.
Proof. intros x. field. Qed.
Lemma one_finite : finite d_one.
Proof. split; [unfold d_ok, d_one, two64; lia|reflexivity]. Qed.

Lemma voxel_cell : forall p m n, finite p -> finite m -> voxel1 p m d_one = Ret n -> n = cell (d_val m) (d_val p).
Proof.
  intros p m n Fp Fm H. apply C39_value in H; try apply Fp; try apply Fm; try apply one_finite.
  destruct H as (_ & _ & _ & [(_ & _ & _ & -> & _)|(H & _)]); [|discriminate]. unfold cell. now rewrite one_val, div_one, rnd_rnd.
Qed.

Lemma voxel_defined : forall p m, finite p -> finite m -> (d_val m <= d_val p)%R ->
  ((exists n, voxel1 p m d_one = Ret n) <-> (rnd (d_val p - d_val m) < 2 ^ 64)%R).
Proof.
  intros p m Fp Fm L. assert (P : (0 <= rnd (d_val p - d_val m))%R) by (apply rnd_pos; lra).
  assert (E : (2 ^ 64)%R = IZR two64) by (rewrite (pow_IZR 2 64); reflexivity). rewrite E.
  split.
  - intros (n & H). apply C39_value in H; try apply Fp; try apply Fm; try apply one_finite.
    destruct H as (_ & _ & _ & [(_ & _ & _ & -> & B)|(H & _)]); [|discriminate]. rewrite one_val, div_one, rnd_rnd in B.
    destruct (Rlt_le_dec (rnd (d_val p - d_val m)) (IZR two64)) as [|G]; [assumption|]. apply Ztrunc_le in G. rewrite Ztrunc_IZR in G. lia.
  - intros H. exists (cell (d_val m) (d_val p)). apply C39_value; try apply Fp; try apply Fm; try apply one_finite.
    split; [exact Fp|]. split; [exact Fm|].
    assert (Fi : fits (d_val p - d_val m)).
    { unfold fits. rewrite Rabs_pos_eq by exact P. eapply Rlt_trans; [exact H|].
      replace (IZR two64) with (bpow radix2 64) by (symmetry; apply (IZR_Zpower radix2 64); lia). apply bpow_lt. lia. }
    split; [exact Fi|]. left. split; [apply one_finite|]. rewrite one_val, div_one, rnd_rnd. split; [lra|]. split; [unfold fits; now rewrite rnd_rnd|].
    split; [reflexivity|]. split.
    + apply Ztrunc_le in P. now rewrite (Ztrunc_IZR 0) in P.
    + apply lt_IZR. eapply Rle_lt_trans; [|exact H]. unfold cell. rewrite Ztrunc_floor by exact P. apply Zfloor_lb.
Qed.

(** ** C81 *)

Lemma metric_indexes : forall p m, get_metric_values p = Ret m ->
  exists vs, get_voxel_indexes_ext (map pr_pt p) (get_extent (map pr_pt p)) d_one = Ret vs
    /\ map_get (chars "extent_point_density") m = Some (d_div (d_of_z (zlen p)) (d_mul (span px (map pr_pt p)) (span py (map pr_pt p))))
    /\ map_get (chars "grid_point_density") m = Some (d_div (d_of_z (zlen p)) (d_of_z (zlen (get_voxel_index_set (map (fun v => mk_vox (vi v) (vj v) 0) vs)))))
    /\ map_get (chars "voxel_point_density") m = Some (d_div (d_of_z (zlen p)) (d_of_z (zlen (get_voxel_index_set vs))))
    /\ map fst m = [chars "extent_point_density"; chars "grid_point_density"; chars "voxel_point_density"].
Proof.
  intros p m H. unfold get_metric_values in H. destruct (get_voxel_indexes_ext _ _ _) as [vs| | |] eqn:E; try discriminate.
  cbn [bind] in H. injection H as <-. exists vs. split; [reflexivity|]. repeat split; reflexivity.
Qed.

Lemma indexes_cells : forall ps vs, Forall pt_finite ps -> ps <> [] -> get_voxel_indexes_ext ps (get_extent ps) d_one = Ret vs ->
  point_cells ps (map (fun v => (vi v, vj v, vk v)) vs).
Proof.
  intros ps vs F N H. destruct (extremes px ps ltac:(cbn; tauto) F N) as (Fx & _ & Lx & _).
  destruct (extremes py ps ltac:(cbn; tauto) F N) as (Fy & _ & Ly & _). destruct (extremes pz ps ltac:(cbn; tauto) F N) as (Fz & _ & Lz & _).
  exists (d_val (px (minp (get_extent ps)))), (d_val (py (minp (get_extent ps)))), (d_val (pz (minp (get_extent ps)))).
  split; [exact Lx|]. split; [exact Ly|]. split; [exact Lz|].
  apply mapM_Ret_inv in H. revert F Fx Fy Fz H. generalize (minp (get_extent ps)). intros m F Fx Fy Fz H. clear Lx Ly Lz N.
  induction H as [|p v ps vs E H IH]; [reflexivity|]. inversion F as [|? ? Fp F']; subst. cbn [map].
  rewrite (IH F'). f_equal. apply get_voxel_index_ret in E as (E1 & E2 & E3).
  destruct Fp as ((O1 & O2 & O3) & F1 & F2 & F3).
  apply voxel_cell in E1; [|now split|exact Fx]. apply voxel_cell in E2; [|now split|exact Fy]. apply voxel_cell in E3; [|now split|exact Fz].
  now rewrite E1, E2, E3.
Qed.

Lemma density : forall n k, 1 <= k <= n -> n <= 2 ^ 53 ->
  finite (d_div (d_of_z n) (d_of_z k)) /\ d_val (d_div (d_of_z n) (d_of_z k)) = rnd (IZR n / IZR k).
Proof.
  intros n k K N. destruct (d_of_z_exact n ltac:(lia)) as (Fn & Vn). destruct (d_of_z_exact k ltac:(lia)) as (Fk & Vk).
  assert (P : (1 <= IZR k)%R) by (apply (IZR_le 1); lia).
  assert (Q : (0 <= IZR n)%R) by (apply (IZR_le 0); lia).
  destruct (d_div_val (d_of_z n) (d_of_z k) (d_of_z_ok n) (d_of_z_ok k) Fn) as (D1 & D2); [rewrite Vk; lra|].
  rewrite Vn, Vk in *. assert (Fi : fits (IZR n / IZR k)).
  { apply (fits_bpow _ 53); [|lia]. assert (I : (0 < / IZR k <= 1)%R) by (split; [apply Rinv_0_lt_compat; lra|rewrite <- Rinv_1; apply Rinv_le; lra]).
    rewrite Rabs_pos_eq by (unfold Rdiv; apply Rmult_le_pos; lra).
    apply Rle_trans with (IZR n); [unfold Rdiv; nra|]. apply IZR_le in N. eapply Rle_trans; [exact N|]. right. apply (IZR_Zpower radix2 53). lia. }
  split; [split; [apply d_div_ok|now apply D1]|auto].
Qed.

(** The voxel density is the number of records divided by the number of different cells
    that they lie in, and the grid density by the number of different columns of cells,
    correctly rounded.  There is at least one record per voxel, and the density per column
    is not smaller. *)
Theorem C81_densities : forall p m, p <> [] -> Forall pt_finite (map pr_pt p) -> zlen p <= 2 ^ 53 -> get_metric_values p = Ret m ->
  exists cells nv ng dv dg,
    point_cells (map pr_pt p) cells /\ distinct cells nv /\ distinct (map fst cells) ng
    /\ map_get (chars "voxel_point_density") m = Some dv /\ finite dv /\ d_val dv = rnd (IZR (zlen p) / IZR nv)
    /\ map_get (chars "grid_point_density") m = Some dg /\ finite dg /\ d_val dg = rnd (IZR (zlen p) / IZR ng)
    /\ (1 <= d_val dv <= d_val dg)%R.
Proof.
  intros p m N F L H. destruct (metric_indexes p m H) as (vs & E & _ & Mg & Mv & _).
  assert (N' : map pr_pt p <> []) by (destruct p; [congruence|discriminate]).
  pose proof (indexes_cells _ vs F N' E) as C.
  set (nv := zlen (get_voxel_index_set vs)) in *. set (gs := map (fun v => mk_vox (vi v) (vj v) 0) vs) in *. set (ng := zlen (get_voxel_index_set gs)) in *.
  assert (Dv : distinct vs nv) by apply distinct_set. assert (Dg : distinct gs ng) by apply distinct_set.
  assert (Dc : distinct (map (fun v => (vi v, vj v, vk v)) vs) nv).
  { apply distinct_map; [|exact Dv]. intros [a b c] [d e f] _ _ X. cbn in X. now injection X as -> -> ->. }
  assert (Dh : distinct (map fst (map (fun v => (vi v, vj v, vk v)) vs)) ng).
  { replace (map fst (map (fun v => (vi v, vj v, vk v)) vs)) with (map (fun v => (vi v, vj v)) gs) by (unfold gs; rewrite !map_map; reflexivity).
    apply distinct_map; [|exact Dg]. intros a b Ia Ib X. unfold gs in Ia, Ib. apply in_map_iff in Ia as (a' & <- & _). apply in_map_iff in Ib as (b' & <- & _).
    cbn in X. now injection X as -> ->. }
  assert (Lv : zlen vs = zlen p).
  { apply mapM_Ret_inv in E. apply F2_length in E. unfold zlen. rewrite <- E. now rewrite map_length. }
  assert (Nv : vs <> []) by (intros ->; destruct p; [congruence|unfold zlen in Lv; cbn in Lv; lia]).
  pose proof (distinct_pos _ _ Dv Nv). assert (Ng : gs <> []) by (unfold gs; destruct vs; [congruence|discriminate]).
  pose proof (distinct_pos _ _ Dg Ng). pose proof (distinct_le _ _ Dv). pose proof (distinct_map_le _ _ _ _ Dc Dh).
  destruct (density (zlen p) nv ltac:(lia) L) as (F1 & V1). destruct (density (zlen p) ng ltac:(lia) L) as (F2 & V2).
  exists (map (fun v => (vi v, vj v, vk v)) vs), nv, ng, (d_div (d_of_z (zlen p)) (d_of_z nv)), (d_div (d_of_z (zlen p)) (d_of_z ng)).
  split; [exact C|]. split; [exact Dc|]. split; [exact Dh|]. split; [exact Mv|]. split; [exact F1|]. split; [exact V1|].
  split; [exact Mg|]. split; [exact F2|]. split; [exact V2|]. rewrite V1, V2.
  assert (A1 : (1 <= IZR ng)%R) by (apply (IZR_le 1); lia). assert (A2 : (IZR ng <= IZR nv)%R) by (apply IZR_le; lia).
  assert (A3 : (IZR nv <= IZR (zlen p))%R) by (apply IZR_le; lia).
  split.
  - rewrite <- (rnd_int 1) by lia. apply rnd_le. apply (Rmult_le_reg_r (IZR nv)); [lra|]. unfold Rdiv. rewrite Rmult_assoc, Rinv_l by lra. lra.
  - apply rnd_le. unfold Rdiv. apply Rmult_le_compat_l; [lra|]. apply Rinv_le; lra.
Qed.

(** *** The density per extent *)

Lemma div_pos_zero : forall a, finite a -> (0 < d_val a)%R -> d_div a 0 = d_inf.
Proof.
  intros a Fa P. pose proof (sign_pos a Fa (or_intror P)) as S. destruct Fa as [O F]. rewrite d_is_finite_B in F by exact O. unfold d_val in P.
  unfold d_div. change (b64_of_bits 0) with (Binary.B754_zero 53 1024 false).
  destruct (b64_of_bits a) as [s|s|s p e|s m e H]; cbn in P, F, S; try discriminate; [lra|]. subst s. reflexivity.
Qed.

Lemma div_overflow : forall a b, finite a -> finite b -> (0 < d_val a)%R -> (0 < d_val b)%R -> ~ fits (d_val a / d_val b) -> d_div a b = d_inf.
Proof.
  intros a b Fa Fb Pa Pb N. pose proof (sign_pos a Fa (or_intror Pa)) as Sa. pose proof (sign_pos b Fb (or_intror Pb)) as Sb.
  pose proof (Binary.Bdiv_correct 53 1024 eq_refl eq_refl binop_nan_pl64 mode_NE (b64_of_bits a) (b64_of_bits b)) as H.
  fold (d_val a) (d_val b) in H. specialize (H ltac:(lra)). cbn [round_mode] in H. unfold fits, rnd, fexp64 in N.
  destruct (Rlt_bool_spec (Rabs (round radix2 (SpecFloat.fexp 53 1024) ZnearestE (d_val a / d_val b))) (bpow radix2 1024)) as [K|K]; [contradiction|].
  rewrite Sa, Sb in H. unfold d_div, b64_div. cbn in H. match goal with |- bits_of_b64 ?x = _ => assert (X : x = Binary.B754_infinity 53 1024 false) end.
  { apply B2FF_infinity. exact H. }
  rewrite X. reflexivity.
Qed.

Lemma mul_pos : forall a b, finite a -> finite b -> (a = 0 \/ (0 < d_val a)%R) -> (b = 0 \/ (0 < d_val b)%R) -> fits (d_val a * d_val b) ->
  finite (d_mul a b) /\ d_val (d_mul a b) = rnd (d_val a * d_val b) /\ (rnd (d_val a * d_val b) = 0%R -> d_mul a b = 0).
Proof.
  intros a b Fa Fb Pa Pb Fi. pose proof (sign_pos a Fa Pa) as Sa. pose proof (sign_pos b Fb Pb) as Sb.
  destruct (d_mul_val a b) as (M1 & M2); try apply Fa; try apply Fb.
  assert (Fm : finite (d_mul a b)) by (split; [apply d_mul_ok|now apply M1]). split; [exact Fm|]. split; [auto|]. intros Z.
  pose proof (Binary.Bmult_correct 53 1024 eq_refl eq_refl binop_nan_pl64 mode_NE (b64_of_bits a) (b64_of_bits b)) as H.
  cbn [round_mode] in H. fold (d_val a) (d_val b) in H. pose proof Fi as Fi'. unfold fits, rnd, fexp64 in Fi'. rewrite Rlt_bool_true in H by exact Fi'.
  destruct H as (V & Fc & S). unfold d_mul, b64_mult.
  destruct Fa as [Oa Fa]. destruct Fb as [Ob Fb]. rewrite d_is_finite_B in Fa, Fb by assumption. rewrite Fa, Fb in Fc. cbn in Fc.
  assert (Nn : forall (x : Binary.binary_float 53 1024), Binary.is_finite 53 1024 x = true -> Binary.is_nan 53 1024 x = false) by now intros [].
  rewrite Sa, Sb in S. specialize (S (Nn _ Fc)). cbn in S.
  match goal with |- bits_of_b64 ?x = _ => assert (X : x = Binary.B754_zero 53 1024 false) end.
  { apply zero_false; [exact Fc| |exact S]. etransitivity; [exact V|exact Z]. }
  rewrite X. reflexivity.
Qed.

(** The extent density is the number of records divided by the area of the extent, with the
    result of every operation rounded; it is infinite when the area is 0 or the quotient
    too large. *)
Theorem C81_extent : forall p m x0 x1 y0 y1, p <> [] -> Forall pt_finite (map pr_pt p) -> zlen p <= 2 ^ 53 -> get_metric_values p = Ret m ->
  is_least (map (fun r => d_val (rx r)) p) x0 -> is_greatest (map (fun r => d_val (rx r)) p) x1 ->
  is_least (map (fun r => d_val (ry r)) p) y0 -> is_greatest (map (fun r => d_val (ry r)) p) y1 ->
  let n := IZR (zlen p) in
  let area := rnd (rnd (x1 - x0) * rnd (y1 - y0)) in
  exists d, map_get (chars "extent_point_density") m = Some d
    /\ (area <> 0%R -> fits (n / area) -> finite d /\ d_val d = rnd (n / area))
    /\ (area = 0%R \/ ~ fits (n / area) -> d = d_inf).
Proof.
  intros p m x0 x1 y0 y1 N F L H Lx Gx Ly Gy n area. destruct (metric_indexes p m H) as (vs & E & Me & _).
  assert (N' : map pr_pt p <> []) by (destruct p; [congruence|discriminate]).
  assert (Vx : vals px (map pr_pt p) = map (fun r => d_val (rx r)) p) by (unfold vals; rewrite map_map; reflexivity).
  assert (Vy : vals py (map pr_pt p) = map (fun r => d_val (ry r)) p) by (unfold vals; rewrite map_map; reflexivity).
  rewrite <- Vx in Lx, Gx. rewrite <- Vy in Ly, Gy.
  destruct (proj1 (C39_cloud (map pr_pt p) d_one F N' one_finite ltac:(rewrite one_val; lra)) (ex_intro _ vs E)) as (v & V).
  apply get_voxel_index_ret in V as (V1 & V2 & _).
  assert (S : forall ax lo hi k, In ax axes -> is_least (vals ax (map pr_pt p)) lo -> is_greatest (vals ax (map pr_pt p)) hi ->
     voxel1 (ax (maxp (get_extent (map pr_pt p)))) (ax (minp (get_extent (map pr_pt p)))) d_one = Ret k ->
     finite (span ax (map pr_pt p)) /\ d_val (span ax (map pr_pt p)) = rnd (hi - lo)
     /\ (span ax (map pr_pt p) = 0 \/ (0 < d_val (span ax (map pr_pt p)))%R) /\ (0 <= rnd (hi - lo) <= bpow radix2 64)%R).
  { intros ax lo hi k A Lo Hi K. destruct (extremes ax _ A F N') as (F1 & F2 & L' & G').
    destruct (span_spec ax _ lo hi A F N' Lo Hi) as (Le & _ & S1 & _).
    assert (Kd : (rnd (hi - lo) < 2 ^ 64)%R).
    { rewrite (is_least_unique _ _ _ Lo L'), (is_greatest_unique _ _ _ Hi G') in *. apply voxel_defined; eauto. }
    assert (B : (2 ^ 64)%R = bpow radix2 64) by (rewrite (pow_IZR 2 64); apply (IZR_Zpower radix2 64); lia).
    assert (P : (0 <= rnd (hi - lo))%R) by (apply rnd_pos; lra).
    destruct S1 as (A1 & A2 & A3).
    { unfold fits. rewrite Rabs_pos_eq by exact P. eapply Rlt_trans; [exact Kd|]. rewrite B. apply bpow_lt. lia. }
    split; [exact A1|]. split; [exact A2|]. split; [exact A3|]. lra. }
  destruct (S px x0 x1 _ ltac:(cbn; tauto) Lx Gx V1) as (Fx & Ex & Px & Bx). destruct (S py y0 y1 _ ltac:(cbn; tauto) Ly Gy V2) as (Fy & Ey & Py & By).
  assert (Fi : fits (d_val (span px (map pr_pt p)) * d_val (span py (map pr_pt p)))).
  { rewrite Ex, Ey. apply (fits_bpow _ 128); [|lia]. rewrite Rabs_pos_eq by nra.
    replace (bpow radix2 128) with (bpow radix2 64 * bpow radix2 64)%R by (rewrite <- bpow_plus; reflexivity).
    apply Rmult_le_compat; lra. }
  destruct (mul_pos _ _ Fx Fy Px Py Fi) as (Fm & Vm & Zm). rewrite Ex, Ey in Vm, Zm. fold area in Vm, Zm.
  assert (Np : 1 <= zlen p) by (destruct p; [congruence|unfold zlen; cbn [List.length]; lia]).
  destruct (d_of_z_exact (zlen p) ltac:(lia)) as (Fn & Vn). fold n in Vn.
  assert (Pn : (0 < n)%R) by (apply (IZR_lt 0); lia).
  assert (Pa : (0 <= area)%R) by (unfold area; apply rnd_pos; nra).
  exists (d_div (d_of_z (zlen p)) (d_mul (span px (map pr_pt p)) (span py (map pr_pt p)))). split; [exact Me|]. split.
  - intros Na Fq. destruct (d_div_val (d_of_z (zlen p)) (d_mul (span px (map pr_pt p)) (span py (map pr_pt p)))) as (D1 & D2);
      [apply d_of_z_ok|apply d_mul_ok|exact Fn|now rewrite Vm|]. rewrite Vn, Vm in *. split; [split; [apply d_div_ok|now apply D1]|auto].
  - intros [Za|Nf].
    + rewrite (Zm Za). apply div_pos_zero; [split; [apply d_of_z_ok|exact Fn]|now rewrite Vn].
    + destruct (Req_dec area 0) as [Za|Na]; [rewrite (Zm Za); apply div_pos_zero; [split; [apply d_of_z_ok|exact Fn]|now rewrite Vn]|].
      apply div_overflow; auto; [split; [apply d_of_z_ok|exact Fn]|now rewrite Vn|rewrite Vm; lra|now rewrite Vn, Vm].
Qed.

(** *** When they are defined *)

Lemma indexes_cases : forall ps m, (exists vs, mapM (fun p => get_voxel_index p m d_one) ps = Ret vs) \/ mapM (fun p => get_voxel_index p m d_one) ps = UB ub_float_to_int.
Proof.
  intros ps m. induction ps as [|p ps IH]; [left; now exists []|]. cbn [mapM]. unfold get_voxel_index at 1 3.
  destruct (voxel1_cases (px p) (px m) d_one) as [[a ->]| ->]; [|now right].
  destruct (voxel1_cases (py p) (py m) d_one) as [[b ->]| ->]; [|now right].
  destruct (voxel1_cases (pz p) (pz m) d_one) as [[c ->]| ->]; [|now right]. cbn [bind].
  destruct IH as [[vs ->]| ->]; cbn [bind]; [left; eexists; reflexivity|now right].
Qed.

(** For points with finite coordinates, the metrics are defined exactly when the extent is
    smaller than 2^64 on every axis. *)
Theorem C81_defined : forall p, p <> [] -> Forall pt_finite (map pr_pt p) ->
  ((exists m, get_metric_values p = Ret m)
   <-> forall ax lo hi, In ax axes -> is_least (map (fun r => d_val (ax (pr_pt r))) p) lo -> is_greatest (map (fun r => d_val (ax (pr_pt r))) p) hi ->
       (rnd (hi - lo) < 2 ^ 64)%R).
Proof.
  intros p N F. assert (N' : map pr_pt p <> []) by (destruct p; [congruence|discriminate]).
  assert (V : forall ax, vals ax (map pr_pt p) = map (fun r => d_val (ax (pr_pt r))) p) by (intros ax; unfold vals; now rewrite map_map).
  assert (X : (exists m, get_metric_values p = Ret m) <-> exists vs, get_voxel_indexes (map pr_pt p) d_one = Ret vs).
  { split.
    - intros (m & H). destruct (metric_indexes p m H) as (vs & E & _). now exists vs.
    - intros (vs & E). unfold get_metric_values. unfold get_voxel_indexes in E. rewrite E. cbn [bind]. eexists. reflexivity. }
  rewrite X, (C39_cloud _ d_one F N' one_finite ltac:(rewrite one_val; lra)). clear X. split.
  - intros (v & H) ax lo hi A L G. rewrite <- V in L, G. destruct (extremes ax _ A F N') as (F1 & F2 & L' & G').
    rewrite (is_least_unique _ _ _ L L'), (is_greatest_unique _ _ _ G G').
    apply voxel_defined; auto; [apply L'; apply G'|]. apply get_voxel_index_ret in H as (H1 & H2 & H3).
    destruct A as [<-|[<-|[<-|[]]]]; eauto.
  - intros H. assert (Y : forall ax, In ax axes -> exists n, voxel1 (ax (maxp (get_extent (map pr_pt p)))) (ax (minp (get_extent (map pr_pt p)))) d_one = Ret n).
    { intros ax A. destruct (extremes ax _ A F N') as (F1 & F2 & L' & G'). apply voxel_defined; auto; [apply L'; apply G'|].
      apply (H ax); auto; rewrite <- V; assumption. }
    destruct (Y px ltac:(cbn; tauto)) as (a & A). destruct (Y py ltac:(cbn; tauto)) as (b & B). destruct (Y pz ltac:(cbn; tauto)) as (c & C).
    exists (mk_vox a b c). apply get_voxel_index_ret. auto.
Qed.

(** Otherwise, and for a NaN or an infinite coordinate anywhere, it is undefined
    behaviour: a conversion to [size_t] out of range. *)
Theorem C81_undefined : forall p, ~ (exists m, get_metric_values p = Ret m) -> get_metric_values p = UB ub_float_to_int.
Proof.
  intros p H. unfold get_metric_values in *. unfold get_voxel_indexes_ext in *.
  destruct (indexes_cases (map pr_pt p) (minp (get_extent (map pr_pt p)))) as [[vs E]|E]; rewrite E in *; [|reflexivity].
  elim H. cbn [bind]. eexists. reflexivity.
Qed.

Lemma run_or : forall xs m, d_ok m -> Forall d_ok xs -> d_ok (run_min xs m) /\ d_ok (run_max xs m).
Proof.
  intros xs m M F. rewrite Forall_forall in F. split.
  - destruct (run_min_In xs m) as [->|I]; auto.
  - destruct (run_max_In xs m) as [->|I]; auto.
Qed.

Lemma extent_ok : forall ps, Forall pt_ok ps -> pt_ok (minp (get_extent ps)).
Proof.
  intros ps F. assert (G : forall ax, In ax axes -> d_ok (ax (minp (get_extent ps)))).
  { intros ax A. unfold get_extent. destruct (extent_axis ax A ps extent_start) as (-> & _). destruct (axis_start ax A) as (-> & _).
    apply run_or; [unfold d_ok, d_max, d_inf, two64; lia|]. apply Forall_map. eapply Forall_impl; [|exact F]. intros p (O1 & O2 & O3).
    destruct A as [<-|[<-|[<-|[]]]]; assumption. }
  split; [apply (G px); cbn; tauto|]. split; [apply (G py); cbn; tauto|apply (G pz); cbn; tauto].
Qed.

Theorem C81_not_finite : forall p, Forall pt_ok (map pr_pt p) -> ~ Forall pt_finite (map pr_pt p) -> get_metric_values p = UB ub_float_to_int.
Proof.
  intros p O F. apply C81_undefined. intros (m & H). destruct (metric_indexes p m H) as (vs & E & _). apply F.
  apply mapM_Ret_inv in E. pose proof (extent_ok _ O) as Oe. revert E. generalize (minp (get_extent (map pr_pt p))), Oe. intros lo Ol E. clear H Oe F.
  induction E as [|q v ps vs Eq E IH]; [constructor|]. inversion O as [|? ? Oq O']; subst. constructor; [|now apply IH].
  split; [exact Oq|]. assert (X : forall ax, In ax axes -> d_is_finite (ax q) = true).
  { intros ax A. destruct (d_is_finite (ax q)) eqn:D; [reflexivity|]. rewrite (C39_not_finite q lo d_one Oq Ol) in Eq; [discriminate|apply one_finite|now exists ax]. }
  split; [apply (X px); cbn; tauto|]. split; [apply (X py); cbn; tauto|apply (X pz); cbn; tauto].
Qed.

(** A file without records: the extent density is 0 and the others are NaN. *)
Theorem C81_empty : exists ext grid vox, get_metric_values [] = Ret [(chars "extent_point_density", ext); (chars "grid_point_density", grid); (chars "voxel_point_density", vox)]
  /\ ext = 0 /\ d_is_nan grid = true /\ d_is_nan vox = true.
Proof. eexists _, _, _. split; [reflexivity|]. split; [vm_compute; reflexivity|]. split; vm_compute; reflexivity. Qed.

(** *** The order of the records *)

Lemma mapM_perm : forall {A B} (f : A -> outcome B) l l' r, Permutation l l' -> mapM f l = Ret r -> exists r', mapM f l' = Ret r' /\ Permutation r r'.
Proof.
  intros A B f l l' r P. revert r. induction P as [|a l l' P IH|a b l|l l' l'' P1 IH1 P2 IH2]; intros r H.
  - exists r. split; [exact H|apply Permutation_refl].
  - cbn [mapM] in *. destruct (f a) as [x| | |]; try discriminate. cbn [bind] in *. destruct (mapM f l) as [xs| | |] eqn:E; try discriminate. cbn [bind] in H. injection H as <-.
    destruct (IH xs eq_refl) as (r' & -> & P'). exists (x :: r'). split; [reflexivity|now constructor].
  - cbn [mapM] in *. destruct (f b) as [y| | |]; try discriminate. cbn [bind] in *. destruct (f a) as [x| | |]; try discriminate. cbn [bind] in *.
    destruct (mapM f l) as [xs| | |]; try discriminate. cbn [bind] in *. injection H as <-. exists (x :: y :: xs). split; [reflexivity|constructor].
  - destruct (IH1 r H) as (r1 & E1 & P1'). destruct (IH2 r1 E1) as (r2 & E2 & P2'). exists r2. split; [exact E2|]. now apply Permutation_trans with r1.
Qed.

Lemma voxel1_eq_min : forall p m m', finite p -> finite m -> finite m' -> d_val m = d_val m' -> voxel1 p m d_one = voxel1 p m' d_one.
Proof.
  assert (G : forall p m m' n, finite p -> finite m -> finite m' -> d_val m = d_val m' -> voxel1 p m d_one = Ret n -> voxel1 p m' d_one = Ret n).
  { intros p m m' n Fp Fm Fm' E H. apply C39_value in H; try apply Fp; try apply Fm; try apply one_finite. rewrite E in H.
    apply C39_value; try apply Fp; try apply Fm'; try apply one_finite. destruct H as (A & _ & B). auto. }
  intros p m m' Fp Fm Fm' E. destruct (voxel1_cases p m d_one) as [[n H]|H]; destruct (voxel1_cases p m' d_one) as [[k K]|K].
  - rewrite H. symmetry. now apply (G p m m').
  - rewrite (G p m m' n) in K by assumption. discriminate.
  - rewrite (G p m' m k) in H by (auto; congruence). discriminate.
  - congruence.
Qed.

(** The metrics do not depend on the order of the records. *)
Theorem C81_order : forall p q, Permutation p q -> Forall pt_finite (map pr_pt p) -> get_metric_values p = get_metric_values q.
Proof.
  intros p q P F. destruct p as [|r0 p0]; [apply Permutation_nil in P; now subst q|].
  set (ps := map pr_pt (r0 :: p0)) in *. set (qs := map pr_pt q). assert (Pp : Permutation ps qs) by now apply Permutation_map.
  assert (N : ps <> []) by discriminate. assert (Fq : Forall pt_finite qs) by (eapply Permutation_Forall; eauto).
  assert (Nq : qs <> []) by (intros E; rewrite E in Pp; apply Permutation_sym, Permutation_nil in Pp; congruence).
  assert (Mi : forall ax, In ax axes -> finite (ax (minp (get_extent ps))) /\ finite (ax (minp (get_extent qs))) /\ d_val (ax (minp (get_extent ps))) = d_val (ax (minp (get_extent qs)))).
  { intros ax A. destruct (extremes ax ps A F N) as (F1 & _ & (L1 & L2) & _). destruct (extremes ax qs A Fq Nq) as (F2 & _ & L' & _).
    split; [exact F1|]. split; [exact F2|]. apply (is_least_unique (vals ax qs)); [|exact L'].
    assert (Pv : Permutation (vals ax ps) (vals ax qs)) by now apply Permutation_map.
    split; [eapply Permutation_in; eauto|]. intros x Hx. apply L2. eapply Permutation_in; [apply Permutation_sym, Pv|exact Hx]. }
  assert (V : forall r, pt_finite r -> get_voxel_index r (minp (get_extent ps)) d_one = get_voxel_index r (minp (get_extent qs)) d_one).
  { intros r ((O1 & O2 & O3) & F1 & F2 & F3). unfold get_voxel_index.
    destruct (Mi px ltac:(cbn; tauto)) as (? & ? & ?). destruct (Mi py ltac:(cbn; tauto)) as (? & ? & ?). destruct (Mi pz ltac:(cbn; tauto)) as (? & ? & ?).
    rewrite (voxel1_eq_min (px r) (px (minp (get_extent ps))) (px (minp (get_extent qs)))) by (auto; now split).
    rewrite (voxel1_eq_min (py r) (py (minp (get_extent ps))) (py (minp (get_extent qs)))) by (auto; now split).
    rewrite (voxel1_eq_min (pz r) (pz (minp (get_extent ps))) (pz (minp (get_extent qs)))) by (auto; now split). reflexivity. }
  assert (M : mapM (fun r => get_voxel_index r (minp (get_extent ps)) d_one) qs = mapM (fun r => get_voxel_index r (minp (get_extent qs)) d_one) qs).
  { revert V. generalize (minp (get_extent ps)) (minp (get_extent qs)). intros m1 m2 V. clear - V Fq.
    induction Fq as [|r l Fr Fl IH]; [reflexivity|]. cbn [mapM]. now rewrite (V r Fr), IH. }
  unfold get_metric_values. fold ps qs. unfold get_voxel_indexes_ext. rewrite <- M.
  fold (span px ps) (span py ps) (span px qs) (span py qs). rewrite (span_perm px ps qs (or_introl eq_refl) F N Pp), (span_perm py ps qs (or_intror (or_introl eq_refl)) F N Pp).
  assert (Zl : zlen (r0 :: p0) = zlen q) by (unfold zlen; now rewrite (Permutation_length P)). rewrite Zl.
  destruct (indexes_cases ps (minp (get_extent ps))) as [[vs E]|E].
  - destruct (mapM_perm _ _ _ _ Pp E) as (vs' & E' & Pv). rewrite E, E'. cbn [bind].
    rewrite (distinct_unique vs _ _ (distinct_set vs) (distinct_perm _ _ _ (Permutation_sym Pv) (distinct_set vs'))).
    set (g := fun v => mk_vox (vi v) (vj v) 0).
    rewrite (distinct_unique (map g vs) _ _ (distinct_set _) (distinct_perm _ _ _ (Permutation_sym (Permutation_map g Pv)) (distinct_set _))). reflexivity.
  - destruct (indexes_cases qs (minp (get_extent ps))) as [[vs' E']|E']; [|now rewrite E, E'].
    destruct (mapM_perm _ _ _ _ (Permutation_sym Pp) E') as (vs & E2 & _). congruence.
Qed.

(** *** The report *)

(** The text report shows the three densities with their units, one per line. *)
Theorem C81_lines : forall prt p m, get_metric_values p = Ret m ->
  exists de dg dv, map_get (chars "extent_point_density") m = Some de /\ map_get (chars "grid_point_density") m = Some dg /\ map_get (chars "voxel_point_density") m = Some dv
  /\ appends (metric_lines prt p)
       (text_line [chars "extent_point_density"; [9]; show_double (p_os prt) de; [9]; chars "pts/unit^2"]
        ++ text_line [chars "grid_point_density"; [9]; show_double (p_os prt) dg; [9]; chars "pts/unit^2"]
        ++ text_line [chars "voxel_point_density"; [9]; show_double (p_os prt) dv; [9]; chars "pts/unit^3"]).
Proof.
  intros prt p m H. destruct (metric_indexes p m H) as (vs & _ & Me & Mg & Mv & K).
  assert (X : exists a b c, m = [(chars "extent_point_density", a); (chars "grid_point_density", b); (chars "voxel_point_density", c)]).
  { destruct m as [|(k1, a) [|(k2, b) [|(k3, c) [|? ?]]]]; try discriminate K. cbn [map fst] in K. injection K as -> -> ->. now exists a, b, c. }
  destruct X as (a & b & c & ->). exists a, b, c. split; [reflexivity|]. split; [reflexivity|]. split; [reflexivity|].
  apply emits_appends. unfold metric_lines. eapply emits_lift; [exact H|]. cbn [w_iter fst snd].
  unfold text_line. cbn [List.concat]. rewrite !app_nil_r.
  apply emits_seq.
  { change (map_get (chars "extent_point_density") get_metric_units) with (Some (chars "pts/unit^2")). cbv beta iota.
    match goal with |- emits (w_seq (w_put ?x) (w_put ?y)) ?z tt => replace z with (x ++ y) by (unfold line, tab; cbn [List.concat]; rewrite app_nil_r, <- !app_assoc; reflexivity) end.
    apply emits_seq; apply emits_put. }
  apply emits_seq.
  { change (map_get (chars "grid_point_density") get_metric_units) with (Some (chars "pts/unit^2")). cbv beta iota.
    match goal with |- emits (w_seq (w_put ?x) (w_put ?y)) ?z tt => replace z with (x ++ y) by (unfold line, tab; cbn [List.concat]; rewrite app_nil_r, <- !app_assoc; reflexivity) end.
    apply emits_seq; apply emits_put. }
  match goal with |- emits _ ?z tt => replace z with (z ++ []) by apply app_nil_r end.
  apply emits_seq; [|apply emits_ret].
  change (map_get (chars "voxel_point_density") get_metric_units) with (Some (chars "pts/unit^3")). cbv beta iota.
  match goal with |- emits (w_seq (w_put ?x) (w_put ?y)) ?z tt => replace z with (x ++ y) by (unfold line, tab; cbn [List.concat]; rewrite app_nil_r, <- !app_assoc; reflexivity) end.
  apply emits_seq; apply emits_put.
Qed.

(** Four records in three voxels and two columns, in a square of 4 by 4. *)
Definition grid_pt (x y z : Z) : point_record := mk_pr (d_of_z x) (d_of_z y) (d_of_z z) 2 0 0 0 0 0 [].
Definition metric_cloud : list point_record := [grid_pt 0 0 0; grid_pt 0 0 2; grid_pt 0 0 0; grid_pt 4 4 0].

Example C81_example : Forall pt_finite (map pr_pt metric_cloud) /\ zlen metric_cloud <= 2 ^ 53
  /\ get_metric_values metric_cloud
     = Ret [(chars "extent_point_density", d_div d_one (d_of_z 4)); (chars "grid_point_density", d_of_z 2);
            (chars "voxel_point_density", d_div (d_of_z 4) (d_of_z 3))]
  /\ distinct [(0, 0, 0); (0, 0, 2); (0, 0, 0); (4, 4, 0)] 3 /\ distinct [(0, 0); (0, 0); (0, 0); (4, 4)] 2.
Proof.
  split.
  { repeat apply Forall_cons; try apply Forall_nil; (split; [split; [apply d_of_z_ok|split; apply d_of_z_ok]|split; [vm_compute; reflexivity|split; vm_compute; reflexivity]]). }
  split; [vm_compute; discriminate|]. split; [vm_compute; reflexivity|]. split.
  - exists [(0, 0, 0); (0, 0, 2); (4, 4, 0)]. split; [|split; [|reflexivity]].
    + repeat constructor; cbn; intuition congruence.
    + intros a. cbn. intuition.
  - exists [(0, 0); (4, 4)]. split; [|split; [|reflexivity]].
    + repeat constructor; cbn; intuition congruence.
    + intros a. cbn. intuition.
Qed.

(** All records at one place: an infinite extent density. *)
Example C81_flat_example : exists m, get_metric_values [grid_pt 1 2 3; grid_pt 1 5 3] = Ret m /\ map_get (chars "extent_point_density") m = Some d_inf.
Proof. eexists. split; vm_compute; reflexivity. Qed.

(** A coordinate of 1e300 makes the conversion to [size_t] undefined. *)
Example C81_large_example : get_metric_values [grid_pt 0 0 0; mk_pr 9083009424640049310 0 0 2 0 0 0 0 0 []] = UB ub_float_to_int.
Proof. vm_compute. reflexivity. Qed.

Print Assumptions C81_densities.
Print Assumptions C81_extent.
Print Assumptions C81_defined.
Print Assumptions C81_not_finite.
Print Assumptions C81_order.
Print Assumptions C81_lines.
