(** C37, C39, C40, C48: quantize, voxel indexes, voxel maps, rescale. *)
From Coq Require Import String Reals ZArith List Bool Sorted Permutation Lia Lra.
From Flocq Require Import Core.
From Verif.Model Require Import Base Double Arith PointRecord Point Extent Voxel Utils.
From Verif.Spec Require Import Rounding Geometry.
From Verif.Proofs Require Import BaseFacts OrderFacts DoubleFacts ArithFacts VoxelFacts ScaleFacts.
From Verif.Props Require Import GeometryProps.
Import ListNotations.
Open Scope Z_scope.

(** ** C39: voxel indexes *)

(** One axis, completely: the index is the quotient of the rounded difference by
    the resolution, rounded, truncated toward zero; the call is defined exactly
    when both roundings stay finite and the result fits [size_t].  (An infinite
    resolution maps every finite point to 0.) *)
Theorem C39_value : forall p m res n, d_ok p -> d_ok m -> d_ok res ->
  (voxel1 p m res = Ret n <->
   finite p /\ finite m /\ fits (d_val p - d_val m)
   /\ ((finite res /\ d_val res <> 0%R /\ fits (rnd (d_val p - d_val m) / d_val res)
        /\ n = Ztrunc (rnd (rnd (d_val p - d_val m) / d_val res)) /\ 0 <= n < two64)
       \/ (d_is_finite res = false /\ d_is_nan res = false /\ n = 0))).
Proof.
  intros p m res n Hp Hm Hr. rewrite voxel1_ret by assumption. unfold finite, voxel_number. tauto.
Qed.

(** In every other case it is undefined behaviour. *)
Theorem C39_else_undefined : forall p m res, (forall n, voxel1 p m res <> Ret n) ->
  voxel1 p m res = UB ub_float_to_int.
Proof. intros p m res H. destruct (voxel1_cases p m res) as [[n E]|E]; [now elim (H n)|exact E]. Qed.

Theorem C39_zero_at_minimum : forall m res, pt_finite m -> finite res -> d_val res <> 0%R ->
  get_voxel_index m m res = Ret (mk_vox 0 0 0).
Proof.
  intros m res ((O1 & O2 & O3) & F1 & F2 & F3) Hr Nz. unfold get_voxel_index.
  now rewrite !voxel1_min by first [assumption | now split].
Qed.

(** Coordinates of a voxel. *)
Definition vaxes : list (voxel_index -> Z) := [vi; vj; vk].

Definition pt_le (p q : point) : Prop := forall ax, In ax axes -> d_leb (ax p) (ax q) = true.

Lemma get_voxel_index_ret : forall p m res v, get_voxel_index p m res = Ret v <->
  voxel1 (px p) (px m) res = Ret (vi v) /\ voxel1 (py p) (py m) res = Ret (vj v)
  /\ voxel1 (pz p) (pz m) res = Ret (vk v).
Proof.
  intros p m res [i j k]. unfold get_voxel_index. cbn [vi vj vk].
  destruct (voxel1_cases (px p) (px m) res) as [[a ->]| ->]; [|cbn; intuition discriminate].
  destruct (voxel1_cases (py p) (py m) res) as [[b ->]| ->]; [|cbn; intuition discriminate].
  destruct (voxel1_cases (pz p) (pz m) res) as [[c ->]| ->]; [|cbn; intuition discriminate].
  cbn. split; [intros [= -> -> ->]; auto|]. now intros ([= ->] & [= ->] & [= ->]).
Qed.

(** For points ordered on every axis the indexes are ordered, and if the larger
    one is defined so is the smaller one. *)
Theorem C39_monotone : forall p q m res w, pt_finite p -> pt_finite q -> pt_finite m -> finite res ->
  (0 < d_val res)%R -> pt_le m p -> pt_le p q -> get_voxel_index q m res = Ret w ->
  exists v, get_voxel_index p m res = Ret v /\ 0 <= vi v <= vi w /\ 0 <= vj v <= vj w /\ 0 <= vk v <= vk w.
Proof.
  intros p q m res w Hp Hq Hm Hr Pr L1 L2 H. apply get_voxel_index_ret in H. destruct H as (W1 & W2 & W3).
  assert (G : forall ax n, In ax axes -> voxel1 (ax q) (ax m) res = Ret n ->
             exists k, voxel1 (ax p) (ax m) res = Ret k /\ 0 <= k <= n).
  { intros ax n Hax Hw. specialize (L1 ax Hax). specialize (L2 ax Hax).
    destruct (axis_finite ax p Hax Hp), (axis_finite ax q Hax Hq), (axis_finite ax m Hax Hm).
    apply d_leb_val in L1; auto. apply d_leb_val in L2; auto.
    eapply voxel1_mono; try exact Hw; auto; now split. }
  destruct (G px _ ltac:(cbn; tauto) W1) as (a & Ea & Ba).
  destruct (G py _ ltac:(cbn; tauto) W2) as (b & Eb & Bb).
  destruct (G pz _ ltac:(cbn; tauto) W3) as (c & Ec & Bc).
  exists (mk_vox a b c). rewrite get_voxel_index_ret. cbn [vi vj vk]. auto.
Qed.

Lemma extent_finite : forall ps, Forall pt_finite ps ->
  pt_finite (minp (get_extent ps)) /\ pt_finite (maxp (get_extent ps)).
Proof.
  intros ps Hf.
  assert (A : forall ax, In ax axes -> finite (ax (minp (get_extent ps))) /\ finite (ax (maxp (get_extent ps)))).
    { intros ax Hax. destruct (extent_axis ax Hax ps extent_start) as [E1 E2]. unfold get_extent. rewrite E1, E2.
      destruct (axis_start ax Hax) as [-> ->].
      assert (I : forall d, In d (map ax ps) -> finite d).
      { intros d Hd. apply in_map_iff in Hd. destruct Hd as (p & <- & Hp). rewrite Forall_forall in Hf.
        apply (axis_finite ax _ Hax). now apply Hf. }
      split.
      - destruct (run_min_In (map ax ps) d_max) as [E|E]; [rewrite E|now apply I].
        split; [unfold d_ok, d_max, d_inf, two64; lia|reflexivity].
      - destruct (run_max_In (map ax ps) d_lowest) as [E|E]; [rewrite E|now apply I].
        split; [unfold d_ok, d_lowest, d_max, d_inf, two63, two64; lia|reflexivity]. }
    destruct (A px) as [[] []]; [cbn; tauto|]. destruct (A py) as [[] []]; [cbn; tauto|].
    destruct (A pz) as [[] []]; [cbn; tauto|]. unfold pt_finite, pt_ok. tauto.
Qed.

(** For a whole cloud of finite points and a positive resolution: the indexing
    is defined exactly when the index of the far corner of the extent is. *)
Theorem C39_cloud : forall ps res, Forall pt_finite ps -> ps <> [] -> finite res -> (0 < d_val res)%R ->
  ((exists vs, get_voxel_indexes ps res = Ret vs)
   <-> exists v, get_voxel_index (maxp (get_extent ps)) (minp (get_extent ps)) res = Ret v).
Proof.
  intros ps res Hf Hne Hr Pr.
  pose proof (extent_finite ps Hf) as EF.
  destruct EF as [Fmin Fmax]. split.
  - intros [vs H]. apply mapM_Ret_inv in H.
    assert (D : forall p, In p ps -> exists v, get_voxel_index p (minp (get_extent ps)) res = Ret v).
    { clear - H. revert H. generalize (minp (get_extent ps)). intros m H.
      induction H as [|p v ps vs E H IH]; intros q Hq; [destruct Hq|].
      destruct Hq as [->|I]; eauto. }
    assert (A : forall ax, In ax axes -> exists n, voxel1 (ax (maxp (get_extent ps))) (ax (minp (get_extent ps))) res = Ret n).
    { intros ax Hax. destruct (C32_extent_attained ps ax Hf Hne Hax) as [_ (p & Hp & E)].
      assert (Fp : pt_finite p) by (rewrite Forall_forall in Hf; now apply Hf).
      destruct (axis_finite ax p Hax Fp), (axis_finite ax _ Hax Fmax), (axis_finite ax _ Hax Fmin).
      apply d_eqb_val in E; auto.
      assert (V : voxel1 (ax p) (ax (minp (get_extent ps))) res
                  = voxel1 (ax (maxp (get_extent ps))) (ax (minp (get_extent ps))) res).
      { apply voxel1_eq; try (split; assumption); [apply Hr|exact E]. }
      rewrite <- V. destruct (D p Hp) as [v W]. apply get_voxel_index_ret in W. destruct W as (W1 & W2 & W3).
      destruct Hax as [<-|[<-|[<-|[]]]]; eauto. }
    destruct (A px) as [a Ha]; [cbn; tauto|]. destruct (A py) as [b Hb]; [cbn; tauto|].
    destruct (A pz) as [c Hc]; [cbn; tauto|]. exists (mk_vox a b c). apply get_voxel_index_ret. auto.
  - intros [v H]. unfold get_voxel_indexes, get_voxel_indexes_ext.
    assert (D : forall p, In p ps -> exists w, get_voxel_index p (minp (get_extent ps)) res = Ret w).
    { intros p Hp. assert (Fp : pt_finite p) by (rewrite Forall_forall in Hf; now apply Hf).
      destruct (C39_monotone p (maxp (get_extent ps)) (minp (get_extent ps)) res v) as (w & W & _); eauto.
      - intros ax Hax. now apply C32_extent_contains.
      - intros ax Hax. now apply C32_extent_contains. }
    clear - D. revert D. generalize (minp (get_extent ps)). intros m.
    induction ps as [|p t IH]; intros D; cbn; [eauto|].
    destruct (D p (or_introl eq_refl)) as [w ->]. cbn. destruct IH as [ws ->]; [intros; apply D; now right|].
    cbn. eauto.
Qed.

(** A point with a NaN or infinite coordinate makes it undefined. *)
Theorem C39_not_finite : forall p m res, pt_ok p -> pt_ok m -> d_ok res ->
  (exists ax, In ax axes /\ d_is_finite (ax p) = false) ->
  get_voxel_index p m res = UB ub_float_to_int.
Proof.
  intros p m res (P1 & P2 & P3) (M1 & M2 & M3) Hr (ax & Hax & F). unfold get_voxel_index.
  assert (A : voxel1 (ax p) (ax m) res = UB ub_float_to_int).
  { apply C39_else_undefined. intros n E. apply voxel1_ret in E; auto.
    - destruct E as [E _]. congruence.
    - destruct Hax as [<-|[<-|[<-|[]]]]; assumption.
    - destruct Hax as [<-|[<-|[<-|[]]]]; assumption. }
  destruct Hax as [<-|[<-|[<-|[]]]]; rewrite ?A.
  - reflexivity.
  - destruct (voxel1_cases (px p) (px m) res) as [[a ->]| ->]; reflexivity.
  - destruct (voxel1_cases (px p) (px m) res) as [[a ->]| ->]; [|reflexivity].
    destruct (voxel1_cases (py p) (py m) res) as [[b ->]| ->]; reflexivity.
Qed.

(** 2.5 with minimum 0 and resolution 0.5, -1 and 1e300 with resolution 1. *)
Example C39_example :
  voxel1 4612811918334230528 0 4602678819172646912 = Ret 5
  /\ voxel1 (d_one + two63) 0 d_one = UB ub_float_to_int
  /\ voxel1 9094988221128646640 0 d_one = UB ub_float_to_int.
Proof. split; [reflexivity|split; reflexivity]. Qed.

(** ** C40: the voxel map is a partition *)

Definition in_cell (m : voxel_index_map) (v : voxel_index) (i : Z) : Prop :=
  exists l, In (v, l) m /\ In i l.

Theorem C40_own_voxel : forall vs v i,
  in_cell (get_voxel_index_map vs) v i <-> znth vs i = Some v.
Proof.
  intros vs v i. unfold in_cell, get_voxel_index_map.
  assert (N : NoDup (map fst (vim_loop 0 vs []))) by (apply vim_loop_nodup; constructor).
  pose proof (vim_loop_find vs 0 [] v) as F. cbn [map_find opt_app] in F.
  assert (P : In i (positions v 0 vs) <-> znth vs i = Some v).
  { rewrite positions_In. replace (i - 0) with i by lia. split; [tauto|]. intros E. split; [|exact E].
    apply znth_Some_range in E. lia. }
  rewrite <- P. split.
  - intros (l & I & J). apply map_find_In in I; [|exact N]. rewrite I in F.
    destruct (positions v 0 vs); [discriminate|]. now injection F as <-.
  - intros J. exists (positions v 0 vs). split; [|exact J]. apply map_find_In; [exact N|]. rewrite F.
    now destruct (positions v 0 vs).
Qed.

Theorem C40_shape : forall vs, NoDup (map fst (get_voxel_index_map vs))
  /\ forall v l, In (v, l) (get_voxel_index_map vs) -> l <> [] /\ StronglySorted Z.lt l.
Proof.
  intros vs. assert (N : NoDup (map fst (get_voxel_index_map vs))) by (apply vim_loop_nodup; constructor).
  split; [exact N|]. intros v l I. apply map_find_In in I; [|exact N].
  unfold get_voxel_index_map in I. rewrite vim_loop_find in I. cbn [map_find opt_app] in I.
  destruct (positions v 0 vs) eqn:E; [discriminate|]. injection I as <-. split; [discriminate|].
  rewrite <- E. apply positions_sorted.
Qed.

Lemma NoDup_app_intro : forall A (a b : list A), NoDup a -> NoDup b -> (forall x, In x a -> ~ In x b) -> NoDup (a ++ b).
Proof.
  intros A a b Ha Hb D. induction Ha as [|x a N Ha IH]; cbn; [exact Hb|]. constructor.
  - rewrite in_app_iff. intros [I|I]; [contradiction|]. apply (D x); [now left|exact I].
  - apply IH. intros y Hy. apply D. now right.
Qed.

Lemma NoDup_concat : forall (m : voxel_index_map), NoDup (map fst m) ->
  (forall v l, In (v, l) m -> NoDup l) ->
  (forall v w l k i, In (v, l) m -> In (w, k) m -> In i l -> In i k -> v = w) ->
  NoDup (concat (map snd m)).
Proof.
  induction m as [|[v l] t IH]; intros N S D; cbn; [constructor|].
  inversion N as [|? ? N1 N2]; subst. apply NoDup_app_intro.
  - apply (S v l). now left.
  - apply IH; auto; intros; [eapply S; right; eassumption|]. eapply D; try (right; eassumption); eassumption.
  - intros i Hi Hc. apply in_concat in Hc. destruct Hc as (k & Hk & Hik). apply in_map_iff in Hk.
    destruct Hk as ([w k'] & E & Hw). cbn in E. subst k'.
    assert (v = w) by (eapply D; [now left|right; exact Hw|exact Hi|exact Hik]). subst w.
    apply N1. now apply (in_map fst) in Hw.
Qed.

(** Reading all cells one after the other gives every point index once. *)
Theorem C40_permutation : forall vs,
  Permutation (concat (map snd (get_voxel_index_map vs))) (map Z.of_nat (seq 0 (length vs))).
Proof.
  intros vs. destruct (C40_shape vs) as [N S]. pose proof (C40_own_voxel vs) as O.
  apply NoDup_Permutation.
  - apply NoDup_concat; [exact N| |].
    + intros v l I. destruct (S v l I) as [_ SS]. clear - SS. induction SS as [|a l SS IH F]; constructor; auto.
      intros I. rewrite Forall_forall in F. specialize (F a I). lia.
    + intros v w l k i H1 H2 H3 H4.
      assert (E1 : znth vs i = Some v) by (apply O; exists l; auto).
      assert (E2 : znth vs i = Some w) by (apply O; exists k; auto). congruence.
  - apply FinFun.Injective_map_NoDup; [|apply seq_NoDup]. intros a b E. lia.
  - intros i. rewrite in_concat, in_map_iff. split.
    + intros (l & Hl & Hi). apply in_map_iff in Hl. destruct Hl as ([v l'] & E & I). cbn in E. subst l'.
      assert (E1 : znth vs i = Some v) by (apply O; exists l; auto).
      apply znth_Some_range in E1. unfold zlen in E1. exists (Z.to_nat i). rewrite in_seq. lia.
    + intros (n & <- & I). apply in_seq in I.
      destruct (znth_in_range vs (Z.of_nat n)) as [v E]; [unfold zlen; lia|].
      apply O in E. destruct E as (l & I1 & I2). exists l. split; [|exact I2].
      now apply (in_map snd) in I1.
Qed.

Theorem C40_set : forall vs, NoDup (get_voxel_index_set vs) /\ forall v, In v (get_voxel_index_set vs) <-> In v vs.
Proof.
  assert (M : forall v s, set_mem v s = true <-> In v s).
  { intros v s. unfold set_mem. rewrite existsb_exists. split.
    - intros (w & I & E). destruct (vox_eqb_spec v w); [now subst|discriminate].
    - intros I. exists v. split; [exact I|]. now destruct (vox_eqb_spec v v). }
  assert (G : forall vs s, NoDup s -> NoDup (fold_left (fun s v => set_insert v s) vs s)
              /\ forall v, In v (fold_left (fun s v => set_insert v s) vs s) <-> In v s \/ In v vs).
  { induction vs as [|w t IH]; intros s N; cbn; [intuition|].
    assert (N' : NoDup (set_insert w s) /\ forall v, In v (set_insert w s) <-> In v s \/ v = w).
    { unfold set_insert. destruct (set_mem w s) eqn:E.
      - apply M in E. split; [exact N|]. intros v. split; [auto|]. intros [| ->]; assumption.
      - split.
        + apply NoDup_app_intro; [exact N|constructor; [intros []|constructor]|].
          intros x Hx [->|[]]. apply M in Hx. congruence.
        + intros v. rewrite in_app_iff. cbn. intuition. }
    destruct N' as [N1 N2]. destruct (IH _ N1) as [I1 I2]. split; [exact I1|].
    intros v. rewrite I2, N2. intuition. }
  intros vs. destruct (G vs [] (NoDup_nil _)) as [A B]. split; [exact A|]. intros v.
  unfold get_voxel_index_set. rewrite B. cbn. tauto.
Qed.

Example C40_example :
  get_voxel_index_map [mk_vox 0 0 0; mk_vox 1 0 0; mk_vox 0 0 0] = [(mk_vox 0 0 0, [0; 2]); (mk_vox 1 0 0, [1])].
Proof. reflexivity. Qed.

(** ** C37: quantize *)

(** One coordinate, completely. *)
Theorem C37_value : forall x p y, finite x -> finite p -> d_val p <> 0%R ->
  (quantize1 x p = Ret y <->
   exists n, n = Ztrunc (rnd (d_val x / d_val p)) /\ fits (d_val x / d_val p) /\ - two31 <= n < two31
             /\ y = d_mul (d_of_z n) p).
Proof.
  intros x p y Hx Hp Nz. rewrite quantize1_ret by assumption. unfold quantum. split.
  - intros (A & B & C). eexists. split; [reflexivity|]. auto.
  - intros (n & -> & A & B & C). auto.
Qed.

(** The result is the integer multiple of the precision, rounded once. *)
Theorem C37_multiple : forall x p y, finite x -> finite p -> d_val p <> 0%R -> quantize1 x p = Ret y ->
  d_is_finite y = true ->
  exists n, - two31 <= n < two31 /\ d_val y = rnd (IZR n * d_val p).
Proof.
  intros x p y Hx Hp Nz H Fy. apply C37_value in H; auto. destruct H as (n & En & F & B & ->).
  exists n. split; [exact B|]. destruct (d_of_z_exact n) as [Fn Vn]; [unfold two31 in B; lia|].
  destruct Hp as [Op Fp]. destruct (d_mul_val (d_of_z n) p (d_of_z_ok n) Op Fn Fp) as [M1 M2].
  rewrite Vn in *. apply M2, M1, Fy.
Qed.

(** From 2^31 precisions on, the conversion to [int] is undefined. *)
Theorem C37_large_undefined : forall x p, finite x -> finite p -> d_val p <> 0%R ->
  (IZR two31 <= d_val x / d_val p \/ d_val x / d_val p <= IZR (- two31 - 1))%R ->
  quantize1 x p = UB ub_float_to_int.
Proof.
  intros x p Hx Hp Nz H. destruct (quantize1_cases x p) as [[y E]|E]; [|exact E]. exfalso.
  apply C37_value in E; auto. destruct E as (n & En & F & B & _).
  destruct H as [H|H]; apply rnd_le in H; rewrite rnd_int in H by (unfold two31; lia);
    apply Ztrunc_le in H; rewrite Ztrunc_IZR in H; lia.
Qed.

(** A whole list: one result per point, in order, or undefined. *)
Theorem C37_list : forall debug ps p qs, quantize debug ps p = Ret qs ->
  length qs = length ps
  /\ forall ax i a, In ax axes -> nth_error ps i = Some a ->
       exists b, nth_error qs i = Some b /\ quantize1 (ax a) p = Ret (ax b).
Proof.
  intros debug ps p qs H. unfold quantize in H. destruct (debug && _); [discriminate|].
  apply mapM_Ret_inv in H. split; [clear - H; induction H; cbn; congruence|].
  intros ax i a Hax. revert i. induction H as [|q r ps qs E H IH]; intros [|i] Hi; cbn in *; try discriminate.
  - injection Hi as <-. exists r. split; [reflexivity|]. unfold quantize_point in E.
    apply bind_Ret_inv in E. destruct E as (x & E1 & E). apply bind_Ret_inv in E. destruct E as (y & E2 & E).
    apply bind_Ret_inv in E. destruct E as (z & E3 & E). injection E as <-.
    destruct Hax as [<-|[<-|[<-|[]]]]; assumption.
  - now apply IH.
Qed.

(** With a precision that is a power of two: truncation to a multiple, exactly,
    and a second application changes nothing. *)
Theorem C37_power_of_two : forall x p e y, finite x -> finite p -> d_val p = bpow radix2 e ->
  quantize1 x p = Ret y ->
  finite y /\ d_val y = (IZR (Ztrunc (d_val x / d_val p)) * d_val p)%R /\ quantize1 y p = Ret y.
Proof. exact quantize1_bpow. Qed.

(** Not in general: 0.295 with precision 0.01 gives 0.29, and then 0.28. *)
Theorem C37_not_idempotent : exists x p y z, finite x /\ finite p
  /\ quantize1 x p = Ret y /\ quantize1 y p = Ret z /\ d_eqb y z = false.
Proof.
  exists 4598985867478203105, 4576918229304087675, 4598895795485655695, 4598715651500560876.
  split; [split; [unfold d_ok, two64; lia|reflexivity]|].
  split; [split; [unfold d_ok, two64; lia|reflexivity]|].
  split; [vm_compute; reflexivity|]. split; [vm_compute; reflexivity|reflexivity].
Qed.

(** A zero precision: an exception in debug builds, undefined otherwise. *)
Theorem C37_zero_precision : forall q ps, pt_ok q ->
  quantize false (q :: ps) d_zero = UB ub_float_to_int
  /\ quantize true (q :: ps) d_zero = Throw (runtime_error "Contract failed")%string.
Proof.
  intros q ps (Ox & Oy & Oz). split; [|reflexivity]. unfold quantize. cbn [andb mapM].
  unfold quantize_point at 1, quantize1 at 1, d_to_int, d_cast.
  rewrite d_div_zero; [reflexivity|exact Ox|unfold d_ok, d_zero, two64; lia|reflexivity|reflexivity].
Qed.

(** 2.75 with precision 0.5 is 2.5. *)
Example C37_example : quantize1 4613374868287651840 4602678819172646912 = Ret 4612811918334230528.
Proof. vm_compute. reflexivity. Qed.

(** ** C48: rescale and restore *)

(** Points between the bounds of an extent that is not flat, and not so large
    that scaling overflows, are mapped into [0, 2^62] on every axis. *)
Theorem C48_in_range : forall ps e, Forall pt_finite ps -> pt_finite (minp e) -> pt_finite (maxp e) ->
  Forall (in_box e) ps ->
  (forall ax, In ax axes -> d_ltb (ax (minp e)) (ax (maxp e)) = true
              /\ d_is_finite (d_mul (d_sub (ax (maxp e)) (ax (minp e))) max_value) = true) ->
  exists qs, rescale ps e = Ret qs /\ length qs = length ps
    /\ Forall (fun q => 0 <= px q <= 2 ^ 62 /\ 0 <= py q <= 2 ^ 62 /\ 0 <= pz q <= 2 ^ 62) qs.
Proof.
  intros ps e Hf Hm HM Hb Hax. unfold rescale.
  assert (A : forall ax p, In ax axes -> pt_finite p -> in_box e p ->
            exists n, rescale1 (ax p) (d_sub (ax (maxp e)) (ax (minp e))) (ax (minp e)) = Ret n /\ 0 <= n <= 2 ^ 62).
  { intros ax p H Hp B. destruct (Hax ax H) as [Lt F]. destruct (B ax H) as [B1 B2].
    destruct (axis_finite ax p H Hp), (axis_finite ax _ H Hm), (axis_finite ax _ H HM).
    apply d_ltb_val in Lt; auto. apply d_leb_val in B1; auto. apply d_leb_val in B2; auto.
    destruct (rescale1_in (ax p) (ax (minp e)) (ax (maxp e))) as (n & E & Bn & _); auto; try (now split). eauto. }
  induction ps as [|p t IH]; cbn [mapM length].
  - exists []. auto.
  - inversion Hf as [|? ? Fp Ft]; subst. inversion Hb as [|? ? Bp Bt]; subst.
    destruct (A px p) as (x & Ex & Bx); [cbn; tauto|exact Fp|exact Bp|].
    destruct (A py p) as (y & Ey & By); [cbn; tauto|exact Fp|exact Bp|].
    destruct (A pz p) as (z & Ez & Bz); [cbn; tauto|exact Fp|exact Bp|].
    destruct (IH Ft Bt) as (qs & E & L & Q). unfold rescale_point at 1, pt_sub at 1 2 3. cbn [px py pz].
    rewrite Ex, Ey, Ez. cbn [bind]. rewrite E. cbn [bind]. eexists. split; [reflexivity|].
    split; [cbn; congruence|]. constructor; [|exact Q]. cbn [px py pz]. auto.
Qed.

(** The bounds go to 0 and 2^62. *)
Theorem C48_bounds : forall m M, finite m -> finite M -> (d_val m < d_val M)%R ->
  d_is_finite (d_mul (d_sub M m) max_value) = true ->
  rescale1 m (d_sub M m) m = Ret 0 /\ rescale1 M (d_sub M m) m = Ret (2 ^ 62).
Proof.
  intros m M Hm HM L F. split.
  - destruct (rescale1_in m m M) as (n & E & _ & V); auto; [lra|]. rewrite E, V. f_equal.
    replace (d_val m - d_val m)%R with 0%R by ring. rewrite rnd_0. unfold Rdiv.
    rewrite !Rmult_0_l, rnd_0. apply (Ztrunc_IZR 0).
  - destruct (rescale1_in M m M) as (n & E & _ & V); auto; [lra|]. rewrite E, V. f_equal.
    assert (N : rnd (d_val M - d_val m) <> 0%R) by (apply rnd_sub_neq; lra).
    replace (rnd (d_val M - d_val m) * scale_top / rnd (d_val M - d_val m))%R with scale_top by (field; exact N).
    unfold scale_top. rewrite rnd_bpow by lia. rewrite <- (IZR_Zpower radix2) by lia. apply Ztrunc_IZR.
Qed.

(** An extent that is flat on some axis (a single point, a planar or vertical
    line scan) makes rescale undefined. *)
Theorem C48_flat_undefined : forall p t e, pt_finite p -> pt_finite (minp e) -> pt_finite (maxp e) ->
  (exists ax, In ax axes /\ d_eqb (ax (minp e)) (ax (maxp e)) = true) ->
  rescale (p :: t) e = UB ub_float_to_int.
Proof.
  intros p t e Hp Hm HM (ax & Hax & E). unfold rescale. cbn [mapM]. unfold rescale_point at 1, pt_sub at 1 2 3. cbn [px py pz].
  assert (C : forall a b c, (exists n, rescale1 a b c = Ret n) \/ rescale1 a b c = UB ub_float_to_int)
    by (intros; apply d_cast_cases).
  assert (U : rescale1 (ax p) (d_sub (ax (maxp e)) (ax (minp e))) (ax (minp e)) = UB ub_float_to_int).
  { destruct (axis_finite ax p Hax Hp), (axis_finite ax _ Hax Hm), (axis_finite ax _ Hax HM).
    apply rescale1_flat; auto; try (now split). now apply d_eqb_val. }
  destruct Hax as [<-|[<-|[<-|[]]]]; rewrite ?U; [reflexivity| |].
  - destruct (C (px p) (d_sub (px (maxp e)) (px (minp e))) (px (minp e))) as [[n ->]| ->]; reflexivity.
  - destruct (C (px p) (d_sub (px (maxp e)) (px (minp e))) (px (minp e))) as [[n ->]| ->]; [|reflexivity].
    destruct (C (py p) (d_sub (py (maxp e)) (py (minp e))) (py (minp e))) as [[k ->]| ->]; reflexivity.
Qed.

(** In particular rescaling a one-point cloud to its own extent. *)
Theorem C48_single_point : forall p, pt_finite p -> rescale [p] (get_extent [p]) = UB ub_float_to_int.
Proof.
  intros p Hp. assert (F : Forall pt_finite [p]) by (constructor; auto).
  assert (G : forall ax, In ax axes -> ax (minp (get_extent [p])) = d_min (ax p) d_max
                              /\ ax (maxp (get_extent [p])) = d_max2 (ax p) d_lowest).
  { intros ax [<-|[<-|[<-|[]]]]; split; reflexivity. }
  assert (FF : forall ax, In ax axes -> finite (d_min (ax p) d_max) /\ finite (d_max2 (ax p) d_lowest)).
  { intros ax Hax. destruct (axis_finite ax p Hax Hp).
    destruct (d_min_or (ax p) d_max) as [-> | ->]; destruct (d_max2_or (ax p) d_lowest) as [-> | ->];
      split; split; try assumption; try reflexivity; unfold d_ok, d_lowest, d_max, d_inf, two63, two64; lia. }
  apply C48_flat_undefined.
  - exact Hp.
  - destruct (FF px) as [[] _]; [cbn; tauto|]. destruct (FF py) as [[] _]; [cbn; tauto|].
    destruct (FF pz) as [[] _]; [cbn; tauto|]. repeat split; assumption || apply H || apply H1 || apply H3.
  - destruct (FF px) as [_ []]; [cbn; tauto|]. destruct (FF py) as [_ []]; [cbn; tauto|].
    destruct (FF pz) as [_ []]; [cbn; tauto|]. repeat split; assumption || apply H || apply H1 || apply H3.
  - exists px. split; [now left|].
    destruct (C32_extent_attained [p] px F ltac:(discriminate) (or_introl eq_refl)) as [(a & [<-|[]] & A) (b & [<-|[]] & B)].
    eapply d_eqb_trans; [rewrite d_eqb_sym; exact A|exact B].
Qed.

(** [0.25] between 0 and 1 goes to 2^60, and back. *)
Example C48_example : rescale1 4598175219545276416 (d_sub d_one 0) 0 = Ret (2 ^ 60)
  /\ restore1 (2 ^ 60) (d_sub d_one 0) 0 = 4598175219545276416.
Proof. split; vm_compute; reflexivity. Qed.

Print Assumptions C37_value.
Print Assumptions C37_multiple.
Print Assumptions C37_large_undefined.
Print Assumptions C37_list.
Print Assumptions C37_power_of_two.
Print Assumptions C37_not_idempotent.
Print Assumptions C37_zero_precision.
Print Assumptions C39_value.
Print Assumptions C39_else_undefined.
Print Assumptions C39_zero_at_minimum.
Print Assumptions C39_monotone.
Print Assumptions C39_cloud.
Print Assumptions C39_not_finite.
Print Assumptions C40_own_voxel.
Print Assumptions C40_shape.
Print Assumptions C40_permutation.
Print Assumptions C40_set.
Print Assumptions C48_in_range.
Print Assumptions C48_bounds.
Print Assumptions C48_flat_undefined.
Print Assumptions C48_single_point.
