(** Subsampling (C41, C42) and radius search (C44, C45, C46, C76). *)
From Coq Require Import ZArith List Bool Lia Permutation Sorted.
From Verif.Model Require Import Base Double Arith PointRecord Point Extent Voxel Subsampling RadiusSearch.
From Verif.Spec Require Import Sampling.
From Verif.Proofs Require Import BaseFacts OrderFacts VoxelFacts SubsampleFacts RadiusFacts.
Import ListNotations.
Open Scope Z_scope.

(** ** C41: one point per occupied voxel *)

Lemma subsample_shape : forall sh p res seed vs, permutes sh -> get_voxel_indexes p res = Ret vs ->
  zlen vs = zlen p
  /\ get_subsample_indexes sh p res seed
     = Ret (firsts (same_of vox_eqb vs) [] (visit_order sh (length p) seed)).
Proof.
  intros sh p res seed vs Hsh E.
  assert (L : zlen vs = zlen p).
  { unfold get_voxel_indexes, get_voxel_indexes_ext in E. apply mapM_Ret_inv in E. symmetry. eapply Forall2_len. exact E. }
  split; [exact L|]. unfold get_subsample_indexes. rewrite E. cbn [bind]. apply subsample_loop_firsts; [|reflexivity].
  cbn [app]. intros i I. apply visit_order_In in I; [|exact Hsh]. unfold zlen in *. lia.
Qed.

(** It fails only if the voxels of the cloud cannot be computed (C39). *)
Theorem C41_succeeds : forall sh p res seed, permutes sh ->
  ((exists r, get_subsample_indexes sh p res seed = Ret r) <-> exists vs, get_voxel_indexes p res = Ret vs).
Proof.
  intros sh p res seed Hsh. split.
  - intros [r H]. unfold get_subsample_indexes in H. apply bind_Ret_inv in H as (vs & E & _). eauto.
  - intros [vs E]. destruct (subsample_shape sh p res seed vs Hsh E) as [_ ->]. eauto.
Qed.

Theorem C41_one_per_voxel : forall sh p res seed vs r, permutes sh ->
  get_voxel_indexes p res = Ret vs -> get_subsample_indexes sh p res seed = Ret r ->
  NoDup r
  /\ (forall i, In i r -> 0 <= i < zlen p)
  /\ (forall i j, In i r -> In j r -> znth vs i = znth vs j -> i = j)
  /\ (forall j, 0 <= j < zlen p -> exists i, In i r /\ znth vs i = znth vs j).
Proof.
  intros sh p res seed vs r Hsh E H.
  destruct (subsample_shape sh p res seed vs Hsh E) as [L H']. rewrite H' in H. injection H as <-.
  set (idx := visit_order sh (length p) seed).
  assert (V : forall i, In i (firsts (same_of vox_eqb vs) [] idx) -> 0 <= i < zlen p).
  { intros i I. apply firsts_In_inv in I as [[]|I]. now apply visit_order_In in I. }
  split; [apply firsts_nodup; cbn; now apply visit_order_nodup|]. split; [exact V|]. split.
  - intros i j I J Eij.
    assert (A : apart (same_of vox_eqb vs) (firsts (same_of vox_eqb vs) [] idx)) by (apply firsts_apart; constructor).
    destruct (znth_in_range vs i ltac:(rewrite L; auto)) as [a Ha].
    assert (S : forall x y, znth vs x = Some a -> znth vs y = Some a -> same_of vox_eqb vs x y = true).
    { intros x y Hx Hy. unfold same_of. rewrite Hx, Hy. now destruct (vox_eqb_spec a a). }
    destruct (FOP_In _ _ i j A I J) as [?|[X|X]]; [assumption| |]; rewrite S in X; congruence.
  - intros j Hj. destruct (firsts_represented (same_of vox_eqb vs) idx [] j) as [I|(i & I & S)].
    + now apply visit_order_In.
    + eauto.
    + exists i. split; [exact I|]. unfold same_of in S. destruct (znth vs i), (znth vs j); try discriminate.
      destruct (vox_eqb_spec v v0); congruence.
Qed.

(** Seed 0: the first point of each voxel, in order. *)
Theorem C41_seed_zero : forall sh p res vs r,
  get_voxel_indexes p res = Ret vs -> get_subsample_indexes sh p res 0 = Ret r ->
  StronglySorted Z.lt r
  /\ forall i, In i r <-> 0 <= i < zlen p /\ forall j, 0 <= j < i -> znth vs j <> znth vs i.
Proof.
  intros sh p res vs r E H.
  assert (L : zlen vs = zlen p).
  { unfold get_voxel_indexes, get_voxel_indexes_ext in E. apply mapM_Ret_inv in E. symmetry. eapply Forall2_len. exact E. }
  unfold get_subsample_indexes, visit_order in H. cbn [Z.eqb] in H. rewrite E in H. cbn [bind] in H.
  rewrite subsample_loop_firsts in H;
    [|cbn [app]; intros i I; apply iota_In in I; unfold zlen in *; lia|reflexivity].
  injection H as <-. split.
  - destruct (firsts_sub (same_of vox_eqb vs) (iota (length p)) []) as (m & -> & S). cbn [app].
    eapply sub_sorted; [exact S|apply iota_sorted].
  - intros i. rewrite firsts_sorted; [|apply iota_sorted| |].
    + rewrite iota_In. unfold zlen in *. split.
      * intros [I A]. split; [exact I|]. intros j J Eq.
        destruct (znth_in_range vs i ltac:(unfold zlen; lia)) as [a Ha].
        specialize (A j ltac:(apply iota_In; lia) ltac:(lia)). unfold same_of in A. rewrite Eq, Ha in A.
        destruct (vox_eqb_spec a a); congruence.
      * intros [I A]. split; [exact I|]. intros j J K. apply iota_In in J. specialize (A j ltac:(lia)).
        unfold same_of. destruct (znth vs j), (znth vs i); try reflexivity.
        destruct (vox_eqb_spec v v0); congruence.
    + intros a b. unfold same_of. destruct (znth vs a), (znth vs b); try reflexivity.
      destruct (vox_eqb_spec v v0), (vox_eqb_spec v0 v); congruence.
    + intros a b c. unfold same_of. destruct (znth vs a), (znth vs b), (znth vs c); try discriminate.
      destruct (vox_eqb_spec v v0), (vox_eqb_spec v0 v1); try discriminate. subst.
      now destruct (vox_eqb_spec v1 v1).
Qed.

(** The points kept are the ones at those indexes. *)
Theorem C41_points : forall A (loc : A -> point) sh p res seed q,
  subsample_points loc sh p res seed = Ret q
  <-> exists r, get_subsample_indexes sh (map loc p) res seed = Ret r /\ map Some q = map (znth p) r.
Proof.
  intros A loc sh p res seed q. unfold subsample_points.
  assert (G : forall r l, mapM (vec_get p) r = Ret l <-> map Some l = map (znth p) r).
  { induction r as [|i r IH]; intros l; cbn.
    - split; [now intros [= <-]|]. intros H. now destruct l.
    - unfold vec_get at 1. destruct (znth p i) as [a|]; cbn.
      + split.
        * intros H. apply bind_Ret_inv in H as (t & E & H). injection H as <-. cbn. f_equal. now apply IH.
        * intros H. destruct l as [|b l]; [discriminate|]. injection H as -> H. apply IH in H. now rewrite H.
      + split; [discriminate|]. destruct l; discriminate. }
  split.
  - intros H. apply bind_Ret_inv in H as (r & E & H). exists r. split; [exact E|]. now apply G.
  - intros (r & E & H). rewrite E. cbn [bind]. now apply G.
Qed.

(** Three points on a line, 0, 0.25 and 1, at resolution 0.5. *)
Definition line3 : list point := [mk_pt 0 0 0; mk_pt 4598175219545276416 0 0; mk_pt d_one 0 0].
Example C41_example :
  get_subsample_indexes (fun _ l => rev l) line3 4602678819172646912 0 = Ret [0; 2]
  /\ get_subsample_indexes (fun _ l => rev l) line3 4602678819172646912 7 = Ret [2; 1]
  /\ permutes (fun _ l => rev l).
Proof.
  split; [vm_compute; reflexivity|]. split; [vm_compute; reflexivity|].
  intros s l. symmetry. apply Permutation_rev.
Qed.

(** ** C42: one point per location *)

Lemma unique_shape : forall sh p seed, permutes sh ->
  get_unique_xyz_indexes sh p seed = Ret (firsts (same_of pt_eqb p) [] (visit_order sh (length p) seed)).
Proof.
  intros sh p seed Hsh. unfold get_unique_xyz_indexes. apply unique_loop_firsts; [|reflexivity].
  cbn [app]. intros i I. apply visit_order_In in I; [|exact Hsh]. unfold zlen. lia.
Qed.

Lemma same_pt_sym : forall p i j, same_of pt_eqb p i j = same_of pt_eqb p j i.
Proof. intros p i j. unfold same_of. destruct (znth p i), (znth p j); try reflexivity. apply pt_eqb_sym. Qed.

(** It never fails; the result does not depend on anything but the visiting
    order. *)
Theorem C42_one_per_location : forall sh p seed, permutes sh ->
  exists r, get_unique_xyz_indexes sh p seed = Ret r
  /\ NoDup r
  /\ (forall i, In i r -> 0 <= i < zlen p)
  /\ (forall i j a b, In i r -> In j r -> i <> j -> znth p i = Some a -> znth p j = Some b -> pt_eqb a b = false)
  /\ (forall j b, znth p j = Some b ->
        In j r \/ exists i a, In i r /\ znth p i = Some a /\ pt_eqb a b = true).
Proof.
  intros sh p seed Hsh. rewrite unique_shape by exact Hsh. eexists. split; [reflexivity|].
  set (idx := visit_order sh (length p) seed).
  split; [apply firsts_nodup; cbn; now apply visit_order_nodup|]. split; [|split].
  - intros i I. apply firsts_In_inv in I as [[]|I]. now apply visit_order_In in I.
  - intros i j a b I J N Ha Hb.
    assert (A : apart (same_of pt_eqb p) (firsts (same_of pt_eqb p) [] idx)) by (apply firsts_apart; constructor).
    destruct (FOP_In _ _ i j A I J) as [?|[X|X]]; [contradiction| |]; [|rewrite same_pt_sym in X];
      unfold same_of in X; now rewrite Ha, Hb in X.
  - intros j b Hb. destruct (firsts_represented (same_of pt_eqb p) idx [] j) as [I|(i & I & S)].
    + apply visit_order_In; [exact Hsh|]. now apply znth_Some_range in Hb.
    + now left.
    + right. unfold same_of in S. destruct (znth p i) as [a|] eqn:Ha; [|discriminate]. rewrite Hb in S. eauto.
Qed.

(** A location with a NaN equals nothing, so all of those stay. *)
Theorem C42_nan_kept : forall sh p seed r j b, permutes sh -> get_unique_xyz_indexes sh p seed = Ret r ->
  znth p j = Some b -> pt_eqb b b = false -> In j r.
Proof.
  intros sh p seed r j b Hsh H Hb N. rewrite unique_shape in H by exact Hsh. injection H as <-.
  apply firsts_alone.
  - apply visit_order_In; [exact Hsh|]. now apply znth_Some_range in Hb.
  - intros i _. unfold same_of. rewrite Hb. destruct (znth p i) as [a|]; [|reflexivity].
    destruct (pt_eqb a b) eqn:E; [|reflexivity].
    assert (pt_eqb b b = true); [|congruence]. eapply pt_eqb_trans; [rewrite pt_eqb_sym; exact E|exact E].
Qed.

Theorem C42_seed_zero : forall sh p r, get_unique_xyz_indexes sh p 0 = Ret r ->
  StronglySorted Z.lt r
  /\ forall i b, znth p i = Some b ->
       (In i r <-> forall j a, 0 <= j < i -> znth p j = Some a -> pt_eqb a b = false).
Proof.
  intros sh p r H. unfold get_unique_xyz_indexes, visit_order in H. cbn [Z.eqb] in H.
  rewrite unique_loop_firsts in H; [|cbn [app]; intros i I; apply iota_In in I; unfold zlen; lia|reflexivity].
  injection H as <-. split.
  - destruct (firsts_sub (same_of pt_eqb p) (iota (length p)) []) as (m & -> & S). cbn [app].
    eapply sub_sorted; [exact S|apply iota_sorted].
  - intros i b Hb. pose proof (znth_Some_range _ _ _ Hb) as R. rewrite firsts_sorted; [|apply iota_sorted| |].
    + rewrite iota_In. unfold zlen in R. split.
      * intros [_ A] j a J Ha. specialize (A j ltac:(apply iota_In; lia) ltac:(lia)). unfold same_of in A.
        now rewrite Ha, Hb in A.
      * intros A. split; [exact R|]. intros j J K. apply iota_In in J. unfold same_of. rewrite Hb.
        destruct (znth p j) as [a|] eqn:Ha; [|reflexivity]. apply (A j); [lia|exact Ha].
    + intros. apply same_pt_sym.
    + intros x y z. unfold same_of. destruct (znth p x), (znth p y), (znth p z); try discriminate.
      apply pt_eqb_trans.
Qed.

(** 0 and -0 are one location; two NaN points are two. *)
Example C42_example :
  get_unique_xyz_indexes (fun _ l => rev l)
    [mk_pt 0 0 0; mk_pt 9223372036854775808 0 0; mk_pt d_one 0 0; mk_pt 9221120237041090560 0 0;
     mk_pt 9221120237041090560 0 0; mk_pt d_one 0 0] 0 = Ret [0; 2; 3; 4].
Proof. vm_compute. reflexivity. Qed.

(** ** C44: the random selector *)

(** For every voxel map: [n] calls return the first [n] elements of an
    arrangement of all the indexes in the 27 voxels. *)
Theorem C44_draws : forall rand vim ijk s n, rand_ok rand ->
  selector_ctor ijk vim = Ret s -> 0 <= n <= total_points_left s ->
  exists js s' rest, draws (Z.to_nat n) rand vim s = Ret (js, s')
    /\ total_points_left s' = total_points_left s - n
    /\ zlen js = n
    /\ Permutation (js ++ rest)
         (flat_map (fun v => match map_find v vim with Some l => l | None => [] end) (voxel_indexes s)).
Proof.
  intros rand vim ijk s n R H B.
  assert (exists vs, surrounding ijk = Ret vs) as [vs Hv].
  { unfold selector_ctor in H. apply bind_Ret_inv in H as (vs & E & _). eauto. }
  destruct (selector_ctor_ok vim ijk vs Hv) as (s0 & E0 & V0 & I0 & R0). rewrite E0 in H. injection H as <-.
  destruct (draws_ok rand vim R (Z.to_nat n) s0 I0 ltac:(lia)) as (js & s' & D & _ & L & T & P).
  exists js, s', (remaining vim (voxel_indexes s') (voxel_counts s')). split; [exact D|].
  split; [lia|]. split; [unfold zlen; lia|]. rewrite <- P, R0. rewrite V0. reflexivity.
Qed.

(** Drawing until nothing is left gives every index of the 27 voxels once. *)
Theorem C44_exhaustive : forall rand nvi ijk s, rand_ok rand ->
  selector_ctor ijk (get_voxel_index_map nvi) = Ret s ->
  length (voxel_indexes s) = 27%nat /\ NoDup (voxel_indexes s)
  /\ exists js s', draws (Z.to_nat (total_points_left s)) rand (get_voxel_index_map nvi) s = Ret (js, s')
     /\ total_points_left s' = 0 /\ zlen js = total_points_left s /\ NoDup js
     /\ forall j, In j js <-> exists v, In v (voxel_indexes s) /\ znth nvi j = Some v.
Proof.
  intros rand nvi ijk s R H.
  assert (exists vs, surrounding ijk = Ret vs) as [vs Hv].
  { unfold selector_ctor in H. apply bind_Ret_inv in H as (vs & E & _). eauto. }
  set (vim := get_voxel_index_map nvi) in *.
  destruct (selector_ctor_ok vim ijk vs Hv) as (s0 & E0 & V0 & I0 & R0). rewrite E0 in H. injection H as <-.
  destruct (surrounding_27 _ _ Hv) as [N27 L27]. rewrite V0. split; [exact L27|]. split; [exact N27|].
  assert (T : 0 <= total_points_left s0).
  { rewrite (inv_total _ _ I0), <- (remaining_length _ _ _ (inv_counts _ _ I0)). apply zlen_nonneg. }
  destruct (draws_ok rand vim R (Z.to_nat (total_points_left s0)) s0 I0 ltac:(lia)) as (js & s' & D & I' & L & T' & P).
  assert (Z0 : remaining vim (voxel_indexes s') (voxel_counts s') = []).
  { apply zlen_zero_nil. rewrite (remaining_length _ _ _ (inv_counts _ _ I')), <- (inv_total _ _ I'). lia. }
  rewrite Z0, app_nil_r, R0 in P.
  exists js, s'. split; [exact D|]. split; [lia|]. split; [unfold zlen; lia|]. split.
  - eapply Permutation_NoDup; [exact P|]. now apply bag_nodup.
  - intros j. rewrite <- (bag_In nvi vs j). split; apply Permutation_in; [symmetry|]; exact P.
Qed.

(** The 27 voxels are the touching ones, as long as the voxel numbers fit an
    [int]. *)
Theorem C44_touching : forall vim ijk, vox_int ijk ->
  exists s, selector_ctor ijk vim = Ret s
  /\ forall v, vox_int v -> (In v (voxel_indexes s) <-> near ijk v).
Proof.
  intros vim ijk H. destruct (surrounding_near ijk H) as (vs & E & N).
  destruct (selector_ctor_ok vim ijk vs E) as (s & Es & Ev & _). exists s. split; [exact Es|]. now rewrite Ev.
Qed.

(** Beyond, it is undefined for the voxel numbers next to the limits of [int]
    and aliases small ones further on. *)
Theorem C44_int_limits : forall vim i j k, 0 <= i < two64 ->
  (In (i mod two32) [two31 - 2; two31 - 1; two31] ->
     selector_ctor (mk_vox i j k) vim = UB ub_int_overflow)
  /\ selector_ctor (mk_vox i j k) vim = selector_ctor (mk_vox (i mod two32) j k) vim.
Proof.
  intros vim i j k Hi. unfold selector_ctor, surrounding. cbn [vi vj vk]. split.
  - intros I. assert (E : axis_range i = UB ub_int_overflow).
    { unfold axis_range, to_i32, to_u32. cbn [In] in I.
      destruct I as [<-|[<-|[<-|[]]]]; reflexivity. }
    rewrite E. reflexivity.
  - assert (E : axis_range i = axis_range (i mod two32)).
    { unfold axis_range, to_i32, to_u32. rewrite Z.mod_mod by (unfold two32; lia). reflexivity. }
    rewrite E. reflexivity.
Qed.

(** Calling it when nothing is left is undefined. *)
Theorem C44_exhausted : forall rand vim s, total_points_left s = 0 -> draw rand vim s = UB ub_index.
Proof. intros rand vim s H. unfold draw. now rewrite H. Qed.

(** Two voxels, three points; the real generator. *)
Definition vox3 : list voxel_index := [mk_vox 1 0 0; mk_vox 0 0 0; mk_vox 1 0 0].
Example C44_example :
  match selector_ctor (mk_vox 0 0 0) (get_voxel_index_map vox3) with
  | Ret s => total_points_left s = 3 /\
      match draws 3 minstd_rand (get_voxel_index_map vox3) s with
      | Ret (js, s') => js = [1; 2; 0] /\ total_points_left s' = 0
      | _ => False
      end
  | _ => False
  end.
Proof. vm_compute. repeat split. Qed.

Lemma minstd_rand_ok : rand_ok minstd_rand.
Proof.
  intros s n. unfold minstd_rand. cbn [minstd_state]. apply Z.mod_pos_bound. lia.
Qed.

(** ** C76: which voxel a draw picks *)

Lemma choose_app : forall pre n post c0 cum r, Forall (fun x => 0 <= x) pre -> 0 < n ->
  (choose (pre ++ n :: post) c0 cum r = Ret (c0 + zlen pre)
   <-> r <= cum + zsum pre + n /\ (zsum pre = 0 \/ cum + zsum pre < r)).
Proof.
  induction pre as [|x pre IH]; intros n post c0 cum r F P.
  - cbn [app choose]. rewrite zlen_nil, Z.add_0_r. change (zsum []) with 0.
    destruct ((n =? 0) || (cum + n <? r)) eqn:E.
    + split.
      * intros H. exfalso. revert H.
        assert (G : forall l c1 cu, c0 < c1 -> choose l c1 cu r <> Ret c0).
        { induction l as [|y l IHl]; intros c1 cu L; cbn [choose]; [discriminate|].
          destruct ((y =? 0) || (cu + y <? r)); [apply IHl; lia|]. intros [= ->]. lia. }
        apply G. lia.
      * apply orb_true_iff in E. rewrite Z.eqb_eq, Z.ltb_lt in E. lia.
    + apply orb_false_iff in E. rewrite Z.eqb_neq, Z.ltb_ge in E. split; [lia|reflexivity].
  - inversion F as [|? ? Px Fp]; subst. cbn [app choose]. rewrite zlen_cons, zsum_cons.
    assert (Sp : 0 <= zsum pre) by (clear - Fp; induction Fp; [cbn; lia|rewrite zsum_cons; lia]).
    destruct ((x =? 0) || (cum + x <? r)) eqn:E.
    + replace (c0 + (1 + zlen pre)) with (c0 + 1 + zlen pre) by lia. rewrite IH by assumption.
      apply orb_true_iff in E. rewrite Z.eqb_eq, Z.ltb_lt in E. lia.
    + apply orb_false_iff in E. rewrite Z.eqb_neq, Z.ltb_ge in E. split.
      * intros H. assert (c0 = c0 + (1 + zlen pre)) by congruence. pose proof (zlen_nonneg pre). lia.
      * lia.
Qed.

Lemma count_range : forall (P : Z -> bool) lo hi N, 0 <= lo ->
  (forall r, 0 <= r -> (P r = true <-> lo <= r <= hi)) ->
  zlen (filter P (iota N)) = Z.max 0 (Z.min (hi + 1) (Z.of_nat N) - lo).
Proof.
  intros P lo hi N L H. induction N as [|N IH].
  - cbn. unfold zlen. cbn. lia.
  - unfold iota in *. rewrite seq_S, map_app, filter_app, zlen_app, IH. cbn [map filter Nat.add].
    destruct (P (Z.of_nat N)) eqn:E.
    + apply H in E; [|lia]. unfold zlen. cbn. lia.
    + assert (~ lo <= Z.of_nat N <= hi) by (rewrite <- H by lia; congruence). unfold zlen. cbn. lia.
Qed.

(** Of the [total] equally likely numbers, a voxel with [n] points left is
    picked by [n], plus one if it is the first non-empty voxel, minus one if it
    is the last. *)
Theorem C76_not_uniform : forall pre n post, Forall (fun x => 0 <= x) pre -> Forall (fun x => 0 <= x) post -> 0 < n ->
  let counts := pre ++ n :: post in
  let total := fold_right Z.add 0 counts in
  zlen (filter (fun r => match choose counts 0 0 r with Ret c => c =? zlen pre | _ => false end) (iota (Z.to_nat total)))
  = n + (if forallb (Z.eqb 0) pre then 1 else 0) - (if forallb (Z.eqb 0) post then 1 else 0).
Proof.
  intros pre n post Fp Fq P counts total.
  assert (Z0 : forall l, Forall (fun x => 0 <= x) l -> 0 <= zsum l /\ (forallb (Z.eqb 0) l = true <-> zsum l = 0)).
  { induction 1 as [|x l Px Fl [IH1 IH2]]; [cbn; split; [lia|tauto]|]. rewrite zsum_cons. split; [lia|].
    cbn [forallb]. rewrite andb_true_iff, IH2, Z.eqb_eq. lia. }
  destruct (Z0 _ Fp) as [Sp Ep]. destruct (Z0 _ Fq) as [Sq Eq].
  assert (T : total = zsum pre + n + zsum post).
  { unfold total, counts. fold (zsum (pre ++ n :: post)). clear. induction pre as [|x l IH]; cbn [app].
    - rewrite zsum_cons. cbn. lia.
    - rewrite !zsum_cons, IH. lia. }
  rewrite (count_range _ (if zsum pre =? 0 then 0 else zsum pre + 1)
             (zsum pre + n)).
  2: { destruct (zsum pre =? 0); lia. }
  - rewrite Z2Nat.id by lia.
    replace (forallb (Z.eqb 0) pre) with (zsum pre =? 0) by (apply eq_true_iff_eq; rewrite Ep, Z.eqb_eq; tauto).
    replace (forallb (Z.eqb 0) post) with (zsum post =? 0) by (apply eq_true_iff_eq; rewrite Eq, Z.eqb_eq; tauto).
    destruct (Z.eqb_spec (zsum pre) 0), (Z.eqb_spec (zsum post) 0); lia.
  - intros r Hr. pose proof (choose_app pre n post 0 0 r Fp P) as C. rewrite !Z.add_0_l in C. fold counts in C.
    assert (M : (match choose counts 0 0 r with Ret c => c =? zlen pre | _ => false end) = true
                <-> choose counts 0 0 r = Ret (zlen pre)).
    { destruct (choose counts 0 0 r); try (split; discriminate). rewrite Z.eqb_eq. split; [now intros ->|now intros [= ->]]. }
    rewrite M, C. destruct (Z.eqb_spec (zsum pre) 0); lia.
Qed.

(** In particular a voxel that is the last non-empty one, has one point left
    and is not the only one, is never picked. *)
Theorem C76_never_picked : forall rand vim s pre post c,
  rand_ok rand -> voxel_counts s = pre ++ 1 :: post -> c = zlen pre ->
  total_points_left s = fold_right Z.add 0 (voxel_counts s) ->
  Forall (fun x => 0 <= x) pre -> Forall (fun x => x = 0) post -> Exists (fun x => 0 < x) pre ->
  forall j s', draw rand vim s = Ret (j, s') -> znth (voxel_counts s') c = Some 1.
Proof.
  intros rand vim s pre post c R E -> T Fp Fq X j s' D.
  assert (Sq : zsum post = 0) by (clear - Fq; induction Fq; [reflexivity|rewrite zsum_cons; lia]).
  assert (Sp : 0 < zsum pre).
  { clear - Fp X. induction X as [x l Px|x l X IH]; inversion Fp; subst; rewrite zsum_cons.
    - assert (0 <= zsum l) by (match goal with H : Forall _ l |- _ => clear - H; induction H; [cbn; lia|rewrite zsum_cons; lia] end). lia.
    - specialize (IH ltac:(assumption)). lia. }
  assert (Tt : total_points_left s = zsum pre + 1).
  { rewrite T, E. fold (zsum (pre ++ 1 :: post)). clear - Sq. induction pre as [|x l IH]; cbn [app].
    - rewrite zsum_cons, Sq. cbn. lia.
    - rewrite !zsum_cons. lia. }
  unfold draw in D. replace (total_points_left s =? 0) with false in D by (symmetry; apply Z.eqb_neq; lia).
  set (r := rand (rng_seed s) (rng_calls s) mod total_points_left s) in D.
  assert (Rr : 0 <= r < total_points_left s) by (apply Z.mod_pos_bound; lia).
  apply bind_Ret_inv in D as (k & Ck & D).
  assert (Nk : k <> zlen pre).
  { intros ->. rewrite E in Ck. pose proof (proj1 (choose_app pre 1 post 0 0 r Fp ltac:(lia))) as C.
    rewrite !Z.add_0_l in C. specialize (C Ck). lia. }
  apply bind_Ret_inv in D as (v & Hv & D). destruct (map_find v vim) as [e|]; [|discriminate].
  apply bind_Ret_inv in D as (n & Hn & D). apply bind_Ret_inv in D as (j' & Hj & D).
  apply bind_Ret_inv in D as (cs & Hs & D). injection D as _ <-. cbn [voxel_counts].
  assert (H1 : znth (voxel_counts s) (zlen pre) = Some 1).
  { rewrite E, znth_app_r by lia. now rewrite Z.sub_diag. }
  unfold vec_set in Hs. destruct (zset (voxel_counts s) k (n - 1)) as [cs'|] eqn:Z; [|discriminate]. injection Hs as <-.
  clear - Z H1 Nk. revert k cs' Z Nk H1. generalize (zlen pre) as c. induction (voxel_counts s) as [|x l IH]; intros c k cs' Z Nk H1; [discriminate|].
  cbn [zset znth] in *. destruct (Z.eqb_spec k 0).
  - injection Z as <-. cbn [znth]. destruct (Z.eqb_spec c 0); [lia|]. exact H1.
  - destruct (k <? 0); [discriminate|]. destruct (zset l (k - 1) (n - 1)) as [l'|] eqn:Z'; [|discriminate].
    injection Z as <-. cbn [znth]. destruct (c =? 0); [exact H1|]. destruct (c <? 0); [discriminate|].
    eapply IH; eauto. lia.
Qed.

Example C76_example :
  map (choose [2; 0; 3; 1] 0 0) (iota 6) = [Ret 0; Ret 0; Ret 0; Ret 2; Ret 2; Ret 2].
Proof. reflexivity. Qed.

(** ** C45, C46: radius search *)

Lemma voxels_of_ret : forall points is res vs, get_voxel_indexes_of points is res = Ret vs ->
  zlen vs = zlen is
  /\ forall i v, znth vs i = Some v -> exists a p, znth is i = Some a /\ znth points a = Some p
       /\ get_voxel_index p (minp (get_extent points)) res = Ret v.
Proof.
  intros points is res vs H. unfold get_voxel_indexes_of in H. apply mapM_Ret_inv in H. split.
  - symmetry. eapply Forall2_len. exact H.
  - intros i v Hv. destruct (Forall2_znth_r _ _ _ _ _ H Hv) as (a & Ha & G).
    apply bind_Ret_inv in G as (p & Gp & G). apply vec_get_znth in Gp. eauto.
Qed.

Definition within (points : list point) (pis nis : list Z) (radius : double) (i j : Z) : Prop :=
  exists a b p q, znth pis i = Some a /\ znth points a = Some p /\ znth nis j = Some b
    /\ znth points b = Some q /\ d_leb (distance p q) radius = true.

Definition ok_of (points : list point) (pis nis : list Z) (radius : double) (i j : Z) : bool :=
  match close_enough points pis nis radius i j with Ret b => b | _ => false end.

Lemma ok_within : forall points pis nis radius i j,
  ok_of points pis nis radius i j = true <-> within points pis nis radius i j.
Proof.
  intros points pis nis radius i j. unfold ok_of, within, close_enough, vec_get.
  destruct (znth pis i) as [a|] eqn:Ea; cbn [bind].
  2: { split; [discriminate|]. intros (a & b & p & q & X & _); discriminate. }
  destruct (znth points a) as [p|] eqn:Ep; cbn [bind].
  2: { split; [discriminate|]. intros (a' & b & p & q & [= <-] & X & _); congruence. }
  destruct (znth nis j) as [b|] eqn:Eb; cbn [bind].
  2: { split; [discriminate|]. intros (a' & b & p' & q & _ & _ & X & _); discriminate. }
  destruct (znth points b) as [q|] eqn:Eq; cbn [bind].
  2: { split; [discriminate|]. intros (a' & b' & p' & q & _ & _ & [= <-] & X & _); congruence. }
  split.
  - intros D. exists a, b, p, q. split; [reflexivity|]. split; [exact Ep|]. split; [reflexivity|].
    split; [exact Eq|exact D].
  - intros (a' & b' & p' & q' & [= <-] & X & [= <-] & Y & D).
    rewrite Ep in X. injection X as <-. rewrite Eq in Y. injection Y as <-. exact D.
Qed.

Lemma close_total : forall points pis nis radius res pvi nvi i j,
  get_voxel_indexes_of points pis res = Ret pvi -> get_voxel_indexes_of points nis res = Ret nvi ->
  0 <= i < zlen pvi -> 0 <= j < zlen nvi ->
  close_enough points pis nis radius i j = Ret (ok_of points pis nis radius i j).
Proof.
  intros points pis nis radius res pvi nvi i j Hp Hn Hi Hj.
  apply voxels_of_ret in Hp as [_ Hp]. apply voxels_of_ret in Hn as [_ Hn].
  destruct (znth_in_range _ _ Hi) as [v Hv]. destruct (znth_in_range _ _ Hj) as [w Hw].
  destruct (Hp _ _ Hv) as (a & p & A & P & _). destruct (Hn _ _ Hw) as (b & q & B & Q & _).
  assert (E : exists r, close_enough points pis nis radius i j = Ret r).
  { unfold close_enough, vec_get. rewrite A. cbn [bind]. rewrite P. cbn [bind]. rewrite B. cbn [bind].
    rewrite Q. cbn [bind]. eexists. reflexivity. }
  destruct E as [r E]. unfold ok_of. rewrite E. reflexivity.
Qed.

(** What one call reports. *)
Lemma neighbors_of : forall rand points pis nis radius max pvi nvi i ns, rand_ok rand -> 0 <= max ->
  get_voxel_indexes_of points pis radius = Ret pvi -> get_voxel_indexes_of points nis radius = Ret nvi ->
  0 <= i < zlen pvi ->
  get_neighbors rand i points pis nis pvi (get_voxel_index_map nvi) radius max = Ret ns ->
  NoDup ns /\ zlen ns <= max
  /\ (forall j, In j ns -> 0 <= j < zlen nis /\ within points pis nis radius i j)
  /\ (zlen ns < max -> exists ijk vs, znth pvi i = Some ijk /\ surrounding ijk = Ret vs
        /\ forall j w, znth nvi j = Some w -> In w vs -> within points pis nis radius i j -> In j ns).
Proof.
  intros rand points pis nis radius max pvi nvi i ns R Pm Hp Hn Hi H.
  pose proof (proj1 (voxels_of_ret _ _ _ _ Hn)) as Ln.
  destruct (Z.eq_dec max 0) as [->|Nz].
  - unfold get_neighbors in H. cbn [Z.eqb] in H. injection H as <-. rewrite zlen_nil. split; [constructor|]. split; [lia|]. split; [intros ? []|lia].
  - destruct (znth_in_range _ _ Hi) as [ijk Hijk].
    assert (exists vs, surrounding ijk = Ret vs) as [vs Hs].
    { unfold get_neighbors in H. replace (max =? 0) with false in H by (symmetry; apply Z.eqb_neq; lia).
      unfold vec_get in H. rewrite Hijk in H. cbn [bind] in H. apply bind_Ret_inv in H as (s & Hs & _).
      unfold selector_ctor in Hs. apply bind_Ret_inv in Hs as (vs & E & _). eauto. }
    destruct (get_neighbors_ok rand i points pis nis pvi nvi radius max ijk vs (ok_of points pis nis radius i)
                R ltac:(lia) Hijk Hs) as (drawn & rest & G & P & L & Q).
    { intros j Hj. eapply close_total; eassumption. }
    rewrite G in H. injection H as <-.
    assert (N : NoDup (drawn ++ rest)).
    { eapply Permutation_NoDup; [exact P|]. apply bag_nodup. now apply surrounding_27 in Hs. }
    assert (B : forall j, In j drawn -> exists v, In v vs /\ znth nvi j = Some v).
    { intros j J. apply bag_In. eapply Permutation_in; [symmetry; exact P|]. apply in_or_app. now left. }
    split; [|split; [exact L|split]].
    + apply NoDup_filter. clear - N. induction drawn as [|x l IH]; [constructor|]. cbn in N. inversion N; subst.
      constructor; [|auto]. intros I. apply H1. apply in_or_app. now left.
    + intros j J. apply filter_In in J as [J O]. split; [|now apply ok_within].
      destruct (B _ J) as (v & _ & Hv). apply znth_Some_range in Hv. lia.
    + intros Lt. exists ijk, vs. split; [exact Hijk|]. split; [exact Hs|]. intros j w Hw Iw W.
      destruct Q as [->|Q]; [|lia]. rewrite app_nil_r in P. apply filter_In. split; [|now apply ok_within].
      eapply Permutation_in; [exact P|]. apply bag_In. eauto.
Qed.

Lemma radius_search_calls : forall rand points pis nis radius max calls,
  radius_search rand points pis nis radius max = Ret calls ->
  exists pvi nvi, get_voxel_indexes_of points pis radius = Ret pvi /\ get_voxel_indexes_of points nis radius = Ret nvi
    /\ map fst calls = iota (length pis)
    /\ forall i ns, In (i, ns) calls -> 0 <= i < zlen pvi
         /\ get_neighbors rand i points pis nis pvi (get_voxel_index_map nvi) radius max = Ret ns.
Proof.
  intros rand points pis nis radius max calls H. unfold radius_search in H.
  apply bind_Ret_inv in H as (pvi & Hp & H). apply bind_Ret_inv in H as (nvi & Hn & H).
  exists pvi, nvi. split; [exact Hp|]. split; [exact Hn|]. apply mapM_Ret_inv in H.
  pose proof (proj1 (voxels_of_ret _ _ _ _ Hp)) as L.
  assert (E : length pvi = length pis) by (unfold zlen in L; lia).
  rewrite <- E. split.
  - clear - H. induction H as [|x [y ns] lx ly Hxy H IH]; [reflexivity|]. cbn. f_equal; [|exact IH].
    apply bind_Ret_inv in Hxy as (z & _ & Hz). now injection Hz as ->.
  - intros i ns I.
    assert (G : exists x, In x (iota (length pvi)) /\
      bind (get_neighbors rand x points pis nis pvi (get_voxel_index_map nvi) radius max)
           (fun ns => Ret (x, ns)) = Ret (i, ns)).
    { clear - H I. induction H as [|x y lx ly Hxy H IH]; [destruct I|].
      destruct I as [->|I]; [exists x; split; [now left|exact Hxy]|].
      destruct (IH I) as (z & Iz & Hz). exists z. split; [now right|exact Hz]. }
    destruct G as (x & Ix & G). apply bind_Ret_inv in G as (z & Gz & G). injection G as -> ->.
    apply iota_In in Ix. unfold zlen. split; [lia|exact Gz].
Qed.

(** The callback is called once per point, with the point's position; the
    positions it receives are distinct, at most [max_neighbors], valid, and of
    points within the radius. *)
Theorem C45_sound : forall rand points pis nis radius max calls, rand_ok rand -> 0 <= max ->
  radius_search rand points pis nis radius max = Ret calls ->
  map fst calls = map Z.of_nat (seq 0 (length pis))
  /\ forall i ns, In (i, ns) calls ->
       NoDup ns /\ zlen ns <= max
       /\ forall j, In j ns -> 0 <= j < zlen nis
            /\ exists a b p q, znth pis i = Some a /\ znth points a = Some p /\ znth nis j = Some b
                 /\ znth points b = Some q /\ d_leb (distance p q) radius = true.
Proof.
  intros rand points pis nis radius max calls R Pm H.
  destruct (radius_search_calls _ _ _ _ _ _ _ H) as (pvi & nvi & Hp & Hn & F & C).
  split; [exact F|]. intros i ns I. destruct (C _ _ I) as [Bi G].
  destruct (neighbors_of rand points pis nis radius max pvi nvi i ns R Pm Hp Hn Bi G) as (A1 & A2 & A3 & _). auto.
Qed.

(** It returns whenever the voxels can be computed and fit [int]. *)
Theorem C45_returns : forall rand points pis nis radius max pvi nvi, rand_ok rand -> 0 <= max ->
  get_voxel_indexes_of points pis radius = Ret pvi -> get_voxel_indexes_of points nis radius = Ret nvi ->
  Forall vox_int pvi -> exists calls, radius_search rand points pis nis radius max = Ret calls.
Proof.
  intros rand points pis nis radius max pvi nvi R Pm Hp Hn F. unfold radius_search. rewrite Hp, Hn. cbn [bind].
  assert (G : forall i, In i (iota (length pvi)) -> exists ns,
     get_neighbors rand i points pis nis pvi (get_voxel_index_map nvi) radius max = Ret ns).
  { intros i I. apply iota_In in I.
    destruct (Z.eq_dec max 0) as [->|Nz]; [eexists; reflexivity|].
    destruct (znth_in_range pvi i ltac:(unfold zlen; lia)) as [ijk Hi].
    assert (V : vox_int ijk) by (rewrite Forall_forall in F; apply F; eapply znth_In; exact Hi).
    destruct (surrounding_near ijk V) as (vs & Hs & _).
    destruct (get_neighbors_ok rand i points pis nis pvi nvi radius max ijk vs (ok_of points pis nis radius i)
                R ltac:(lia) Hi Hs) as (d & r & E & _).
    { intros j Hj. eapply close_total; try eassumption; unfold zlen; lia. }
    eauto. }
  revert G. generalize (iota (length pvi)) as l. induction l as [|x l IH]; intros G; cbn; [eauto|].
  destruct (G x) as [ns E]; [now left|]. rewrite E. cbn. destruct IH as [t ->]; [intros; apply G; now right|].
  cbn. eauto.
Qed.

(** [radius_search_get_neighbors]: at most 32 per point, silently. *)
Theorem C45_get_neighbors : forall rand points radius nss, rand_ok rand ->
  radius_search_get_neighbors rand points radius = Ret nss ->
  zlen nss = zlen points
  /\ forall i p ns, znth points i = Some p -> znth nss i = Some ns ->
       NoDup ns /\ zlen ns <= 32
       /\ forall j, In j ns -> exists q, znth points j = Some q /\ d_leb (distance p q) radius = true.
Proof.
  intros rand points radius nss R H. unfold radius_search_get_neighbors, radius_search_all in H.
  apply bind_Ret_inv in H as (calls & H & E). injection E as <-.
  assert (P32 : 0 <= 32) by lia. destruct (C45_sound _ _ _ _ _ _ _ R P32 H) as [F S].
  rewrite iota_length in F.
  assert (L : zlen calls = zlen points).
  { rewrite <- (zlen_map fst), F. unfold zlen. now rewrite map_length, seq_length. }
  split; [now rewrite zlen_map|]. intros i p ns Hp Hn. rewrite znth_map in Hn.
  destruct (znth calls i) as [[k ns']|] eqn:C; [|discriminate]. injection Hn as Hn. cbn in Hn. subst ns'.
  pose proof (znth_Some_range _ _ _ Hp) as B.
  assert (k = i).
  { assert (X : znth (map fst calls) i = Some k) by (rewrite znth_map, C; reflexivity).
    rewrite F in X. fold (iota (length points)) in X. rewrite iota_nth in X by (unfold zlen in B; lia). congruence. }
  subst k. destruct (S _ _ (znth_In _ _ _ C)) as (N & M & W). split; [exact N|]. split; [exact M|].
  intros j J. destruct (W j J) as (Bj & a & b & p' & q & A1 & A2 & A3 & A4 & A5).
  unfold zlen in Bj. rewrite iota_length in Bj. rewrite iota_nth in A3 by lia. injection A3 as <-.
  rewrite iota_nth in A1 by (unfold zlen in B; lia). injection A1 as <-. exists q.
  split; [exact A4|]. rewrite Hp in A2. injection A2 as <-. exact A5.
Qed.

Example C45_example :
  radius_search minstd_rand line3 [0; 2] [2; 1; 0] 4602678819172646912 5 = Ret [(0, [2; 1]); (1, [0])]
  /\ radius_search_get_neighbors minstd_rand line3 4602678819172646912 = Ret [[1; 0]; [1; 0]; [2]].
Proof. split; vm_compute; reflexivity. Qed.

(** Uncapped, exactly the points within the radius that lie in a touching
    voxel. *)
Theorem C46_touching_voxels : forall rand points pis nis radius max calls pvi nvi, rand_ok rand ->
  radius_search rand points pis nis radius max = Ret calls ->
  get_voxel_indexes_of points pis radius = Ret pvi -> get_voxel_indexes_of points nis radius = Ret nvi ->
  Forall vox_int pvi -> Forall vox_int nvi ->
  forall i ns, In (i, ns) calls -> zlen ns < max ->
  forall j, In j ns <->
    within points pis nis radius i j
    /\ exists v w, znth pvi i = Some v /\ znth nvi j = Some w /\ near v w.
Proof.
  intros rand points pis nis radius max calls pvi nvi R H Hp Hn Fp Fn i ns I Lt j.
  destruct (radius_search_calls _ _ _ _ _ _ _ H) as (pvi' & nvi' & Hp' & Hn' & _ & C).
  rewrite Hp in Hp'. injection Hp' as <-. rewrite Hn in Hn'. injection Hn' as <-.
  destruct (C _ _ I) as [Bi G]. pose proof (zlen_nonneg ns).
  rewrite Forall_forall in Fp, Fn.
  destruct (znth_in_range _ _ Bi) as [ijk Hi].
  destruct (surrounding_near ijk (Fp _ (znth_In _ _ _ Hi))) as (vs & Hs & Nr).
  (* the reported list is a permutation of the filtered bag *)
  destruct (get_neighbors_ok rand i points pis nis pvi nvi radius max ijk vs (ok_of points pis nis radius i)
              R ltac:(lia) Hi Hs) as (d & r & E & P & L & Q).
  { intros k Hk. eapply close_total; eassumption. }
  rewrite E in G. injection G as <-. destruct Q as [->|Q]; [|lia]. rewrite app_nil_r in P.
  rewrite filter_In, ok_within. split.
  - intros [J W]. split; [exact W|]. assert (J' : In j (flat_map (entry_of (get_voxel_index_map nvi)) vs)).
    { eapply Permutation_in; [symmetry; exact P|exact J]. }
    apply bag_In in J' as (w & Iw & Hw). exists ijk, w. split; [exact Hi|]. split; [exact Hw|].
    apply Nr; [|exact Iw]. apply Fn. eapply znth_In. exact Hw.
  - intros (W & v & w & Hv & Hw & N). split; [|exact W]. eapply Permutation_in; [exact P|].
    apply bag_In. exists w. split; [|exact Hw]. apply Nr; [apply Fn; eapply znth_In; exact Hw|]. congruence.
Qed.

(** The touching voxels do not hold all points within the radius: three points
    on a line, [-0.3], [0.3] and [0.5], with radius 0.2.  The computed distance
    of the last two is at most the radius, but their voxels are 2 and 4. *)
Definition p_m := mk_pt 13822447976325526323 0 0.
Definition p_a := mk_pt 4599075939470750515 0 0.
Definition p_b := mk_pt 4602678819172646912 0 0.
Definition r_02 : double := 4596373779694328218.
Theorem C46_misses : forall rand, rand_ok rand ->
  d_leb (distance p_a p_b) r_02 = true
  /\ get_voxel_indexes [p_m; p_a; p_b] r_02 = Ret [mk_vox 0 0 0; mk_vox 2 0 0; mk_vox 4 0 0]
  /\ radius_search_get_neighbors rand [p_m; p_a; p_b] r_02 = Ret [[0]; [1]; [2]].
Proof.
  intros rand R. split; [vm_compute; reflexivity|]. split; [vm_compute; reflexivity|].
  assert (V : get_voxel_indexes_of [p_m; p_a; p_b] [0; 1; 2] r_02
              = Ret [mk_vox 0 0 0; mk_vox 2 0 0; mk_vox 4 0 0]) by (vm_compute; reflexivity).
  unfold radius_search_get_neighbors, radius_search_all, radius_search.
  change (iota (length [p_m; p_a; p_b])) with [0; 1; 2]. rewrite V. cbn [bind].
  change (iota (length [mk_vox 0 0 0; mk_vox 2 0 0; mk_vox 4 0 0])) with [0; 1; 2].
  assert (G : forall i, In i [0; 1; 2] -> get_neighbors rand i [p_m; p_a; p_b] [0; 1; 2] [0; 1; 2]
     [mk_vox 0 0 0; mk_vox 2 0 0; mk_vox 4 0 0]
     (get_voxel_index_map [mk_vox 0 0 0; mk_vox 2 0 0; mk_vox 4 0 0]) r_02 32 = Ret [i]).
  { intros i Ii.
    assert (B : 0 <= i < zlen [mk_vox 0 0 0; mk_vox 2 0 0; mk_vox 4 0 0]) by (cbn in Ii; unfold zlen; cbn; lia).
    destruct (znth_in_range _ _ B) as [ijk Hi].
    assert (Vi : vox_int ijk).
    { apply znth_In in Hi. cbn in Hi. destruct Hi as [<-|[<-|[<-|[]]]]; unfold vox_int; cbn; lia. }
    destruct (surrounding_near ijk Vi) as (vs & Hs & Nr).
    destruct (get_neighbors_ok rand i [p_m; p_a; p_b] [0; 1; 2] [0; 1; 2] _ [mk_vox 0 0 0; mk_vox 2 0 0; mk_vox 4 0 0]
      r_02 32 ijk vs (ok_of [p_m; p_a; p_b] [0; 1; 2] [0; 1; 2] r_02 i) R ltac:(lia) Hi Hs) as (d & r & E & P & L & Q).
    { intros j Hj. exact (close_total _ _ _ _ _ _ _ _ _ V V B Hj). }
    rewrite E. f_equal.
    assert (P' : Permutation (d ++ r) [i]).
    { rewrite <- P. apply NoDup_Permutation; [exact (bag_nodup _ _ (proj1 (surrounding_27 _ _ Hs)))|constructor; [intros []|constructor]|].
      intros j. rewrite bag_In. split.
      - intros (v & Iv & Hv). assert (Vv : vox_int v).
        { apply znth_In in Hv. cbn in Hv. destruct Hv as [<-|[<-|[<-|[]]]]; unfold vox_int; cbn; lia. }
        apply Nr in Iv; [|exact Vv]. clear - Hi Hv Iv Ii.
        assert (Bj : 0 <= j < 3) by (apply znth_Some_range in Hv; exact Hv).
        left. destruct Iv as [Iv _].
        assert (vi ijk = 2 * i) by (destruct Ii as [<-|[<-|[<-|[]]]]; cbn in Hi; now injection Hi as <-).
        assert (vi v = 2 * j).
        { assert (J : j = 0 \/ j = 1 \/ j = 2) by lia. destruct J as [->|[->| ->]]; cbn in Hv; now injection Hv as <-. }
        lia.
      - intros [<-|[]]. exists ijk. split; [|exact Hi]. apply Nr; [exact Vi|]. unfold near. lia. }
    assert (O : ok_of [p_m; p_a; p_b] [0; 1; 2] [0; 1; 2] r_02 i i = true).
    { destruct Ii as [<-|[<-|[<-|[]]]]; vm_compute; reflexivity. }
    destruct Q as [->|Q].
    - rewrite app_nil_r in P'. apply Permutation_sym, Permutation_length_1_inv in P'. subst d. cbn [filter]. now rewrite O.
    - exfalso. assert (zlen (filter (ok_of [p_m; p_a; p_b] [0; 1; 2] [0; 1; 2] r_02 i) d) <= zlen (d ++ r)).
      { rewrite zlen_app. pose proof (zlen_nonneg r).
        assert (FL : forall f (l : list Z), zlen (filter f l) <= zlen l).
        { intros f l. induction l as [|x l IH]; cbn [filter]; [lia|]. destruct (f x); rewrite ?zlen_cons; lia. }
        specialize (FL (ok_of [p_m; p_a; p_b] [0; 1; 2] [0; 1; 2] r_02 i) d). lia. }
      assert (zlen (d ++ r) = 1) by (unfold zlen; rewrite (Permutation_length P'); reflexivity). lia. }
  cbn [mapM]. rewrite !G by (cbn; tauto). reflexivity.
Qed.

Print Assumptions C41_succeeds.
Print Assumptions C41_one_per_voxel.
Print Assumptions C41_seed_zero.
Print Assumptions C41_points.
Print Assumptions C42_one_per_location.
Print Assumptions C42_nan_kept.
Print Assumptions C42_seed_zero.
Print Assumptions C44_draws.
Print Assumptions C44_exhaustive.
Print Assumptions C44_touching.
Print Assumptions C44_int_limits.
Print Assumptions C44_exhausted.
Print Assumptions C76_not_uniform.
Print Assumptions C76_never_picked.
Print Assumptions C45_sound.
Print Assumptions C45_returns.
Print Assumptions C45_get_neighbors.
Print Assumptions C46_touching_voxels.
Print Assumptions C46_misses.
