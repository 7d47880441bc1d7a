(** Facts about Model/RadiusSearch.v. *)
From Coq Require Import ZArith List Bool Lia Permutation Sorted.
From Verif.Model Require Import Base Double Arith PointRecord Point Extent Voxel Subsampling RadiusSearch.
From Verif.Spec Require Import Sampling.
From Verif.Proofs Require Import BaseFacts VoxelFacts SubsampleFacts.
Import ListNotations.
Open Scope Z_scope.

(** ** The selector *)

Definition entry_of (vim : voxel_index_map) (v : voxel_index) : list Z :=
  match map_find v vim with Some l => l | None => [] end.

Lemma voxel_size_entry : forall vim v, voxel_size vim v = zlen (entry_of vim v).
Proof. intros vim v. unfold voxel_size, entry_of. now destruct (map_find v vim). Qed.

(** What is left to draw: the first [c] indexes of each voxel. *)
Fixpoint remaining (vim : voxel_index_map) (vs : list voxel_index) (cs : list Z) : list Z :=
  match vs, cs with
  | v :: vs', c :: cs' => ztake c (entry_of vim v) ++ remaining vim vs' cs'
  | _, _ => []
  end.

Definition zsum (l : list Z) : Z := fold_right Z.add 0 l.

Lemma zsum_cons : forall a l, zsum (a :: l) = a + zsum l.
Proof. reflexivity. Qed.

Record sel_inv (vim : voxel_index_map) (s : selector) : Prop := mk_inv {
  inv_counts : Forall2 (fun v c => 0 <= c <= zlen (entry_of vim v)) (voxel_indexes s) (voxel_counts s);
  inv_total : total_points_left s = zsum (voxel_counts s)
}.

Lemma choose_ok : forall cs c0 cum r, Forall (fun n => 0 <= n) cs -> 0 < zsum cs -> r < cum + zsum cs ->
  exists k n, choose cs c0 cum r = Ret (c0 + k) /\ znth cs k = Some n /\ 0 < n.
Proof.
  induction cs as [|n t IH]; intros c0 cum r F P L; cbn in P, L; [lia|].
  inversion F as [|? ? N Ft]; subst. cbn [choose].
  destruct ((n =? 0) || (cum + n <? r)) eqn:E.
  - assert (0 < zsum t /\ r < cum + n + zsum t) as [A B].
    { fold (zsum t) in P, L. apply orb_true_iff in E. rewrite Z.eqb_eq, Z.ltb_lt in E. lia. }
    destruct (IH (c0 + 1) (cum + n) r Ft A B) as (k & m & H1 & H2 & H3).
    exists (k + 1), m. split; [rewrite H1; f_equal; lia|]. split; [|exact H3].
    cbn [znth]. pose proof (znth_Some_range _ _ _ H2).
    replace (k + 1 =? 0) with false by (symmetry; apply Z.eqb_neq; lia).
    replace (k + 1 <? 0) with false by (symmetry; apply Z.ltb_ge; lia). now replace (k + 1 - 1) with k by lia.
  - exists 0, n. rewrite Z.add_0_r. split; [reflexivity|]. split; [reflexivity|].
    apply orb_false_iff in E. rewrite Z.eqb_neq in E. lia.
Qed.

Lemma ztake_snoc : forall {A} (l : list A) n a, znth l n = Some a -> ztake (n + 1) l = ztake n l ++ [a].
Proof.
  intros A l n a H. pose proof (znth_Some_range _ _ _ H) as R.
  rewrite !ztake_firstn, znth_nth_error in * by lia.
  replace (Z.to_nat (n + 1)) with (S (Z.to_nat n)) by lia.
  revert H. generalize (Z.to_nat n) as k. clear. induction l as [|x l IH]; intros [|k] H; cbn in *; try discriminate.
  - now injection H as ->.
  - now rewrite <- IH.
Qed.

Lemma remaining_draw : forall vim vs cs k v n j cs',
  znth vs k = Some v -> znth cs k = Some n -> znth (entry_of vim v) (n - 1) = Some j ->
  zset cs k (n - 1) = Some cs' ->
  Permutation (remaining vim vs cs) (j :: remaining vim vs cs').
Proof.
  induction vs as [|w vs IH]; intros cs k v n j cs' Hv Hc Hj Hs; [discriminate|].
  destruct cs as [|c cs]; [discriminate|]. cbn in Hv, Hc, Hs. cbn [remaining].
  destruct (k =? 0) eqn:E.
  - injection Hv as ->. injection Hc as ->. injection Hs as <-. cbn [remaining].
    replace n with (n - 1 + 1) at 1 by lia. rewrite (ztake_snoc _ _ _ Hj), <- app_assoc. cbn.
    symmetry. apply Permutation_middle.
  - destruct (k <? 0); [discriminate|]. destruct (zset cs (k - 1) (n - 1)) eqn:Z; [|discriminate].
    injection Hs as <-. cbn [remaining]. rewrite (IH cs (k - 1) v n j l Hv Hc Hj Z).
    symmetry. apply Permutation_middle.
Qed.

Lemma zset_sum : forall cs k n m cs', znth cs k = Some n -> zset cs k m = Some cs' -> zsum cs' = zsum cs - n + m.
Proof.
  induction cs as [|c cs IH]; intros k n m cs' H S; cbn [znth zset] in *; [discriminate|].
  destruct (k =? 0); [injection H as ->; injection S as <-; cbn; lia|].
  destruct (k <? 0); [discriminate|]. destruct (zset cs (k - 1) m) eqn:Z; [|discriminate]. injection S as <-.
  rewrite !zsum_cons, (IH _ _ _ _ H Z). lia.
Qed.

Lemma zset_Forall2 : forall {A B} (P : A -> B -> Prop) la lb k a b lb',
  Forall2 P la lb -> znth la k = Some a -> zset lb k b = Some lb' -> P a b -> Forall2 P la lb'.
Proof.
  intros A B P. induction la as [|x la IH]; intros lb k a b lb' F Ha S Pab; [discriminate|].
  inversion F; subst. cbn in Ha, S. destruct (k =? 0).
  - injection Ha as ->. injection S as <-. now constructor.
  - destruct (k <? 0); [discriminate|]. destruct (zset l' (k - 1) b) eqn:Z; [|discriminate]. injection S as <-.
    constructor; eauto.
Qed.

Lemma Forall2_znth_r : forall {A B} (P : A -> B -> Prop) la lb k b, Forall2 P la lb -> znth lb k = Some b ->
  exists a, znth la k = Some a /\ P a b.
Proof.
  intros A B P la lb k b F. revert k. induction F as [|x y la lb H F IH]; intros k Hk; [discriminate|].
  cbn in *. destruct (k =? 0); [injection Hk as <-; eauto|]. destruct (k <? 0); [discriminate|]. auto.
Qed.

Lemma Forall2_znth_l : forall {A B} (P : A -> B -> Prop) la lb k a, Forall2 P la lb -> znth la k = Some a ->
  exists b, znth lb k = Some b /\ P a b.
Proof.
  intros A B P la lb k a F. revert k. induction F as [|x y la lb H F IH]; intros k Hk; [discriminate|].
  cbn in *. destruct (k =? 0); [injection Hk as <-; eauto|]. destruct (k <? 0); [discriminate|]. auto.
Qed.

Lemma Forall2_len : forall {A B} (P : A -> B -> Prop) la lb, Forall2 P la lb -> zlen la = zlen lb.
Proof. induction 1; [reflexivity|]. rewrite !zlen_cons. lia. Qed.

Lemma draw_ok : forall rand vim s, rand_ok rand -> sel_inv vim s -> 0 < total_points_left s ->
  exists j s', draw rand vim s = Ret (j, s') /\ sel_inv vim s'
    /\ total_points_left s' = total_points_left s - 1
    /\ Permutation (remaining vim (voxel_indexes s) (voxel_counts s))
                   (j :: remaining vim (voxel_indexes s') (voxel_counts s')).
Proof.
  intros rand vim s R [C T] P. unfold draw.
  replace (total_points_left s =? 0) with false by (symmetry; apply Z.eqb_neq; lia).
  set (r := rand (rng_seed s) (rng_calls s) mod total_points_left s).
  assert (Rr : 0 <= r < total_points_left s) by (apply Z.mod_pos_bound; lia).
  destruct (choose_ok (voxel_counts s) 0 0 r) as (k & n & Hc & Hn & Pn).
  { clear - C. induction C; constructor; [lia|assumption]. }
  { lia. }
  { lia. }
  rewrite Hc. cbn [bind]. rewrite Z.add_0_l.
  destruct (Forall2_znth_r _ _ _ _ _ C Hn) as (v & Hv & Bv).
  unfold vec_get at 1. rewrite Hv. cbn [bind].
  pose proof (znth_Some_range _ _ _ Hn) as Rk.
  destruct (znth_in_range (entry_of vim v) (n - 1) ltac:(lia)) as [j Hj].
  unfold entry_of in Hj at 1. destruct (map_find v vim) as [e|] eqn:M; [|discriminate].
  unfold vec_get at 1. rewrite Hn. cbn [bind]. unfold vec_get. rewrite Hj. cbn [bind].
  unfold vec_set. destruct (zset (voxel_counts s) k (n - 1)) as [cs'|] eqn:Z;
    [|rewrite zset_spec in Z by lia; discriminate]. cbn [bind].
  eexists _, _. split; [reflexivity|]. cbn [voxel_indexes voxel_counts total_points_left]. split; [|split].
  - constructor; cbn [voxel_indexes voxel_counts total_points_left].
    + eapply zset_Forall2; [exact C|exact Hv|exact Z|]. cbn. lia.
    + rewrite (zset_sum _ _ _ _ _ Hn Z). lia.
  - reflexivity.
  - eapply remaining_draw; eauto. unfold entry_of. now rewrite M.
Qed.

Lemma remaining_length : forall vim vs cs, Forall2 (fun v c => 0 <= c <= zlen (entry_of vim v)) vs cs ->
  zlen (remaining vim vs cs) = zsum cs.
Proof.
  induction 1; cbn [remaining zsum fold_right]; [reflexivity|]. rewrite zlen_app, zlen_ztake, IHForall2.
  unfold zsum. lia.
Qed.

(** ** The loop *)

Lemma neighbors_loop_ok : forall rand vim (ok : Z -> bool) close max, rand_ok rand -> 0 <= max ->
  forall fuel s acc, sel_inv vim s ->
  (forall j, In j (remaining vim (voxel_indexes s) (voxel_counts s)) -> close j = Ret (ok j)) ->
  Z.of_nat fuel = total_points_left s -> zlen acc <= max ->
  exists drawn rest,
    neighbors_loop fuel rand vim close max s acc = Ret (acc ++ filter ok drawn)
    /\ Permutation (remaining vim (voxel_indexes s) (voxel_counts s)) (drawn ++ rest)
    /\ zlen (acc ++ filter ok drawn) <= max
    /\ (rest = [] \/ zlen (acc ++ filter ok drawn) = max).
Proof.
  intros rand vim ok close max R Pm. induction fuel as [|fuel IH]; intros s acc I C F L.
  - exists [], []. cbn. rewrite app_nil_r. split; [reflexivity|].
    destruct I as [Ic It]. assert (Z0 : zlen (remaining vim (voxel_indexes s) (voxel_counts s)) = 0)
      by (rewrite remaining_length by assumption; lia).
    rewrite (zlen_zero_nil _ Z0). split; [constructor|]. split; [exact L|now left].
  - cbn [neighbors_loop]. replace (total_points_left s <=? 0) with false by (symmetry; apply Z.leb_gt; lia).
    destruct (Z.eqb_spec (zlen acc) max) as [E|E].
    + exists [], (remaining vim (voxel_indexes s) (voxel_counts s)). cbn. rewrite app_nil_r. auto.
    + destruct (draw_ok rand vim s R I ltac:(lia)) as (j & s' & D & I' & T' & P). rewrite D. cbn [bind].
      rewrite C by (eapply Permutation_in; [symmetry; exact P|now left]). cbn [bind].
      assert (G : exists drawn rest,
        neighbors_loop fuel rand vim close max s' (acc ++ filter ok [j])
          = Ret ((acc ++ filter ok [j]) ++ filter ok drawn)
        /\ Permutation (remaining vim (voxel_indexes s') (voxel_counts s')) (drawn ++ rest)
        /\ zlen ((acc ++ filter ok [j]) ++ filter ok drawn) <= max
        /\ (rest = [] \/ zlen ((acc ++ filter ok [j]) ++ filter ok drawn) = max)).
      { apply IH; auto.
        - intros i Hi. apply C. eapply Permutation_in; [symmetry; exact P|now right].
        - lia.
        - rewrite zlen_app. cbn. destruct (ok j); cbn; unfold zlen in *; cbn; lia. }
      destruct G as (drawn & rest & G1 & G2 & G3 & G4).
      exists (j :: drawn), rest. replace (filter ok (j :: drawn)) with (filter ok [j] ++ filter ok drawn)
        by (cbn; now destruct (ok j)).
      rewrite app_assoc. split.
      * rewrite <- G1. cbn. destruct (ok j); [reflexivity|now rewrite app_nil_r].
      * split; [|auto]. rewrite P. cbn. now constructor.
Qed.

(** ** The 27 voxels *)

Lemma axis_range_ok : forall i, 0 <= i < two31 - 2 -> axis_range i = Ret [i - 1; i; i + 1].
Proof.
  intros i H. unfold axis_range.
  assert (E : to_i32 i = i).
  { unfold to_i32, to_u32, two32, two31 in *. rewrite Z.mod_small by lia. destruct (i <? 2147483648) eqn:L; [reflexivity|].
    apply Z.ltb_ge in L. lia. }
  rewrite E. unfold two31 in *. destruct ((i - 1 <? - (2147483648)) || (2147483648 - 1 <? i + 2)) eqn:X; [|reflexivity].
  apply orb_true_iff in X. rewrite !Z.ltb_lt in X. lia.
Qed.

Lemma selector_ctor_ok : forall vim ijk vs, surrounding ijk = Ret vs ->
  exists s, selector_ctor ijk vim = Ret s /\ voxel_indexes s = vs /\ sel_inv vim s
    /\ remaining vim (voxel_indexes s) (voxel_counts s) = flat_map (entry_of vim) vs.
Proof.
  intros vim ijk vs H. unfold selector_ctor. rewrite H. cbn [bind]. eexists. split; [reflexivity|].
  cbn [voxel_indexes voxel_counts]. split; [reflexivity|]. split.
  - constructor; cbn [voxel_indexes voxel_counts total_points_left].
    + clear H. induction vs as [|v vs IH]; cbn; constructor; [|exact IH]. rewrite voxel_size_entry.
      pose proof (zlen_nonneg (entry_of vim v)). lia.
    + assert (G : forall l a, fold_left (fun n v => n + voxel_size vim v) l a = a + zsum (map (voxel_size vim) l)).
      { induction l as [|x l IH]; intros a; cbn; [lia|]. rewrite IH. unfold zsum. lia. }
      rewrite G. lia.
  - clear H. induction vs as [|v vs IH]; cbn [remaining map flat_map]; [reflexivity|].
    rewrite IH. f_equal. apply ztake_all. rewrite voxel_size_entry. lia.
Qed.

Lemma draws_ok : forall rand vim, rand_ok rand -> forall n s, sel_inv vim s -> Z.of_nat n <= total_points_left s ->
  exists js s', draws n rand vim s = Ret (js, s') /\ sel_inv vim s' /\ length js = n
    /\ total_points_left s' = total_points_left s - Z.of_nat n
    /\ Permutation (remaining vim (voxel_indexes s) (voxel_counts s))
                   (js ++ remaining vim (voxel_indexes s') (voxel_counts s')).
Proof.
  intros rand vim R. induction n as [|n IH]; intros s I L.
  - exists [], s. cbn. split; [reflexivity|]. split; [exact I|]. split; [reflexivity|]. split; [lia|reflexivity].
  - destruct (draw_ok rand vim s R I ltac:(lia)) as (j & s1 & D & I1 & T1 & P1).
    destruct (IH s1 I1 ltac:(lia)) as (js & s2 & D2 & I2 & L2 & T2 & P2).
    exists (j :: js), s2. cbn [draws]. rewrite D, D2. split; [reflexivity|]. split; [exact I2|].
    split; [cbn; congruence|]. split; [lia|]. rewrite P1, P2. reflexivity.
Qed.

Lemma axis_range_shape : forall i l, axis_range i = Ret l ->
  exists c, l = [c - 1; c; c + 1] /\ - two31 < c < two31 - 1.
Proof.
  intros i l H. unfold axis_range in H. exists (to_i32 i).
  destruct ((to_i32 i - 1 <? - two31) || (two31 - 1 <? to_i32 i + 2)) eqn:X; [discriminate|].
  injection H as <-. apply orb_false_iff in X. rewrite !Z.ltb_ge in X. split; [reflexivity|lia].
Qed.

Lemma to_u64_inj : forall a b, - two31 <= a < two31 -> - two31 <= b < two31 -> to_u64 a = to_u64 b -> a = b.
Proof.
  intros a b A B E. unfold to_u64, two64, two31 in *. 
  pose proof (Z.div_mod a 18446744073709551616 ltac:(lia)). pose proof (Z.div_mod b 18446744073709551616 ltac:(lia)). 
  rewrite E in H. lia.
Qed.

Lemma nodup_flat_map : forall {A B} (f : A -> list B) l, NoDup l -> (forall a, In a l -> NoDup (f a)) ->
  (forall a b x, In a l -> In b l -> In x (f a) -> In x (f b) -> a = b) -> NoDup (flat_map f l).
Proof.
  intros A B f l. induction l as [|a l IH]; intros N F D; cbn; [constructor|].
  inversion N; subst. assert (Fa : NoDup (f a)) by (apply F; now left).
  assert (R : NoDup (flat_map f l)).
  { apply IH; auto; intros; [apply F; now right|]. eapply D; eauto; now right. }
  assert (X : forall x, In x (f a) -> ~ In x (flat_map f l)).
  { intros x Ix Jx. apply in_flat_map in Jx as (b & Ib & Jb). assert (a = b) by (eapply D; eauto; [now left|now right]). now subst. }
  revert Fa X. clear - R. induction (f a) as [|x t IHt]; intros N X; cbn; [exact R|].
  inversion N; subst. constructor.
  - rewrite in_app_iff. intros [I|I]; [contradiction|]. apply (X x); [now left|exact I].
  - apply IHt; [assumption|]. intros y I. apply X. now right.
Qed.

Lemma nodup_map_in : forall {A B} (f : A -> B) l, (forall x y, In x l -> In y l -> f x = f y -> x = y) ->
  NoDup l -> NoDup (map f l).
Proof.
  intros A B f l. induction l as [|a l IH]; intros I N; cbn; [constructor|]. inversion N; subst. constructor.
  - rewrite in_map_iff. intros (x & E & J). assert (x = a) by (apply I; [now right|now left|exact E]). now subst.
  - apply IH; [|assumption]. intros x y Hx Hy. apply I; now right.
Qed.

Lemma surrounding_shape : forall ijk vs, surrounding ijk = Ret vs ->
  exists is js ks, axis_range (vi ijk) = Ret is /\ axis_range (vj ijk) = Ret js /\ axis_range (vk ijk) = Ret ks
    /\ vs = flat_map (fun i => flat_map (fun j => map (fun k => vox_of_ints i j k) ks) js) is.
Proof.
  intros ijk vs H. unfold surrounding in H.
  apply bind_Ret_inv in H as (is & E1 & H). apply bind_Ret_inv in H as (js & E2 & H).
  apply bind_Ret_inv in H as (ks & E3 & H). injection H as <-. eauto 8.
Qed.

Lemma surrounding_27 : forall ijk vs, surrounding ijk = Ret vs -> NoDup vs /\ length vs = 27%nat.
Proof.
  intros ijk vs H. apply surrounding_shape in H as (is & js & ks & E1 & E2 & E3 & ->).
  apply axis_range_shape in E1 as (a & -> & A). apply axis_range_shape in E2 as (b & -> & B).
  apply axis_range_shape in E3 as (c & -> & C).
  split; [|reflexivity].
  assert (N3 : forall d, NoDup [d - 1; d; d + 1]).
  { intros d. repeat constructor; cbn; intuition lia. }
  assert (R3 : forall d x, - two31 < d < two31 - 1 -> In x [d - 1; d; d + 1] -> - two31 <= x < two31).
  { intros d x D [<-|[<-|[<-|[]]]]; lia. }
  apply nodup_flat_map; [apply N3| |].
  - intros i Hi. apply nodup_flat_map; [apply N3| |].
    + intros j Hj. apply nodup_map_in; [|apply N3].
      intros x y Hx Hy E. unfold vox_of_ints in E. injection E as E. apply to_u64_inj in E; eauto.
    + intros x y v Hx Hy I J. apply in_map_iff in I as (k & <- & _). apply in_map_iff in J as (k' & E & _).
      unfold vox_of_ints in E. injection E as E _. symmetry. apply to_u64_inj in E; eauto.
  - intros x y v Hx Hy I J. apply in_flat_map in I as (j & _ & I). apply in_flat_map in J as (j' & _ & J).
    apply in_map_iff in I as (k & <- & _). apply in_map_iff in J as (k' & E & _).
    unfold vox_of_ints in E. injection E as E _ _. symmetry. apply to_u64_inj in E; eauto.
Qed.

Lemma to_u64_id : forall a, 0 <= a < two64 -> to_u64 a = a.
Proof. intros. unfold to_u64. now apply Z.mod_small. Qed.

Lemma to_u64_m1 : to_u64 (-1) = two64 - 1.
Proof. reflexivity. Qed.

(** In the range of [int], the 27 voxels are the touching ones. *)
Lemma surrounding_near : forall ijk, vox_int ijk ->
  exists vs, surrounding ijk = Ret vs /\ forall v, vox_int v -> (In v vs <-> near ijk v).
Proof.
  intros ijk (A & B & C). unfold surrounding. rewrite !axis_range_ok by (unfold two31; lia). cbn [bind].
  eexists. split; [reflexivity|]. intros v (A' & B' & C').
  assert (U : forall i x, 0 <= i < 2147483646 -> 0 <= x < 2147483646 ->
     (exists d, In d [i - 1; i; i + 1] /\ to_u64 d = x) <-> Z.abs (i - x) <= 1).
  { intros i x I X. split.
    - intros (d & Hd & <-). cbn in Hd. destruct (Z.eq_dec d (-1)) as [->|N].
      + rewrite to_u64_m1 in X. unfold two64 in X. lia.
      + rewrite to_u64_id by (unfold two64; lia). lia.
    - intros L. exists x. split; [cbn; lia|]. apply to_u64_id. unfold two64. lia. }
  unfold near. rewrite <- !U by assumption. rewrite in_flat_map. split.
  - intros (i & Hi & H). apply in_flat_map in H as (j & Hj & H). apply in_map_iff in H as (k & <- & Hk).
    cbn [vox_of_ints vi vj vk]. repeat split; eexists; (split; [eassumption|reflexivity]).
  - intros ((i & Hi & Ei) & (j & Hj & Ej) & (k & Hk & Ek)).
    exists i. split; [exact Hi|]. apply in_flat_map. exists j. split; [exact Hj|].
    apply in_map_iff. exists k. split; [|exact Hk]. unfold vox_of_ints. rewrite Ei, Ej, Ek. now destruct v.
Qed.

Lemma entry_vim : forall nvi v, entry_of (get_voxel_index_map nvi) v = positions v 0 nvi.
Proof.
  intros nvi v. unfold entry_of, get_voxel_index_map. rewrite vim_loop_find. cbn.
  now destruct (positions v 0 nvi).
Qed.

Lemma bag_In : forall nvi vs j, In j (flat_map (entry_of (get_voxel_index_map nvi)) vs)
  <-> exists v, In v vs /\ znth nvi j = Some v.
Proof.
  intros nvi vs j. rewrite in_flat_map. split.
  - intros (v & I & J). rewrite entry_vim in J. apply positions_In in J as [_ J]. rewrite Z.sub_0_r in J. eauto.
  - intros (v & I & J). exists v. split; [exact I|]. rewrite entry_vim. apply positions_In. rewrite Z.sub_0_r.
    split; [|exact J]. apply znth_Some_range in J. lia.
Qed.

Lemma bag_nodup : forall nvi vs, NoDup vs -> NoDup (flat_map (entry_of (get_voxel_index_map nvi)) vs).
Proof.
  intros nvi vs N. apply nodup_flat_map; [exact N| |].
  - intros v _. rewrite entry_vim. apply sorted_nodup, positions_sorted.
  - intros a b x _ _ Ia Ib. rewrite entry_vim in Ia, Ib. apply positions_In in Ia as [_ Ia].
    apply positions_In in Ib as [_ Ib]. congruence.
Qed.

(** ** get_neighbors *)

Lemma get_neighbors_ok : forall rand i points pis nis pvi nvi radius max ijk vs (ok : Z -> bool),
  rand_ok rand -> 0 < max -> znth pvi i = Some ijk -> surrounding ijk = Ret vs ->
  (forall j, 0 <= j < zlen nvi -> close_enough points pis nis radius i j = Ret (ok j)) ->
  exists drawn rest,
    get_neighbors rand i points pis nis pvi (get_voxel_index_map nvi) radius max = Ret (filter ok drawn)
    /\ Permutation (flat_map (entry_of (get_voxel_index_map nvi)) vs) (drawn ++ rest)
    /\ zlen (filter ok drawn) <= max /\ (rest = [] \/ zlen (filter ok drawn) = max).
Proof.
  intros rand i points pis nis pvi nvi radius max ijk vs ok R Pm Hi Hs Hc.
  unfold get_neighbors. replace (max =? 0) with false by (symmetry; apply Z.eqb_neq; lia).
  unfold vec_get. rewrite Hi. cbn [bind].
  destruct (selector_ctor_ok (get_voxel_index_map nvi) ijk vs Hs) as (s & Es & Ev & Is & Er).
  rewrite Es. cbn [bind]. rewrite <- Er.
  assert (T : 0 <= total_points_left s).
  { rewrite (inv_total _ _ Is), <- (remaining_length _ _ _ (inv_counts _ _ Is)). apply zlen_nonneg. }
  destruct (neighbors_loop_ok rand (get_voxel_index_map nvi) ok
    (close_enough points pis nis radius i) max R ltac:(lia) (Z.to_nat (total_points_left s)) s [] Is) as (d & r & H).
  - rewrite Er. intros j Hj. apply bag_In in Hj as (v & _ & Hj). apply Hc. now apply znth_Some_range in Hj.
  - lia.
  - rewrite zlen_nil. lia.
  - exists d, r. cbn [app] in H. exact H.
Qed.
