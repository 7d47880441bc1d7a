(** Facts about voxel numbers and voxel maps. *)
From Coq Require Import Reals ZArith List Bool Sorted Permutation Lia Lra.
From Flocq Require Import Core.
From Verif.Model Require Import Base Double Arith PointRecord Point Extent Voxel Utils.
From Verif.Proofs Require Import BaseFacts OrderFacts DoubleFacts ArithFacts.
Import ListNotations.
Open Scope Z_scope.

(** ** One axis *)

Definition voxel_number (p m r : R) : Z := Ztrunc (rnd (rnd (p - m) / r)).

Lemma voxel1_ret : forall p m res n, d_ok p -> d_ok m -> d_ok res ->
  (voxel1 p m res = Ret n <->
   d_is_finite p = true /\ d_is_finite m = true /\ fits (d_val p - d_val m)
   /\ ((d_is_finite res = true /\ d_val res <> 0%R /\ fits (rnd (d_val p - d_val m) / d_val res)
        /\ n = voxel_number (d_val p) (d_val m) (d_val res) /\ 0 <= n < two64)
       \/ (d_is_finite res = false /\ d_is_nan res = false /\ n = 0))).
Proof.
  intros p m res n Hp Hm Hr. unfold voxel1, d_to_size. rewrite d_cast_ret. split.
  - intros (F & En & B).
    destruct (d_div_finite_inv _ _ (d_sub_ok p m) Hr F) as [Fs Nr].
    destruct (d_sub_finite_inv p m Hp Hm Fs) as [Fp Fm].
    destruct (d_sub_val p m Hp Hm Fp Fm) as [S1 S2]. pose proof (proj1 S1 Fs) as S3.
    split; [exact Fp|]. split; [exact Fm|]. split; [exact S3|].
    destruct (d_is_finite res) eqn:Fr.
    + left. split; [reflexivity|].
      assert (Nz : d_val res <> 0%R).
      { intros Z0. rewrite (d_div_zero _ _ (d_sub_ok p m) Hr Fr Z0) in F. discriminate. }
      split; [exact Nz|].
      destruct (d_div_val _ _ (d_sub_ok p m) Hr Fs Nz) as [D1 D2]. pose proof (proj1 D1 F) as D3.
      rewrite (D2 D3) in En. rewrite (S2 S3) in *. split; [exact D3|]. split; [exact En|lia].
    + right. split; [reflexivity|]. split; [exact Nr|].
      destruct (d_div_inf _ _ (d_sub_ok p m) Hr Fs Fr Nr) as [_ V]. rewrite V in En.
      rewrite (Ztrunc_IZR 0) in En. exact En.
  - intros (Fp & Fm & S3 & H).
    destruct (d_sub_val p m Hp Hm Fp Fm) as [S1 S2]. pose proof (proj2 S1 S3) as Fs.
    destruct H as [(Fr & Nz & D3 & -> & B) | (Fr & Nr & ->)].
    + destruct (d_div_val _ _ (d_sub_ok p m) Hr Fs Nz) as [D1 D2]. rewrite (S2 S3) in *.
      split; [now apply D1|]. rewrite (D2 D3). split; [reflexivity|]. lia.
    + destruct (d_div_inf _ _ (d_sub_ok p m) Hr Fs Fr Nr) as [F V]. split; [exact F|]. rewrite V.
      split; [now rewrite (Ztrunc_IZR 0)|]. unfold two64. lia.
Qed.

Lemma voxel1_cases : forall p m res, (exists n, voxel1 p m res = Ret n) \/ voxel1 p m res = UB ub_float_to_int.
Proof. intros. apply d_cast_cases. Qed.

(** Monotone in the coordinate, starting from 0 at the minimum. *)
Lemma voxel1_mono : forall p q m res n, finite p -> d_ok q -> finite m -> finite res ->
  (0 < d_val res)%R -> (d_val m <= d_val p <= d_val q)%R ->
  voxel1 q m res = Ret n -> exists k, voxel1 p m res = Ret k /\ 0 <= k <= n.
Proof.
  intros p q m res n [Op Fp] Oq [Om Fm] [Or Fr] Pr Le H.
  apply voxel1_ret in H; auto. destruct H as (Fq & _ & Fq1 & [(_ & _ & Fq2 & En & B) | (X & _)]); [|congruence].
  assert (A : (0 <= d_val p - d_val m <= d_val q - d_val m)%R) by lra.
  assert (A1 : (0 <= rnd (d_val p - d_val m) <= rnd (d_val q - d_val m))%R).
  { split; [now apply rnd_pos|now apply rnd_le]. }
  assert (Pi : (0 < / d_val res)%R) by now apply Rinv_0_lt_compat.
  assert (A2 : (0 <= rnd (d_val p - d_val m) / d_val res <= rnd (d_val q - d_val m) / d_val res)%R).
  { unfold Rdiv. destruct A1 as [A1 A1']. apply Rlt_le in Pi.
    split; [now apply Rmult_le_pos|]. now apply Rmult_le_compat_r. }
  exists (voxel_number (d_val p) (d_val m) (d_val res)).
  assert (K : 0 <= voxel_number (d_val p) (d_val m) (d_val res) <= n).
  { subst n. unfold voxel_number. split.
    - rewrite <- (Ztrunc_IZR 0). apply Ztrunc_le. apply rnd_pos. lra.
    - apply Ztrunc_le. apply rnd_le. lra. }
  split; [|exact K]. apply voxel1_ret; auto. split; [exact Fp|]. split; [exact Fm|].
  split; [eapply fits_le; [|exact Fq1]; rewrite !Rabs_pos_eq; lra|].
  left. split; [exact Fr|]. split; [lra|].
  split; [eapply fits_le; [|exact Fq2]; rewrite !Rabs_pos_eq; lra|].
  split; [reflexivity|]. lia.
Qed.

Lemma voxel1_min : forall m res, finite m -> finite res -> d_val res <> 0%R -> voxel1 m m res = Ret 0.
Proof.
  intros m res [Om Fm] [Or Fr] Nz. apply voxel1_ret; auto. split; [exact Fm|]. split; [exact Fm|].
  replace (d_val m - d_val m)%R with 0%R by ring. split; [apply fits_0|].
  left. split; [exact Fr|]. split; [exact Nz|]. rewrite rnd_0. unfold Rdiv. rewrite Rmult_0_l.
  split; [apply fits_0|]. unfold voxel_number. replace (d_val m - d_val m)%R with 0%R by ring.
  rewrite rnd_0. unfold Rdiv. rewrite Rmult_0_l, rnd_0, (Ztrunc_IZR 0).
  split; [reflexivity|]. unfold two64. lia.
Qed.

(** Equal coordinates have equal voxel numbers. *)
Lemma voxel1_eq : forall p q m res, finite p -> finite q -> finite m -> d_ok res -> d_val p = d_val q ->
  voxel1 p m res = voxel1 q m res.
Proof.
  intros p q m res [Op Fp] [Oq Fq] [Om Fm] Or E.
  destruct (voxel1_cases p m res) as [[n H] | H]; destruct (voxel1_cases q m res) as [[k K] | K].
  - rewrite H. symmetry. apply voxel1_ret; auto. apply voxel1_ret in H; auto.
    rewrite <- E. destruct H as (_ & H). auto.
  - exfalso. apply voxel1_ret in H; auto. rewrite E in H. destruct H as (_ & H).
    assert (voxel1 q m res = Ret n) by (apply voxel1_ret; auto). congruence.
  - exfalso. apply voxel1_ret in K; auto. rewrite <- E in K. destruct K as (_ & K).
    assert (voxel1 p m res = Ret k) by (apply voxel1_ret; auto). congruence.
  - congruence.
Qed.

(** ** Maps *)

Lemma vox_eqb_spec : forall a b, reflect (a = b) (vox_eqb a b).
Proof.
  intros [a1 a2 a3] [b1 b2 b3]. unfold vox_eqb. cbn [vi vj vk]. apply iff_reflect.
  rewrite !andb_true_iff, !Z.eqb_eq. split; [now intros [= -> -> ->]|]. now intros [[-> ->] ->].
Qed.

Lemma map_find_push : forall v w i m,
  map_find w (map_push v i m)
  = if vox_eqb w v then Some ((match map_find v m with Some l => l | None => [] end) ++ [i]) else map_find w m.
Proof.
  intros v w i m. induction m as [|[u l] t IH]; cbn.
  - now destruct (vox_eqb w v).
  - destruct (vox_eqb_spec v u) as [->|N]; cbn.
    + destruct (vox_eqb_spec w u); reflexivity.
    + rewrite IH. destruct (vox_eqb_spec w u) as [->|N'].
      * destruct (vox_eqb_spec u v); [congruence|reflexivity].
      * reflexivity.
Qed.

Lemma map_push_keys : forall v i m w, In w (map fst (map_push v i m)) <-> w = v \/ In w (map fst m).
Proof.
  intros v i m w. induction m as [|[u l] t IH]; cbn.
  - intuition congruence.
  - destruct (vox_eqb_spec v u) as [->|N]; cbn; [intuition congruence|]. rewrite IH. intuition congruence.
Qed.

Lemma map_push_nodup : forall v i m, NoDup (map fst m) -> NoDup (map fst (map_push v i m)).
Proof.
  intros v i m. induction m as [|[u l] t IH]; cbn; intros H.
  - constructor; [intros []|constructor].
  - inversion H as [|? ? N D]; subst. destruct (vox_eqb_spec v u) as [->|N']; cbn; [now constructor|].
    constructor; [|now apply IH]. rewrite map_push_keys. intros [E|I]; [congruence|contradiction].
Qed.

(** The positions, from [i] on, of the elements equal to [v]. *)
Fixpoint positions (v : voxel_index) (i : Z) (vs : list voxel_index) : list Z :=
  match vs with
  | [] => []
  | w :: t => if vox_eqb v w then i :: positions v (i + 1) t else positions v (i + 1) t
  end.

Definition opt_app (o : option (list Z)) (l : list Z) : option (list Z) :=
  match o with
  | Some x => Some (x ++ l)
  | None => match l with [] => None | _ => Some l end
  end.

Lemma opt_app_nil : forall o, opt_app o [] = o.
Proof. intros [l|]; cbn; [now rewrite app_nil_r|reflexivity]. Qed.

Lemma vim_loop_find : forall vs i m v,
  map_find v (vim_loop i vs m) = opt_app (map_find v m) (positions v i vs).
Proof.
  induction vs as [|w t IH]; intros i m v; cbn; [now rewrite opt_app_nil|].
  rewrite IH, map_find_push. destruct (vox_eqb_spec v w) as [->|N]; cbn; [|reflexivity].
  destruct (map_find w m); cbn; [|reflexivity]. now rewrite <- app_assoc.
Qed.

Lemma vim_loop_nodup : forall vs i m, NoDup (map fst m) -> NoDup (map fst (vim_loop i vs m)).
Proof. induction vs as [|w t IH]; intros i m H; cbn; [exact H|]. now apply IH, map_push_nodup. Qed.

Lemma positions_In : forall vs v i k, In k (positions v i vs) <-> i <= k /\ znth vs (k - i) = Some v.
Proof.
  induction vs as [|w t IH]; intros v i k; cbn; [intuition discriminate|].
  assert (R : In k (positions v (i + 1) t) <-> i + 1 <= k /\ znth t (k - i - 1) = Some v).
  { rewrite IH. now replace (k - (i + 1)) with (k - i - 1) by lia. }
  destruct (Z.eqb_spec (k - i) 0) as [E|E].
  - destruct (vox_eqb_spec v w) as [->|N]; cbn; rewrite ?R; split.
    + intros _. split; [lia|reflexivity].
    + intros _. left. lia.
    + intros []. lia.
    + intros [_ [= ->]]. congruence.
  - destruct (vox_eqb_spec v w) as [->|N]; cbn; rewrite R; destruct (Z.ltb_spec (k - i) 0);
      split; try (intros; lia); try (intuition lia); intros [? ?]; discriminate.
Qed.

Lemma positions_sorted : forall vs v i, StronglySorted Z.lt (positions v i vs).
Proof.
  induction vs as [|w t IH]; intros v i; cbn; [constructor|].
  destruct (vox_eqb v w); [|apply IH]. constructor; [apply IH|].
  apply Forall_forall. intros k H. apply positions_In in H. lia.
Qed.

Lemma map_find_In : forall m v l, NoDup (map fst m) -> (map_find v m = Some l <-> In (v, l) m).
Proof.
  induction m as [|[u x] t IH]; intros v l H; cbn; [intuition discriminate|].
  inversion H as [|? ? N D]; subst. destruct (vox_eqb_spec v u) as [->|E].
  - split; [intros [= ->]; now left|]. intros [[= ->]|I]; [reflexivity|].
    exfalso. apply N. now apply (in_map fst) in I.
  - rewrite IH by assumption. split; [auto|]. intros [[= -> ->]|I]; [congruence|exact I].
Qed.
