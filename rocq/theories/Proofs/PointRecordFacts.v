(** Facts about Model/PointRecord.v. *)
From Coq Require Import String ZArith List Bool Lia.
From Verif.Model Require Import Base Double Header PointRecord.
From Verif.Spec Require Import Format.
From Verif.Proofs Require Import BaseFacts HeaderFacts.
Import ListNotations.
Open Scope Z_scope.

Definition pr_bytes (p : point_record) : list Z := struct_image p ++ u64s_image (rextra p).

Lemma write_point_record_emits : forall p, emits (write_point_record p) (pr_bytes p) tt.
Proof.
  intros p. unfold write_point_record, pr_bytes. apply emits_seq; [apply emits_put|].
  destruct (zlen (rextra p) =? 0) eqn:E; cbn [negb].
  - apply Z.eqb_eq, zlen_zero_nil in E. rewrite E. apply emits_ret.
  - apply emits_put.
Qed.

Lemma zlen_struct_image : forall p, zlen (struct_image p) = 40.
Proof. intros p. unfold struct_image. rewrite !zlen_app, !zlen_le_bytes. reflexivity. Qed.

Lemma zlen_flat_map_const : forall {A B} (f : A -> list B) k l,
  (forall a, zlen (f a) = k) -> zlen (flat_map f l) = k * zlen l.
Proof.
  intros A B f k l H. induction l as [|a l IH]; cbn [flat_map].
  - change (zlen (@nil B)) with 0. change (zlen (@nil A)) with 0. lia.
  - rewrite zlen_app, zlen_cons, IH, H. lia.
Qed.

Lemma zlen_u64s_image : forall l, zlen (u64s_image l) = 8 * zlen l.
Proof. intros l. unfold u64s_image. apply zlen_flat_map_const. intros; apply zlen_le_bytes. Qed.

Lemma zlen_pr_bytes : forall p, zlen (pr_bytes p) = 40 + 8 * zlen (rextra p).
Proof. intros p. unfold pr_bytes. now rewrite zlen_app, zlen_struct_image, zlen_u64s_image. Qed.

Lemma struct_image_ok : forall p, bytes_ok (struct_image p).
Proof.
  intros p. unfold struct_image, bytes_ok.
  repeat (apply Forall_app; split); apply le_bytes_ok.
Qed.

Lemma flat_map_ok : forall {A} (f : A -> list Z) l,
  (forall a, bytes_ok (f a)) -> bytes_ok (flat_map f l).
Proof.
  intros A f l H. induction l; cbn; [constructor|]. apply Forall_app; split; [apply H|assumption].
Qed.

Lemma u64s_image_ok : forall l, bytes_ok (u64s_image l).
Proof. intros l. apply flat_map_ok. intros; apply le_bytes_ok. Qed.

Lemma pr_bytes_ok : forall p, bytes_ok (pr_bytes p).
Proof. intros p. apply Forall_app; split; [apply struct_image_ok|apply u64s_image_ok]. Qed.

Lemma pr_bytes_layout : forall p, pr_ok p -> record_layout p (pr_bytes p).
Proof.
  intros p [Hx Hy Hz Hc Hp Hi Hr Hg Hb He].
  exists (le_bytes 8 (rx p)), (le_bytes 8 (ry p)), (le_bytes 8 (rz p)),
         (le_bytes 4 (rc p)), (le_bytes 4 (rp p)), (le_bytes 2 (ri p)), (le_bytes 2 (rr p)),
         (le_bytes 2 (rg p)), (le_bytes 2 (rb p)), (map (le_bytes 8) (rextra p)).
  unfold d_ok, u32_ok, u16_ok in *; zs.
  repeat match goal with |- _ /\ _ => split end; try (apply is_le_le_bytes; cbn; lia).
  - unfold pr_bytes, struct_image, u64s_image. now rewrite <- !app_assoc, flat_map_concat_map.
  - induction He as [|e l Hl IH]; cbn [map]; constructor; auto.
    apply is_le_le_bytes. unfold u64_ok in *; zs. cbn. lia.
Qed.

(** ** Decoding *)

Lemma words_image : forall w l t, Forall (fun v => 0 <= v < 256 ^ Z.of_nat w) l ->
  words (length l) w (flat_map (le_bytes w) l ++ t) = l.
Proof.
  intros w l t H. induction H as [|v l Hv Hl IH]; cbn [length words flat_map]; [reflexivity|].
  rewrite <- app_assoc.
  rewrite firstn_app, firstn_all2 by (rewrite length_le_bytes; lia).
  rewrite length_le_bytes, Nat.sub_diag. cbn [firstn]. rewrite app_nil_r, le_val_bytes by assumption.
  rewrite skipn_app, skipn_all2 by (rewrite length_le_bytes; lia).
  rewrite length_le_bytes, Nat.sub_diag. cbn [skipn app]. now rewrite IH.
Qed.

Lemma words_image_exact : forall w l, Forall (fun v => 0 <= v < 256 ^ Z.of_nat w) l ->
  words (length l) w (flat_map (le_bytes w) l) = l.
Proof. intros w l H. pose proof (words_image w l [] H) as E. now rewrite app_nil_r in E. Qed.

Lemma words_length : forall n w bs, length (words n w bs) = n.
Proof. induction n; intros; cbn; auto. Qed.

Lemma zlen_words : forall n w bs, zlen (words n w bs) = Z.of_nat n.
Proof. intros; unfold zlen; now rewrite words_length. Qed.

Lemma words_range : forall n w bs, bytes_ok bs -> 
  Forall (fun v => 0 <= v < 256 ^ Z.of_nat w) (words n w bs).
Proof.
  induction n as [|n IH]; intros w bs H; cbn [words]; constructor.
  - assert (Hf : bytes_ok (firstn w bs)).
    { rewrite <- (firstn_skipn w bs) in H. now apply Forall_app in H. }
    pose proof (le_val_range _ Hf) as Hr. split; [lia|].
    eapply Z.lt_le_trans; [apply Hr|]. apply Z.pow_le_mono_r; [lia|].
    unfold zlen. rewrite firstn_length. lia.
  - apply IH. rewrite <- (firstn_skipn w bs) in H. now apply Forall_app in H.
Qed.

Lemma u64s_range : forall l, Forall u64_ok l -> Forall (fun v => 0 <= v < 256 ^ Z.of_nat 8) l.
Proof. intros l H. eapply Forall_impl; [|exact H]. intros a Ha. unfold u64_ok in Ha; zs. cbn. lia. Qed.

(** The prefix of a field at a known offset. *)
Ltac at_field :=
  repeat first
    [ rewrite zdrop_le0 by lia
    | rewrite zdrop_app_r by (rewrite zlen_le_bytes; lia); rewrite zlen_le_bytes; cbn [Z.of_nat Pos.of_succ_nat Pos.succ] ];
  rewrite ?zdrop_le0 by lia;
  try (rewrite ztake_app_exact by (now rewrite zlen_le_bytes));
  try (rewrite ztake_all by (rewrite zlen_le_bytes; lia));
  apply le_val_bytes; cbn; lia.

Lemma pr_of_struct_image : forall p ext e, pr_ok p ->
  words (Z.to_nat e) 8 ext = rextra p -> pr_of_image (struct_image p) ext e = p.
Proof.
  intros [x y z c pp i r g b ex] ext e [Hx Hy Hz Hc Hp Hi Hr Hg Hb He] Hw.
  cbn [rx ry rz rc rp ri rr rg rb rextra] in *.
  unfold d_ok, u32_ok, u16_ok in *; zs.
  unfold pr_of_image, struct_image. cbn [rx ry rz rc rp ri rr rg rb rextra].
  rewrite Hw. f_equal; at_field.
Qed.

Lemma pr_of_pr_bytes : forall p, pr_ok p ->
  pr_of_image (struct_image p) (u64s_image (rextra p)) (zlen (rextra p)) = p.
Proof.
  intros p H. apply pr_of_struct_image; [assumption|].
  unfold zlen. rewrite Nat2Z.id. apply words_image_exact, u64s_range, H.
Qed.

(** Decoding always gives a record of C++ values. *)
Lemma pr_of_image_ok : forall img ext e, bytes_ok img -> bytes_ok ext ->
  pr_ok (pr_of_image img ext e).
Proof.
  intros img ext e Hi He.
  assert (F : forall off w, 0 <= le_val (ztake w (zdrop off img)) < 256 ^ Z.max 0 w).
  { intros off w. assert (Hf : bytes_ok (ztake w (zdrop off img))).
    { apply Forall_ztake, Forall_zdrop, Hi. }
    pose proof (le_val_range _ Hf) as Hr. split; [lia|].
    eapply Z.lt_le_trans; [apply Hr|]. apply Z.pow_le_mono_r; [lia|].
    rewrite zlen_ztake. lia. }
  constructor; cbn [pr_of_image rx ry rz rc rp ri rr rg rb rextra];
    unfold d_ok, u32_ok, u16_ok; zs; try apply F.
  eapply Forall_impl; [|apply (words_range (Z.to_nat e) 8 ext He)].
  intros a Ha. unfold u64_ok; zs. exact Ha.
Qed.

Lemma zlen_extra_of_image : forall img ext e, 0 <= e -> zlen (rextra (pr_of_image img ext e)) = e.
Proof. intros img ext e He. cbn. rewrite zlen_words. lia. Qed.

Lemma read_point_record_round_trip : forall p t, pr_ok p -> zlen (rextra p) * 8 <= PTRDIFF_MAX ->
  read_point_record (zlen (rextra p)) (i_open (pr_bytes p ++ t)) = Ret (p, i_open t).
Proof.
  intros p t Hp Hlen. unfold read_point_record, pr_bytes. rewrite <- app_assoc.
  rewrite (proj2 (Z.ltb_ge _ _)) by lia.
  rewrite is_read_open by apply zlen_struct_image.
  cbn [rextra pr_zero]. rewrite zlen_zrepeat.
  pose proof (zlen_nonneg (rextra p)). rewrite Z.max_r by lia.
  rewrite overwrite_full by now rewrite !zlen_struct_image.
  destruct (zlen (rextra p) =? 0) eqn:E; cbn [negb].
  - apply Z.eqb_eq in E. pose proof (zlen_zero_nil _ E) as E'. rewrite E, E'. cbn [u64s_image flat_map app].
    rewrite pr_of_struct_image; auto.
  - rewrite is_read_open by (rewrite zlen_u64s_image; lia).
    rewrite overwrite_full.
    + now rewrite pr_of_pr_bytes.
    + rewrite !zlen_u64s_image, zlen_zrepeat. lia.
Qed.
