(** Reading records from a stream that ends too early: the rest is zeros. *)
From Coq Require Import ZArith List Bool Lia.
From Verif.Model Require Import Base Double Header PointRecord IO.
From Verif.Spec Require Import Format.
From Verif.Proofs Require Import BaseFacts HeaderFacts PointRecordFacts IOFacts.
Import ListNotations.
Open Scope Z_scope.

(** A stream in a state that reading can leave: good, or with nothing left *)
Definition fed (s : istream) : Prop := i_good s = true \/ i_rest s = [].

Lemma fed_open bs : fed (i_open bs).
Proof. now left. Qed.

Lemma is_read_fed n s got s' : fed s -> 0 <= n -> is_read n s = (got, s') ->
  got = ztake n (i_rest s) /\ i_rest s' = zdrop n (i_rest s) /\ fed s'.
Proof.
  intros F N E. unfold is_read in E. destruct (i_good s) eqn:G.
  - destruct (zlen (ztake n (i_rest s)) <? n) eqn:L; injection E as <- <-.
    + split; [reflexivity|]. apply Z.ltb_lt in L. rewrite zlen_ztake in L. pose proof (zlen_nonneg (i_rest s)).
      split; [symmetry; apply zdrop_all; lia|now right].
    + split; [reflexivity|]. split; [reflexivity|now left].
  - destruct F as [F|F]; [congruence|]. injection E as <- <-. cbn. rewrite F. rewrite ztake_firstn, zdrop_skipn, firstn_nil, skipn_nil. split; [reflexivity|].
    split; [reflexivity|now right].
Qed.

Lemma read_uint_fed k old s v s' : fed s -> read_uint k old s = (v, s') -> fed s'.
Proof.
  intros F E. unfold read_uint in E. destruct (is_read (Z.of_nat k) s) as [g s1] eqn:R. injection E as <- <-.
  now apply is_read_fed in R; try lia.
Qed.

Lemma read_header_fed s h s' : fed s -> bytes_ok (i_rest s) -> read_header s = Ret (h, s') -> fed s'.
Proof.
  intros F Hok H. unfold read_header in H.
  destruct (is_read 4 s) as [g0 s0] eqn:E0.
  destruct (beq_bytes _ SPOC); cbn [negb] in H; [|discriminate].
  destruct (read_uint 1 _ s0) as [ma s1] eqn:E1. destruct (ma =? MAJOR_VERSION); cbn [negb] in H; [|discriminate].
  destruct (read_uint 1 _ s1) as [mi s2] eqn:E2. destruct (mi =? MINOR_VERSION); cbn [negb] in H; [|discriminate].
  destruct (read_uint 2 0 s2) as [len s3] eqn:E3. destruct (is_read len s3) as [g4 s4] eqn:E4.
  destruct (read_uint 1 _ s4) as [e s5] eqn:E5. destruct (read_uint 8 _ s5) as [t s6] eqn:E6.
  destruct (read_uint 1 _ s6) as [c s7] eqn:E7. injection H as <- <-.
  destruct (is_read_ok _ _ _ _ Hok E0) as [_ O0].
  destruct (read_uint_range _ _ _ _ _ O0 E1) as [_ O1].
  destruct (read_uint_range _ _ _ _ _ O1 E2) as [_ O2].
  destruct (read_uint_range _ _ _ _ _ O2 E3) as [Hlen O3].
  apply is_read_fed in E0 as (_ & _ & F0); [|exact F|lia].
  apply read_uint_fed in E1; [|exact F0]. apply read_uint_fed in E2; [|exact E1]. apply read_uint_fed in E3; [|exact E2].
  apply is_read_fed in E4 as (_ & _ & F4); [|exact E3|lia].
  apply read_uint_fed in E5; [|exact F4]. apply read_uint_fed in E6; [|exact E5]. now apply read_uint_fed in E7.
Qed.

Definition zpad (n : Z) (bs : list Z) : list Z := ztake n (bs ++ zrepeat 0 n).

Lemma zlen_zpad n bs : 0 <= n -> zlen (zpad n bs) = n.
Proof. intros N. unfold zpad. rewrite zlen_ztake, zlen_app, zlen_zrepeat. pose proof (zlen_nonneg bs). lia. Qed.

Lemma zrepeat_app {A} (a : A) m n : 0 <= m -> 0 <= n -> zrepeat a (m + n) = zrepeat a m ++ zrepeat a n.
Proof. intros M N. unfold zrepeat. rewrite Z2Nat.inj_add by assumption. apply repeat_app. Qed.

Lemma zpad_long n bs : n <= zlen bs -> zpad n bs = ztake n bs.
Proof. intros L. unfold zpad. now apply ztake_app_l. Qed.

Lemma zpad_short n bs : zlen bs <= n -> zpad n bs = bs ++ zrepeat 0 (n - zlen bs).
Proof.
  intros L. unfold zpad. rewrite ztake_app_r by lia. f_equal. pose proof (zlen_nonneg bs).
  replace (zrepeat 0 n) with (zrepeat 0 (n - zlen bs) ++ zrepeat 0 (zlen bs)) by (rewrite <- zrepeat_app by lia; f_equal; lia).
  rewrite ztake_app_exact; [reflexivity|]. rewrite zlen_zrepeat. lia.
Qed.

Lemma zpad_add m n bs : 0 <= m -> 0 <= n -> zpad (m + n) bs = zpad m bs ++ zpad n (zdrop m bs).
Proof.
  intros M N. pose proof (zlen_nonneg bs). destruct (Z_le_gt_dec (zlen bs) m) as [L|G].
  - rewrite (zpad_short m), (zpad_short (m + n)), (zdrop_all m) by lia. rewrite zpad_short by (cbn; lia). cbn [app].
    rewrite <- app_assoc. f_equal. rewrite zlen_nil, <- zrepeat_app by lia. f_equal. lia.
  - rewrite (zpad_long m) by lia. unfold zpad. rewrite <- (ztake_zdrop m bs) at 1. rewrite <- app_assoc.
    assert (L : zlen (ztake m bs) = m) by (rewrite zlen_ztake; lia).
    rewrite ztake_app_r by lia. f_equal. rewrite L. replace (m + n - m) with n by lia.
    replace (m + n) with (n + m) by lia. rewrite zrepeat_app by lia. rewrite app_assoc. rewrite ztake_app_l; [reflexivity|].
    rewrite zlen_app, zlen_zrepeat. pose proof (zlen_nonneg (zdrop m bs)). lia.
Qed.

Lemma overwrite_zeros n bs : 0 <= n -> overwrite (ztake n bs) (zrepeat 0 n) = zpad n bs.
Proof.
  intros N. unfold overwrite. pose proof (zlen_nonneg bs). destruct (Z_le_gt_dec (zlen bs) n) as [L|G].
  - rewrite zpad_short, ztake_all by lia. f_equal. unfold zrepeat. rewrite zdrop_skipn.
    replace (Z.to_nat n) with (Z.to_nat (zlen bs) + Z.to_nat (n - zlen bs))%nat by lia. rewrite repeat_app, skipn_app, skipn_all2, repeat_length.
    + now rewrite Nat.sub_diag.
    + rewrite repeat_length. lia.
  - rewrite zpad_long by lia. rewrite zdrop_all; [apply app_nil_r|]. rewrite zlen_zrepeat, zlen_ztake. lia.
Qed.

Lemma bytes_ok_zpad n bs : bytes_ok bs -> bytes_ok (zpad n bs).
Proof. intros B. unfold bytes_ok, zpad. apply Forall_ztake. apply Forall_app. split; [exact B|exact (Forall_bytes_zero 0 n)]. Qed.

Lemma le_bytes_slice w k img : bytes_ok img -> zlen img = Z.of_nat w -> k = w -> le_bytes k (le_val img) = img.
Proof.
  intros B L ->. unfold zlen in L. replace w with (length img) by lia. now apply le_bytes_val.
Qed.

Lemma words_u64s n : forall ext, bytes_ok ext -> zlen ext = 8 * Z.of_nat n -> u64s_image (words n 8 ext) = ext.
Proof.
  induction n as [|n IH]; intros ext B L.
  - cbn. symmetry. apply zlen_zero_nil. lia.
  - cbn [words]. unfold u64s_image. cbn [flat_map]. fold (u64s_image (words n 8 (skipn 8 ext))).
    rewrite <- (firstn_skipn 8 ext) in B. apply Forall_app in B as [B1 B2].
    assert (L1 : length (firstn 8 ext) = 8%nat) by (rewrite firstn_length; unfold zlen in L; lia).
    rewrite IH; [|exact B2|unfold zlen in *; rewrite skipn_length; lia].
    rewrite (le_bytes_slice 8 8) by (auto; unfold zlen; lia). apply firstn_skipn.
Qed.

Lemma image_bytes img ext e : bytes_ok img -> bytes_ok ext -> zlen img = 40 -> 0 <= e -> zlen ext = 8 * e ->
  pr_bytes (pr_of_image img ext e) = img ++ ext.
Proof.
  intros Bi Be Li E Le. unfold pr_bytes, pr_of_image. cbn [rextra]. rewrite words_u64s by (auto; lia). f_equal.
  unfold struct_image. cbn [rx ry rz rc rp ri rr rg rb].
  assert (S : forall w n off, n = Z.of_nat w -> 0 <= off -> off + n <= 40 -> le_bytes w (le_val (ztake n (zdrop off img))) = ztake n (zdrop off img)).
  { intros w n off -> O1 O2. apply (le_bytes_slice w); [apply Forall_ztake, Forall_zdrop, Bi| |reflexivity]. rewrite zlen_ztake, zlen_zdrop. lia. }
  rewrite (S 8%nat 8 0), (S 8%nat 8 8), (S 8%nat 8 16), (S 4%nat 4 24), (S 4%nat 4 28), (S 2%nat 2 32), (S 2%nat 2 34), (S 2%nat 2 36), (S 2%nat 2 38) by lia.
  assert (T : forall off n m, m = off + n -> 0 <= off -> 0 <= n -> ztake n (zdrop off img) ++ zdrop m img = zdrop off img).
  { intros off n m -> O N. rewrite <- (zdrop_zdrop n off) by lia. apply ztake_zdrop. }
  assert (Z40 : zdrop 40 img = []) by (apply zdrop_all; lia).
  rewrite <- (app_nil_r (ztake 2 (zdrop 38 img))), <- Z40.
  rewrite (T 38 2), (T 36 2), (T 34 2), (T 32 2), (T 28 4), (T 24 4), (T 16 8), (T 8 8), (T 0 8) by lia. apply zdrop_le0. lia.
Qed.

Lemma struct_image_zero e : struct_image (pr_zero e) = zrepeat 0 40.
Proof. reflexivity. Qed.

Lemma u64s_zero e : 0 <= e -> u64s_image (zrepeat 0 e) = zrepeat 0 (8 * e).
Proof.
  intros E. unfold zrepeat, u64s_image. replace (Z.to_nat (8 * e)) with (8 * Z.to_nat e)%nat by lia.
  induction (Z.to_nat e) as [|n IH]; [reflexivity|]. cbn [repeat flat_map]. rewrite IH.
  replace (8 * S n)%nat with (8 + 8 * n)%nat by lia. rewrite repeat_app. reflexivity.
Qed.

Lemma read_record_padded e s : fed s -> bytes_ok (i_rest s) -> 0 <= e <= 255 ->
  exists p s', read_point_record e s = Ret (p, s') /\ fed s' /\ i_rest s' = zdrop (40 + 8 * e) (i_rest s)
    /\ pr_bytes p = zpad (40 + 8 * e) (i_rest s) /\ zlen (rextra p) = e /\ pr_ok p.
Proof.
  intros F B E. unfold read_point_record. replace (PTRDIFF_MAX <? e * 8) with false by (symmetry; apply Z.ltb_ge; unfold PTRDIFF_MAX, two63; lia).
  destruct (is_read struct_size s) as [got s1] eqn:R1. apply is_read_fed in R1 as (-> & D1 & F1); [|exact F|unfold struct_size; lia].
  rewrite struct_image_zero. unfold struct_size in *. rewrite overwrite_zeros by lia. cbn [rextra pr_zero]. rewrite zlen_zrepeat, Z.max_r by lia.
  assert (Bi : bytes_ok (zpad 40 (i_rest s))) by now apply bytes_ok_zpad.
  assert (Li : zlen (zpad 40 (i_rest s)) = 40) by (apply zlen_zpad; lia).
  destruct (e =? 0) eqn:E0; cbn [negb].
  - apply Z.eqb_eq in E0 as ->. eexists _, s1. split; [reflexivity|]. split; [exact F1|]. split; [exact D1|].
    split; [|split; [now rewrite zlen_extra_of_image|apply pr_of_image_ok; auto; constructor]].
    rewrite image_bytes by (auto; try constructor; lia). apply app_nil_r.
  - apply Z.eqb_neq in E0. destruct (is_read (e * 8) s1) as [gote s2] eqn:R2. apply is_read_fed in R2 as (-> & D2 & F2); [|exact F1|lia].
    rewrite D1 in *. rewrite u64s_zero by lia. replace (e * 8) with (8 * e) in * by lia. rewrite overwrite_zeros by lia.
    assert (Bx : bytes_ok (zpad (8 * e) (zdrop 40 (i_rest s)))) by (apply bytes_ok_zpad; now apply Forall_zdrop).
    eexists _, s2. split; [reflexivity|]. split; [exact F2|]. split; [rewrite D2; apply zdrop_zdrop; lia|].
    split; [|split; [rewrite zlen_extra_of_image; lia|now apply pr_of_image_ok]].
    rewrite image_bytes; auto; [|lia|apply zlen_zpad; lia]. symmetry. apply zpad_add; lia.
Qed.
