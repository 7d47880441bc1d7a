(** Facts about the uncompressed half of Model/IO.v. *)
From Coq Require Import String ZArith List Bool Lia.
From Verif.Model Require Import Base Double Header PointRecord File Compression IO.
From Verif.Spec Require Import Format.
From Verif.Proofs Require Import BaseFacts HeaderFacts PointRecordFacts.
Import ListNotations.
Open Scope Z_scope.

Lemma znth_zset : forall {A} (l : list A) n a l', zset l n a = Some l' ->
  zlen l' = zlen l /\ forall m, znth l' m = if m =? n then Some a else znth l m.
Proof.
  induction l as [|x l IH]; intros n a l' H; cbn [zset] in H; [discriminate|].
  destruct (n =? 0) eqn:E0.
  - injection H as <-. apply Z.eqb_eq in E0. subst n. rewrite !zlen_cons. split; [reflexivity|].
    intros m. cbn [znth]. destruct (m =? 0); reflexivity.
  - destruct (n <? 0) eqn:E1; [discriminate|].
    destruct (zset l (n - 1) a) as [t'|] eqn:E2; [|discriminate]. injection H as <-.
    destruct (IH _ _ _ E2) as [Hl Hn]. rewrite !zlen_cons. split; [lia|].
    intros m. cbn [znth]. apply Z.eqb_neq in E0. apply Z.ltb_ge in E1.
    destruct (m =? 0) eqn:Em.
    + apply Z.eqb_eq in Em. subst m. destruct (0 =? n) eqn:E; [apply Z.eqb_eq in E; lia|reflexivity].
    + apply Z.eqb_neq in Em. destruct (m <? 0) eqn:Em0.
      * apply Z.ltb_lt in Em0. destruct (m =? n) eqn:E; [apply Z.eqb_eq in E; lia|reflexivity].
      * rewrite Hn. destruct (m - 1 =? n - 1) eqn:Ea, (m =? n) eqn:Eb; try reflexivity;
          rewrite ?Z.eqb_eq, ?Z.eqb_neq in *; lia.
Qed.

Lemma Forall_zset : forall {A} (P : A -> Prop) (l : list A) n a l', zset l n a = Some l' ->
  P a -> Forall P l -> Forall P l'.
Proof.
  intros A P. induction l as [|x l IH]; intros n a l' H Ha Hl; cbn [zset] in H; [discriminate|].
  inversion Hl; subst. destruct (n =? 0); [injection H as <-; constructor; auto|].
  destruct (n <? 0); [discriminate|].
  destruct (zset l (n - 1) a) as [t'|] eqn:E2; [|discriminate]. injection H as <-.
  constructor; eauto.
Qed.

Lemma vec_set_ok : forall {A} (l : list A) n a, 0 <= n < zlen l ->
  exists l', vec_set l n a = Ret l' /\ zset l n a = Some l'.
Proof. intros A l n a H. unfold vec_set. rewrite zset_spec by assumption. eauto. Qed.

(** The record found at position [n] of an array of records. *)
Definition rec_at (e : Z) (bs : list Z) (n : Z) : point_record :=
  pr_of_image (ztake struct_size (zdrop (n * record_size e) bs))
              (ztake (extra_size e) (zdrop (n * record_size e + struct_size) bs)) e.

Lemma rec_at_ok : forall e bs n, bytes_ok bs -> pr_ok (rec_at e bs n).
Proof.
  intros. apply pr_of_image_ok; apply Forall_ztake, Forall_zdrop; assumption.
Qed.

Lemma rec_at_extra : forall e bs n, 0 <= e -> zlen (rextra (rec_at e bs n)) = e.
Proof. intros. now apply zlen_extra_of_image. Qed.

Lemma record_size_eq : forall e, record_size e = 40 + e * 8.
Proof. reflexivity. Qed.

Lemma rec_at_app_l : forall e a b n, 0 <= e -> 0 <= n -> (n + 1) * record_size e <= zlen a ->
  rec_at e (a ++ b) n = rec_at e a n.
Proof.
  intros e a b n He Hn H. rewrite record_size_eq in H. unfold rec_at.
  rewrite record_size_eq. unfold struct_size, extra_size.
  rewrite !zdrop_app_l by nia.
  rewrite !ztake_app_l by (rewrite zlen_zdrop; nia). reflexivity.
Qed.

Lemma rec_at_sub : forall e bs i n k, 0 <= e -> 0 <= i -> 0 <= n < k ->
  rec_at e (ztake (k * record_size e) (zdrop (i * record_size e) bs)) n = rec_at e bs (i + n).
Proof.
  intros e bs i n k He Hi Hn. unfold rec_at. rewrite record_size_eq. unfold struct_size, extra_size.
  rewrite !zdrop_ztake by nia. rewrite !zdrop_zdrop by nia.
  rewrite !ztake_ztake by nia.
  f_equal; f_equal; f_equal; nia.
Qed.

Lemma convert_records_spec : forall e buf i k j p, 0 <= e -> 0 <= i -> 0 <= j ->
  (j + Z.of_nat k) * record_size e <= zlen buf -> i + j + Z.of_nat k <= zlen p ->
  exists p', convert_records k j e buf i p = Ret p' /\ zlen p' = zlen p
    /\ (forall n, znth p' n = if (i + j <=? n) && (n <? i + j + Z.of_nat k)
                              then Some (rec_at e buf (n - i)) else znth p n)
    /\ (forall P : point_record -> Prop, (forall n, P (rec_at e buf n)) -> Forall P p -> Forall P p').
Proof.
  intros e buf i. induction k as [|k IH]; intros j p He Hi Hj Hb Hp.
  - exists p. repeat split; auto. intros n.
    destruct (i + j <=? n) eqn:E1, (n <? i + j + Z.of_nat 0) eqn:E2; cbn [andb]; try reflexivity.
    apply Z.leb_le in E1. apply Z.ltb_lt in E2. lia.
  - cbn [convert_records].
    rewrite (proj2 (Z.ltb_ge _ _)) by (rewrite record_size_eq in *; nia).
    destruct (vec_set_ok p (i + j) (rec_at e buf j)) as (p1 & E & Ez).
    { pose proof (Zle_0_nat k). lia. }
    unfold rec_at in E at 1. rewrite E. cbn [bind].
    destruct (znth_zset _ _ _ _ Ez) as [Hl1 Hn1].
    destruct (IH (j + 1) p1) as (p' & E' & Hl' & Hn' & HP'); try lia.
    exists p'. split; [assumption|]. split; [lia|]. split.
    + intros n. rewrite Hn', Hn1.
      destruct (n =? i + j) eqn:En.
      * apply Z.eqb_eq in En. subst n.
        replace (i + (j + 1) <=? i + j) with false by (symmetry; apply Z.leb_gt; lia).
        replace (i + j <=? i + j) with true by (symmetry; apply Z.leb_le; lia).
        replace (i + j <? i + j + Z.of_nat (S k)) with true by (symmetry; apply Z.ltb_lt; lia).
        cbn [andb]. do 2 f_equal. lia.
      * apply Z.eqb_neq in En.
        replace (i + (j + 1) + Z.of_nat k) with (i + j + Z.of_nat (S k)) by lia.
        replace (i + (j + 1) <=? n) with (i + j <=? n); [reflexivity|].
        destruct (i + j <=? n) eqn:E1; symmetry; [apply Z.leb_le in E1; apply Z.leb_le; lia|].
        apply Z.leb_gt in E1. apply Z.leb_gt. lia.
    + intros P HP Hall. apply HP'; [assumption|]. eapply Forall_zset; eauto.
Qed.

(** ** The bulk reader on any stream *)

Section Chunks.
Variables (e total : Z) (bs : list Z) (s0 : istream).
Let dead := bs = [] /\ i_good s0 = false.
Hypothesis Hs0 : s0 = i_open bs \/ (dead /\ bytes_ok (i_rest s0)).
Hypothesis He : 0 <= e.
Hypothesis Hrs : record_size e <= buffer_size.
Hypothesis Htotal : 0 <= total.
Hypothesis Hmax : total * sizeof_point_record <= PTRDIFF_MAX.
Hypothesis Hbs : bytes_ok bs.

Let rpb := records_per_buffer e.

Lemma rpb_bounds : 1 <= rpb <= 25 /\ rpb * record_size e <= buffer_size.
Proof.
  clear - He Hrs. unfold rpb, records_per_buffer. rewrite record_size_eq in *. unfold buffer_size in *.
  assert (Hd : 0 < 40 + e * 8) by lia.
  pose proof (Z.div_mod 1024 (40 + e * 8) ltac:(lia)).
  pose proof (Z.mod_pos_bound 1024 (40 + e * 8) Hd). nia.
Qed.

Definition stream_at (n : Z) (s : istream) : Prop :=
  (n * record_size e <= zlen bs /\ s = i_open (zdrop (n * record_size e) bs))
  \/ ((zlen bs < n * record_size e \/ dead) /\ i_good s = false /\ bytes_ok (i_rest s)).

Definition chunk_inv (i : Z) (buf : list Z) (p : list point_record) (s : istream) : Prop :=
  0 <= i <= total + 25 /\ zlen buf = buffer_size /\ bytes_ok buf /\ zlen p = total
  /\ stream_at (Z.min i total) s
  /\ (forall n, 0 <= n < Z.min i total -> (n + 1) * record_size e <= zlen bs ->
        znth p n = Some (rec_at e bs n))
  /\ Forall (fun r => zlen (rextra r) = e) p /\ Forall pr_ok p.

Lemma stream_at_ok : forall n s, stream_at n s -> bytes_ok (i_rest s).
Proof.
  intros n s [[_ ->]|(_ & _ & H)]; [|assumption]. apply Forall_zdrop, Hbs.
Qed.

Lemma read_chunks_spec : forall fuel i buf p s,
  chunk_inv i buf p s -> (Z.to_nat (total - i) < fuel)%nat ->
  exists p' s', read_chunks fuel total e i buf p s = Ret (p', s')
    /\ zlen p' = total /\ stream_at total s'
    /\ (forall n, 0 <= n < total -> (n + 1) * record_size e <= zlen bs ->
          znth p' n = Some (rec_at e bs n))
    /\ Forall (fun r => zlen (rextra r) = e) p' /\ Forall pr_ok p'.
Proof.
  destruct rpb_bounds as [Hrpb Hrpb2].
  induction fuel as [|fuel IH]; intros i buf p s (Hi & Hbuf & Hbok & Hp & Hs & Hrec & Hex & Hok) Hf; [lia|].
  cbn [read_chunks]. rewrite Hp. fold rpb.
  destruct (i <? total) eqn:Eit.
  2:{ apply Z.ltb_ge in Eit. rewrite Z.min_r in * by lia. exists p, s. auto 8. }
  apply Z.ltb_lt in Eit. rewrite Z.min_l in * by lia.
  assert (Hu : to_u64 (i + rpb) = i + rpb).
  { unfold to_u64. apply Z.mod_small. unfold sizeof_point_record, PTRDIFF_MAX in Hmax; zs. lia. }
  rewrite Hu.
  set (k := if i + rpb <? total then rpb else total - i).
  assert (Hk : 1 <= k <= rpb /\ Z.min (i + rpb) total = i + k).
  { unfold k. destruct (i + rpb <? total) eqn:E; [apply Z.ltb_lt in E|apply Z.ltb_ge in E]; lia. }
  destruct Hk as [Hk Hmin].
  assert (Hkb : k * record_size e <= buffer_size) by (rewrite record_size_eq in *; nia).
  rewrite (proj2 (Z.ltb_ge _ _)) by lia.
  destruct (is_read (k * record_size e) s) as [got s1] eqn:Er.
  assert (Hnn : 0 <= k * record_size e) by (rewrite record_size_eq; nia).
  pose proof (is_read_zlen _ _ _ _ Hnn Er) as Hglen.
  destruct (is_read_ok _ _ _ _ (stream_at_ok _ _ Hs) Er) as [Hgok Hs1ok].
  assert (Hbuf' : zlen (overwrite got buf) = buffer_size) by (rewrite zlen_overwrite; lia).
  assert (Hbok' : bytes_ok (overwrite got buf)) by now apply Forall_overwrite.
  destruct (convert_records_spec e (overwrite got buf) i (Z.to_nat k) 0 p) as (p1 & Ec & Hl1 & Hn1 & HP1);
    try lia.
  rewrite Ec. cbn [bind].
  apply IH; [|lia].
  split; [lia|]. split; [lia|]. split; [assumption|]. split; [lia|].
  rewrite Hmin.
  assert (Hcase : stream_at (i + k) s1 /\
    (forall n, i <= n < i + k -> (n + 1) * record_size e <= zlen bs ->
       rec_at e (overwrite got buf) (n - i) = rec_at e bs n)).
  { destruct Hs as [[Hpos ->]|(Hpos & Hbad & Hr)].
    - unfold is_read in Er. cbn [i_open i_good i_eof i_fail negb andb i_rest] in Er.
      destruct (zlen (ztake (k * record_size e) (zdrop (i * record_size e) bs)) <? k * record_size e) eqn:El;
        injection Er as <- <-.
      + apply Z.ltb_lt in El. rewrite zlen_ztake, zlen_zdrop in El. rewrite record_size_eq in *.
        pose proof (zlen_nonneg bs). assert (0 <= i * (40 + e * 8)) by nia. split.
        * right. rewrite ?record_size_eq. split; [left; lia|]. split; [reflexivity|constructor].
        * intros n Hn Hnb. unfold overwrite. rewrite rec_at_app_l; try lia.
          -- change (40 + e * 8) with (record_size e). rewrite rec_at_sub by lia. f_equal. lia.
          -- rewrite zlen_ztake, zlen_zdrop, record_size_eq. nia.
      + apply Z.ltb_ge in El. rewrite zlen_ztake, zlen_zdrop in El. rewrite record_size_eq in *.
        pose proof (zlen_nonneg bs). assert (0 <= i * (40 + e * 8)) by nia. split.
        * left. rewrite ?record_size_eq. split; [lia|]. rewrite zdrop_zdrop by nia.
          unfold i_open. f_equal. f_equal. nia.
        * intros n Hn Hnb. unfold overwrite. rewrite rec_at_app_l; try lia.
          -- change (40 + e * 8) with (record_size e). rewrite rec_at_sub by lia. f_equal. lia.
          -- rewrite zlen_ztake, zlen_zdrop, record_size_eq. nia.
    - rewrite is_read_bad in Er by assumption. injection Er as <- <-.
      rewrite record_size_eq in *. split.
      + right. rewrite ?record_size_eq. split; [destruct Hpos as [Hpos|Hd]; [left; nia|now right]|].
        split; [|assumption]. unfold i_good. cbn. now rewrite andb_false_r.
      + intros n Hn Hnb. destruct Hpos as [Hpos|[Hd _]]; [nia|]. rewrite Hd in Hnb.
        change (zlen (@nil Z)) with 0 in Hnb. nia. }
  destruct Hcase as [Hs1 Hrec1].
  split; [assumption|]. split.
  - intros n Hn Hnb. rewrite Hn1. rewrite Z2Nat.id by lia.
    destruct (i + 0 <=? n) eqn:E1.
    + apply Z.leb_le in E1. replace (n <? i + 0 + k) with true by (symmetry; apply Z.ltb_lt; lia).
      cbn [andb]. rewrite Hrec1; auto. lia.
    + cbn [andb]. apply Z.leb_gt in E1. apply Hrec; auto. lia.
  - split; apply HP1; auto; intros n; [now apply rec_at_extra|now apply rec_at_ok].
Qed.

Lemma Forall_bytes_zero : forall n, bytes_ok (zrepeat 0 n).
Proof. intros. apply Forall_zrepeat. unfold byte_ok; zs; lia. Qed.

Lemma pr_zero_ok : forall n, pr_ok (pr_zero n).
Proof.
  intros n. constructor; cbn; unfold d_ok, u32_ok, u16_ok, d_zero; zs; try lia.
  apply Forall_zrepeat. unfold u64_ok; zs; lia.
Qed.

Lemma read_uncompressed_points_spec :
  exists p' s', read_uncompressed_points total e s0 = Ret (p', s')
    /\ zlen p' = total /\ stream_at total s'
    /\ (forall n, 0 <= n < total -> (n + 1) * record_size e <= zlen bs ->
          znth p' n = Some (rec_at e bs n))
    /\ Forall (fun r => zlen (rextra r) = e) p' /\ Forall pr_ok p'.
Proof.
  unfold read_uncompressed_points. rewrite (proj2 (Z.ltb_ge _ _)) by lia.
  apply read_chunks_spec; [|lia].
  split; [lia|]. split; [now rewrite zlen_zrepeat|]. split; [apply Forall_bytes_zero|].
  split; [rewrite zlen_zrepeat; lia|].
  rewrite Z.min_l by lia. split.
  - destruct Hs0 as [E0|[Hd Hr]].
    + left. rewrite zdrop_le0 by lia. split; [pose proof (zlen_nonneg bs); lia|exact E0].
    + right. split; [now right|]. split; [apply Hd|assumption].
  - split; [intros; lia|]. split.
    + apply Forall_zrepeat. cbn. rewrite zlen_zrepeat. lia.
    + apply Forall_zrepeat. apply pr_zero_ok.
Qed.

End Chunks.

(** ** Arrays of records *)

Definition prs_bytes (prs : list point_record) : list Z := flat_map pr_bytes prs.

Lemma zlen_prs_bytes : forall e prs, Forall (fun r => zlen (rextra r) = e) prs ->
  zlen (prs_bytes prs) = zlen prs * record_size e.
Proof.
  intros e prs H. rewrite record_size_eq. induction H as [|p l Hp Hl IH]; [reflexivity|].
  unfold prs_bytes in *. cbn [flat_map]. rewrite zlen_app, zlen_cons, IH, zlen_pr_bytes, Hp. lia.
Qed.

Lemma rec_at_prs_bytes : forall e prs t, 0 <= e -> Forall (fun r => zlen (rextra r) = e) prs ->
  Forall pr_ok prs -> forall n, 0 <= n < zlen prs ->
  znth prs n = Some (rec_at e (prs_bytes prs ++ t) n).
Proof.
  intros e prs t He. induction prs as [|p l IH]; intros Hex Hok n Hn.
  - change (zlen (@nil point_record)) with 0 in Hn. lia.
  - inversion Hex as [|? ? Hp Hl]; subst. inversion Hok as [|? ? Hpo Hlo]; subst.
    rewrite zlen_cons in Hn. cbn [znth].
    unfold prs_bytes. cbn [flat_map]. fold (prs_bytes l).
    destruct (n =? 0) eqn:E0.
    + apply Z.eqb_eq in E0. subst n. f_equal. unfold rec_at.
      rewrite Z.mul_0_l, Z.add_0_l. rewrite zdrop_le0 by lia.
      unfold pr_bytes. rewrite <- !app_assoc.
      rewrite ztake_app_exact by now rewrite zlen_struct_image.
      rewrite zdrop_app_exact by now rewrite zlen_struct_image.
      rewrite ztake_app_exact by (rewrite zlen_u64s_image; unfold extra_size; lia).
      symmetry. apply pr_of_pr_bytes. assumption.
    + apply Z.eqb_neq in E0. rewrite (proj2 (Z.ltb_ge _ _)) by lia.
      rewrite IH by (auto; lia). f_equal. unfold rec_at. rewrite <- app_assoc.
      rewrite record_size_eq. unfold struct_size.
      rewrite !(zdrop_app_r _ (pr_bytes p)) by (rewrite zlen_pr_bytes; nia).
      rewrite zlen_pr_bytes. f_equal; f_equal; f_equal; lia.
Qed.

Lemma read_uncompressed_points_round_trip : forall e prs t,
  0 <= e -> record_size e <= buffer_size -> zlen prs * sizeof_point_record <= PTRDIFF_MAX ->
  Forall (fun r => zlen (rextra r) = e) prs -> Forall pr_ok prs -> bytes_ok t ->
  read_uncompressed_points (zlen prs) e (i_open (prs_bytes prs ++ t)) = Ret (prs, i_open t).
Proof.
  intros e prs t He Hrs Hmax Hex Hok Ht.
  assert (Hb : bytes_ok (prs_bytes prs ++ t)).
  { apply Forall_app; split; [|assumption]. apply flat_map_ok. apply pr_bytes_ok. }
  destruct (read_uncompressed_points_spec e (zlen prs) _ _ (or_introl eq_refl) He Hrs (zlen_nonneg _) Hmax Hb)
    as (p' & s' & E & Hl & Hs & Hn & _ & _).
  rewrite E. f_equal. f_equal.
  - apply znth_ext; [assumption|]. intros n Hr. rewrite Hl in Hr.
    rewrite Hn; [|lia|].
    + symmetry. now apply rec_at_prs_bytes.
    + rewrite zlen_app, (zlen_prs_bytes e) by assumption. pose proof (zlen_nonneg t).
      rewrite record_size_eq. nia.
  - destruct Hs as [[_ ->]|([Hbad|[_ Hbad]] & _)]; [| |discriminate].
    + rewrite zdrop_app_exact; [reflexivity|]. now rewrite (zlen_prs_bytes e).
    + rewrite zlen_app, (zlen_prs_bytes e) in Hbad by assumption. pose proof (zlen_nonneg t). lia.
Qed.

(** ** The reader never ends when a record does not fit the buffer *)

Lemma read_chunks_hang : forall e total p buf, buffer_size < record_size e -> 0 <= e ->
  0 < total -> zlen p = total ->
  forall fuel s, read_chunks fuel total e 0 buf p s = Hang.
Proof.
  intros e total p buf Hrs He Ht Hp. induction fuel as [|fuel IH]; intros s; [reflexivity|].
  cbn [read_chunks]. rewrite Hp. rewrite (proj2 (Z.ltb_lt _ _)) by lia.
  assert (Hr : records_per_buffer e = 0).
  { unfold records_per_buffer. apply Z.div_small. unfold buffer_size in *. lia. }
  rewrite Hr. replace (to_u64 (0 + 0)) with 0 by reflexivity.
  rewrite (proj2 (Z.ltb_lt 0 total)) by lia.
  rewrite Z.mul_0_l. rewrite (proj2 (Z.ltb_ge _ _)) by apply zlen_nonneg.
  destruct (is_read 0 s) as [got s1] eqn:E.
  pose proof (is_read_zlen 0 s got s1 ltac:(lia) E) as Hg.
  rewrite (zlen_zero_nil got) by lia.
  cbn [Z.to_nat convert_records bind]. rewrite overwrite_nil. apply IH.
Qed.

(** ** Record by record *)


Lemma read_point_record_at : forall e bs, 0 <= e -> e * 8 <= PTRDIFF_MAX ->
  record_size e <= zlen bs ->
  read_point_record e (i_open bs) = Ret (rec_at e bs 0, i_open (zdrop (record_size e) bs)).
Proof.
  intros e bs He Hm Hl. rewrite record_size_eq in *.
  unfold read_point_record. rewrite (proj2 (Z.ltb_ge _ _)) by lia.
  rewrite <- (ztake_zdrop 40 bs) at 1.
  rewrite is_read_open by (rewrite zlen_ztake; unfold struct_size; lia).
  rewrite overwrite_full by (rewrite zlen_struct_image, zlen_ztake; lia).
  cbn [rextra pr_zero]. rewrite zlen_zrepeat, Z.max_r by lia.
  unfold rec_at. rewrite Z.mul_0_l, Z.add_0_l, (zdrop_le0 0) by lia. unfold struct_size.
  destruct (e =? 0) eqn:E; cbn [negb].
  - apply Z.eqb_eq in E. subst e. cbn [Z.mul Z.add].
    unfold extra_size. rewrite (ztake_le0 (0 * 8)) by lia. reflexivity.
  - apply Z.eqb_neq in E.
    rewrite <- (ztake_zdrop (e * 8) (zdrop 40 bs)) at 1.
    rewrite is_read_open by (rewrite zlen_ztake, zlen_zdrop; lia).
    rewrite overwrite_full by (rewrite zlen_ztake, zlen_zdrop, zlen_u64s_image, zlen_zrepeat; lia).
    unfold extra_size. rewrite zdrop_zdrop by lia. reflexivity.
Qed.

Lemma rec_at_shift : forall e bs n, 0 <= e -> 0 <= n ->
  rec_at e (zdrop (record_size e) bs) n = rec_at e bs (n + 1).
Proof.
  intros e bs n He Hn. unfold rec_at. rewrite record_size_eq. unfold struct_size.
  rewrite !zdrop_zdrop by nia. f_equal; f_equal; f_equal; nia.
Qed.

Lemma read_records_spec : forall e n bs, 0 <= e -> e * 8 <= PTRDIFF_MAX ->
  Z.of_nat n * record_size e <= zlen bs ->
  exists ps, read_records n e (i_open bs) = Ret (ps, i_open (zdrop (Z.of_nat n * record_size e) bs))
    /\ zlen ps = Z.of_nat n
    /\ forall i, 0 <= i < Z.of_nat n -> znth ps i = Some (rec_at e bs i).
Proof.
  intros e. induction n as [|n IH]; intros bs He Hm Hl.
  - exists []. cbn [read_records]. rewrite zdrop_le0 by lia. repeat split; auto. intros; lia.
  - cbn [read_records]. assert (Hr : record_size e <= zlen bs) by (rewrite record_size_eq in *; nia).
    rewrite read_point_record_at by assumption. cbn [bind].
    assert (Hrp : 0 < record_size e) by (rewrite record_size_eq; lia).
    destruct (IH (zdrop (record_size e) bs)) as (ps & E & Hlen & Hn); auto.
    { rewrite zlen_zdrop. nia. }
    rewrite E. cbn [bind]. exists (rec_at e bs 0 :: ps). split; [|split].
    + rewrite zdrop_zdrop by nia. do 2 f_equal. f_equal. f_equal. nia.
    + rewrite zlen_cons. lia.
    + intros i Hi. cbn [znth]. destruct (i =? 0) eqn:E0.
      * apply Z.eqb_eq in E0. now subst.
      * apply Z.eqb_neq in E0. rewrite (proj2 (Z.ltb_ge _ _)) by lia.
        rewrite Hn by lia. rewrite rec_at_shift by lia. do 2 f_equal. lia.
Qed.
