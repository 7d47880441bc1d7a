(** The bulk reader on data that ends early: what the buffer still holds. *)
From Coq Require Import ZArith List Bool Lia.
From Verif.Model Require Import Base Double Header PointRecord Compression File IO.
From Verif.Spec Require Import Format Streams Files Truncation.
From Verif.Proofs Require Import BaseFacts HeaderFacts PointRecordFacts IOFacts FileFacts FileIOFacts HeaderCutFacts PaddingFacts.
Import ListNotations.
Open Scope Z_scope.
Open Scope outcome_scope.

(** Record [j] of a buffer *)
Definition at_ (size j : Z) (buf : list Z) : list Z := ztake size (zdrop (j * size) buf).

Lemma zlen_at size j buf : 0 <= size -> 0 <= j -> (j + 1) * size <= zlen buf -> zlen (at_ size j buf) = size.
Proof. intros S J L. unfold at_. rewrite zlen_ztake, zlen_zdrop. nia. Qed.

Lemma over_overwrite got old : over got old = overwrite got old.
Proof. unfold over, overwrite. rewrite zdrop_skipn. unfold zlen. now rewrite Nat2Z.id. Qed.

Lemma part_at size data n : part size data n = at_ (Z.of_nat size) (Z.of_nat n) data.
Proof. unfold part, at_. rewrite ztake_firstn, zdrop_skipn. f_equal; [lia|]. f_equal. lia. Qed.

Lemma at_overwrite size j k rest buf : 0 < size -> 0 <= j < k -> k * size <= zlen buf ->
  at_ size j (overwrite (ztake (k * size) rest) buf) = overwrite (at_ size j rest) (at_ size j buf).
Proof.
  intros S J K. unfold at_, overwrite. pose proof (zlen_nonneg rest). set (got := ztake (k * size) rest).
  assert (Lg : zlen got = Z.min (k * size) (zlen rest)) by (unfold got; rewrite zlen_ztake; nia).
  assert (Js : 0 <= j * size) by nia. assert (Jk : j * size + size <= k * size) by nia.
  assert (Part : ztake size (zdrop (j * size) got) = ztake size (zdrop (j * size) rest)).
  { unfold got. rewrite zdrop_ztake by lia. apply ztake_ztake. lia. }
  destruct (Z_le_gt_dec (zlen got) (j * size)) as [A|A].
  - (* nothing there *)
    rewrite zdrop_app_r by lia. rewrite zdrop_zdrop by (pose proof (zlen_nonneg got); lia).
    assert (E : ztake size (zdrop (j * size) rest) = []) by (rewrite (zdrop_all (j * size) rest) by lia; apply ztake_firstn || now rewrite ztake_firstn, firstn_nil).
    rewrite E. cbn [app]. rewrite zlen_nil, (zdrop_le0 0) by lia. f_equal. f_equal. lia.
  - rewrite zdrop_app_l by lia. destruct (Z_le_gt_dec (j * size + size) (zlen got)) as [B|B].
    + rewrite ztake_app_l by (rewrite zlen_zdrop; lia). rewrite Part.
      rewrite (zdrop_all (zlen (ztake size (zdrop (j * size) rest))) (ztake size (zdrop (j * size) buf)));
        [now rewrite app_nil_r|]. rewrite <- Part, !zlen_ztake, !zlen_zdrop. lia.
    + assert (Lp : zlen (zdrop (j * size) got) = zlen got - j * size) by (rewrite zlen_zdrop; lia).
      rewrite ztake_app_r by lia. rewrite <- Part, (ztake_all size (zdrop (j * size) got)) by lia. f_equal. rewrite Lp.
      rewrite zdrop_ztake by lia. rewrite zdrop_zdrop by lia. f_equal. f_equal. lia.
Qed.

Section Stale.
Variables (e total : Z) (bs : list Z).
Hypothesis He : 0 <= e.
Hypothesis Hrs : record_size e <= buffer_size.
Hypothesis Htotal : 0 <= total.
Hypothesis Hmax : total * sizeof_point_record <= PTRDIFF_MAX.
Hypothesis Hbs : bytes_ok bs.
Let size := record_size e.
Let rpb := records_per_buffer e.
Notation shown n b := (shows (Z.to_nat size) (Z.to_nat rpb) bs (Z.to_nat n) b).

Lemma size_pos : 40 <= size.
Proof. unfold size. rewrite record_size_eq. lia. Qed.

Lemma shown_first n : 0 <= n < rpb -> shown n (overwrite (at_ size n bs) (zrepeat 0 size)).
Proof.
  intros N. pose proof size_pos. rewrite <- over_overwrite.
  replace (at_ size n bs) with (part (Z.to_nat size) bs (Z.to_nat n)) by (rewrite part_at; f_equal; lia). apply shows_first. lia.
Qed.
Lemma shown_again n old : 0 <= n -> 0 <= rpb -> shown n old -> shown (n + rpb) (overwrite (at_ size (n + rpb) bs) old).
Proof.
  intros N R H. pose proof size_pos. rewrite <- over_overwrite. rewrite Z2Nat.inj_add by lia.
  replace (at_ size (n + rpb) bs) with (part (Z.to_nat size) bs (Z.to_nat n + Z.to_nat rpb)) by (rewrite part_at; f_equal; lia).
  now apply shows_again.
Qed.

Lemma rec_bytes buf j : bytes_ok buf -> 0 <= j -> (j + 1) * size <= zlen buf -> pr_bytes (rec_at e buf j) = at_ size j buf.
Proof.
  intros B J L. unfold rec_at. pose proof size_pos. assert (Sz : size = 40 + 8 * e) by (unfold size; rewrite record_size_eq; lia).
  unfold struct_size, extra_size. fold size. rewrite image_bytes.
  - unfold at_. rewrite <- (zdrop_zdrop 40 (j * size)) by nia.
    rewrite <- (ztake_zdrop 40 (ztake size (zdrop (j * size) buf))). rewrite ztake_ztake by lia. f_equal.
    rewrite zdrop_ztake by lia. f_equal. lia.
  - apply Forall_ztake, Forall_zdrop, B.
  - apply Forall_ztake, Forall_zdrop, B.
  - rewrite zlen_ztake, zlen_zdrop. nia.
  - exact He.
  - rewrite zlen_ztake, zlen_zdrop. nia.
Qed.

Definition held (i : Z) (buf : list Z) : Prop :=
  (i = 0 /\ buf = zrepeat 0 buffer_size) \/ (rpb <= i /\ forall j, 0 <= j < rpb -> shown (i - rpb + j) (at_ size j buf)).

Lemma chunks_show : forall fuel i buf p s, 0 <= i -> (i < total -> held i buf) -> zlen buf = buffer_size -> bytes_ok buf -> zlen p = total ->
  (i < total -> fed s /\ i_rest s = zdrop (i * size) bs) ->
  (forall n, 0 <= n < Z.min i total -> exists r, znth p n = Some r /\ shown n (pr_bytes r)) ->
  (Z.to_nat (total - i) < fuel)%nat ->
  forall p' s', read_chunks fuel total e i buf p s = Ret (p', s') ->
  forall n, 0 <= n < total -> exists r, znth p' n = Some r /\ shown n (pr_bytes r).
Proof.
  destruct (rpb_bounds e He Hrs) as [Hrpb Hrpb2]. fold rpb size in Hrpb, Hrpb2. pose proof size_pos as Sp.
  induction fuel as [|fuel IH]; intros i buf p s Hi Hh Hbuf Hbok Hp Hs Hrec Hf p' s' E n Hn; [lia|].
  cbn [read_chunks] in E. rewrite Hp in E. fold rpb in E.
  destruct (i <? total) eqn:Eit.
  2:{ apply Z.ltb_ge in Eit. injection E as <- <-. apply Hrec. lia. }
  apply Z.ltb_lt in Eit. specialize (Hh Eit). destruct (Hs Eit) as (Fs & Rs). rewrite Z.min_l in Hrec by lia.
  assert (Hu : to_u64 (i + rpb) = i + rpb).
  { unfold to_u64. apply Z.mod_small. unfold sizeof_point_record, PTRDIFF_MAX in Hmax; zs. lia. }
  rewrite Hu in E. set (k := if i + rpb <? total then rpb else total - i) in E.
  assert (Hk : 1 <= k <= rpb /\ Z.min (i + rpb) total = i + k /\ (i + rpb < total -> k = rpb)).
  { unfold k. destruct (i + rpb <? total) eqn:E1; [apply Z.ltb_lt in E1|apply Z.ltb_ge in E1]; lia. }
  destruct Hk as (Hk & Hmin & Hfull). fold size in E.
  assert (Hkb : k * size <= buffer_size) by nia.
  rewrite (proj2 (Z.ltb_ge _ _)) in E by lia.
  destruct (is_read (k * size) s) as [got s1] eqn:Er.
  assert (Hks : 0 <= k * size) by (apply Z.mul_nonneg_nonneg; lia).
  destruct (is_read_fed _ _ _ _ Fs Hks Er) as (-> & Rs1 & Fs1). rewrite Rs in *.
  set (got := ztake (k * size) (zdrop (i * size) bs)) in *.
  assert (Hgl : zlen got <= k * size) by (unfold got; rewrite zlen_ztake; lia).
  assert (Hbuf' : zlen (overwrite got buf) = buffer_size) by (rewrite zlen_overwrite; lia).
  assert (Hbok' : bytes_ok (overwrite got buf)) by (apply Forall_overwrite; [apply Forall_ztake, Forall_zdrop, Hbs|exact Hbok]).
  destruct (convert_records_spec e (overwrite got buf) i (Z.to_nat k) 0 p) as (p1 & Ec & Hl1 & Hn1 & _); try (fold size; lia).
  rewrite Ec in E. cbn [bind] in E.
  assert (At : forall j, 0 <= j < k -> shown (i + j) (at_ size j (overwrite got buf))).
  { intros j Hj. unfold got. rewrite at_overwrite by lia.
    replace (at_ size j (zdrop (i * size) bs)) with (at_ size (i + j) bs) by (unfold at_; rewrite zdrop_zdrop by nia; do 2 f_equal; lia).
    destruct Hh as [(-> & ->)|(Ri & Hh)].
    - rewrite Z.add_0_l. replace (at_ size j (zrepeat 0 buffer_size)) with (zrepeat 0 size); [apply shown_first; lia|].
      unfold at_. rewrite zdrop_skipn, ztake_firstn. unfold zrepeat, buffer_size in *.
      assert (X : forall a b c, (a + b <= c)%nat -> firstn b (skipn a (repeat 0 c)) = repeat 0 b).
      { intros a b c L. replace c with (a + (b + (c - a - b)))%nat by lia. rewrite !repeat_app, skipn_app, skipn_all2, repeat_length by (rewrite repeat_length; lia).
        rewrite Nat.sub_diag. cbn [app skipn]. rewrite firstn_app, repeat_length, Nat.sub_diag, firstn_O, app_nil_r. apply firstn_all2. rewrite repeat_length. lia. }
      symmetry. apply X. nia.
    - replace (i + j) with (i - rpb + j + rpb) by lia. apply shown_again; [lia|lia|]. apply Hh. lia. }
  revert E Hn. revert n. intros n E Hn.
  eapply (IH (i + rpb) (overwrite got buf) p1 s1); [lia| |exact Hbuf'|exact Hbok'|lia| | |lia|exact E|exact Hn].
  - intros L. right. split; [lia|]. intros j Hj. replace (i + rpb - rpb + j) with (i + j) by lia. apply At. rewrite Hfull by exact L. lia.
  - intros L. split; [exact Fs1|]. rewrite Rs1, zdrop_zdrop by nia. f_equal. rewrite (Hfull L). lia.
  - rewrite Hmin. intros m Hm. rewrite Hn1. rewrite Z2Nat.id by lia.
    destruct (i + 0 <=? m) eqn:E1.
    + apply Z.leb_le in E1. replace (m <? i + 0 + k) with true by (symmetry; apply Z.ltb_lt; lia). cbn [andb].
      eexists. split; [reflexivity|]. rewrite rec_bytes; [|exact Hbok'|lia|nia]. replace m with (i + (m - i)) at 1 by lia. apply At. lia.
    + apply Z.leb_gt in E1. cbn [andb]. apply Hrec. lia.
Qed.

Lemma points_show : exists p s, read_uncompressed_points total e (i_open bs) = Ret (p, s) /\ zlen p = total
  /\ (forall n, 0 <= n < total -> exists r, znth p n = Some r /\ shown n (pr_bytes r))
  /\ Forall (fun r => zlen (rextra r) = e) p /\ Forall pr_ok p.
Proof.
  destruct (read_uncompressed_points_spec e total bs (i_open bs) (or_introl eq_refl) He Hrs Htotal Hmax Hbs) as (p & s & E & L & _ & _ & Ex & Ok).
  exists p, s. split; [exact E|]. split; [exact L|]. split; [|split; assumption].
  unfold read_uncompressed_points in E. rewrite (proj2 (Z.ltb_ge _ _)) in E by lia.
  eapply (chunks_show _ 0 _ _ (i_open bs)); [lia| | | | | | | |exact E].
  - intros _. left. auto.
  - rewrite zlen_zrepeat. unfold buffer_size. lia.
  - apply Forall_zrepeat. unfold byte_ok, two8. lia.
  - rewrite zlen_zrepeat. lia.
  - intros _. split; [apply fed_open|]. now rewrite zdrop_le0 by lia.
  - lia.
  - lia.
Qed.

End Stale.
