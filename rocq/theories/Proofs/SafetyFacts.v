(** Reading arbitrary bytes. *)
From Coq Require Import String ZArith List Bool Lia.
From Verif.Model Require Import Base Double Header PointRecord File Compression IO.
From Verif.Spec Require Import Format Files ZlibContract.
From Verif.Proofs Require Import BaseFacts HeaderFacts PointRecordFacts FileFacts IOFacts
  CompressionFacts CompressedFacts FileIOFacts.
Import ListNotations.
Open Scope Z_scope.

Lemma stream_cases : forall s, bytes_ok (i_rest s) ->
  exists bs, bytes_ok bs /\ (s = i_open bs \/ ((bs = [] /\ i_good s = false) /\ bytes_ok (i_rest s))).
Proof.
  intros [r e f] H. unfold i_good. cbn. destruct e, f; cbn.
  - exists []. split; [constructor|]. auto.
  - exists []. split; [constructor|]. auto.
  - exists []. split; [constructor|]. auto.
  - exists r. auto.
Qed.

Lemma read_uncompressed_points_total : forall total e s, 0 <= e -> 0 <= total -> bytes_ok (i_rest s) ->
  match read_uncompressed_points total e s with
  | Ret (p, s') => zlen p = total /\ Forall (fun r => zlen (rextra r) = e) p /\ Forall pr_ok p
                   /\ bytes_ok (i_rest s')
  | Throw _ => PTRDIFF_MAX < total * sizeof_point_record
  | Hang => buffer_size < record_size e /\ 0 < total
  | UB _ => False
  end.
Proof.
  intros total e s He Ht Hs.
  destruct (PTRDIFF_MAX <? total * sizeof_point_record) eqn:E.
  { unfold read_uncompressed_points. rewrite E. now apply Z.ltb_lt. }
  apply Z.ltb_ge in E.
  destruct (Z_le_gt_dec (record_size e) buffer_size) as [Hr|Hr].
  - destruct (stream_cases s Hs) as (bs & Hbs & Hc).
    destruct (read_uncompressed_points_spec e total bs s Hc He Hr Ht E Hbs)
      as (p & s' & Ep & Hl & Hst & _ & Hex & Hok).
    rewrite Ep. split; [assumption|]. split; [assumption|]. split; [assumption|].
    destruct Hst as [[_ ->]|(_ & _ & Hb)]; [now apply Forall_zdrop|assumption].
  - unfold read_uncompressed_points. rewrite (proj2 (Z.ltb_ge _ _)) by assumption.
    destruct (Z.eq_dec total 0) as [->|Hn].
    + cbn. repeat split; auto.
    + rewrite read_chunks_hang; try lia. rewrite zlen_zrepeat. lia.
Qed.

Section WithZlib.
Variable z : zlib.
Variable ZS : list Z -> list Z -> Prop.
Hypothesis Hz : zlib_ok z ZS.

Lemma decompress_to_total : forall inp n, inp <> [] -> 0 < n ->
  (exists d, decompress_to z inp n = Ret d /\ zlen d = n /\ bytes_ok d)
  \/ exists e, decompress_to z inp n = Throw e.
Proof.
  intros inp n Hi Hn. unfold decompress_to.
  destruct (decompress_total z ZS Hz inp Hi) as [(out & E & Hok)|(e & E)]; rewrite E; cbn [bind]; [|eauto].
  destruct (zlen out =? n) eqn:El; cbn [negb]; [|eauto].
  apply Z.eqb_eq in El. destruct out as [|b out].
  - change (zlen (@nil Z)) with 0 in El. lia.
  - left. eauto.
Qed.

(** A column that was read: empty, or one value per record. *)
Definition col_read (t : coltype) (size : Z) (c : list Z) : Prop :=
  c = [] \/ (zlen c = size /\ col_ok t c).

Lemma read_compressed_total : forall t size s, 0 <= size -> (0 < ct_width t)%nat ->
  bytes_ok (i_rest s) ->
  match read_compressed z t size s with
  | Ret (c, s') => col_read t size c /\ bytes_ok (i_rest s')
  | Throw _ => True
  | UB _ => size = 0
  | Hang => False
  end.
Proof.
  intros t size s Hsz Hw Hs. unfold read_compressed.
  destruct (read_uint 8 0 s) as [n s1] eqn:E1.
  destruct (read_uint_range _ _ _ _ _ Hs E1) as [Hn Hs1].
  destruct (n =? 0) eqn:En; [split; [now left|assumption]|].
  apply Z.eqb_neq in En.
  destruct (PTRDIFF_MAX <? n); [exact I|].
  destruct (is_read n s1) as [got s2] eqn:E2.
  destruct (is_read_ok _ _ _ _ Hs1 E2) as [Hg Hs2].
  pose proof (is_read_zlen n s1 got s2 ltac:(lia) E2) as Hgl.
  destruct (PTRDIFF_MAX <? size * Z.of_nat (ct_width t)); [exact I|].
  destruct (size =? 0) eqn:E0; [now apply Z.eqb_eq in E0|].
  apply Z.eqb_neq in E0.
  destruct (decompress_to_total (overwrite got (zrepeat 0 n)) (size * Z.of_nat (ct_width t)))
    as [(d & E & Hd & Hok)|(e & E)].
  - intros H. apply (f_equal zlen) in H. rewrite zlen_overwrite in H by (rewrite zlen_zrepeat; lia).
    rewrite zlen_zrepeat in H. change (zlen (@nil Z)) with 0 in H. lia.
  - nia.
  - rewrite E. cbn [bind]. split; [|assumption]. right. split.
    + rewrite zlen_words. lia.
    + apply words_range. assumption.
  - rewrite E. exact I.
Qed.

Lemma read_extras_total : forall k size s, 0 <= size -> bytes_ok (i_rest s) ->
  match read_extras z k size s with
  | Ret (cs, s') => length cs = k /\ Forall (col_read t_u64 size) cs /\ bytes_ok (i_rest s')
  | Throw _ => True
  | UB _ => size = 0
  | Hang => False
  end.
Proof.
  induction k as [|k IH]; intros size s Hsz Hs; cbn [read_extras].
  - repeat split; auto.
  - pose proof (read_compressed_total t_u64 size s Hsz ltac:(cbn; lia) Hs) as H1.
    destruct (read_compressed z t_u64 size s) as [[c s1]| | |]; cbn [bind]; auto.
    destruct H1 as [Hc Hs1]. specialize (IH size s1 Hsz Hs1).
    destruct (read_extras z k size s1) as [[cs s2]| | |]; cbn [bind]; auto.
    destruct IH as (Hl & Hcs & Hs2). cbn. repeat split; auto.
Qed.

Lemma col_get_read : forall t size c n, col_read t size c -> 0 <= n < size ->
  exists v, col_get c n = Ret v /\ 0 <= v < 256 ^ Z.of_nat (ct_width t).
Proof.
  intros t size c n [->|[Hl Hok]] Hn.
  - exists 0. split; [reflexivity|]. split; [lia|]. apply Z.pow_pos_nonneg; lia.
  - destruct (znth_in_range c n) as [v Hv]; [lia|].
    exists v. unfold col_get, vec_get. rewrite Hv. destruct c; [discriminate|].
    split; [reflexivity|]. unfold col_ok in Hok. rewrite Forall_forall in Hok.
    apply Hok. eapply znth_In; eauto.
Qed.

Lemma mapM_cols : forall size n cs, 0 <= n < size -> Forall (col_read t_u64 size) cs ->
  exists vs, mapM (fun c => col_get c n) cs = Ret vs /\ length vs = length cs /\ Forall u64_ok vs.
Proof.
  intros size n cs Hn. induction 1 as [|c cs Hc Hcs IH]; cbn [mapM].
  - exists []. repeat split; auto.
  - destruct (col_get_read t_u64 size c n Hc Hn) as (v & E & Hv). rewrite E. cbn [bind].
    destruct IH as (vs & Evs & Hl & Hok). rewrite Evs. cbn [bind]. exists (v :: vs).
    cbn. repeat split; auto.
Qed.

Lemma mapM_total : forall {A B} (f : A -> outcome B) (P : B -> Prop) l,
  (forall a, In a l -> exists b, f a = Ret b /\ P b) ->
  exists bs, mapM f l = Ret bs /\ length bs = length l /\ Forall P bs.
Proof.
  intros A B f P l. induction l as [|a l IH]; intros H; cbn [mapM].
  - exists []. repeat split; auto.
  - destruct (H a) as (b & E & Hb); [now left|]. rewrite E. cbn [bind].
    destruct IH as (bs & Ebs & Hl & Hbs); [intros; apply H; now right|]. rewrite Ebs. cbn [bind].
    exists (b :: bs). cbn. repeat split; auto.
Qed.

Lemma read_compressed_points_total : forall total e s, 0 <= e -> 0 <= total -> bytes_ok (i_rest s) ->
  match read_compressed_points z total e s with
  | Ret (p, s') => zlen p = total /\ Forall (fun r => zlen (rextra r) = e) p /\ Forall pr_ok p
                   /\ bytes_ok (i_rest s')
  | Throw _ => True
  | UB _ => total = 0
  | Hang => False
  end.
Proof.
  intros total e s He Ht Hs. unfold read_compressed_points, record_at.
  Local Ltac col t total s Hs c Hc s1 Hs1 :=
    let H1 := fresh in
    pose proof (read_compressed_total t total s ltac:(assumption) ltac:(cbn; lia) Hs) as H1;
    destruct (read_compressed z t total s) as [[c s1]| | |]; cbn [bind]; try exact H1;
    destruct H1 as [Hc Hs1].
  col t_double total s Hs x Hx s1 Hs1. col t_double total s1 Hs1 y Hy s2 Hs2.
  col t_double total s2 Hs2 zz Hzz s3 Hs3. col t_u32 total s3 Hs3 c Hc s4 Hs4.
  col t_u32 total s4 Hs4 p Hp s5 Hs5. col t_u16 total s5 Hs5 i Hi s6 Hs6.
  col t_u16 total s6 Hs6 r Hr s7 Hs7. col t_u16 total s7 Hs7 g Hg s8 Hs8.
  col t_u16 total s8 Hs8 b Hb s9 Hs9.
  pose proof (read_extras_total (Z.to_nat e) total s9 Ht Hs9) as Hex.
  destruct (read_extras z (Z.to_nat e) total s9) as [[ex s10]| | |]; cbn [bind]; try exact Hex.
  destruct Hex as (Hel & Hex & Hs10).
  destruct (PTRDIFF_MAX <? total * sizeof_point_record); [exact I|].
  match goal with |- context [mapM ?F (zseq total)] =>
    destruct (mapM_total F (fun q => zlen (rextra q) = e /\ pr_ok q) (zseq total)) as (bs & E & Hl & HP) end.
  { intros n Hn. unfold zseq in Hn. apply in_map_iff in Hn as (k & <- & Hk). apply in_seq in Hk.
    assert (Hr0 : 0 <= Z.of_nat k < total) by lia.
    destruct (col_get_read _ _ _ _ Hx Hr0) as (vx & -> & Bx). destruct (col_get_read _ _ _ _ Hy Hr0) as (vy & -> & By).
    destruct (col_get_read _ _ _ _ Hzz Hr0) as (vz & -> & Bz). destruct (col_get_read _ _ _ _ Hc Hr0) as (vc & -> & Bc).
    destruct (col_get_read _ _ _ _ Hp Hr0) as (vp & -> & Bp). destruct (col_get_read _ _ _ _ Hi Hr0) as (vi & -> & Bi).
    destruct (col_get_read _ _ _ _ Hr Hr0) as (vr & -> & Br). destruct (col_get_read _ _ _ _ Hg Hr0) as (vg & -> & Bg).
    destruct (col_get_read _ _ _ _ Hb Hr0) as (vb & -> & Bb).
    destruct (mapM_cols _ _ _ Hr0 Hex) as (ve & -> & Hvl & Hvok). cbn [bind].
    eexists. split; [reflexivity|]. cbn [rextra]. split; [unfold zlen; lia|].
    constructor; cbn [rx ry rz rc rp ri rr rg rb rextra]; auto. }
  rewrite E. cbn [bind].
  assert (Hlen : zlen bs = total).
  { unfold zlen. rewrite Hl. pose proof (zlen_zseq total) as Hq. unfold zlen in Hq. lia. }
  rewrite Forall_forall in HP.
  repeat split; auto; apply Forall_forall; intros q Hq; now apply HP.
Qed.

Lemma read_file_total : forall s, bytes_ok (i_rest s) ->
  match read_spoc_file z s with
  | Throw _ => True
  | Ret (f, s') => exists h s1, read_header s = Ret (h, s1)
      /\ zlen (f_prs f) = h_total h
      /\ Forall (fun r => zlen (rextra r) = h_extra h) (f_prs f)
      /\ f_wkt f = h_wkt h /\ f_major f = 0 /\ f_minor f = 1
      /\ f_compressed f = negb (h_compressed h =? 0)
      /\ Forall pr_ok (f_prs f) /\ bytes_ok (i_rest s')
  | Hang => exists h s1, read_header s = Ret (h, s1) /\ h_compressed h = 0
      /\ 124 <= h_extra h /\ 0 < h_total h
  | UB _ => exists h s1, read_header s = Ret (h, s1) /\ h_compressed h <> 0 /\ h_total h = 0
  end.
Proof.
  intros s Hs. unfold read_spoc_file.
  destruct (read_header s) as [[h s1]| | |] eqn:Eh; cbn [bind]; auto.
  2-3: destruct (read_header_total s) as [(h & s' & E)|(e & E)]; congruence.
  destruct (read_header_good _ _ _ Hs Eh) as [Hg Hs1].
  destruct Hg as [Hsig Hma Hmi Hw Hwl Hex Htot Hcomp].
  destruct (h_compressed h =? 0) eqn:Ec; cbn [negb].
  - pose proof (read_uncompressed_points_total (h_total h) (h_extra h) s1 ltac:(lia) ltac:(lia) Hs1) as H.
    destruct (read_uncompressed_points (h_total h) (h_extra h) s1) as [[p s2]| | |]; cbn [bind]; auto.
    + destruct H as (Hl & Hx & Hok & Hs2).
      rewrite file_ctor_wkt_good by (apply (has_extras_uniform (h_extra h)); now apply Forall_has_extras).
      cbn [bind f_prs f_wkt f_major f_minor f_compressed].
      exists h, s1. rewrite Ec. auto 12.
    + destruct H.
    + exists h, s1. apply Z.eqb_eq in Ec. destruct H as [Hr Ht].
      rewrite record_size_eq in Hr. unfold buffer_size in Hr. repeat split; auto. lia.
  - pose proof (read_compressed_points_total (h_total h) (h_extra h) s1 ltac:(lia) ltac:(lia) Hs1) as H.
    destruct (read_compressed_points z (h_total h) (h_extra h) s1) as [[p s2]| | |]; cbn [bind]; auto.
    + destruct H as (Hl & Hx & Hok & Hs2).
      rewrite file_ctor_wkt_good by (apply (has_extras_uniform (h_extra h)); now apply Forall_has_extras).
      cbn [bind f_prs f_wkt f_major f_minor f_compressed].
      exists h, s1. rewrite Ec. auto 12.
    + exists h, s1. apply Z.eqb_neq in Ec. auto.
    + destruct H.
Qed.

End WithZlib.
