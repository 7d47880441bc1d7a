(** Cut files, too many extra fields, full devices, the conversion tools. *)
From Coq Require Import String ZArith List Bool Lia.
From Verif.Model Require Import Base Double Header PointRecord File Compression IO AppConvert.
From Verif.Spec Require Import Format Files Streams ZlibContract.
From Verif.Proofs Require Import BaseFacts HeaderFacts HeaderCutFacts PointRecordFacts IOFacts
  FileFacts CompressionFacts CompressedFacts FileIOFacts SafetyFacts.
Import ListNotations.
Open Scope Z_scope.

Lemma has_extras_get : forall k f, has_extras k (f_prs f) -> f_prs f <> [] -> get_extra_fields f = k.
Proof.
  intros k f H Hne. unfold get_extra_fields. destruct (f_prs f) as [|p prs]; [congruence|].
  apply (H p). now left.
Qed.

Lemma has_extras_le : forall k n f, has_extras k (f_prs f) -> 0 <= n -> k <= n -> get_extra_fields f <= n.
Proof.
  intros k n f H Hn Hk. unfold get_extra_fields. destruct (f_prs f) as [|p prs]; [assumption|].
  pose proof (H p (or_introl eq_refl)) as E. fold (zlen (rextra p)) in E. lia.
Qed.

Lemma ctor_wkt_limit : forall f, good_file f -> 65535 <? zlen (f_wkt f) = false.
Proof. intros f Hf. apply Z.ltb_ge. exact (gf_wkt_len f Hf). Qed.

(** The header of any file of the current version. *)
Lemma get_header_any : forall f, good_file f ->
  exists h, get_header f = Ret h /\ good_header h /\ h_wkt h = f_wkt f
    /\ h_extra h = get_extra_fields f mod 256 /\ h_total h = zlen (f_prs f)
    /\ h_compressed h = b2z (f_compressed f).
Proof.
  intros f Hf. unfold get_header, header_ctor. rewrite ctor_wkt_limit by assumption.
  eexists. split; [reflexivity|].
  pose proof (zlen_nonneg (f_prs f)). pose proof (gf_total f Hf) as Ht. fold (zlen (f_prs f)) in Ht.
  pose proof (get_extra_fields_nonneg f) as He0.
  assert (Hm : 0 <= get_extra_fields f mod 256 < 256) by (apply Z.mod_pos_bound; lia).
  assert (Htot : to_u64 (zlen (f_prs f)) = zlen (f_prs f)).
  { unfold to_u64. apply Z.mod_small. unfold two64. lia. }
  split; [|split; [reflexivity|split; [reflexivity|split; [exact Htot|reflexivity]]]].
  rewrite Htot. constructor; cbn [h_sig h_major h_minor h_wkt h_extra h_total h_compressed].
  - reflexivity.
  - rewrite (gf_major f Hf). reflexivity.
  - rewrite (gf_minor f Hf). reflexivity.
  - apply (gf_wkt f Hf).
  - apply (gf_wkt_len f Hf).
  - unfold to_u8, two8. lia.
  - lia.
  - destruct (f_compressed f); cbn; lia.
Qed.

(** *** Cut uncompressed files *)
Lemma read_cut_uncompressed : forall z f h k, good_file f -> f_compressed f = false ->
  get_extra_fields f <= 123 -> get_header f = Ret h ->
  header_size h <= k <= zlen (header_bytes h ++ prs_bytes (f_prs f)) ->
  exists f' s', read_spoc_file z (i_open (ztake k (header_bytes h ++ prs_bytes (f_prs f)))) = Ret (f', s')
    /\ f_wkt f' = f_wkt f /\ f_compressed f' = false
    /\ zlen (f_prs f') = zlen (f_prs f)
    /\ Forall (fun r => zlen (rextra r) = get_extra_fields f) (f_prs f')
    /\ (forall n, 0 <= n -> header_size h + (n + 1) * record_size (get_extra_fields f) <= k ->
          znth (f_prs f') n = znth (f_prs f) n)
    /\ (k < zlen (header_bytes h ++ prs_bytes (f_prs f)) -> i_good s' = false).
Proof.
  intros z f h k Hf Hc He Hh Hk.
  destruct (get_header_spec f Hf ltac:(lia)) as (h' & Hh' & Hgh & Hw & Hx & Htot & Hcomp & Hsig).
  rewrite Hh in Hh'. injection Hh' as <-.
  pose proof (header_bytes_len h Hgh) as Hhl. pose proof (get_extra_fields_nonneg f) as He0.
  rewrite ztake_app_r by lia. rewrite Hhl.
  set (e := get_extra_fields f) in *. set (bs := ztake (k - header_size h) (prs_bytes (f_prs f))).
  assert (Hpb : bytes_ok (prs_bytes (f_prs f))) by (apply flat_map_ok; intros; apply pr_bytes_ok).
  assert (Hbs : bytes_ok bs) by (apply Forall_ztake, Hpb).
  assert (Hex : Forall (fun r => zlen (rextra r) = e) (f_prs f)) by (apply uniform_Forall, Hf).
  assert (Hprl : zlen (prs_bytes (f_prs f)) = zlen (f_prs f) * record_size e) by (now apply zlen_prs_bytes).
  rewrite zlen_app in Hk. 
  assert (Hbl : zlen bs = k - header_size h) by (unfold bs; rewrite zlen_ztake; lia).
  pose proof (gf_total f Hf) as Hmax. fold (zlen (f_prs f)) in Hmax.
  destruct (read_uncompressed_points_spec e (zlen (f_prs f)) bs (i_open bs)) as (p & s' & Ep & Hl & Hst & Hrec & Hext & Hok); auto.
  { rewrite record_size_eq. unfold buffer_size. lia. }
  { apply zlen_nonneg. }
  exists (mk_file 0 1 (f_wkt f) false p), s'.
  unfold read_spoc_file. rewrite read_header_round_trip by assumption. cbn [bind].
  rewrite Hcomp, Hc, Hx, Htot, Hw. cbn [b2z Z.eqb negb]. rewrite Ep. cbn [bind].
  rewrite file_ctor_wkt_good by (eapply has_extras_uniform, Forall_has_extras; exact Hext). cbn [bind f_wkt f_compressed f_prs].
  split; [reflexivity|]. split; [reflexivity|]. split; [reflexivity|]. split; [exact Hl|].
  split; [exact Hext|]. split.
  - intros n Hn Hle. pose proof (record_size_eq e).
    assert (Hnt : n < zlen (f_prs f)) by nia.
    rewrite Hrec by lia.
    rewrite (rec_at_prs_bytes e (f_prs f) [] He0 Hex (gf_prs f Hf) n) by lia.
    rewrite app_nil_r. f_equal. symmetry.
    rewrite <- (ztake_zdrop (k - header_size h) (prs_bytes (f_prs f))) at 1. fold bs.
    apply rec_at_app_l; lia.
  - intros Hlt. rewrite zlen_app in Hlt. destruct Hst as [[Hge _]|(_ & Hb & _)]; [|exact Hb]. lia.
Qed.

(** *** Compressed files cut right after the header *)
Lemma read_uint_bad : forall k s, i_good s = false ->
  read_uint k 0 s = (0, mk_istream (i_rest s) (i_eof s) true).
Proof.
  intros k s H. unfold read_uint. rewrite is_read_bad by assumption. rewrite overwrite_nil.
  rewrite le_val_bytes; [reflexivity|]. split; [lia|]. apply Z.pow_pos_nonneg; lia.
Qed.

Lemma read_compressed_bad : forall z t size s, i_good s = false ->
  exists s', read_compressed z t size s = Ret ([], s') /\ i_good s' = false.
Proof.
  intros z t size s H. unfold read_compressed. rewrite read_uint_bad by assumption. cbn [Z.eqb].
  eexists. split; [reflexivity|]. unfold i_good. cbn. now rewrite andb_comm.
Qed.

Lemma read_extras_bad : forall z k size s, i_good s = false ->
  exists s', read_extras z k size s = Ret (repeat [] k, s') /\ i_good s' = false.
Proof.
  intros z k. induction k as [|k IH]; intros size s H; cbn [read_extras repeat].
  - eauto.
  - destruct (read_compressed_bad z t_u64 size s H) as (s1 & E1 & H1). rewrite E1. cbn [bind].
    destruct (IH size s1 H1) as (s2 & E2 & H2). rewrite E2. cbn [bind]. eauto.
Qed.

Lemma read_compressed_points_bad : forall z total e s, i_good s = false -> 0 <= total -> 0 <= e ->
  total * 64 <= PTRDIFF_MAX ->
  exists s', read_compressed_points z total e s = Ret (zrepeat (pr_zero e) total, s') /\ i_good s' = false.
Proof.
  intros z total e s H Ht He Hmax. unfold read_compressed_points, record_at.
  destruct (read_compressed_bad z t_double total s H) as (s1 & E1 & H1). rewrite E1. cbn [bind].
  destruct (read_compressed_bad z t_double total s1 H1) as (s2 & E2 & H2). rewrite E2. cbn [bind].
  destruct (read_compressed_bad z t_double total s2 H2) as (s3 & E3 & H3). rewrite E3. cbn [bind].
  destruct (read_compressed_bad z t_u32 total s3 H3) as (s4 & E4 & H4). rewrite E4. cbn [bind].
  destruct (read_compressed_bad z t_u32 total s4 H4) as (s5 & E5 & H5). rewrite E5. cbn [bind].
  destruct (read_compressed_bad z t_u16 total s5 H5) as (s6 & E6 & H6). rewrite E6. cbn [bind].
  destruct (read_compressed_bad z t_u16 total s6 H6) as (s7 & E7 & H7). rewrite E7. cbn [bind].
  destruct (read_compressed_bad z t_u16 total s7 H7) as (s8 & E8 & H8). rewrite E8. cbn [bind].
  destruct (read_compressed_bad z t_u16 total s8 H8) as (s9 & E9 & H9). rewrite E9. cbn [bind].
  destruct (read_extras_bad z (Z.to_nat e) total s9 H9) as (s' & E' & H'). rewrite E'. cbn [bind].
  rewrite (proj2 (Z.ltb_ge _ _)) by (unfold sizeof_point_record; lia).
  exists s'. split; [|exact H']. cbn [col_get bind].
  assert (Hex : forall n k, mapM (fun c => col_get c n) (repeat (@nil Z) k) = Ret (repeat 0 k)).
  { intros n k. induction k as [|k IH]; cbn [repeat mapM col_get bind]; [reflexivity|]. now rewrite IH. }
  rewrite (mapM_Ret _ (fun _ => pr_zero e)).
  - cbn [bind]. f_equal. f_equal. unfold zseq, zrepeat. rewrite map_map.
    clear. generalize O. induction (Z.to_nat total) as [|n IH]; intros o; cbn; [reflexivity|]. now rewrite IH.
  - intros n _. rewrite Hex. reflexivity.
Qed.

Lemma read_uint_empty : forall k, (0 < k)%nat -> read_uint k 0 (i_open []) = (0, mk_istream [] true true).
Proof.
  intros k Hk. unfold read_uint, is_read. cbn [i_open i_good i_eof i_fail negb andb i_rest ztake].
  rewrite (proj2 (Z.ltb_lt _ _)) by (cbn; lia). rewrite overwrite_nil.
  rewrite le_val_bytes; [reflexivity|]. split; [lia|]. apply Z.pow_pos_nonneg; lia.
Qed.

(** At the very end of the stream the first column read makes it bad. *)
Lemma read_compressed_points_end : forall z total e, 0 <= total -> 0 <= e -> total * 64 <= PTRDIFF_MAX ->
  exists s', read_compressed_points z total e (i_open []) = Ret (zrepeat (pr_zero e) total, s')
    /\ i_good s' = false.
Proof.
  intros z total e Ht He Hmax.
  destruct (read_compressed_points_bad z total e (mk_istream [] true true)) as (s' & E & Hb); auto.
  exists s'. split; [|exact Hb]. rewrite <- E. unfold read_compressed_points, record_at.
  unfold read_compressed at 1. rewrite read_uint_empty by lia.
  unfold read_compressed at 9. rewrite read_uint_bad by reflexivity. reflexivity.
Qed.

Lemma read_cut_compressed : forall z f h, good_file f -> f_compressed f = true ->
  get_extra_fields f <= 255 -> get_header f = Ret h ->
  exists f' s', read_spoc_file z (i_open (header_bytes h)) = Ret (f', s')
    /\ i_good s' = false /\ f_wkt f' = f_wkt f /\ f_compressed f' = true
    /\ f_prs f' = repeat (pr_zero (get_extra_fields f)) (length (f_prs f)).
Proof.
  intros z f h Hf Hc He Hh.
  destruct (get_header_spec f Hf He) as (h' & Hh' & Hgh & Hw & Hx & Htot & Hcomp & Hsig).
  rewrite Hh in Hh'. injection Hh' as <-.
  pose proof (get_extra_fields_nonneg f) as He0. pose proof (gf_total f Hf) as Hmax. fold (zlen (f_prs f)) in Hmax.
  destruct (read_compressed_points_end z (zlen (f_prs f)) (get_extra_fields f)) as (s' & E & Hb); auto.
  { apply zlen_nonneg. }
  exists (mk_file 0 1 (f_wkt f) true (repeat (pr_zero (get_extra_fields f)) (length (f_prs f)))), s'.
  unfold read_spoc_file. rewrite <- (app_nil_r (header_bytes h)), read_header_round_trip by assumption.
  cbn [bind]. rewrite Hcomp, Hc, Hx, Htot, Hw. cbn [b2z Z.eqb negb]. rewrite E. cbn [bind].
  assert (Hr : zrepeat (pr_zero (get_extra_fields f)) (zlen (f_prs f))
     = repeat (pr_zero (get_extra_fields f)) (length (f_prs f))).
  { unfold zrepeat, zlen. now rewrite Nat2Z.id. }
  rewrite Hr. rewrite file_ctor_wkt_good.
  - cbn [bind f_wkt f_compressed f_prs]. auto.
  - intros p q Hp Hq. apply repeat_spec in Hp, Hq. now subst.
Qed.

(** *** Too many extra fields *)
Lemma read_file_hang : forall z s h s1, read_header s = Ret (h, s1) -> h_compressed h = 0 ->
  124 <= h_extra h -> 0 < h_total h -> h_total h * 64 <= PTRDIFF_MAX ->
  read_spoc_file z s = Hang.
Proof.
  intros z s h s1 Hh Hc He Ht Hm. unfold read_spoc_file. rewrite Hh. cbn [bind]. rewrite Hc. cbn [Z.eqb negb].
  unfold read_uncompressed_points. rewrite (proj2 (Z.ltb_ge _ _)) by (unfold sizeof_point_record; lia).
  rewrite read_chunks_hang; [reflexivity| | | |].
  - rewrite record_size_eq. unfold buffer_size. lia.
  - lia.
  - lia.
  - rewrite zlen_zrepeat. lia.
Qed.

(** *** The conversion tools *)
Lemma from_input_emits : forall {A} (m : outcome (A * istream)) k a s bs,
  m = Ret (a, s) -> emits (k a) bs tt -> emits (from_input m k) bs tt.
Proof. intros A m k a s bs -> H os Hos. unfold from_input, w_bind, w_lift. now apply H. Qed.

Lemma good_file_set_compressed : forall c f, good_file f -> good_file (set_compressed c f).
Proof. intros c f H. destruct H. constructor; assumption. Qed.

Lemma get_extra_set_compressed : forall c f, get_extra_fields (set_compressed c f) = get_extra_fields f.
Proof. reflexivity. Qed.

Lemma compress_field_squash : forall z sel prs, In sel [rx; ry; rz] ->
  compress_field z t_double (map sel (map (squash prs) prs)) = compress_field z t_double (map sel prs).
Proof.
  intros z sel prs Hsel.
  assert (Hs : forall q, sel (squash prs q) = squash_coord sel prs q).
  { intros q. destruct Hsel as [<-|[<-|[<-|[]]]]; reflexivity. }
  rewrite map_map, (map_ext _ _ Hs). unfold squash_coord.
  destruct (all_zero t_double (map sel prs)) eqn:E; [|reflexivity].
  unfold compress_field. rewrite E.
  assert (Hz : all_zero t_double (map (fun _ : point_record => 0) prs) = true).
  { unfold all_zero. clear. induction prs; cbn; [reflexivity|]. exact IHprs. }
  unfold double in *. now rewrite Hz.
Qed.

Lemma mapM_ext : forall {A B} (f g : A -> outcome B) l, (forall a, In a l -> f a = g a) -> mapM f l = mapM g l.
Proof.
  intros A B f g l. induction l as [|a l IH]; intros H; cbn; [reflexivity|].
  rewrite (H a) by now left. rewrite IH; [reflexivity|]. intros; apply H; now right.
Qed.

Lemma mapM_map : forall {A B C} (f : B -> outcome C) (g : A -> B) l, mapM f (map g l) = mapM (fun a => f (g a)) l.
Proof. intros A B C f g l. induction l as [|a l IH]; cbn; [reflexivity|]. now rewrite IH. Qed.

Lemma get_extra_squash : forall f, get_extra_fields (squash_file f) = get_extra_fields f.
Proof. intros f. unfold get_extra_fields, squash_file, with_prs. cbn. now destruct (f_prs f). Qed.

Lemma get_header_squash : forall f, get_header (squash_file f) = get_header f.
Proof.
  intros f. unfold get_header. rewrite get_extra_squash. unfold squash_file, with_prs.
  cbn [f_major f_minor f_wkt f_compressed f_prs]. now rewrite zlen_map.
Qed.

Lemma write_compressed_squash : forall z debug f os, uniform (f_prs f) ->
  write_spoc_file_compressed z debug (squash_file f) os = write_spoc_file_compressed z debug f os.
Proof.
  intros z debug f os Hu. unfold write_spoc_file_compressed. rewrite get_extra_squash, get_header_squash.
  rewrite (require_valid_good debug f Hu).
  rewrite (require_valid_good debug (squash_file f)) by (apply squash_uniform, Hu).
  change (f_compressed (squash_file f)) with (f_compressed f).
  change (f_prs (squash_file f)) with (map (squash (f_prs f)) (f_prs f)).
  set (prs := f_prs f).
  assert (He : forall j, extra_column (map (squash prs) prs) j = extra_column prs j).
  { intros j. unfold extra_column. rewrite mapM_map. reflexivity. }
  assert (Hi : forall sel, In sel [rc; rp; ri; rr; rg; rb] -> map sel (map (squash prs) prs) = map sel prs).
  { intros sel Hs. rewrite map_map. apply map_ext. intros p.
    destruct Hs as [<-|[<-|[<-|[<-|[<-|[<-|[]]]]]]]; reflexivity. }
  rewrite (mapM_ext _ _ _ (fun j _ => He j)).
  cbn [mapM].
  rewrite (Hi rc), (Hi rp), (Hi ri), (Hi rr), (Hi rg), (Hi rb) by (cbn; auto 7).
  pose proof (compress_field_squash z rx prs) as Hx. pose proof (compress_field_squash z ry prs) as Hy.
  pose proof (compress_field_squash z rz prs) as Hzz. unfold double in *.
  rewrite Hx, Hy, Hzz by (cbn; auto). reflexivity.
Qed.

Lemma squash_good : forall f, good_file f -> good_file (squash_file f).
Proof.
  intros f Hf. destruct Hf as [H1 H2 H3 H4 H5 H6 H7].
  constructor; try assumption.
  - change (Forall pr_ok (map (squash (f_prs f)) (f_prs f))). apply Forall_forall. intros p Hp.
    apply in_map_iff in Hp as (q & <- & Hq). rewrite Forall_forall in H5. destruct (H5 q Hq).
    assert (Hsq : forall sel, d_ok (sel q) -> d_ok (squash_coord sel (f_prs f) q)).
    { intros sel Hs. unfold squash_coord. destruct (all_zero _ _); [|assumption]. unfold d_ok. unfold two64. lia. }
    constructor; cbn; auto.
  - now apply squash_uniform.
  - change (Z.of_nat (length (map (squash (f_prs f)) (f_prs f))) * 64 <= 2 ^ 63 - 1). rewrite map_length. exact H7.
Qed.
