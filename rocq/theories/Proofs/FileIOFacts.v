(** Whole files: writing and reading back. *)
From Coq Require Import String ZArith List Bool Lia.
From Verif.Model Require Import Base Double Header PointRecord File Compression IO.
From Verif.Spec Require Import Format Files ZlibContract.
From Verif.Proofs Require Import BaseFacts HeaderFacts PointRecordFacts FileFacts IOFacts
  CompressionFacts CompressedFacts.
Import ListNotations.
Open Scope Z_scope.

Lemma o_good_healthy : forall s, o_good s <-> healthy s.
Proof. reflexivity. Qed.

Lemma require_valid_good : forall debug f, uniform (f_prs f) -> require_valid debug f = Ret tt.
Proof.
  intros debug f H. unfold require_valid, file_is_valid.
  apply all_same_size_uniform in H. rewrite H. now destruct debug.
Qed.

Lemma good_header_get : forall f h, good_file f -> get_header f = Ret h ->
  h_compressed h = b2z (f_compressed f).
Proof.
  intros f h _ H. unfold get_header, header_ctor in H.
  destruct (65535 <? zlen (f_wkt f)); [discriminate|]. injection H as <-. reflexivity.
Qed.

(** ** Uncompressed *)

Lemma write_uncompressed_emits : forall debug f h, uniform (f_prs f) ->
  f_compressed f = false -> get_header f = Ret h ->
  emits (write_spoc_file_uncompressed debug f) (header_bytes h ++ prs_bytes (f_prs f)) tt.
Proof.
  intros debug f h Hu Hc Hh. unfold write_spoc_file_uncompressed.
  eapply emits_lift; [now apply require_valid_good|]. rewrite Hc.
  eapply emits_lift; [exact Hh|].
  apply emits_seq.
  - apply write_header_emits. unfold get_header, header_ctor in Hh.
    destruct (65535 <? zlen (f_wkt f)); [discriminate|]. injection Hh as <-. reflexivity.
  - apply emits_iter. intros; apply write_point_record_emits.
Qed.

Section WithZlib.
Variable z : zlib.

Lemma write_file_uncompressed_emits : forall debug f h, uniform (f_prs f) ->
  f_compressed f = false -> get_header f = Ret h ->
  emits (write_spoc_file z debug f) (header_bytes h ++ prs_bytes (f_prs f)) tt.
Proof.
  intros debug f h Hu Hc Hh. unfold write_spoc_file.
  eapply emits_lift; [exact Hh|].
  assert (E : h_compressed h = 0).
  { unfold get_header, header_ctor in Hh.
    destruct (65535 <? zlen (f_wkt f)); [discriminate|]. injection Hh as <-. cbn. now rewrite Hc. }
  rewrite E. cbn [Z.eqb negb]. now apply write_uncompressed_emits.
Qed.

Lemma read_file_of_uncompressed_bytes : forall f h t, good_file f -> f_compressed f = false ->
  get_extra_fields f <= 123 -> get_header f = Ret h -> bytes_ok t ->
  read_spoc_file z (i_open (header_bytes h ++ prs_bytes (f_prs f) ++ t)) = Ret (f, i_open t).
Proof.
  intros f h t Hf Hc He Hh Ht.
  destruct (get_header_spec f Hf ltac:(lia)) as (h' & Hh' & Hgh & Hw & Hx & Htot & Hcomp & Hsig).
  rewrite Hh in Hh'. injection Hh' as <-.
  unfold read_spoc_file. rewrite read_header_round_trip by assumption. cbn [bind].
  rewrite Hcomp, Hc, Hx, Htot, Hw. cbn [b2z Z.eqb negb].
  pose proof (gf_total f Hf) as Hmax. pose proof (get_extra_fields_nonneg f).
  rewrite (read_uncompressed_points_round_trip (get_extra_fields f)); auto.
  - cbn [bind]. rewrite file_ctor_wkt_good by apply Hf. cbn [bind].
    pose proof (good_file_eta f Hf) as E. rewrite Hc in E. now rewrite E.
  - rewrite record_size_eq. unfold buffer_size. lia.
  - apply uniform_Forall, Hf.
  - apply Hf.
Qed.

Lemma read_uncompressed_of_bytes : forall f h t, good_file f -> f_compressed f = false ->
  get_extra_fields f <= 123 -> get_header f = Ret h -> bytes_ok t ->
  read_spoc_file_uncompressed (i_open (header_bytes h ++ prs_bytes (f_prs f) ++ t)) = Ret (f, i_open t).
Proof.
  intros f h t Hf Hc He Hh Ht.
  destruct (get_header_spec f Hf ltac:(lia)) as (h' & Hh' & Hgh & Hw & Hx & Htot & Hcomp & Hsig).
  rewrite Hh in Hh'. injection Hh' as <-.
  unfold read_spoc_file_uncompressed. rewrite read_header_round_trip by assumption. cbn [bind].
  rewrite Hcomp, Hc, Hx, Htot, Hw. cbn [b2z Z.eqb negb].
  pose proof (gf_total f Hf) as Hmax. pose proof (get_extra_fields_nonneg f).
  rewrite (read_uncompressed_points_round_trip (get_extra_fields f)); auto.
  - cbn [bind]. rewrite file_ctor_wkt_good by apply Hf. cbn [bind].
    pose proof (good_file_eta f Hf) as E. rewrite Hc in E. now rewrite E.
  - rewrite record_size_eq. unfold buffer_size. lia.
  - apply uniform_Forall, Hf.
  - apply Hf.
Qed.

(** ** Compressed *)

Variable ZS : list Z -> list Z -> Prop.
Hypothesis Hz : zlib_ok z ZS.

(** Columns of a file: element type and selector. *)
Definition columns : list (coltype * (point_record -> Z)) :=
  [(t_double, rx); (t_double, ry); (t_double, rz); (t_u32, rc); (t_u32, rp);
   (t_u16, ri); (t_u16, rr); (t_u16, rg); (t_u16, rb)].

Definition squash_coord (sel : point_record -> double) (prs : list point_record) (p : point_record)
  : double := if all_zero t_double (map sel prs) then 0 else sel p.

Definition squash (prs : list point_record) (p : point_record) : point_record :=
  mk_pr (squash_coord rx prs p) (squash_coord ry prs p) (squash_coord rz prs p)
        (rc p) (rp p) (ri p) (rr p) (rg p) (rb p) (rextra p).

Definition squash_file (f : spoc_file) : spoc_file :=
  with_prs f (map (squash (f_prs f)) (f_prs f)).

Lemma norm_double : forall (sel : point_record -> double) prs,
  norm t_double (map sel prs) = map (squash_coord sel prs) prs.
Proof.
  intros sel prs. unfold norm. destruct (all_zero t_double (map sel prs)) eqn:E.
  - rewrite map_map. apply map_ext. intros p. unfold squash_coord. now rewrite E.
  - apply map_ext. intros p. unfold squash_coord. now rewrite E.
Qed.

Lemma vec_get_map : forall {A B} (g : A -> B) l n a, znth l n = Some a ->
  vec_get (map g l) n = Ret (g a).
Proof. intros A B g l n a H. unfold vec_get. now rewrite znth_map, H. Qed.

Section OneFile.
Variable prs : list point_record.
Hypothesis Hprs : Forall pr_ok prs.
Hypothesis Hsize : 8 * zlen prs + 32 < two31.

Lemma prs_col_ok : forall t sel, In (t, sel) columns -> col_ok t (map sel prs).
Proof.
  intros t sel H. unfold col_ok. apply Forall_forall. intros v Hv.
  apply in_map_iff in Hv as (p & <- & Hp). rewrite Forall_forall in Hprs.
  destruct (Hprs p Hp) as [Hx Hy Hzz Hc Hpp Hi Hr Hg Hb _].
  unfold d_ok, u32_ok, u16_ok in *; zs.
  cbn in H. repeat (destruct H as [H|H]; [injection H as <- <-; cbn; lia|]). destruct H.
Qed.

Lemma prs_field : forall t sel, In (t, sel) columns ->
  exists c, compress_field z t (map sel prs) = Ret c /\ bytes_ok c
    /\ forall rest, exists c', read_compressed z t (zlen prs) (i_open (wc_bytes c ++ rest)) = Ret (c', i_open rest)
       /\ forall n p, znth prs n = Some p -> col_get c' n
            = Ret (if match t with mk_coltype 8 _ => true | _ => false end then squash_coord sel prs p else sel p).
Proof.
  intros t sel H.
  destruct (field_round_trip z ZS Hz t (map sel prs)) as (c & E & Hc & Hr).
  - now apply prs_col_ok.
  - cbn in H. repeat (destruct H as [H|H]; [injection H as <- <-; cbn; lia|]). destruct H.
  - rewrite zlen_map. pose proof (zlen_nonneg prs).
    cbn in H. repeat (destruct H as [H|H]; [injection H as <- <-; cbn [ct_width t_double t_u32 t_u16]; lia|]). destruct H.
  - exists c. split; [assumption|]. split; [assumption|]. intros rest.
    destruct (Hr rest) as (c' & E' & Hn). rewrite zlen_map in *. exists c'. split; [assumption|].
    intros n p Hp. rewrite Hn by (eapply znth_Some_range; eauto).
    cbn in H.
    repeat (destruct H as [H|H];
      [injection H as <- <-; cbn [t_double t_u32 t_u16];
       first [ rewrite norm_double; now apply vec_get_map
             | rewrite norm_int by reflexivity; now apply vec_get_map ]|]).
    destruct H.
Qed.

Definition extra_sel (j : Z) (p : point_record) : Z :=
  match znth (rextra p) j with Some v => v | None => 0 end.

Variable e : Z.
Hypothesis He : 0 <= e.
Hypothesis Hex : Forall (fun r => zlen (rextra r) = e) prs.

Lemma extra_column_ok : forall j, 0 <= j < e ->
  extra_column prs j = Ret (map (extra_sel j) prs) /\ col_ok t_u64 (map (extra_sel j) prs).
Proof.
  intros j Hj. split.
  - unfold extra_column. apply mapM_Ret. intros p Hp.
    rewrite Forall_forall in Hex. specialize (Hex p Hp).
    unfold vec_get, extra_sel. destruct (znth_in_range (rextra p) j) as [v Hv]; [lia|]. now rewrite Hv.
  - unfold col_ok. apply Forall_forall. intros v Hv. apply in_map_iff in Hv as (p & <- & Hp).
    rewrite Forall_forall in Hprs. destruct (Hprs p Hp) as [_ _ _ _ _ _ _ _ _ Hpe].
    unfold extra_sel. destruct (znth (rextra p) j) as [v|] eqn:E; [|cbn; lia].
    apply znth_In in E. rewrite Forall_forall in Hpe. apply Hpe in E. unfold u64_ok in E; zs. cbn. lia.
Qed.

Lemma prs_extra_field : forall j, 0 <= j < e ->
  exists c, compress_field z t_u64 (map (extra_sel j) prs) = Ret c /\ bytes_ok c
    /\ forall rest, exists c', read_compressed z t_u64 (zlen prs) (i_open (wc_bytes c ++ rest)) = Ret (c', i_open rest)
       /\ forall n p, znth prs n = Some p -> col_get c' n = Ret (extra_sel j p).
Proof.
  intros j Hj. destruct (extra_column_ok j Hj) as [_ Hok].
  destruct (field_round_trip z ZS Hz t_u64 _ Hok) as (c & E & Hc & Hr);
    [cbn; lia|rewrite zlen_map; cbn [ct_width t_u64]; lia|].
  exists c. split; [assumption|]. split; [assumption|]. intros rest.
  destruct (Hr rest) as (c' & E' & Hn). rewrite zlen_map in *. exists c'. split; [assumption|].
  intros n p Hp. rewrite Hn by (eapply znth_Some_range; eauto).
  rewrite norm_int by reflexivity. now apply vec_get_map.
Qed.

Lemma prs_extra_fields : forall k j, 0 <= j -> j + Z.of_nat k = e ->
  exists cs, mapM (compress_field z t_u64) (map (fun j => map (extra_sel j) prs) (map (fun i => j + Z.of_nat i) (seq 0 k))) = Ret cs
    /\ Forall bytes_ok cs
    /\ forall rest, exists cs', read_extras z k (zlen prs) (i_open (flat_map wc_bytes cs ++ rest)) = Ret (cs', i_open rest)
       /\ forall n p, znth prs n = Some p -> mapM (fun c => col_get c n) cs' = Ret (zdrop j (rextra p)).
Proof.
  induction k as [|k IH]; intros j Hj Hk.
  - exists []. split; [reflexivity|]. split; [constructor|]. intros rest. exists []. split; [reflexivity|].
    intros n p Hp. cbn. rewrite zdrop_all; [reflexivity|].
    apply znth_In in Hp. rewrite Forall_forall in Hex. rewrite (Hex p Hp). lia.
  - destruct (prs_extra_field j) as (c & E & Hc & Hr); [lia|].
    destruct (IH (j + 1)) as (cs & Es & Hcs & Hrs); [lia|lia|].
    exists (c :: cs). cbn [seq map mapM]. rewrite Z.add_0_r, E. cbn [bind].
    rewrite <- seq_shift, (map_map S).
    rewrite (map_ext (fun x => j + Z.of_nat (S x)) (fun i => j + 1 + Z.of_nat i)) by (intros; lia).
    rewrite Es. cbn [bind]. split; [reflexivity|]. split; [now constructor|].
    intros rest. cbn [flat_map]. rewrite <- app_assoc.
    destruct (Hr (flat_map wc_bytes cs ++ rest)) as (c' & Ec' & Hn).
    destruct (Hrs rest) as (cs' & Ecs' & Hns).
    exists (c' :: cs'). split.
    + cbn [read_extras]. rewrite Ec'. cbn [bind]. rewrite Ecs'. reflexivity.
    + intros n p Hp. cbn [mapM]. rewrite (Hn n p Hp). cbn [bind]. rewrite (Hns n p Hp). cbn [bind].
      f_equal. apply znth_In in Hp as Hin. rewrite Forall_forall in Hex. specialize (Hex p Hin).
      unfold extra_sel. destruct (znth_in_range (rextra p) j) as [v Hv]; [lia|]. rewrite Hv.
      rewrite znth_nth_error in Hv by lia. rewrite !zdrop_skipn.
      replace (Z.to_nat (j + 1)) with (S (Z.to_nat j)) by lia.
      clear - Hv. revert Hv. generalize (Z.to_nat j) as m, (rextra p) as l.
      induction m as [|m IH]; intros [|a l] Hv; try discriminate.
      * cbn in *. congruence.
      * cbn [skipn]. apply IH. exact Hv.
Qed.

Lemma mapM_extra_columns : mapM (extra_column prs) (zseq e)
  = Ret (map (fun j => map (extra_sel j) prs) (zseq e)).
Proof.
  apply mapM_Ret. intros j Hj. apply extra_column_ok.
  unfold zseq in Hj. apply in_map_iff in Hj as (i & <- & Hi). apply in_seq in Hi. lia.
Qed.

End OneFile.

Lemma write_compressed_emits_file : forall debug f, good_file f -> f_compressed f = true ->
  get_extra_fields f <= 255 -> 8 * zlen (f_prs f) + 32 < two31 ->
  exists h cols, get_header f = Ret h /\ good_header h
    /\ emits (write_spoc_file_compressed z debug f) (header_bytes h ++ cols) tt
    /\ bytes_ok cols
    /\ h_wkt h = f_wkt f /\ h_total h = zlen (f_prs f) /\ h_extra h = get_extra_fields f
    /\ h_compressed h = 1
    /\ forall t, read_compressed_points z (zlen (f_prs f)) (get_extra_fields f) (i_open (cols ++ t))
         = Ret (map (squash (f_prs f)) (f_prs f), i_open t).
Proof.
  intros debug f Hf Hc He Hsize.
  destruct (get_header_spec f Hf He) as (h & Hh & Hgh & Hw & Hx & Htot & Hcomp & Hsig).
  set (prs := f_prs f) in *. set (e := get_extra_fields f) in *.
  assert (Hprs : Forall pr_ok prs) by apply Hf.
  assert (Hex : Forall (fun r => zlen (rextra r) = e) prs) by (apply uniform_Forall, Hf).
  assert (He0 : 0 <= e) by apply get_extra_fields_nonneg.
  pose proof (prs_field prs Hprs Hsize) as HF.
  destruct (HF t_double rx) as (cx & Ex & Okx & Rx); [cbn; auto|].
  destruct (HF t_double ry) as (cy & Ey & Oky & Ry); [cbn; auto|].
  destruct (HF t_double rz) as (cz & Ez & Okz & Rz); [cbn; auto|].
  destruct (HF t_u32 rc) as (cc & Ec & Okc & Rc); [cbn; auto|].
  destruct (HF t_u32 rp) as (cp & Ep & Okp & Rp); [cbn; auto 7|].
  destruct (HF t_u16 ri) as (ci & Ei & Oki & Ri); [cbn; auto 8|].
  destruct (HF t_u16 rr) as (cr & Er & Okr & Rr); [cbn; auto 9|].
  destruct (HF t_u16 rg) as (cg & Eg & Okg & Rg); [cbn; auto 10|].
  destruct (HF t_u16 rb) as (cb & Eb & Okb & Rb); [cbn; auto 11|].
  destruct (prs_extra_fields prs Hprs Hsize e Hex (Z.to_nat e) 0) as (cs & Ecs & Okcs & Rcs); [lia|lia|].
  assert (Ecs' : mapM (compress_field z t_u64) (map (fun j => map (extra_sel j) prs) (zseq e)) = Ret cs).
  { rewrite <- Ecs. unfold zseq. reflexivity. }
  set (fields := [cx; cy; cz; cc; cp; ci; cr; cg; cb]).
  exists h, (flat_map wc_bytes fields ++ flat_map wc_bytes cs).
  split; [assumption|]. split; [assumption|].
  split; [|split].
  - unfold write_spoc_file_compressed.
    eapply emits_lift; [apply require_valid_good, Hf|]. rewrite Hc. cbn [negb].
    fold prs e.
    eapply emits_lift; [apply mapM_extra_columns; assumption|].
    eapply emits_lift with (a := fields).
    { cbn [mapM]. unfold double in *. rewrite Ex, Ey, Ez, Ec, Ep, Ei, Er, Eg, Eb. reflexivity. }
    eapply emits_lift; [exact Ecs'|].
    eapply emits_lift; [exact Hh|].
    apply emits_seq; [now apply write_header_emits|].
    apply emits_seq; apply emits_iter; intros; apply write_compressed_emits.
  - assert (Hwc : forall c, bytes_ok c -> bytes_ok (wc_bytes c)).
    { intros c Hok. apply Forall_app; split; [apply le_bytes_ok|assumption]. }
    apply Forall_app; split; apply Forall_flat_map.
    + unfold fields. do 9 (apply Forall_cons; [now apply Hwc|]). constructor.
    + eapply Forall_impl; [|exact Okcs]. exact Hwc.
  - rewrite Hcomp, Hc. repeat split; auto.
    intros t. unfold read_compressed_points, record_at, fields. cbn [flat_map]. rewrite <- !app_assoc, app_nil_l.
    destruct (Rx (wc_bytes cy ++ wc_bytes cz ++ wc_bytes cc ++ wc_bytes cp ++ wc_bytes ci ++ wc_bytes cr ++ wc_bytes cg ++ wc_bytes cb ++ flat_map wc_bytes cs ++ t)) as (x' & Ex' & Nx).
    rewrite Ex'. cbn [bind].
    destruct (Ry (wc_bytes cz ++ wc_bytes cc ++ wc_bytes cp ++ wc_bytes ci ++ wc_bytes cr ++ wc_bytes cg ++ wc_bytes cb ++ flat_map wc_bytes cs ++ t)) as (y' & Ey' & Ny).
    rewrite Ey'. cbn [bind].
    destruct (Rz (wc_bytes cc ++ wc_bytes cp ++ wc_bytes ci ++ wc_bytes cr ++ wc_bytes cg ++ wc_bytes cb ++ flat_map wc_bytes cs ++ t)) as (z' & Ez' & Nz).
    rewrite Ez'. cbn [bind].
    destruct (Rc (wc_bytes cp ++ wc_bytes ci ++ wc_bytes cr ++ wc_bytes cg ++ wc_bytes cb ++ flat_map wc_bytes cs ++ t)) as (c' & Ec' & Nc).
    rewrite Ec'. cbn [bind].
    destruct (Rp (wc_bytes ci ++ wc_bytes cr ++ wc_bytes cg ++ wc_bytes cb ++ flat_map wc_bytes cs ++ t)) as (p' & Ep' & Np).
    rewrite Ep'. cbn [bind].
    destruct (Ri (wc_bytes cr ++ wc_bytes cg ++ wc_bytes cb ++ flat_map wc_bytes cs ++ t)) as (i' & Ei' & Ni).
    rewrite Ei'. cbn [bind].
    destruct (Rr (wc_bytes cg ++ wc_bytes cb ++ flat_map wc_bytes cs ++ t)) as (r' & Er' & Nr).
    rewrite Er'. cbn [bind].
    destruct (Rg (wc_bytes cb ++ flat_map wc_bytes cs ++ t)) as (g' & Eg' & Ng).
    rewrite Eg'. cbn [bind].
    destruct (Rb (flat_map wc_bytes cs ++ t)) as (b' & Eb' & Nb).
    rewrite Eb'. cbn [bind].
    destruct (Rcs t) as (e' & Ee' & Ne).
    rewrite Ee'. cbn [bind].
    rewrite (proj2 (Z.ltb_ge _ _)).
    2:{ unfold PTRDIFF_MAX, sizeof_point_record; zs. pose proof (zlen_nonneg prs). lia. }
    rewrite (mapM_zseq _ (squash prs)); [reflexivity|].
    intros n a Ha.
    rewrite (Nx n a Ha), (Ny n a Ha), (Nz n a Ha), (Nc n a Ha), (Np n a Ha), (Ni n a Ha),
            (Nr n a Ha), (Ng n a Ha), (Nb n a Ha), (Ne n a Ha).
    cbn [bind]. rewrite zdrop_le0 by lia. reflexivity.
Qed.

Lemma squash_uniform : forall prs, uniform prs -> uniform (map (squash prs) prs).
Proof.
  intros prs H p q Hp Hq. apply in_map_iff in Hp as (p0 & <- & Hp), Hq as (q0 & <- & Hq).
  cbn. now apply H.
Qed.

Lemma compressed_file_round_trip : forall debug f, good_file f -> f_compressed f = true ->
  get_extra_fields f <= 255 -> 8 * zlen (f_prs f) + 32 < two31 ->
  exists bs, emits (write_spoc_file z debug f) bs tt /\ emits (write_spoc_file_compressed z debug f) bs tt
    /\ bytes_ok bs
    /\ (forall t, read_spoc_file z (i_open (bs ++ t)) = Ret (squash_file f, i_open t))
    /\ (forall t, read_spoc_file_compressed z (i_open (bs ++ t)) = Ret (squash_file f, i_open t))
    /\ (forall t, exists e, read_spoc_file_uncompressed (i_open (bs ++ t)) = Throw e).
Proof.
  intros debug f Hf Hc He Hsize.
  destruct (write_compressed_emits_file debug f Hf Hc He Hsize)
    as (h & cols & Hh & Hgh & Hem & Hok & Hw & Ht & Hx & Hcomp & Hread).
  exists (header_bytes h ++ cols).
  assert (Hfile : mk_file 0 1 (f_wkt f) true (map (squash (f_prs f)) (f_prs f)) = squash_file f).
  { unfold squash_file, with_prs. pose proof (gf_major f Hf) as E1. pose proof (gf_minor f Hf) as E2.
    now rewrite E1, E2, Hc. }
  split; [|split; [assumption|split; [|split; [|split]]]].
  - unfold write_spoc_file. eapply emits_lift; [exact Hh|]. rewrite Hcomp. exact Hem.
  - apply Forall_app; split; [now apply header_bytes_ok|assumption].
  - intros t. unfold read_spoc_file. rewrite <- app_assoc, read_header_round_trip by assumption.
    cbn [bind]. rewrite Hcomp, Ht, Hx, Hw. cbn [Z.eqb negb Pos.eqb]. rewrite Hread. cbn [bind].
    rewrite file_ctor_wkt_good by (apply squash_uniform, Hf). cbn [bind]. now rewrite Hfile.
  - intros t. unfold read_spoc_file_compressed. rewrite <- app_assoc, read_header_round_trip by assumption.
    cbn [bind]. rewrite Hcomp, Ht, Hx, Hw. cbn [Z.eqb negb Pos.eqb]. rewrite Hread. cbn [bind].
    rewrite file_ctor_wkt_good by (apply squash_uniform, Hf). cbn [bind]. now rewrite Hfile.
  - intros t. unfold read_spoc_file_uncompressed. rewrite <- app_assoc, read_header_round_trip by assumption.
    cbn [bind]. rewrite Hcomp. cbn. eauto.
Qed.

End WithZlib.

(** ** What squashing does, in terms of Spec/Files.v *)

Lemma Forall_d_ok : forall sel prs, In sel [rx; ry; rz] -> Forall pr_ok prs -> Forall d_ok (map sel prs).
Proof.
  intros sel prs Hs H. apply Forall_forall. intros v Hv. apply in_map_iff in Hv as (p & <- & Hp).
  rewrite Forall_forall in H. destruct (H p Hp).
  cbn in Hs. destruct Hs as [<- | [<- | [<- | []]]]; assumption.
Qed.

Lemma squash_coord_kept : forall sel prs p, In sel [rx; ry; rz] -> Forall pr_ok prs ->
  (squash_coord sel prs p = sel p /\ ~ (forall q, In q prs -> is_zero_double (sel q)))
  \/ (squash_coord sel prs p = 0 /\ (forall q, In q prs -> is_zero_double (sel q))).
Proof.
  intros sel prs p Hs H. unfold squash_coord.
  pose proof (all_zero_spec (map sel prs) (Forall_d_ok sel prs Hs H)) as Ha.
  destruct (all_zero t_double (map sel prs)).
  - right. split; [reflexivity|]. intros q Hq. apply Ha; [reflexivity|]. now apply in_map.
  - left. split; [reflexivity|]. intros Hall. assert (false = true); [|discriminate].
    apply Ha. intros v Hv. apply in_map_iff in Hv as (q & <- & Hq). auto.
Qed.

Lemma Forall2_map_r : forall {A B} (R : A -> B -> Prop) (g : A -> B) l,
  (forall a, In a l -> R a (g a)) -> Forall2 R l (map g l).
Proof.
  intros A B R g l. induction l as [|a l IH]; intros H; cbn; constructor; [apply H; cbn; auto|].
  apply IH. intros; apply H; cbn; auto.
Qed.

Lemma squash_file_kept : forall f, Forall pr_ok (f_prs f) -> kept_file f (squash_file f).
Proof.
  intros f H. unfold kept_file, squash_file. cbn. repeat split; auto.
  apply Forall2_map_r. intros p _. unfold kept_record, kept_coord. cbn.
  repeat match goal with |- _ /\ _ => split end; auto;
    apply squash_coord_kept; cbn; auto.
Qed.

Lemma squash_coord_id : forall sel prs p, In sel [rx; ry; rz] -> Forall pr_ok prs -> In p prs ->
  ~ (exists s, In s [rx; ry; rz] /\ (forall q, In q prs -> is_zero_double (s q))
       /\ (exists q, In q prs /\ s q = 2 ^ 63)) ->
  squash_coord sel prs p = sel p.
Proof.
  intros sel prs p Hs H Hp Hn. destruct (squash_coord_kept sel prs p Hs H) as [[E _]|[E Hall]]; [assumption|].
  rewrite E. destruct (Hall p Hp) as [E0|E0]; [auto|].
  exfalso. apply Hn. exists sel. repeat split; auto. eauto.
Qed.

Lemma squash_file_id : forall f, Forall pr_ok (f_prs f) -> ~ loses_sign (f_prs f) -> squash_file f = f.
Proof.
  intros f H Hn. unfold squash_file, with_prs. destruct f as [ma mi w c prs]. cbn in *. f_equal.
  transitivity (map (fun p : point_record => p) prs); [|apply map_id].
  apply map_ext_in. intros p Hp. unfold squash.
  rewrite !(squash_coord_id _ prs p) by (cbn; auto). now destruct p.
Qed.

Lemma squash_file_loses : forall f, Forall pr_ok (f_prs f) -> loses_sign (f_prs f) -> squash_file f <> f.
Proof.
  intros f H (sel & Hs & Hall & q & Hq & Eq) E.
  assert (Hm : map (squash (f_prs f)) (f_prs f) = f_prs f).
  { now apply (f_equal f_prs) in E. }
  assert (Hid : forall p, In p (f_prs f) -> squash (f_prs f) p = p).
  { intros p Hp. assert (Hm' : map (squash (f_prs f)) (f_prs f) = map (fun q => q) (f_prs f)).
    { now rewrite map_id. }
    apply (ext_in_map Hm' p Hp). }
  specialize (Hid q Hq).
  destruct (squash_coord_kept sel (f_prs f) q Hs H) as [[_ Hc]|[E0 _]]; [now apply Hc|].
  assert (Hsel : sel (squash (f_prs f) q) = squash_coord sel (f_prs f) q).
  { cbn in Hs. destruct Hs as [<- | [<- | [<- | []]]]; reflexivity. }
  rewrite Hid, Eq, E0 in Hsel. discriminate.
Qed.
