(** The programs from the command line to the exit status. *)
From Coq Require Import String ZArith List Bool Lia.
From Verif.Model Require Import Base Double Arith Header PointRecord Point File Subsampling Compression IO Affine AppConvert AppUtils FilterApp
  MergeApp TileApp TransformApp DiffApp ToolApp SrsApp Asprs Json InfoApp GetOpt Commands Programs.
From Verif.Spec Require Import ZlibContract Files Format CommandLines.
From Verif.Proofs Require Import BaseFacts CompressionFacts HeaderFacts PointRecordFacts FileFacts CompressedFacts FileIOFacts FileMoreFacts SafetyFacts CommandFacts OptionFacts.
Import ListNotations.
Open Scope Z_scope.

Section WithZlib.
Variable z : zlib.
Variable ZS : list Z -> list Z -> Prop.
Hypothesis Hz : zlib_ok z ZS.

(** ** Writing never fails when the records are uniform and the WKT is short enough. *)

Lemma compress_field_total t x : exists c, compress_field z t x = Ret c.
Proof.
  unfold compress_field. destruct (all_zero t x); [eauto|].
  rewrite (Z.mul_comm (zlen x)), <- zlen_col_image.
  destruct (compress_ptr_stream z ZS Hz (col_image t x) (-1)) as (c & E & _); [lia | apply col_image_ok | eauto].
Qed.

Lemma mapM_total {A B} (f : A -> outcome B) l : (forall a, exists b, f a = Ret b) -> exists bs, mapM f l = Ret bs.
Proof.
  intros H. induction l as [|a l (bs & IH)]; [now exists []|]. destruct (H a) as (b & E). exists (b :: bs). cbn. now rewrite E, IH.
Qed.

Lemma header_short f : zlen (f_wkt f) <= 65535 ->
  exists h, get_header f = Ret h /\ h_sig h = SPOC /\ h_compressed h = b2z (f_compressed f).
Proof.
  intros W. unfold get_header, header_ctor. destruct (Z.ltb_spec 65535 (zlen (f_wkt f))); [lia|]. eexists; repeat split.
Qed.

Lemma write_compressed_total debug f : uniform (f_prs f) -> zlen (f_wkt f) <= 65535 -> f_compressed f = true ->
  exists bs, emits (write_spoc_file_compressed z debug f) bs tt.
Proof.
  intros U W C. destruct (header_short f W) as (h & Eh & Sh & _).
  assert (X : Forall (fun r => zlen (rextra r) = get_extra_fields f) (f_prs f)) by now apply uniform_Forall.
  destruct (mapM_total (fun '(t, col) => compress_field z t col)
      [(t_double, map rx (f_prs f)); (t_double, map ry (f_prs f)); (t_double, map rz (f_prs f));
       (t_u32, map rc (f_prs f)); (t_u32, map rp (f_prs f)); (t_u16, map ri (f_prs f));
       (t_u16, map rr (f_prs f)); (t_u16, map rg (f_prs f)); (t_u16, map rb (f_prs f))]) as (cs & Ec).
  { intros [t col]. apply compress_field_total. }
  assert (Ex : exists e, mapM (extra_column (f_prs f)) (zseq (get_extra_fields f)) = Ret e).
  { eexists. apply (mapM_Ret _ (fun j => map (extra_sel j) (f_prs f))). intros j Hj.
    unfold zseq in Hj. apply in_map_iff in Hj as (i & <- & Hi). apply in_seq in Hi.
    unfold extra_column. apply mapM_Ret. intros p Hp. rewrite Forall_forall in X. specialize (X p Hp).
    unfold vec_get, extra_sel. destruct (znth_in_range (rextra p) (Z.of_nat i)) as [v ->]; [lia|reflexivity]. }
  destruct Ex as (e & Ex). destruct (mapM_total (compress_field z t_u64) e (compress_field_total t_u64)) as (es & Ee).
  eexists. unfold write_spoc_file_compressed. eapply emits_lift; [now apply require_valid_good|]. rewrite C. cbn [negb].
  eapply emits_lift; [exact Ex|]. eapply emits_lift; [exact Ec|]. eapply emits_lift; [exact Ee|]. eapply emits_lift; [exact Eh|].
  apply emits_seq; [now apply write_header_emits|]. apply emits_seq; apply emits_iter; intros; apply write_compressed_emits.
Qed.

Lemma write_uncompressed_total debug f : uniform (f_prs f) -> zlen (f_wkt f) <= 65535 -> f_compressed f = false ->
  exists bs, emits (write_spoc_file_uncompressed debug f) bs tt.
Proof.
  intros U W C. destruct (header_short f W) as (h & Eh & Sh & _).
  eexists. unfold write_spoc_file_uncompressed. eapply emits_lift; [now apply require_valid_good|]. rewrite C.
  eapply emits_lift; [exact Eh|]. apply emits_seq; [now apply write_header_emits|].
  apply emits_iter. intros; apply write_point_record_emits.
Qed.

Lemma write_total debug f : uniform (f_prs f) -> zlen (f_wkt f) <= 65535 ->
  exists bs, emits (write_spoc_file z debug f) bs tt.
Proof.
  intros U W. destruct (header_short f W) as (h & Eh & _ & Ch). unfold write_spoc_file.
  destruct (f_compressed f) eqn:C.
  - destruct (write_compressed_total debug f U W C) as (bs & E). exists bs. eapply emits_lift; [exact Eh|]. now rewrite Ch.
  - destruct (write_uncompressed_total debug f U W C) as (bs & E). exists bs. eapply emits_lift; [exact Eh|]. now rewrite Ch.
Qed.

(** What was read can be written. *)
Lemma read_header_short s h s' : bytes_ok (i_rest s) -> read_header s = Ret (h, s') -> zlen (h_wkt h) <= 65535.
Proof. intros B E. destruct (read_header_good _ _ _ B E) as [[] _]. assumption. Qed.

Lemma read_writable bytes f s : bytes_ok bytes -> read_spoc_file z (i_open bytes) = Ret (f, s) ->
  uniform (f_prs f) /\ zlen (f_wkt f) <= 65535 /\ f_major f = 0 /\ f_minor f = 1 /\ Forall pr_ok (f_prs f).
Proof.
  intros B E. pose proof (read_file_total z ZS Hz (i_open bytes) B) as H. rewrite E in H.
  destruct H as (h & s1 & Eh & _ & X & W & M1 & M2 & _ & P & _). split; [|split; [|auto]].
  - intros p q Hp Hq. rewrite Forall_forall in X. pose proof (X p Hp). pose proof (X q Hq). unfold zlen in *. lia.
  - rewrite W. now apply (read_header_short (i_open bytes) h s1).
Qed.

Lemma read_uncompressed_same bytes f s : read_spoc_file_uncompressed (i_open bytes) = Ret (f, s) ->
  read_spoc_file z (i_open bytes) = Ret (f, s).
Proof.
  unfold read_spoc_file_uncompressed, read_spoc_file. destruct (read_header (i_open bytes)) as [[h s1]| | |]; try discriminate.
  cbn [bind]. destruct (h_compressed h =? 0); [|discriminate]. exact (fun E => E).
Qed.

Lemma read_compressed_same bytes f s : read_spoc_file_compressed z (i_open bytes) = Ret (f, s) ->
  read_spoc_file z (i_open bytes) = Ret (f, s).
Proof.
  unfold read_spoc_file_compressed, read_spoc_file. destruct (read_header (i_open bytes)) as [[h s1]| | |]; try discriminate.
  cbn [bind]. destruct (h_compressed h =? 0); [discriminate|]. exact (fun E => E).
Qed.

End WithZlib.

(** ** Command lines *)

Lemma given_split es : given "help" es = true -> exists es1 o es2, es = es1 ++ ("help"%string, o) :: es2 /\ given "help" es1 = false.
Proof.
  induction es as [|[n o] es IH]; [discriminate|]. cbn. destruct (String.eqb_spec n "help") as [->|N].
  - intros _. now exists [], o, es.
  - cbn. intros H. destruct (IH H) as (es1 & o' & es2 & -> & G). exists ((n, o) :: es1), o', es2. split; [reflexivity|].
    cbn. apply String.eqb_neq in N. now rewrite N.
Qed.

Lemma options_prefix {A} (case_of : Z -> list Z -> option (A -> outcome A)) l1 l2 c a r :
  get_options case_of (l1 ++ l2) c a = Ret r -> (exists r1, get_options case_of l1 c a = Ret r1).
Proof.
  revert c a. induction l1 as [|[v o|] l1 IH]; intros c a; cbn; [eauto| |discriminate].
  destruct (v =? ch_h); [eauto|]. destruct (v =? ch_v); [eauto|]. destruct (v =? ch_e); [eauto|].
  destruct (case_of v _) as [f|]; [|discriminate]. destruct (f a); cbn; try discriminate. eauto.
Qed.

Section Commands.
  Context {A B : Type} (t : list entry) (longs : list long_option) (shorts : short_options)
    (case_of : Z -> list Z -> option (A -> outcome A)) (start : A) (operands : A -> list (list Z) -> outcome B) (none : A -> B)
    (M : implements t (common_longs ++ longs) (common_shorts ++ shorts) (val_of (common_longs ++ longs)))
    (V : val_of (common_longs ++ longs) "help" = ch_h).

  Lemma args_inv argv c b : get_args longs shorts case_of start operands none argv = Ret (c, b) -> c_help c = false ->
    exists es ops, command_line t argv es ops /\ given "help" es = false.
  Proof.
    intros E H. destruct (args_malformed _ _ _ _ _ _ _ M _ _ _ E) as [(es & ops & L)|X]; [|congruence].
    exists es, ops. split; [exact L|]. destruct (given "help" es) eqn:G; [|reflexivity]. exfalso.
    apply given_split in G as (es1 & o & es2 & -> & G1).
    assert (O : exists r1, get_options case_of (map (sev (val_of (common_longs ++ longs))) es1) no_common start = Ret r1).
    { rewrite (args_line _ _ _ _ _ _ _ M _ _ _ L), map_app in E.
      destruct (get_options case_of _ no_common start) as [r| | |] eqn:O in E; try discriminate E. now apply options_prefix in O. }
    destruct O as ((c1 & a1) & O). rewrite (args_help _ _ _ _ _ _ _ M _ _ _ _ _ _ _ L V G1 O) in E. injection E as <- _. discriminate H.
  Qed.
End Commands.
