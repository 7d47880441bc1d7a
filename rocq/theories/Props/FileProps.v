(** Properties C10 - C20: whole files. *)
From Coq Require Import String ZArith List Bool Lia.
From Verif.Model Require Import Base Double Header PointRecord File Compression IO AppConvert.
From Verif.Spec Require Import Format Files Streams ZlibContract.
From Verif.Proofs Require Import BaseFacts HeaderFacts HeaderCutFacts PointRecordFacts IOFacts
  FileFacts CompressionFacts ToyZlib CompressedFacts FileIOFacts SafetyFacts FileMoreFacts StoreFacts.
Import ListNotations.
Open Scope Z_scope.

(** ** Example files *)

Definition pr1 : point_record := mk_pr d_one d_nzero 0 1 2 3 4 5 6 [7; 8].
Definition pr2 : point_record := mk_pr 9221120237041090561 d_nzero 5 4294967295 0 0 0 0 65535 [0; 9].
Definition f_uncompressed : spoc_file := mk_file 0 1 [87; 75; 84] false [pr1; pr2].
Definition f_compressed' : spoc_file := mk_file 0 1 [87; 75; 84] true [pr1; pr2].

Lemma pr_ok_b : forall p,
  (let u w z := (0 <=? z) && (z <? w) in
   u two64 (rx p) && u two64 (ry p) && u two64 (rz p) && u two32 (rc p) && u two32 (rp p)
   && u two16 (ri p) && u two16 (rr p) && u two16 (rg p) && u two16 (rb p)
   && forallb (u two64) (rextra p)) = true -> pr_ok p.
Proof.
  intros p H. cbv zeta in H. repeat (apply andb_prop in H as [H ?]).
  repeat match goal with
  | H : ((0 <=? _) && (_ <? _))%bool = true |- _ =>
      apply andb_prop in H; destruct H as [?%Z.leb_le ?%Z.ltb_lt]
  | H : (_ <=? _) = true |- _ => apply Z.leb_le in H
  | H : (_ <? _) = true |- _ => apply Z.ltb_lt in H
  end.
  constructor; unfold d_ok, u32_ok, u16_ok; auto.
  match goal with H : forallb _ _ = true |- _ => rewrite forallb_forall in H; apply Forall_forall; intros v Hv; apply H in Hv end.
  apply andb_prop in Hv as [?%Z.leb_le ?%Z.ltb_lt]. unfold u64_ok. auto.
Qed.

Lemma example_good : forall c, good_file (mk_file 0 1 [87; 75; 84] c [pr1; pr2]).
Proof.
  intros c. constructor; cbn [f_major f_minor f_wkt f_prs]; auto.
  - repeat constructor; lia.
  - cbn. lia.
  - apply Forall_cons; [now apply pr_ok_b|]. apply Forall_cons; [now apply pr_ok_b|]. constructor.
  - intros p q Hp Hq. cbn in Hp, Hq. destruct Hp as [<-|[<-|[]]], Hq as [<-|[<-|[]]]; reflexivity.
  - cbn. lia.
Qed.

Lemma example_extras : has_extras 2 [pr1; pr2].
Proof. intros p [<-|[<-|[]]]; reflexivity. Qed.

(** ** C10 *)

(** Uncompressed files with up to 123 extra fields round trip, identically,
    through both writers and both readers. *)
Theorem C10_uncompressed_round_trip : forall z debug f k, good_file f -> f_compressed f = false ->
  has_extras k (f_prs f) -> k <= 123 ->
  exists bs, appends (write_spoc_file z debug f) bs
    /\ appends (write_spoc_file_uncompressed debug f) bs
    /\ forall t, is_bytes t ->
       read_spoc_file z (i_open (bs ++ t)) = Ret (f, i_open t)
       /\ read_spoc_file_uncompressed (i_open (bs ++ t)) = Ret (f, i_open t).
Proof.
  intros z debug f k Hf Hc Hk H123.
  assert (He : get_extra_fields f <= 123) by (eapply has_extras_le; eauto; lia).
  destruct (get_header_spec f Hf ltac:(lia)) as (h & Hh & _).
  exists (header_bytes h ++ prs_bytes (f_prs f)). split; [|split].
  - apply emits_appends, write_file_uncompressed_emits; auto. apply Hf.
  - apply emits_appends, write_uncompressed_emits; auto. apply Hf.
  - intros t Ht. rewrite <- app_assoc. split.
    + now apply read_file_of_uncompressed_bytes.
    + now apply read_uncompressed_of_bytes.
Qed.

Example C10_example : exists bs, appends (write_spoc_file toy false f_uncompressed) bs
  /\ read_spoc_file toy (i_open (bs ++ [1; 2])) = Ret (f_uncompressed, i_open [1; 2]).
Proof.
  destruct (C10_uncompressed_round_trip toy false f_uncompressed 2 (example_good false) eq_refl example_extras)
    as (bs & H1 & _ & H3); [lia|].
  exists bs. split; [exact H1|]. apply H3. repeat constructor; lia.
Qed.

(** ** C11 *)

(** On every input, [read_spoc_file] fails to terminate exactly when the header
    announces an uncompressed file with at least one point, at least 124 extra
    fields, and a number of points a vector can hold. *)
Theorem C11_read_terminates_iff : forall z ZS s, zlib_ok z ZS -> is_bytes (i_rest s) ->
  (read_spoc_file z s = Hang <->
   exists h s1, read_header s = Ret (h, s1) /\ h_compressed h = 0 /\ 124 <= h_extra h
     /\ 0 < h_total h /\ h_total h * 64 <= 2 ^ 63 - 1).
Proof.
  intros z ZS s Hz Hs. split.
  - intros H. pose proof (read_file_total z ZS Hz s Hs) as Ht. rewrite H in Ht.
    destruct Ht as (h & s1 & Hh & Hc & He & Hp). exists h, s1. repeat split; auto.
    destruct (Z_le_gt_dec (h_total h * 64) (2 ^ 63 - 1)) as [|Hgt]; [assumption|exfalso].
    unfold read_spoc_file in H. rewrite Hh in H. cbn [bind] in H. rewrite Hc in H. cbn [Z.eqb negb] in H.
    unfold read_uncompressed_points in H. rewrite (proj2 (Z.ltb_lt _ _)) in H; [discriminate|].
    unfold PTRDIFF_MAX, two63, sizeof_point_record. lia.
  - intros (h & s1 & Hh & Hc & He & Hp & Hm). eapply read_file_hang; eauto.
Qed.

(** In that case no number of loop iterations is enough. *)
Theorem C11_loop_never_ends : forall fuel total e buf prs s, 124 <= e -> 0 < total ->
  Z.of_nat (length prs) = total -> read_chunks fuel total e 0 buf prs s = Hang.
Proof.
  intros fuel total e buf prs s He Ht Hl. apply read_chunks_hang; auto; [|lia].
  rewrite record_size_eq. unfold buffer_size. lia.
Qed.

(** The library writes such files itself: reading back a good uncompressed file
    with 124 .. 255 extra fields and at least one record never ends. *)
Theorem C11_written_files_hang : forall z debug f k, good_file f -> f_compressed f = false ->
  f_prs f <> [] -> has_extras k (f_prs f) -> 124 <= k <= 255 ->
  exists bs, appends (write_spoc_file z debug f) bs
    /\ forall t, read_spoc_file z (i_open (bs ++ t)) = Hang.
Proof.
  intros z debug f k Hf Hc Hne Hk Hr. pose proof (has_extras_get k f Hk Hne) as He.
  destruct (get_header_spec f Hf ltac:(lia)) as (h & Hh & Hgh & Hw & Hx & Ht & Hcomp & _).
  exists (header_bytes h ++ prs_bytes (f_prs f)). split.
  - apply emits_appends, write_file_uncompressed_emits; auto. apply Hf.
  - intros t. rewrite <- app_assoc.
    eapply read_file_hang; [now apply read_header_round_trip| | | |].
    + now rewrite Hcomp, Hc.
    + lia.
    + rewrite Ht. pose proof (zlen_nonneg (f_prs f)).
      destruct (Z.eq_dec (zlen (f_prs f)) 0) as [E|]; [|lia]. apply zlen_zero_nil in E. contradiction.
    + rewrite Ht. unfold PTRDIFF_MAX, two63. pose proof (gf_total f Hf) as Hm. unfold zlen. lia.
Qed.

Definition pr_many (k : nat) : point_record := mk_pr 0 0 0 0 0 0 0 0 0 (repeat 1 k).

Lemma pr_many_ok : forall k, pr_ok (pr_many k).
Proof.
  intros k. constructor; unfold d_ok, u32_ok, u16_ok, two16, two32, two64; cbn; try lia.
  apply Forall_forall. intros v Hv. apply repeat_spec in Hv. unfold u64_ok, two64. lia.
Qed.

Lemma many_good : forall k c, good_file (mk_file 0 1 [] c [pr_many k]).
Proof.
  intros k c. constructor; cbn [f_major f_minor f_wkt f_prs]; auto.
  - cbn. lia.
  - constructor; [apply pr_many_ok|constructor].
  - intros p q [<-|[]] [<-|[]]. reflexivity.
  - cbn. lia.
Qed.

Lemma many_extras : forall k, has_extras (Z.of_nat k) [pr_many k].
Proof. intros k p [<-|[]]. cbn. now rewrite repeat_length. Qed.

Example C11_example : exists bs, appends (write_spoc_file toy true (mk_file 0 1 [] false [pr_many 124])) bs
  /\ read_spoc_file toy (i_open (bs ++ [])) = Hang.
Proof.
  destruct (C11_written_files_hang toy true (mk_file 0 1 [] false [pr_many 124]) 124) as (bs & H1 & H2).
  - apply many_good.
  - reflexivity.
  - discriminate.
  - apply (many_extras 124).
  - lia.
  - exists bs. auto.
Qed.

(** ** C12 *)

(** The header stores the number of extra fields modulo 256. *)
Theorem C12_header_extra_count : forall f k, good_file f -> f_prs f <> [] -> has_extras k (f_prs f) ->
  exists h, get_header f = Ret h /\ h_extra h = k mod 256.
Proof.
  intros f k Hf Hne Hk. destruct (get_header_any f Hf) as (h & Hh & _ & _ & Hx & _).
  exists h. split; [exact Hh|]. now rewrite Hx, (has_extras_get k f Hk Hne).
Qed.

(** So a file with 256 or more extra fields, although written without an error,
    never reads back as itself. *)
Theorem C12_extra_count_lost : forall z ZS debug f k, zlib_ok z ZS -> good_file f ->
  f_compressed f = false -> f_prs f <> [] -> has_extras k (f_prs f) -> 256 <= k ->
  exists bs, appends (write_spoc_file z debug f) bs
    /\ forall t s, is_bytes t -> read_spoc_file z (i_open (bs ++ t)) <> Ret (f, s).
Proof.
  intros z ZS debug f k Hz Hf Hc Hne Hk H256.
  destruct (get_header_any f Hf) as (h & Hh & Hgh & Hw & Hx & Ht & Hcomp).
  exists (header_bytes h ++ prs_bytes (f_prs f)). split.
  - apply emits_appends, write_file_uncompressed_emits; auto. apply Hf.
  - intros t s Hb H. rewrite <- app_assoc in H.
    assert (Hbytes : bytes_ok (i_rest (i_open (header_bytes h ++ prs_bytes (f_prs f) ++ t)))).
    { cbn [i_open i_rest]. apply Forall_app; split; [now apply header_bytes_ok|]. apply Forall_app; split; [|exact Hb].
      apply flat_map_ok. intros; apply pr_bytes_ok. }
    pose proof (read_file_total z ZS Hz _ Hbytes) as Htot. rewrite H in Htot.
    destruct Htot as (h' & s1 & Hh' & _ & Hex & _).
    pose proof (read_header_good _ _ _ Hbytes Hh') as [Hg _]. pose proof (gh_extra h' Hg).
    destruct (f_prs f) as [|p prs] eqn:E; [congruence|].
    apply Forall_inv in Hex. pose proof (Hk p (or_introl eq_refl)) as Hp. unfold zlen in Hex. lia.
Qed.

Example C12_example : exists bs,
  appends (write_spoc_file toy true (mk_file 0 1 [] false [pr_many 256])) bs
  /\ forall t s, is_bytes t ->
     read_spoc_file toy (i_open (bs ++ t)) <> Ret (mk_file 0 1 [] false [pr_many 256], s).
Proof.
  eapply (C12_extra_count_lost toy toy_stream true _ 256).
  - exact toy_ok.
  - apply many_good.
  - reflexivity.
  - discriminate.
  - apply (many_extras 256).
  - lia.
Qed.

(** ** C13, C14 *)

(** What is written compressed reads back as what the compressed format keeps:
    everything, except the sign of zeros in coordinate columns that are entirely
    zero. *)
Theorem C13_compressed_round_trip : forall z ZS debug f k, zlib_ok z ZS -> good_file f ->
  f_compressed f = true -> has_extras k (f_prs f) -> k <= 255 ->
  8 * Z.of_nat (length (f_prs f)) + 32 < 2 ^ 31 ->
  exists bs f', appends (write_spoc_file z debug f) bs
    /\ appends (write_spoc_file_compressed z debug f) bs
    /\ kept_file f f'
    /\ forall t, read_spoc_file z (i_open (bs ++ t)) = Ret (f', i_open t)
       /\ read_spoc_file_compressed z (i_open (bs ++ t)) = Ret (f', i_open t).
Proof.
  intros z ZS debug f k Hz Hf Hc Hk H255 Hsize.
  destruct (compressed_file_round_trip z ZS Hz debug f Hf Hc) as (bs & H1 & H2 & _ & H3 & H4 & _).
  - eapply has_extras_le; eauto; lia.
  - unfold zlen, two31. lia.
  - exists bs, (squash_file f). split; [now apply emits_appends|]. split; [now apply emits_appends|].
    split; [apply squash_file_kept, Hf|]. auto.
Qed.

Example C13_example : exists bs f', appends (write_spoc_file toy false f_compressed') bs
  /\ kept_file f_compressed' f'
  /\ read_spoc_file toy (i_open (bs ++ [1; 2])) = Ret (f', i_open [1; 2]).
Proof.
  destruct (C13_compressed_round_trip toy toy_stream false f_compressed' 2 toy_ok (example_good true) eq_refl
              example_extras) as (bs & f' & H1 & _ & H3 & H4); [lia|cbn; lia|].
  exists bs, f'. split; [exact H1|]. split; [exact H3|]. apply H4.
Qed.

(** The round trip is the identity exactly when no all-zero coordinate column
    contains a negative zero. *)
Theorem C14_bit_exact_iff : forall z ZS debug f k, zlib_ok z ZS -> good_file f ->
  f_compressed f = true -> has_extras k (f_prs f) -> k <= 255 ->
  8 * Z.of_nat (length (f_prs f)) + 32 < 2 ^ 31 ->
  exists bs, appends (write_spoc_file z debug f) bs
    /\ forall t, read_spoc_file z (i_open (bs ++ t)) = Ret (f, i_open t) <-> ~ loses_sign (f_prs f).
Proof.
  intros z ZS debug f k Hz Hf Hc Hk H255 Hsize.
  destruct (compressed_file_round_trip z ZS Hz debug f Hf Hc) as (bs & H1 & _ & _ & H3 & _).
  - eapply has_extras_le; eauto; lia.
  - unfold zlen, two31. lia.
  - exists bs. split; [now apply emits_appends|]. intros t. rewrite H3. split.
    + intros E Hl. injection E as E. now apply (squash_file_loses f (gf_prs f Hf) Hl).
    + intros Hn. now rewrite (squash_file_id f (gf_prs f Hf) Hn).
Qed.

Example C14_example_lost : loses_sign (f_prs f_compressed').
Proof.
  exists ry. split; [cbn; auto|]. split.
  - intros q [<-|[<-|[]]]; right; reflexivity.
  - exists pr1. split; [now left|reflexivity].
Qed.
Example C14_example_exact : ~ loses_sign [pr_many 1; mk_pr d_one 0 d_nzero 0 0 0 0 0 0 [1]; mk_pr 0 0 d_one 0 0 0 0 0 0 [1]].
Proof.
  intros (sel & [<-|[<-|[<-|[]]]] & Hall & q & Hq & Hneg).
  - destruct (Hall (mk_pr d_one 0 d_nzero 0 0 0 0 0 0 [1])) as [H|H]; [cbn; auto|discriminate|discriminate].
  - destruct Hq as [<-|[<-|[<-|[]]]]; discriminate.
  - destruct (Hall (mk_pr 0 0 d_one 0 0 0 0 0 0 [1])) as [H|H]; [cbn; auto|discriminate|discriminate].
Qed.

(** ** C15 *)

(** On every stream the two specialised readers do what [read_spoc_file] does
    when the file is of their kind and throw otherwise. *)
Theorem C15_readers_check_kind : forall z s h s1, read_header s = Ret (h, s1) ->
  (h_compressed h = 0 ->
     read_spoc_file_uncompressed s = read_spoc_file z s
     /\ exists e, read_spoc_file_compressed z s = Throw e)
  /\ (h_compressed h <> 0 ->
     read_spoc_file_compressed z s = read_spoc_file z s
     /\ exists e, read_spoc_file_uncompressed s = Throw e).
Proof.
  intros z s h s1 Hh. unfold read_spoc_file, read_spoc_file_uncompressed, read_spoc_file_compressed.
  rewrite Hh. cbn [bind]. split.
  - intros E. rewrite E. cbn. eauto.
  - intros E. rewrite (proj2 (Z.eqb_neq _ _) E). cbn. eauto.
Qed.

(** The two specialised writers do what [write_spoc_file] does when the file is
    of their kind, and throw without writing anything otherwise. *)
Theorem C15_writers_check_kind : forall z debug f os, good_file f ->
  (f_compressed f = false ->
     write_spoc_file_uncompressed debug f os = write_spoc_file z debug f os
     /\ exists e, write_spoc_file_compressed z debug f os = (os, Throw e))
  /\ (f_compressed f = true ->
     write_spoc_file_compressed z debug f os = write_spoc_file z debug f os
     /\ exists e, write_spoc_file_uncompressed debug f os = (os, Throw e)).
Proof.
  intros z debug f os Hf. destruct (get_header_any f Hf) as (h & Hh & _ & _ & _ & _ & Hc).
  assert (Hv : require_valid debug f = Ret tt) by (apply require_valid_good, Hf).
  assert (Hw : write_spoc_file z debug f os
    = (if negb (h_compressed h =? 0) then write_spoc_file_compressed z debug f
       else write_spoc_file_uncompressed debug f) os).
  { unfold write_spoc_file. unfold w_bind at 1, w_lift at 1. now rewrite Hh. }
  split; intros E; rewrite E in Hc; rewrite Hw, Hc; cbn [b2z Z.eqb negb]; split.
  - reflexivity.
  - unfold write_spoc_file_compressed, w_bind at 1, w_lift at 1. rewrite Hv, E. eexists. reflexivity.
  - reflexivity.
  - unfold write_spoc_file_uncompressed, w_bind at 1, w_lift at 1. rewrite Hv, E. eexists. reflexivity.
Qed.

Example C15_example : exists e, write_spoc_file_compressed toy true f_uncompressed o_open = (o_open, Throw e).
Proof. apply (proj1 (C15_writers_check_kind toy true f_uncompressed o_open (example_good false)) eq_refl). Qed.

(** ** C16 *)

(** Whatever the bytes, reading throws or returns a file with exactly the number
    of records, extra fields, WKT and flag of the header it saw, all fields in
    range; there are only two ways to fail otherwise. *)
Theorem C16_reading_is_safe : forall z ZS s, zlib_ok z ZS -> is_bytes (i_rest s) ->
  match read_spoc_file z s with
  | Throw _ => True
  | Ret (f, _) => exists h s1, read_header s = Ret (h, s1)
      /\ Z.of_nat (length (f_prs f)) = h_total h
      /\ has_extras (h_extra h) (f_prs f) /\ uniform (f_prs f)
      /\ f_wkt f = h_wkt h /\ f_major f = 0 /\ f_minor f = 1
      /\ (f_compressed f = true <-> h_compressed h <> 0)
      /\ Forall pr_ok (f_prs f)
  | Hang => exists h s1, read_header s = Ret (h, s1) /\ h_compressed h = 0
      /\ 124 <= h_extra h /\ 0 < h_total h
  | UB _ => exists h s1, read_header s = Ret (h, s1) /\ h_compressed h <> 0 /\ h_total h = 0
  end.
Proof.
  intros z ZS s Hz Hs. pose proof (read_file_total z ZS Hz s Hs) as H.
  destruct (read_spoc_file z s) as [[f s']| | |]; auto.
  destruct H as (h & s1 & Hh & Hl & Hex & Hw & Hma & Hmi & Hc & Hok & _).
  exists h, s1. apply Forall_has_extras in Hex. repeat split; auto.
  - exact (has_extras_uniform _ _ Hex).
  - intros E. rewrite E in Hc. symmetry in Hc. apply negb_true_iff in Hc. now apply Z.eqb_neq.
  - intros E. rewrite Hc. apply negb_true_iff. now apply Z.eqb_neq.
Qed.

(** Both exceptions occur. *)
Example C16_ub : read_spoc_file toy (i_open ([83; 80; 79; 67; 0; 1; 0; 0; 0; 0; 0; 0; 0; 0; 0; 0; 0; 1]
   ++ [1; 0; 0; 0; 0; 0; 0; 0; 42])) = UB ub_index.
Proof. reflexivity. Qed.
Example C16_hang : read_spoc_file toy (i_open [83; 80; 79; 67; 0; 1; 0; 0; 124; 1; 0; 0; 0; 0; 0; 0; 0; 0]) = Hang.
Proof. reflexivity. Qed.
Example C16_ret : exists f s, read_spoc_file toy (i_open [83; 80; 79; 67; 0; 1; 0; 0; 2; 3; 0; 0; 0; 0; 0; 0; 0; 0; 42])
  = Ret (f, s) /\ length (f_prs f) = 3%nat.
Proof. eexists _, _. split; [vm_compute; reflexivity|reflexivity]. Qed.

(** ** C17 *)

Fixpoint write_files (z : zlib) (debug : bool) (fs : list spoc_file) : writer unit :=
  match fs with
  | [] => w_ret tt
  | f :: fs => w_seq (write_spoc_file z debug f) (write_files z debug fs)
  end.

Fixpoint read_files (z : zlib) (n : nat) (s : istream) : outcome (list spoc_file * istream) :=
  match n with
  | O => Ret ([], s)
  | S n => '(f, s) <- read_spoc_file z s ;; '(fs, s) <- read_files z n s ;; Ret (f :: fs, s)
  end.

Theorem C17_concatenated_files : forall z ZS debug fs, zlib_ok z ZS -> Forall storable fs ->
  exists bs fs', appends (write_files z debug fs) bs /\ is_bytes bs /\ Forall2 kept fs fs'
    /\ forall t, is_bytes t -> read_files z (length fs) (i_open (bs ++ t)) = Ret (fs', i_open t).
Proof.
  intros z ZS debug fs Hz.
  assert (H : Forall storable fs -> exists bs fs', emits (write_files z debug fs) bs tt /\ is_bytes bs
    /\ Forall2 kept fs fs'
    /\ forall t, is_bytes t -> read_files z (length fs) (i_open (bs ++ t)) = Ret (fs', i_open t)).
  2: { intros Hfs. destruct (H Hfs) as (bs & fs' & H1 & H2). exists bs, fs'.
       split; [now apply emits_appends|exact H2]. }
  induction fs as [|f fs IH]; intros Hfs.
  - exists [], []. split; [apply emits_ret|]. split; [constructor|]. split; [constructor|]. reflexivity.
  - apply Forall_cons_iff in Hfs as [(Hf & Hsize & k & Hk & Hkk) Hfs].
    destruct (IH Hfs) as (bs & fs' & H1 & H2 & H3 & H4). clear IH.
    destruct (storable_one z ZS debug f Hz (conj Hf (conj Hsize (ex_intro _ k (conj Hk Hkk))))) as (cs & f' & G1 & G2 & G3 & G4).
    exists (cs ++ bs), (f' :: fs'). repeat split.
    + apply emits_seq; assumption.
    + apply Forall_app; auto.
    + constructor; assumption.
    + intros t Ht. cbn [length read_files]. rewrite <- app_assoc, G4.
      * cbn [bind]. rewrite H4 by assumption. reflexivity.
      * apply Forall_app; auto.
Qed.

Example C17_example : Forall storable [f_uncompressed; f_compressed'; f_uncompressed].
Proof.
  assert (H : forall c, storable (mk_file 0 1 [87; 75; 84] c [pr1; pr2])).
  { intros c. split; [apply example_good|]. split; [cbn; lia|]. exists 2. split; [apply example_extras|].
    destruct c; cbn; lia. }
  apply Forall_cons; [apply H|]. apply Forall_cons; [apply H|]. apply Forall_cons; [apply H|constructor].
Qed.

(** ** C18 *)

(** An uncompressed file cut anywhere behind its header is accepted: the full
    number of records comes back, those lying before the cut are intact. *)
Theorem C18_cut_uncompressed_accepted : forall z debug f k, good_file f -> f_compressed f = false ->
  has_extras k (f_prs f) -> 0 <= k <= 123 ->
  exists bs, appends (write_spoc_file z debug f) bs
    /\ forall cut, 18 + Z.of_nat (length (f_wkt f)) <= cut <= Z.of_nat (length bs) ->
       exists f' s', read_spoc_file z (i_open (firstn (Z.to_nat cut) bs)) = Ret (f', s')
         /\ length (f_prs f') = length (f_prs f)
         /\ (forall n : nat, 18 + Z.of_nat (length (f_wkt f)) + (Z.of_nat n + 1) * (40 + 8 * k) <= cut ->
               nth_error (f_prs f') n = nth_error (f_prs f) n)
         /\ (cut < Z.of_nat (length bs) -> i_good s' = false).
Proof.
  intros z debug f k Hf Hc Hk Hk123.
  assert (He : get_extra_fields f <= 123) by (eapply has_extras_le; eauto; lia).
  destruct (get_header_spec f Hf ltac:(lia)) as (h & Hh & Hgh & Hw & _).
  exists (header_bytes h ++ prs_bytes (f_prs f)). split.
  - apply emits_appends, write_file_uncompressed_emits; auto. apply Hf.
  - intros cut Hcut.
    assert (Hhs : header_size h = 18 + Z.of_nat (length (f_wkt f))) by (unfold header_size; now rewrite Hw).
    destruct (read_cut_uncompressed z f h cut Hf Hc He Hh) as (f' & s' & E & _ & _ & Hl & _ & Hrec & Hbad).
    { rewrite Hhs. unfold zlen. lia. }
    exists f', s'. rewrite <- ztake_firstn. split; [exact E|]. split; [unfold zlen in Hl; lia|]. split.
    + intros n Hn. destruct (f_prs f) as [|p prs] eqn:Ep.
      { assert (Hnil : f_prs f' = []) by (apply zlen_zero_nil; exact Hl). rewrite Hnil. reflexivity. }
      assert (Hge : get_extra_fields f = k) by (apply has_extras_get; [now rewrite Ep|rewrite Ep; discriminate]).
      specialize (Hrec (Z.of_nat n)). rewrite !znth_nth_error, !Nat2Z.id in Hrec by lia.
      apply Hrec; [lia|]. rewrite record_size_eq, Hge, Hhs. lia.
    + intros Hlt. apply Hbad. exact Hlt.
Qed.

Example C18_example : exists bs, appends (write_spoc_file toy true f_uncompressed) bs
  /\ exists f' s', read_spoc_file toy (i_open (firstn (Z.to_nat 80) bs)) = Ret (f', s')
     /\ length (f_prs f') = 2%nat /\ nth_error (f_prs f') 0 = Some pr1.
Proof.
  destruct (C18_cut_uncompressed_accepted toy true f_uncompressed 2 (example_good false) eq_refl example_extras)
    as (bs & H1 & H2); [lia|]. exists bs. split; [exact H1|].
  assert (Hlen : Z.of_nat (length bs) = 133).
  { destruct (H1 o_open) as (os' & E & _ & Hb); [split; reflexivity|]. cbn [o_open o_bytes app] in Hb.
    rewrite <- Hb. replace os' with (fst (write_spoc_file toy true f_uncompressed o_open)) by now rewrite E.
    reflexivity. }
  destruct (H2 80) as (f' & s' & E & Hl & Hrec & _); [cbn; lia|].
  exists f', s'. split; [exact E|]. split; [exact Hl|]. rewrite Hrec by (cbn; lia). reflexivity.
Qed.

(** A compressed file cut right after its header is accepted as well: every
    record comes back as zeros. *)
Theorem C18_cut_compressed_accepted : forall z ZS debug f k, zlib_ok z ZS -> good_file f ->
  f_compressed f = true -> f_prs f <> [] -> has_extras k (f_prs f) -> k <= 255 ->
  8 * Z.of_nat (length (f_prs f)) + 32 < 2 ^ 31 ->
  exists bs, appends (write_spoc_file z debug f) bs
    /\ exists f' s', read_spoc_file z (i_open (firstn (18 + length (f_wkt f)) bs)) = Ret (f', s')
       /\ i_good s' = false
       /\ f_prs f' = repeat (mk_pr 0 0 0 0 0 0 0 0 0 (repeat 0 (Z.to_nat k))) (length (f_prs f)).
Proof.
  intros z ZS debug f k Hz Hf Hc Hne Hk H255 Hsize.
  pose proof (has_extras_get k f Hk Hne) as He.
  destruct (write_compressed_emits_file z ZS Hz debug f Hf Hc) as (h & cols & Hh & Hgh & Hem & _ & Hw & _ & _ & Hcomp & _).
  { lia. }
  { unfold zlen, two31. lia. }
  exists (header_bytes h ++ cols). split.
  - apply emits_appends. unfold write_spoc_file. eapply emits_lift; [exact Hh|]. rewrite Hcomp. exact Hem.
  - destruct (read_cut_compressed z f h Hf Hc) as (f' & s' & E & Hb & _ & _ & Hp); auto; [lia|].
    exists f', s'. split; [|split; [exact Hb|now rewrite Hp, He]].
    rewrite <- E. f_equal. f_equal.
    assert (Hl : length (header_bytes h) = (18 + length (f_wkt f))%nat).
    { pose proof (header_bytes_len h Hgh) as Hl. unfold zlen, header_size in Hl. rewrite Hw in Hl. lia. }
    rewrite <- Hl, firstn_app, firstn_all, Nat.sub_diag. cbn. apply app_nil_r.
Qed.

(** ** C19 *)

(** Writing to a device that accepts only [room] more bytes: exactly the first
    [room] bytes of the file arrive, the stream's bad bit is set, and the writer
    returns as if nothing had happened. *)
Theorem C19_full_device : forall z ZS debug f, zlib_ok z ZS -> storable f ->
  exists bs, appends (write_spoc_file z debug f) bs
    /\ forall before room, 0 <= room < Z.of_nat (length bs) ->
       exists os', write_spoc_file z debug f (mk_ostream before (Some room) false) = (os', Ret tt)
         /\ o_bytes os' = before ++ firstn (Z.to_nat room) bs
         /\ o_bad os' = true.
Proof.
  intros z ZS debug f Hz (Hf & Hsize & k & Hk & Hkk).
  assert (H : exists bs, emits (write_spoc_file z debug f) bs tt).
  { destruct (f_compressed f) eqn:Ec.
    - destruct (compressed_file_round_trip z ZS Hz debug f Hf Ec) as (cs & G1 & _).
      { eapply has_extras_le; eauto; lia. }
      { unfold zlen, two31. lia. }
      eauto.
    - destruct (get_header_any f Hf) as (h & Hh & _). eexists. apply write_file_uncompressed_emits; eauto. apply Hf. }
  destruct H as (bs & H). exists bs. split; [now apply emits_appends|].
  intros before room Hroom. rewrite H by (intros r Hr; injection Hr as <-; lia).
  unfold os_write. cbn [o_bad o_room o_bytes]. rewrite (proj2 (Z.leb_gt _ _)) by (unfold zlen; lia).
  eexists. split; [reflexivity|]. cbn. rewrite ztake_firstn. auto.
Qed.

Example C19_example : storable f_uncompressed.
Proof. exact (Forall_inv C17_example). Qed.

(** ** C20 *)

(** spoc_compress turns the bytes of an uncompressed file into those of the
    compressed file with the same contents, spoc_decompress turns these into an
    uncompressed file again, and compressing that gives the same bytes.  The
    original bytes come back unless an all-zero column has a negative zero. *)
Theorem C20_tools_inverse : forall z ZS debug f k, zlib_ok z ZS -> good_file f ->
  f_compressed f = false -> has_extras k (f_prs f) -> k <= 123 ->
  8 * Z.of_nat (length (f_prs f)) + 32 < 2 ^ 31 ->
  exists ub cb f' ub',
    appends (write_spoc_file z debug f) ub
    /\ kept_file f f'
    /\ appends (write_spoc_file z debug f') ub'
    /\ appends (compress_tool z debug ub) cb
    /\ appends (write_spoc_file z debug (set_compressed true f)) cb
    /\ appends (decompress_tool z debug cb) ub'
    /\ appends (compress_tool z debug ub') cb
    /\ (~ loses_sign (f_prs f) -> ub' = ub).
Proof.
  intros z ZS debug f k Hz Hf Hc Hk H123 Hsize.
  assert (He : get_extra_fields f <= 123) by (eapply has_extras_le; eauto; lia).
  destruct (get_header_spec f Hf ltac:(lia)) as (h & Hh & Hgh & _).
  set (fc := set_compressed true f).
  assert (Hfc : good_file fc) by now apply good_file_set_compressed.
  destruct (compressed_file_round_trip z ZS Hz debug fc Hfc eq_refl) as (cb & W1 & W2 & Okc & R1 & R2 & _).
  { unfold fc. rewrite get_extra_set_compressed. lia. }
  { unfold fc, zlen, two31. cbn [set_compressed f_prs]. lia. }
  set (f' := squash_file f).
  assert (Hf' : good_file f') by now apply squash_good.
  assert (Hc' : f_compressed f' = false) by exact Hc.
  assert (He' : get_extra_fields f' <= 123) by (unfold f'; rewrite get_extra_squash; lia).
  assert (Hh' : get_header f' = Ret h) by (unfold f'; now rewrite get_header_squash).
  assert (Hsq : set_compressed false (squash_file fc) = f').
  { unfold f', fc, squash_file, set_compressed, with_prs. cbn. now rewrite Hc. }
  assert (Hsq2 : set_compressed true f' = squash_file fc) by reflexivity.
  exists (header_bytes h ++ prs_bytes (f_prs f)), cb, f', (header_bytes h ++ prs_bytes (f_prs f')).
  assert (Hread : forall g, good_file g -> f_compressed g = false -> get_extra_fields g <= 123 ->
     get_header g = Ret h ->
     read_spoc_file_uncompressed (i_open (header_bytes h ++ prs_bytes (f_prs g))) = Ret (g, i_open [])).
  { intros g G1 G2 G3 G4. pose proof (read_uncompressed_of_bytes g h [] G1 G2 G3 G4 (Forall_nil _)) as E.
    now rewrite app_nil_r in E. }
  split; [|split; [|split; [|split; [|split; [|split; [|split]]]]]].
  - apply emits_appends, write_file_uncompressed_emits; auto. apply Hf.
  - apply squash_file_kept, Hf.
  - apply emits_appends, write_file_uncompressed_emits; auto. apply Hf'.
  - apply emits_appends. eapply from_input_emits; [apply (Hread f); auto|]. exact W2.
  - apply emits_appends. exact W1.
  - apply emits_appends. eapply from_input_emits.
    + specialize (R2 []). rewrite app_nil_r in R2. exact R2.
    + rewrite Hsq. apply write_uncompressed_emits; auto. apply Hf'.
  - apply emits_appends. eapply from_input_emits; [apply (Hread f'); auto|].
    rewrite Hsq2. intros os Hos. rewrite write_compressed_squash by apply Hfc. now apply W2.
  - intros Hn. unfold f'. now rewrite (squash_file_id f (gf_prs f Hf) Hn).
Qed.

Example C20_example : exists ub cb, appends (write_spoc_file toy true f_uncompressed) ub
  /\ appends (compress_tool toy true ub) cb
  /\ appends (write_spoc_file toy true f_compressed') cb.
Proof.
  destruct (C20_tools_inverse toy toy_stream true f_uncompressed 2 toy_ok (example_good false) eq_refl
              example_extras) as (ub & cb & f' & ub' & H1 & _ & _ & H4 & H5 & _); [lia|cbn; lia|].
  exists ub, cb. split; [exact H1|]. split; [exact H4|exact H5].
Qed.

Print Assumptions C10_uncompressed_round_trip.
Print Assumptions C11_read_terminates_iff.
Print Assumptions C11_loop_never_ends.
Print Assumptions C11_written_files_hang.
Print Assumptions C12_header_extra_count.
Print Assumptions C12_extra_count_lost.
Print Assumptions C13_compressed_round_trip.
Print Assumptions C14_bit_exact_iff.
Print Assumptions C15_readers_check_kind.
Print Assumptions C15_writers_check_kind.
Print Assumptions C16_reading_is_safe.
Print Assumptions C17_concatenated_files.
Print Assumptions C18_cut_uncompressed_accepted.
Print Assumptions C18_cut_compressed_accepted.
Print Assumptions C19_full_device.
Print Assumptions C20_tools_inverse.
