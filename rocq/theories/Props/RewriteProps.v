(** C121: reading a file and writing it again. *)
From Coq Require Import String ZArith List Bool Lia.
From Verif.Model Require Import Base Double Arith Header PointRecord Compression File IO.
From Verif.Spec Require Import Format Streams ZlibContract Files Truncation.
From Verif.Proofs Require Import BaseFacts HeaderFacts PointRecordFacts IOFacts FileFacts FileIOFacts HeaderCutFacts FileMoreFacts PaddingFacts StaleFacts CutFacts SafetyFacts StoreFacts ToyZlib.
From Verif.Props Require Import FileProps ExampleProps TruncatedProps.
Import ListNotations.
Open Scope Z_scope.
Open Scope outcome_scope.

(** ** What a successful reader has consumed *)

Lemma parts_join size data : forall n, (n * size <= length data)%nat ->
  List.concat (map (part size data) (seq 0 n)) = firstn (n * size) data.
Proof.
  induction n as [|n IH]; intros L; [reflexivity|]. rewrite seq_S, map_app, concat_app, IH by lia. cbn [map List.concat plus].
  rewrite app_nil_r. unfold part. rewrite <- (firstn_skipn (n * size) (firstn (S n * size) data)).
  rewrite firstn_firstn, Nat.min_l by lia. f_equal. rewrite skipn_firstn_comm. f_equal. lia.
Qed.

Lemma flat_map_seq {A B} (g : A -> list B) (h : nat -> list B) : forall l k,
  (forall n x, nth_error l n = Some x -> g x = h (k + n)%nat) -> flat_map g l = List.concat (map h (seq k (length l))).
Proof.
  induction l as [|x l IH]; intros k H; [reflexivity|]. cbn [flat_map length seq map List.concat]. f_equal.
  - rewrite (H 0%nat x eq_refl). f_equal. lia.
  - apply IH. intros n y N. rewrite (H (S n) y N). f_equal. lia.
Qed.

Lemma points_consumed e total s p s' : 0 <= e -> record_size e <= buffer_size -> 0 <= total -> is_bytes (i_rest s) ->
  read_uncompressed_points total e s = Ret (p, s') -> i_good s' = true ->
  i_rest s = prs_bytes p ++ i_rest s' /\ zlen p = total /\ Forall (fun r => zlen (rextra r) = e) p /\ Forall pr_ok p
  /\ i_good s = true.
Proof.
  intros E R T B H G.
  assert (M : total * sizeof_point_record <= PTRDIFF_MAX).
  { destruct (Z_le_gt_dec (total * sizeof_point_record) PTRDIFF_MAX) as [L|L]; [exact L|].
    unfold read_uncompressed_points in H. rewrite (proj2 (Z.ltb_lt _ _)) in H by lia. discriminate. }
  destruct (i_good s) eqn:Gs.
  - assert (S0 : s = i_open (i_rest s)).
    { destruct s as [r a b]. unfold i_good in Gs. cbn in *. destruct a, b; try discriminate. reflexivity. }
    set (bs := i_rest s) in *. rewrite S0 in H.
    destruct (points_show e total bs E R T M B) as (q & t & Q & L & Sh & Ex & Ok). rewrite H in Q. injection Q as <- <-.
    destruct (read_uncompressed_points_spec e total bs (i_open bs) (or_introl eq_refl) E R T M B) as (q & t & Q & _ & St & _).
    rewrite H in Q. injection Q as <- <-.
    destruct St as [[Le Es]|[_ [Bad _]]]; [|congruence]. split; [|auto].
    rewrite Es. cbn [i_open i_rest].
    assert (Z0 : 40 <= record_size e) by (rewrite record_size_eq; lia).
    assert (N : (Z.to_nat total * size_of e <= length bs)%nat).
    { rewrite <- size_of_record. rewrite <- Z2Nat.inj_mul by lia. unfold zlen in Le. lia. }
    assert (P : prs_bytes p = firstn (Z.to_nat total * size_of e) bs).
    { rewrite <- parts_join by exact N. unfold prs_bytes.
      replace (Z.to_nat total) with (length p) by (unfold zlen in L; lia). apply flat_map_seq. intros n r Nr. cbn [plus].
      assert (Ln : (n < length p)%nat) by (apply nth_error_Some; congruence). unfold zlen in L.
      destruct (Sh (Z.of_nat n)) as (r' & N' & Y); [lia|].
      assert (r' = r) as ->. { rewrite znth_nth_error in N' by lia. rewrite Nat2Z.id in N'. congruence. }
      rewrite size_of_record, at_once_records, Nat2Z.id in Y by lia.
      apply shows_there in Y; [exact Y|]. clear - N Ln L. nia. }
    rewrite P. rewrite zdrop_skipn. rewrite <- (firstn_skipn (Z.to_nat total * size_of e) bs) at 1. f_equal. f_equal.
    rewrite <- size_of_record. now rewrite <- Z2Nat.inj_mul by lia.
  - exfalso. destruct (read_uncompressed_points_spec e total [] s) as (q & t & Q & _ & St & _); auto.
    { constructor. }
    rewrite H in Q. injection Q as <- <-. destruct St as [[Le Es]|[_ [Bad _]]]; [|congruence].
    rewrite record_size_eq in Le. change (zlen (@nil Z)) with 0 in Le. assert (total = 0) as -> by nia.
    cbn in H. injection H as <- <-. congruence.
Qed.

Lemma read_consumed z ZS bs f s : zlib_ok z ZS -> is_bytes bs -> read_spoc_file z (i_open bs) = Ret (f, s) ->
  f_compressed f = false -> i_good s = true ->
  exists h, good_header h /\ bs = header_bytes h ++ prs_bytes (f_prs f) ++ i_rest s
  /\ h_wkt h = f_wkt f /\ h_total h = zlen (f_prs f) /\ h_compressed h = 0
  /\ f_major f = 0 /\ f_minor f = 1 /\ Forall pr_ok (f_prs f)
  /\ Forall (fun r => zlen (rextra r) = h_extra h) (f_prs f) /\ (f_prs f = [] \/ h_extra h <= 123)
  /\ zlen (f_prs f) * 64 <= 2 ^ 63 - 1.
Proof.
  intros Hz B R C G. pose proof (read_file_total z ZS Hz (i_open bs) B) as T. rewrite R in T.
  destruct T as (h & s1 & Hh & L & Ex & W & Ma & Mi & Co & Ok & _).
  destruct (read_header_good (i_open bs) h s1 B Hh) as [Gh B1].
  rewrite C in Co. symmetry in Co. apply negb_false_iff, Z.eqb_eq in Co.
  unfold read_spoc_file in R. rewrite Hh in R. cbn [bind] in R. rewrite Co in R. cbn [Z.eqb negb] in R.
  destruct (read_uncompressed_points (h_total h) (h_extra h) s1) as [[p t]| | |] eqn:P; cbn [bind] in R; try discriminate.
  pose proof (gh_extra h Gh) as E0. pose proof (gh_total h Gh) as T0.
  assert (M : h_total h * 64 <= 2 ^ 63 - 1).
  { destruct (Z_le_gt_dec (h_total h * 64) (2 ^ 63 - 1)) as [Le|Gt]; [exact Le|].
    unfold read_uncompressed_points in P. rewrite (proj2 (Z.ltb_lt _ _)) in P by (unfold PTRDIFF_MAX, two63, sizeof_point_record; lia). discriminate. }
  assert (Fp : f_prs f = p /\ s = t).
  { unfold file_ctor_wkt in R. destruct (file_ctor MAJOR_VERSION MINOR_VERSION (h_wkt h) false p) as [g| | |] eqn:F; cbn [bind] in R; try discriminate. injection R as -> ->.
    split; [|reflexivity]. unfold file_ctor in F. destruct (negb (all_same_size_extra p)) in F; [discriminate|]. injection F as <-. reflexivity. }
  destruct Fp as [Fp ->].
  assert (X : i_good s1 = true /\ i_rest s1 = prs_bytes (f_prs f) ++ i_rest t /\ (f_prs f = [] \/ h_extra h <= 123)).
  { destruct (Z.eq_dec (h_total h) 0) as [Z0|NZ].
    - rewrite Z0 in P. cbn in P. injection P as <- <-. rewrite Fp. auto.
    - assert (E1 : h_extra h <= 123).
      { destruct (Z_le_gt_dec (h_extra h) 123) as [Le|Gt]; [exact Le|]. unfold read_uncompressed_points in P.
        rewrite (proj2 (Z.ltb_ge _ _)) in P by (unfold PTRDIFF_MAX, two63, sizeof_point_record; lia).
        rewrite C11_loop_never_ends in P; [discriminate|lia|lia|]. pose proof (zlen_zrepeat (pr_zero (h_extra h)) (h_total h)) as K. unfold zlen in K. lia. }
      destruct (points_consumed (h_extra h) (h_total h) s1 p t) as (R1 & _ & _ & _ & G1); auto; try lia.
      { rewrite record_size_eq. unfold buffer_size. lia. }
      rewrite Fp. auto. }
  destruct X as (G1 & R1 & E1). exists h. split; [exact Gh|]. split.
  { rewrite (read_header_bytes bs h s1 B Hh G1). now rewrite R1. }
  rewrite L. repeat (split; auto).
Qed.

(** ** C121 *)

(** If an uncompressed file with records is read to its end, writing it again gives the
    bytes that were read. *)
Theorem C121_bytes : forall z ZS debug bs f s, zlib_ok z ZS -> is_bytes bs ->
  read_spoc_file z (i_open bs) = Ret (f, s) -> f_compressed f = false -> f_prs f <> [] -> i_good s = true ->
  exists w, bs = w ++ i_rest s /\ appends (write_spoc_file z debug f) w.
Proof.
  intros z ZS debug bs f s Hz B R C N G. destruct (read_consumed z ZS bs f s Hz B R C G) as (h & Gh & Eb & W & T & Co & Ma & Mi & Ok & Ex & E & M).
  assert (U : uniform (f_prs f)) by (eapply has_extras_uniform, Forall_has_extras; exact Ex).
  assert (Gf : good_file f).
  { constructor; auto.
    - rewrite <- W. apply Gh.
    - rewrite <- W. apply Gh. }
  assert (Ee : get_extra_fields f = h_extra h).
  { pose proof (uniform_Forall f U) as V. destruct (f_prs f) as [|p l]; [congruence|]. inversion V; inversion Ex; congruence. }
  destruct (get_header_spec f Gf) as (h' & Hh & Gh' & W' & X' & T' & C' & S'); [destruct E; [congruence|lia]|].
  assert (h' = h) as ->.
  { destruct h as [a1 a2 a3 a4 a5 a6 a7], h' as [b1 b2 b3 b4 b5 b6 b7]. destruct Gh, Gh'. cbn in *. rewrite C in C'. cbn in C'. f_equal; congruence. }
  exists (header_bytes h ++ prs_bytes (f_prs f)). rewrite <- app_assoc. split; [exact Eb|].
  apply emits_appends, write_file_uncompressed_emits; auto.
Qed.

(** A file without records is written as it was, except that the number of extra fields
    becomes 0. *)
Theorem C121_empty : forall z ZS debug bs f s, zlib_ok z ZS -> is_bytes bs ->
  read_spoc_file z (i_open bs) = Ret (f, s) -> f_compressed f = false -> f_prs f = [] -> i_good s = true ->
  exists e a b w, bs = a ++ [e] ++ b ++ i_rest s /\ w = a ++ [0] ++ b /\ Z.of_nat (length b) = 9
  /\ appends (write_spoc_file z debug f) w.
Proof.
  intros z ZS debug bs f s Hz B R C N G. destruct (read_consumed z ZS bs f s Hz B R C G) as (h & Gh & Eb & W & T & Co & Ma & Mi & Ok & Ex & E & M).
  rewrite N in *. cbn [prs_bytes flat_map app] in Eb.
  assert (Gf : good_file f).
  { constructor; auto; try rewrite N.
    - rewrite <- W. apply Gh.
    - rewrite <- W. apply Gh.
    - constructor.
    - intros p q [].
    - cbn. lia. }
  assert (Ee : get_extra_fields f = 0) by (unfold get_extra_fields; rewrite N; reflexivity).
  destruct (get_header_spec f Gf) as (h' & Hh & Gh' & W' & X' & T' & C' & S'); [lia|].
  pose proof (header_bytes_layout h Gh) as (b1 & b2 & L & L1 & L2). pose proof (header_bytes_layout h' Gh') as (c1 & c2 & L' & L1' & L2').
  rewrite N in T'. rewrite C in C'. cbn in C'.
  assert (b1 = c1) as ->. { rewrite W', <- W in L1'. apply is_le_unique in L1, L1'. congruence. }
  assert (b2 = c2) as ->. { rewrite T' in L2'. rewrite T in L2. apply is_le_unique in L2, L2'. congruence. }
  exists (h_extra h), ([83; 80; 79; 67] ++ [h_major h] ++ [h_minor h] ++ c1 ++ h_wkt h), (c2 ++ [h_compressed h]), (header_bytes h').
  split. { rewrite Eb, L. now rewrite <- !app_assoc. }
  split. { rewrite L'. destruct Gh, Gh'. rewrite W', <- W, X', Ee, C', Co. rewrite <- !app_assoc. congruence. }
  split. { rewrite app_length. destruct L2 as [-> _]. reflexivity. }
  replace (header_bytes h') with (header_bytes h' ++ prs_bytes (f_prs f)) by (rewrite N; cbn; now rewrite app_nil_r).
  apply emits_appends, write_file_uncompressed_emits; auto. rewrite N. intros p q [].
Qed.

(** There is one way only to store records without compression: what is read to its end as
    the same records is the same bytes. *)
Theorem C121_unique : forall z ZS bs bs' f s s', zlib_ok z ZS -> is_bytes bs -> is_bytes bs' ->
  read_spoc_file z (i_open bs) = Ret (f, s) -> read_spoc_file z (i_open bs') = Ret (f, s') ->
  f_compressed f = false -> f_prs f <> [] -> i_good s = true -> i_good s' = true -> i_rest s = i_rest s' -> bs = bs'.
Proof.
  intros z ZS bs bs' f s s' Hz B B' R R' C N G G' E.
  destruct (C121_bytes z ZS false bs f s Hz B R C N G) as (w & -> & A). destruct (C121_bytes z ZS false bs' f s' Hz B' R' C N G') as (w' & -> & A').
  rewrite E. f_equal. destruct (A o_open) as (o & O1 & _ & O2); [split; reflexivity|]. destruct (A' o_open) as (o' & O1' & _ & O2'); [split; reflexivity|].
  rewrite O1 in O1'. injection O1' as <-. rewrite O2 in O2'. exact (app_inv_head _ _ _ O2').
Qed.

(** Whatever the bytes were, also damaged or cut off ones: what has been read can be
    written, and is then read as the same again, save for the sign of zeros in compressed
    files. *)
Theorem C121_stable : forall z ZS debug bs f s, zlib_ok z ZS -> is_bytes bs ->
  read_spoc_file z (i_open bs) = Ret (f, s) -> 8 * Z.of_nat (length (f_prs f)) + 32 < 2 ^ 31 ->
  exists w f', appends (write_spoc_file z debug f) w /\ kept f f'
  /\ forall t, is_bytes t -> read_spoc_file z (i_open (w ++ t)) = Ret (f', i_open t).
Proof.
  intros z ZS debug bs f s Hz B R Sz. pose proof (C16_reading_is_safe z ZS (i_open bs) Hz B) as T. rewrite R in T.
  destruct T as (h & s1 & Hh & L & Ex & U & W & Ma & Mi & Co & Ok). destruct (read_header_good (i_open bs) h s1 B Hh) as [Gh B1].
  assert (St : storable f).
  { split; [|split; [exact Sz|]].
    - constructor; auto.
      + rewrite W. apply Gh.
      + rewrite W. apply Gh.
      + lia.
    - destruct (f_prs f) as [|p l] eqn:N.
      { exists 0. split; [intros q []|]. destruct (f_compressed f); lia. }
      exists (h_extra h). split; [exact Ex|]. pose proof (gh_extra h Gh). destruct (f_compressed f) eqn:C; [lia|].
      destruct (Z_le_gt_dec (h_extra h) 123) as [Le|Gt]; [exact Le|]. exfalso.
      assert (Hg : read_spoc_file z (i_open bs) = Hang).
      { apply (C11_read_terminates_iff z ZS (i_open bs) Hz B). exists h, s1. split; [exact Hh|]. split.
        { destruct (Z.eq_dec (h_compressed h) 0) as [Q|Q]; [exact Q|]. apply Co in Q. discriminate. }
        cbn [length] in L, Sz. lia. }
      congruence. }
  destruct (storable_one z ZS debug f Hz St) as (w & f' & Em & _ & K & Rd). exists w, f'. split; [now apply emits_appends|]. auto.
Qed.

(** One record with one extra field, followed by two more bytes. *)
Definition rewrite_bytes : list Z :=
  [83; 80; 79; 67; 0; 1; 2; 0; 65; 66; 1; 1; 0; 0; 0; 0; 0; 0; 0; 0]
  ++ [0; 0; 0; 0; 0; 0; 240; 63; 0; 0; 0; 0; 0; 0; 0; 128; 1; 2; 3; 4; 5; 6; 7; 8]
  ++ [1; 0; 0; 0; 2; 0; 0; 0; 3; 0; 4; 0; 5; 0; 6; 0] ++ [2; 1; 0; 0; 0; 0; 0; 0] ++ [7; 7].
Example C121_bytes_example : exists f s, read_spoc_file toy (i_open rewrite_bytes) = Ret (f, s)
  /\ f_compressed f = false /\ length (f_prs f) = 1%nat /\ i_good s = true /\ i_rest s = [7; 7]
  /\ appends (write_spoc_file toy true f) (firstn 68 rewrite_bytes).
Proof.
  assert (B : is_bytes rewrite_bytes) by (repeat constructor; lia).
  destruct (read_spoc_file toy (i_open rewrite_bytes)) as [[f s]| | |] eqn:E; [|vm_compute in E; discriminate..].
  exists f, s. split; [reflexivity|].
  assert (F : f_compressed f = false /\ f_prs f <> [] /\ length (f_prs f) = 1%nat /\ i_good s = true /\ i_rest s = [7; 7]).
  { vm_compute in E. injection E as <- <-. repeat split. discriminate. }
  destruct F as (F1 & F2 & F3 & F4 & F5). repeat (split; [assumption|]).
  destruct (C121_bytes toy toy_stream true _ f s toy_ok B E F1 F2 F4) as (w & Ew & A). rewrite F5 in Ew.
  replace (firstn 68 rewrite_bytes) with w; [exact A|]. apply (app_inv_tail [7; 7]). rewrite <- Ew. reflexivity.
Qed.

(** No records, three extra fields announced. *)
Example C121_empty_example : exists f s, read_spoc_file toy (i_open [83; 80; 79; 67; 0; 1; 0; 0; 3; 0; 0; 0; 0; 0; 0; 0; 0; 0]) = Ret (f, s)
  /\ f_compressed f = false /\ f_prs f = [] /\ i_good s = true
  /\ appends (write_spoc_file toy true f) [83; 80; 79; 67; 0; 1; 0; 0; 0; 0; 0; 0; 0; 0; 0; 0; 0; 0].
Proof.
  set (bs := [83; 80; 79; 67; 0; 1; 0; 0; 3; 0; 0; 0; 0; 0; 0; 0; 0; 0]).
  assert (B : is_bytes bs) by (repeat constructor; lia).
  destruct (read_spoc_file toy (i_open bs)) as [[f s]| | |] eqn:E; [|vm_compute in E; discriminate..].
  exists f, s. split; [reflexivity|].
  assert (F : f_compressed f = false /\ f_prs f = [] /\ i_good s = true /\ i_rest s = []).
  { vm_compute in E. injection E as <- <-. repeat split. }
  destruct F as (F1 & F2 & F3 & F4). repeat (split; [assumption|]).
  destruct (C121_empty toy toy_stream true bs f s toy_ok B E F1 F2 F3) as (e & a & b & w & Eb & -> & Lb & A). rewrite F4, app_nil_r in Eb.
  assert (La : length a = 8%nat). { apply (f_equal (@length Z)) in Eb. rewrite !app_length in Eb. cbn in Eb. lia. }
  do 8 (destruct a as [|? a]; [discriminate|]). destruct a; [|discriminate]. cbn in Eb. injection Eb as <- <- <- <- <- <- <- <- <- <-. exact A.
Qed.

(** A file that is cut off in its header is read as a file without records;
    that file is stored and read again. *)
Example C121_stable_example : exists f s, read_spoc_file toy (i_open [83; 80; 79; 67; 0; 1; 2; 0; 65]) = Ret (f, s)
  /\ i_good s = false
  /\ exists w f', appends (write_spoc_file toy true f) w /\ kept f f' /\ read_spoc_file toy (i_open (w ++ [9])) = Ret (f', i_open [9]).
Proof.
  assert (B : is_bytes [83; 80; 79; 67; 0; 1; 2; 0; 65]) by (repeat constructor; lia).
  destruct (read_spoc_file toy (i_open [83; 80; 79; 67; 0; 1; 2; 0; 65])) as [[f s]| | |] eqn:E; [|vm_compute in E; discriminate..].
  exists f, s. split; [reflexivity|].
  assert (F : i_good s = false /\ f_prs f = []) by (vm_compute in E; injection E as <- <-; split; reflexivity).
  split; [apply F|]. destruct (C121_stable toy toy_stream true _ f s toy_ok B E) as (w & f' & A & K & Rd).
  { rewrite (proj2 F). cbn. lia. }
  exists w, f'. split; [exact A|]. split; [exact K|]. apply Rd. repeat constructor; lia.
Qed.

Print Assumptions C121_bytes.
Print Assumptions C121_empty.
Print Assumptions C121_unique.
Print Assumptions C121_stable.
