(** C99, C100: what files that end early are read as. *)
From Coq Require Import String ZArith List Bool Lia.
From Verif.Model Require Import Base Double Arith Header PointRecord Compression File IO TransformApp Examples.
From Verif.Spec Require Import Format Streams ZlibContract Files Truncation.
From Verif.Proofs Require Import BaseFacts HeaderFacts PointRecordFacts IOFacts FileFacts FileIOFacts HeaderCutFacts FileMoreFacts PaddingFacts StaleFacts CutFacts ToyZlib.
From Verif.Props Require Import FileProps ExampleProps.
Import ListNotations.
Open Scope Z_scope.
Open Scope outcome_scope.

(** The size of a record with [e] extra fields, and how many records the reader takes in at
    once. *)
Definition size_of (e : Z) : nat := Z.to_nat (40 + 8 * e).
Definition at_once (e : Z) : nat := (1024 / size_of e)%nat.

Lemma size_of_record e : Z.to_nat (record_size e) = size_of e.
Proof. unfold size_of. rewrite record_size_eq. f_equal. lia. Qed.

Lemma at_once_records e : 0 <= e -> Z.to_nat (records_per_buffer e) = at_once e.
Proof.
  intros E. unfold records_per_buffer, at_once. rewrite <- size_of_record. pose proof (record_size_eq e).
  rewrite Z2Nat.inj_div by (unfold buffer_size; lia). reflexivity.
Qed.

Lemma same_record p q b : record_layout p b -> record_layout q b -> length (rextra p) = length (rextra q) ->
  (length (rextra p) <= 255)%nat -> p = q.
Proof.
  intros P Q L M. apply record_layout_bytes in P as [P1 P2]. apply record_layout_bytes in Q as [Q1 Q2]. subst b.
  assert (Rp : read_point_record (zlen (rextra p)) (i_open (pr_bytes p ++ [])) = Ret (p, i_open [])).
  { apply read_point_record_round_trip; [assumption|]. unfold PTRDIFF_MAX, two63, zlen. lia. }
  assert (Rq : read_point_record (zlen (rextra p)) (i_open (pr_bytes q ++ [])) = Ret (q, i_open [])).
  { replace (zlen (rextra p)) with (zlen (rextra q)) by (unfold zlen; lia). apply read_point_record_round_trip; [assumption|]. unfold PTRDIFF_MAX, two63, zlen. lia. }
  rewrite <- Q2, Rp in Rq. now injection Rq.
Qed.

(** Whatever follows an uncompressed header, the library reads as many records as the
    header announces.  Each has the bytes that are there; in place of those that are
    missing it has those of an earlier record, or zeros. *)
Theorem C99_bulk : forall z h hb data, good_header h -> header_layout h hb -> h_compressed h = 0 -> h_extra h <= 123 ->
  h_total h * 64 <= 2 ^ 63 - 1 -> is_bytes data ->
  exists f s, read_spoc_file z (i_open (hb ++ data)) = Ret (f, s)
  /\ f_wkt f = h_wkt h /\ f_compressed f = false
  /\ Z.of_nat (length (f_prs f)) = h_total h /\ has_extras (h_extra h) (f_prs f)
  /\ forall n r, nth_error (f_prs f) n = Some r ->
     exists bs, shows (size_of (h_extra h)) (at_once (h_extra h)) data n bs /\ record_layout r bs.
Proof.
  intros z h hb data G L C E T B. pose proof (header_layout_unique h hb G L) as ->. pose proof (gh_extra h G) as E0. pose proof (gh_total h G) as T0.
  destruct (points_show (h_extra h) (h_total h) data) as (p & s & R & Lp & Sh & Ex & Ok); try lia; try exact B.
  { rewrite record_size_eq. unfold buffer_size. lia. }
  { unfold sizeof_point_record, PTRDIFF_MAX, two63. lia. }
  exists (mk_file 0 1 (h_wkt h) false p), s. unfold read_spoc_file. rewrite read_header_round_trip by assumption. cbn [bind].
  rewrite C. cbn [Z.eqb negb]. rewrite R. cbn [bind].
  rewrite file_ctor_wkt_good by (eapply has_extras_uniform, Forall_has_extras; exact Ex). cbn [bind f_wkt f_compressed f_prs].
  do 3 (split; [reflexivity|]). split; [exact Lp|]. split; [now apply Forall_has_extras|]. intros n r N.
  assert (Nl : (n < length p)%nat) by (apply nth_error_Some; congruence).
  destruct (Sh (Z.of_nat n)) as (r' & N' & Y); [unfold zlen in Lp; lia|].
  rewrite size_of_record, at_once_records, Nat2Z.id in Y by lia.
  assert (r' = r) as ->. { rewrite znth_nth_error in N' by lia. rewrite Nat2Z.id in N'. congruence. }
  exists (pr_bytes r). split; [exact Y|]. apply pr_bytes_layout. rewrite Forall_forall in Ok. apply Ok. eapply nth_error_In, N.
Qed.

Lemma shows_length size per data n bs : shows size per data n bs -> length bs = size.
Proof.
  intros H. induction H as [n N|n old H IH]; unfold over; rewrite app_length, skipn_length.
  - unfold part. rewrite firstn_length, repeat_length. lia.
  - unfold part. rewrite firstn_length, IH. lia.
Qed.

Lemma shows_unique size per data : (0 < per)%nat -> forall n a, shows size per data n a -> forall b, shows size per data n b -> a = b.
Proof.
  intros P n a H. induction H as [n N|n old H IH]; intros b Q.
  - remember n as m eqn:M in Q. destruct Q as [m _|m o Q]; [now subst|lia].
  - remember (n + per)%nat as m eqn:M in Q. destruct Q as [m N|m o Q]; [lia|]. assert (m = n) as -> by lia. now rewrite (IH o Q).
Qed.

Lemma part_past size data n : (length data <= n * size)%nat -> part size data n = [].
Proof. intros L. unfold part. rewrite skipn_all2 by exact L. now rewrite firstn_nil. Qed.

Lemma shows_there size per data n bs : (n * size + size <= length data)%nat -> shows size per data n bs -> bs = part size data n.
Proof.
  intros L H. assert (Lp : length (part size data n) = size) by (unfold part; rewrite firstn_length, skipn_length; lia).
  destruct H as [n N|n old H]; unfold over; rewrite Lp.
  - rewrite skipn_all2, app_nil_r by (rewrite repeat_length; lia). reflexivity.
  - rewrite skipn_all2, app_nil_r by (rewrite (shows_length _ _ _ _ _ H); lia). reflexivity.
Qed.

(** If the data ends after [m] records: these are read as they are; each further record
    repeats the one that many places before it as the reader takes in at once; the first
    ones have only zeros. *)
Theorem C99_repeats : forall z h hb data m, good_header h -> header_layout h hb -> h_compressed h = 0 -> h_extra h <= 123 ->
  h_total h * 64 <= 2 ^ 63 - 1 -> is_bytes data -> length data = (m * size_of (h_extra h))%nat ->
  exists f s, read_spoc_file z (i_open (hb ++ data)) = Ret (f, s)
  /\ Z.of_nat (length (f_prs f)) = h_total h
  /\ forall n r, nth_error (f_prs f) n = Some r ->
     ((n < m)%nat -> record_layout r (part (size_of (h_extra h)) data n))
     /\ ((m <= n)%nat -> (n < at_once (h_extra h))%nat -> record_layout r (repeat 0 (size_of (h_extra h))))
     /\ ((m <= n)%nat -> (at_once (h_extra h) <= n)%nat -> nth_error (f_prs f) (n - at_once (h_extra h)) = Some r).
Proof.
  intros z h hb data m G L C E T B M. destruct (C99_bulk z h hb data G L C E T B) as (f & s & R & _ & _ & Lf & Ex & Sh).
  exists f, s. split; [exact R|]. split; [exact Lf|]. intros n r N. destruct (Sh n r N) as (bs & S1 & Y). set (size := size_of (h_extra h)) in *.
  set (per := at_once (h_extra h)) in *. pose proof (gh_extra h G) as E0.
  assert (Pp : (0 < per)%nat). { unfold per, at_once, size_of. apply Nat.div_str_pos. lia. }
  split; [|split].
  - intros I. rewrite (shows_there size per data n bs) in Y; [exact Y| |exact S1]. rewrite M. nia.
  - intros I J. rewrite (shows_unique _ _ _ Pp _ _ S1 _ (shows_first size per data n J)) in Y.
    rewrite part_past in Y by (rewrite M; nia). exact Y.
  - intros I J. destruct (nth_error (f_prs f) (n - per)) as [r'|] eqn:N'.
    2:{ apply nth_error_None in N'. assert (nth_error (f_prs f) n <> None) as K by congruence. apply nth_error_Some in K. lia. }
    f_equal. destruct (Sh _ _ N') as (bs' & S2 & Y'). pose proof (shows_again size per data _ _ S2) as S3. replace (n - per + per)%nat with n in S3 by lia.
    rewrite (shows_unique _ _ _ Pp _ _ S1 _ S3) in Y. rewrite part_past in Y by (rewrite M; nia). cbn [over app length skipn] in Y.
    unfold over in Y. cbn [app length skipn] in Y. apply nth_error_In in N, N'. pose proof (Ex _ N). pose proof (Ex _ N').
    eapply same_record; [exact Y'|exact Y| |]; lia.
Qed.

Lemma transform_points_padded e ops : 0 <= e <= 255 -> forall n k s1 s2 os, fed s1 -> fed s2 -> bytes_ok (i_rest s1) -> bytes_ok (i_rest s2) ->
  zpad (Z.of_nat n * (40 + 8 * e)) (i_rest s1) = zpad (Z.of_nat n * (40 + 8 * e)) (i_rest s2) ->
  transform_points n k e ops s1 os = transform_points n k e ops s2 os.
Proof.
  intros E. induction n as [|n IH]; intros k s1 s2 os F1 F2 B1 B2 Q; [reflexivity|].
  destruct (read_record_padded e s1 F1 B1 E) as (p1 & s1' & R1 & G1 & D1 & P1 & X1 & O1).
  destruct (read_record_padded e s2 F2 B2 E) as (p2 & s2' & R2 & G2 & D2 & P2 & X2 & O2).
  replace (Z.of_nat (S n) * (40 + 8 * e)) with ((40 + 8 * e) + Z.of_nat n * (40 + 8 * e)) in Q by lia.
  rewrite !(zpad_add (40 + 8 * e) (Z.of_nat n * (40 + 8 * e))) in Q by lia.
  assert (zlen (zpad (40 + 8 * e) (i_rest s1)) = zlen (zpad (40 + 8 * e) (i_rest s2))) as Lq by (rewrite !zlen_zpad by lia; reflexivity).
  destruct (app_inv_len _ _ _ _ Lq Q) as [Q1 Q2].
  assert (p1 = p2) as ->.
  { eapply same_record; [now apply pr_bytes_layout|rewrite P1, Q1, <- P2; now apply pr_bytes_layout| |]; unfold zlen in *; lia. }
  cbn [transform_points]. rewrite R1, R2. unfold w_bind, w_lift. destruct (run_ops ops k p2) as [q| | |]; try reflexivity.
  unfold w_seq, w_bind. destruct (write_point_record q os) as [os' [u| | |]]; try reflexivity. apply IH; auto.
  - rewrite D1. now apply Forall_zdrop.
  - rewrite D2. now apply Forall_zdrop.
  - now rewrite D1, D2.
Qed.

(** spoc_transform, which reads one record after the other, takes the missing bytes as
    zeros. *)
Theorem C99_stream : forall stod t noise cs seed h hb data, good_header h -> header_layout h hb -> h_compressed h = 0 -> is_bytes data ->
  forall os, transform_tool stod t noise cs seed (hb ++ data) os
    = transform_tool stod t noise cs seed (hb ++ padded (announced h) data) os.
Proof.
  intros stod t noise cs seed h hb data G L C B os. pose proof (header_layout_unique h hb G L) as ->. rewrite padded_zpad. unfold transform_tool.
  destruct cs as [|c cs]; [reflexivity|]. unfold transform_apply, read_header_uncompressed.
  rewrite !read_header_round_trip by assumption. cbn [bind]. rewrite C. cbn [Z.eqb negb]. unfold w_bind at 1 4, w_lift at 1 3.
  unfold w_seq, w_bind, w_lift. destruct (write_header h os) as [os' [u| | |]]; try reflexivity.
  destruct (mapM _ _) as [ops| | |]; try reflexivity. pose proof (gh_total h G). pose proof (gh_extra h G).
  apply transform_points_padded; [exact (gh_extra h G)|apply fed_open|apply fed_open|exact B|now apply bytes_ok_zpad|].
  rewrite Z2Nat.id by lia. cbn [i_open i_rest]. unfold announced. symmetry. rewrite zpad_long by (rewrite zlen_zpad by nia; lia). apply ztake_all. rewrite zlen_zpad by nia. lia.
Qed.

(** 26 records of which the last is missing.  The library reads the first one again in its
    place; noop writes zeros. *)
Definition t_record (x : nat) : point_record := mk_pr (d_of_z (Z.of_nat x)) (d_of_z 2) (d_of_z 3) 7 1 2 3 4 5 [].
Definition t_header : header := mk_header SPOC MAJOR_VERSION MINOR_VERSION (chars "w") 0 26 0.
Definition t_data : list Z := flat_map pr_bytes (map t_record (seq 1 25)).

Example C99_example : (exists f s, read_spoc_file toy (i_open (header_bytes t_header ++ t_data)) = Ret (f, s)
    /\ f_prs f = map t_record (seq 1 25) ++ [t_record 1])
  /\ noop (header_bytes t_header ++ t_data) o_open = (mk_ostream (header_bytes t_header ++ t_data ++ repeat 0 40) None false, Ret 0).
Proof. split; [eexists _, _|]; vm_compute; auto. Qed.

Example C99_hypotheses : good_header t_header /\ header_layout t_header (header_bytes t_header) /\ is_bytes t_data
  /\ length t_data = (25 * size_of (h_extra t_header))%nat /\ at_once (h_extra t_header) = 25%nat.
Proof.
  assert (G : good_header t_header).
  { constructor; try reflexivity; try (cbn; lia). cbn. repeat constructor; lia. }
  split; [exact G|]. split; [now apply header_bytes_layout|]. split; [|vm_compute; auto].
  apply flat_map_ok. intros. apply pr_bytes_ok.
Qed.

(** ** C100 *)

(** A compressed file, and the same file cut anywhere after the header.  Reading the cut
    file fails, or it gives as many records with as many extra fields.  The fields before
    one of them are intact, those after it are zero.  If the stream is still good, all of
    them are intact. *)
Theorem C100_cut : forall z ZS bs f s cut, zlib_ok z ZS -> is_bytes bs ->
  read_spoc_file z (i_open bs) = Ret (f, s) -> f_compressed f = true -> f_prs f <> [] -> (18 + length (f_wkt f) <= cut)%nat ->
  (exists e, read_spoc_file z (i_open (firstn cut bs)) = Throw e)
  \/ exists f' s', read_spoc_file z (i_open (firstn cut bs)) = Ret (f', s')
     /\ f_wkt f' = f_wkt f /\ f_compressed f' = true
     /\ Forall2 (fun p' p => length (rextra p') = length (rextra p)) (f_prs f') (f_prs f)
     /\ (exists j, (forall i, (i < j)%nat -> map (column i) (f_prs f') = map (column i) (f_prs f))
         /\ forall i, (j < i)%nat -> Forall (fun p' => column i p' = 0) (f_prs f'))
     /\ (i_good s' = true -> f' = f).
Proof.
  intros z ZS bs f s cut Z B R C Ne Cut. pose proof (C16_reading_is_safe z ZS (i_open bs) Z B) as Safe. rewrite R in Safe.
  destruct Safe as (h & s1 & Rh & Lf & Ex & Un & Wk & _ & _ & Cf & _). apply Cf in C as Ch.
  assert (G1 : i_good s1 = true). { destruct (i_good s1) eqn:G; [reflexivity|]. now rewrite (read_header_bad_flag _ _ _ Rh G) in Ch. }
  destruct (read_header_good _ _ _ (B : bytes_ok (i_rest (i_open bs))) Rh) as [Gh B1].
  pose proof (read_header_bytes bs h s1 B Rh G1) as Eb.
  assert (Hl : length (header_bytes h) = (18 + length (f_wkt f))%nat).
  { pose proof (header_bytes_len h Gh) as Hl. unfold zlen, header_size in Hl. rewrite Wk. lia. }
  assert (Ec : firstn cut bs = header_bytes h ++ firstn (cut - (18 + length (f_wkt f))) (i_rest s1)).
  { rewrite Eb at 1. rewrite firstn_app, Hl. rewrite firstn_all2 by lia. reflexivity. }
  set (d := firstn (cut - (18 + length (f_wkt f))) (i_rest s1)) in *.
  assert (Bd : bytes_ok d). { unfold d. rewrite <- (Nat2Z.id (cut - _)), <- ztake_firstn. now apply Forall_ztake. }
  assert (Bc : is_bytes (firstn cut bs)). { rewrite Ec. apply Forall_app. split; [now apply header_bytes_ok|exact Bd]. }
  assert (Rc : read_header (i_open (firstn cut bs)) = Ret (h, i_open d)) by (rewrite Ec; now apply read_header_round_trip).
  assert (Es : s1 = i_open (i_rest s1)).
  { unfold i_good in G1. destruct s1 as [r e1 e2]. cbn in *. destruct e1, e2; try discriminate. reflexivity. }
  assert (Bg : begins (i_open d) s1).
  { split; [reflexivity|]. split; [exact G1|]. exists (skipn (cut - (18 + length (f_wkt f))) (i_rest s1)). symmetry. apply firstn_skipn. }
  pose proof (C16_reading_is_safe z ZS (i_open (firstn cut bs)) Z Bc) as Safe.
  (* the two runs *)
  unfold read_spoc_file in R. rewrite Rh in R. cbn [bind] in R. rewrite (proj2 (Z.eqb_neq _ _) Ch) in R. cbn [negb] in R.
  destruct (read_compressed_points z (h_total h) (h_extra h) s1) as [[prs s2]| | |] eqn:P; try discriminate. cbn [bind] in R.
  destruct (file_ctor_wkt (h_wkt h) true prs) as [g| | |] eqn:Fg; try discriminate. cbn [bind] in R. injection R as <- <-.
  assert (Gf : forall l x, file_ctor_wkt (h_wkt h) true l = Ret x -> x = mk_file 0 1 (h_wkt h) true l).
  { intros l x Fx. unfold file_ctor_wkt, file_ctor in Fx. destruct (negb (all_same_size_extra l)); [discriminate|]. now injection Fx as <-. }
  apply Gf in Fg as ->. cbn [f_prs f_wkt f_compressed] in *.
  destruct (read_spoc_file z (i_open (firstn cut bs))) as [[f' s']|e|u|] eqn:R'; [|left; eauto| |].
  2:{ destruct Safe as (h' & s3 & Rh' & _ & T0). rewrite Rc in Rh'. injection Rh' as <- <-. exfalso.
      apply Ne, zlen_zero_nil. unfold zlen. congruence. }
  2:{ destruct Safe as (h' & s3 & Rh' & C0 & _). rewrite Rc in Rh'. injection Rh' as <- <-. congruence. }
  right. exists f', s'. split; [reflexivity|].
  unfold read_spoc_file in R'. rewrite Rc in R'. cbn [bind] in R'. rewrite (proj2 (Z.eqb_neq _ _) Ch) in R'. cbn [negb] in R'.
  destruct (read_compressed_points z (h_total h) (h_extra h) (i_open d)) as [[prs' s2']| | |] eqn:P'; try discriminate. cbn [bind] in R'.
  destruct (file_ctor_wkt (h_wkt h) true prs') as [g'| | |] eqn:Fg'; try discriminate. cbn [bind] in R'. injection R' as <- <-.
  apply Gf in Fg' as ->. cbn [f_prs f_wkt f_compressed] in *. split; [reflexivity|]. split; [reflexivity|].
  destruct Safe as (h' & s3 & Rh' & Lf' & Ex' & _). rewrite Rc in Rh'. injection Rh' as <- <-.
  destruct (points_columns z _ _ _ _ _ P) as (cs & Q & L & N). destruct (points_columns z _ _ _ _ _ P') as (cs' & Q' & L' & N').
  destruct (read_cols_begins z _ _ _ _ _ _ _ _ Bg Bd Q' Q) as (j & J1 & J2 & J3).
  assert (Same : forall i, nth i cs' [] = nth i cs [] -> map (column i) prs' = map (column i) prs).
  { intros i E. apply nth_ext with (d := 0) (d' := 0); [rewrite !map_length; congruence|]. intros n Hn. rewrite map_length in Hn.
    destruct (nth_error prs' n) as [p'|] eqn:E'; [|apply nth_error_None in E'; lia].
    destruct (nth_error prs n) as [p|] eqn:E0; [|apply nth_error_None in E0; lia].
    rewrite !(nth_error_nth _ _ _ (map_nth_error (column i) _ _ E')), !(nth_error_nth _ _ _ (map_nth_error (column i) _ _ E0)).
    pose proof (N i n p E0) as A. pose proof (N' i n p' E') as A'. rewrite E, A in A'. now injection A'. }
  assert (Len : Forall2 (fun p' p => length (rextra p') = length (rextra p)) prs' prs).
  { assert (Ll : length prs' = length prs) by congruence. clear - Ll Ex Ex'. revert prs Ll Ex. induction prs' as [|p' l' IH]; intros [|p l] Ll Ex; try discriminate Ll; constructor.
    - pose proof (Ex' p' (or_introl eq_refl)). pose proof (Ex p (or_introl eq_refl)). lia.
    - apply IH; [intros q Hq; apply Ex'; now right|now injection Ll|intros q Hq; apply Ex; now right]. }
  split; [exact Len|]. split.
  - exists j. split; [intros i I; now apply Same, J1|]. intros i I. apply Forall_forall. intros p' Hp'. apply In_nth_error in Hp' as (n & Hn).
    pose proof (N' i n p' Hn) as A. rewrite J2 in A by exact I. cbn [col_get] in A. now injection A.
  - intros G. specialize (J3 G). subst cs'. f_equal. clear - Same Len. assert (Sm : forall i, map (column i) prs' = map (column i) prs) by (intros; now apply Same). clear Same.
    induction Len as [|p' p l' l E _ IH]; [reflexivity|]. f_equal; [|apply IH; intros i; specialize (Sm i); now injection Sm].
    assert (K : forall i, column i p' = column i p) by (intros i; specialize (Sm i); now injection Sm).
    pose proof (K 0%nat) as K0. pose proof (K 1%nat) as K1. pose proof (K 2%nat) as K2. pose proof (K 3%nat) as K3. pose proof (K 4%nat) as K4.
    pose proof (K 5%nat) as K5. pose proof (K 6%nat) as K6. pose proof (K 7%nat) as K7. pose proof (K 8%nat) as K8.
    assert (Kx : rextra p' = rextra p) by (apply nth_ext with (d := 0) (d' := 0); [exact E|]; intros i _; exact (K (9 + i)%nat)).
    unfold column in *. cbn [nth app] in *. destruct p', p. cbn in *. congruence.
Qed.

(** The same for every compressed file that the library writes, cut anywhere after its
    header; [g] is what the format keeps of the file (C13). *)
Theorem C100_written : forall z ZS debug f k, zlib_ok z ZS -> good_file f -> f_compressed f = true -> f_prs f <> [] ->
  has_extras k (f_prs f) -> k <= 255 -> 8 * Z.of_nat (length (f_prs f)) + 32 < 2 ^ 31 ->
  exists bs g, appends (write_spoc_file z debug f) bs /\ kept_file f g
  /\ forall cut, (18 + length (f_wkt f) <= cut)%nat ->
     (exists e, read_spoc_file z (i_open (firstn cut bs)) = Throw e)
     \/ exists f' s', read_spoc_file z (i_open (firstn cut bs)) = Ret (f', s')
        /\ length (f_prs f') = length (f_prs f)
        /\ (exists j, (forall i, (i < j)%nat -> map (column i) (f_prs f') = map (column i) (f_prs g))
            /\ forall i, (j < i)%nat -> Forall (fun p' => column i p' = 0) (f_prs f'))
        /\ (i_good s' = true -> f' = g).
Proof.
  intros z ZS debug f k Z G C Ne K K255 Sz. destruct (compressed_file_round_trip z ZS Z debug f G C) as (bs & W & _ & B & R & _).
  { eapply has_extras_le; eauto; lia. }
  { unfold zlen, two31. lia. }
  exists bs, (squash_file f). split; [now apply emits_appends|]. split; [apply squash_file_kept, G|]. intros cut Cut.
  specialize (R []). rewrite app_nil_r in R.
  destruct (C100_cut z ZS bs (squash_file f) (i_open []) cut Z B R) as [T|(f' & s' & R' & _ & _ & L & J & S)]; auto.
  - cbn. destruct (f_prs f); [congruence|discriminate].
  - right. exists f', s'. split; [exact R'|]. split; [|auto]. assert (Ll : length (f_prs f') = length (f_prs (squash_file f))) by (clear - L; induction L; cbn; congruence). rewrite Ll. cbn. apply map_length.
Qed.

(** Cut after y: accepted, without the other fields.  Cut in the column x, where the zlib
    of the example has no check sum: one value is damaged.  Cut in the length of y: an
    exception. *)
Definition c_file : spoc_file := mk_file 0 1 (chars "w") true [e_record 1 2; e_record 3 6].
Definition c_bytes : list Z := o_bytes (fst (write_spoc_file toy false c_file o_open)).
Definition c_cut (cut : nat) : outcome (list point_record * bool) :=
  '(f, s) <- read_spoc_file toy (i_open (firstn cut c_bytes)) ;; Ret (f_prs f, i_good s).

Example C100_example :
  c_cut (length c_bytes) = Ret (f_prs c_file, true)
  /\ c_cut 101 = Ret ([mk_pr (d_of_z 1) (d_of_z 2) 0 0 0 0 0 0 0 [0]; mk_pr (d_of_z 3) (d_of_z 6) 0 0 0 0 0 0 0 [0]], false)
  /\ c_cut 58 = Ret ([mk_pr (d_of_z 1) 0 0 0 0 0 0 0 0 [0]; mk_pr 2251799813685248 0 0 0 0 0 0 0 0 [0]], false)
  /\ exists e, c_cut 61 = Throw e.
Proof. vm_compute. repeat split; eauto. Qed.

Example C100_hypotheses : is_bytes c_bytes /\ exists s, read_spoc_file toy (i_open c_bytes) = Ret (c_file, s).
Proof. split; [vm_compute; repeat constructor; discriminate|]. eexists. vm_compute. reflexivity. Qed.

Print Assumptions C99_bulk.
Print Assumptions C99_repeats.
Print Assumptions C99_stream.
Print Assumptions C100_cut.
Print Assumptions C100_written.
