(** C118: the timer of the benchmarks.  C119: the input and output benchmark. *)
From Coq Require Import String Reals ZArith List Bool Lia Lra.
From Verif.Model Require Import Base Double Arith Header PointRecord Point File Compression IO TestUtils TileApp SrsApp Programs BenchmarkIo.
From Verif.Spec Require Import Files Streams ZlibContract Rounding Geometry Testing Apps.
From Verif.Proofs Require Import BaseFacts DoubleFacts ArithFacts PointRecordFacts IOFacts FileFacts FileIOFacts FileMoreFacts HeaderCutFacts ToyZlib.
From Verif.Props Require Import FileProps SrsProps TestUtilsProps ScenarioProps.
Import ListNotations.
Open Scope Z_scope.

(** ** C118 *)

(** What is done with a timer, and when. *)
Inductive event : Type := Start (at_ns : Z) | Stop (at_ns : Z).
Definition timed (e : event) (t : timer) : timer :=
  match e with Start now => timer_start now t | Stop now => timer_stop now t end.
(** A timer made at [made] on which [history] was done, first to last. *)
Definition timer_after (made : Z) (history : list event) : timer := fold_left (fun t e => timed e t) history (timer_new made).
Definition is_stop (e : event) : Prop := match e with Stop _ => True | Start _ => False end.

(** [d] is the number of whole milliseconds in [ns] nanoseconds *)
Definition whole_ms (ns : Z) (d : double) : Prop :=
  d_is_finite d = true /\ exists ms, d_val d = IZR ms /\ ms * 1000000 <= ns < (ms + 1) * 1000000.

Lemma ms_ok ns : 0 <= ns < 2 ^ 63 -> whole_ms ns (d_of_z (Z.quot ns 1000000)).
Proof.
  intros H. rewrite Z.quot_div_nonneg by lia. pose proof (Z.mod_pos_bound ns 1000000 ltac:(lia)) as M. pose proof (Z.div_mod ns 1000000 ltac:(lia)) as D.
  assert (B : 0 <= ns / 1000000 <= 2 ^ 53) by lia. destruct (d_of_z_exact (ns / 1000000)) as [F V]; [lia|]. split; [exact F|]. exists (ns / 1000000). split; [exact V|lia].
Qed.

(** A timer that was started last measures from that start until now. *)
Theorem C118_running : forall made before start now, 0 <= now - start < 2 ^ 63 ->
  whole_ms (now - start) (timer_elapsed_ms now (timer_after made (before ++ [Start start])))
  /\ whole_ms (now - start) (timer_elapsed_ms now (timer_new start)).
Proof.
  intros made before start now H. split; [|now apply ms_ok]. unfold timer_after. rewrite fold_left_app. cbn. now apply ms_ok.
Qed.

(** Once stopped it measures from the last start to the last stop, whenever it is asked. *)
Theorem C118_stopped : forall made before start stops stop now, Forall is_stop stops -> 0 <= stop - start < 2 ^ 63 ->
  whole_ms (stop - start) (timer_elapsed_ms now (timer_after made (before ++ [Start start] ++ stops ++ [Stop stop])))
  /\ whole_ms (stop - start) (timer_elapsed_ms now (timer_after start (stops ++ [Stop stop]))).
Proof.
  intros made before start stops stop now F H.
  assert (K : forall t, t_t1 (fold_left (fun t e => timed e t) stops t) = t_t1 t).
  { clear H. induction F as [|e l E F IH]; intros t; [reflexivity|]. cbn [fold_left]. rewrite IH. destruct e; [destruct E|reflexivity]. }
  split; unfold timer_after; rewrite !fold_left_app; cbn [fold_left timed]; unfold timer_elapsed_ms, timer_stop; cbn [t_t1 t_t2 t_running]; rewrite K; now apply ms_ok.
Qed.

(** The clock is the one that can be set: set back between two readings, the time is negative. *)
Theorem C118_clock_set_back : forall start now, -2 ^ 63 < now - start <= - 1000000 ->
  (d_val (timer_elapsed_ms now (timer_new start)) <= -1)%R.
Proof.
  intros start now H. unfold timer_elapsed_ms, timer_new, timer_start. cbn [t_t1 t_running].
  replace (now - start) with (- (start - now)) by lia. rewrite Z.quot_opp_l by lia. rewrite Z.quot_div_nonneg by lia.
  assert (B : 1 <= (start - now) / 1000000 <= 2 ^ 53) by (split; [apply Z.div_le_lower_bound; lia|apply Z.div_le_upper_bound; lia]).
  destruct (d_of_z_exact (- ((start - now) / 1000000))) as [_ ->]; [lia|]. apply IZR_le. lia.
Qed.

Example C118_example : timer_elapsed_ms 99 (timer_after 5 [Stop 7; Start 1000; Stop 2000; Stop 3001000]) = d_of_z 3
  /\ timer_elapsed_ms 2999999 (timer_after 0 [Stop 7; Start 1000000]) = d_of_z 1.
Proof. split; vm_compute; reflexivity. Qed.

(** ** C119 *)

Lemma records_emit prs : emits (w_iter write_point_record prs) (prs_bytes prs) tt.
Proof. apply emits_iter. intros a _. apply write_point_record_emits. Qed.


Lemma write_file_run acc w bs fs : can_write acc benchmark_fn = true -> emits w bs tt -> write_file acc w fs = (file_put benchmark_fn bs fs, Ret tt).
Proof.
  intros W E. unfold write_file. rewrite W. cbn [negb]. destruct (emits_appends _ _ E o_open (conj eq_refl eq_refl)) as (o & -> & _ & B). now rewrite B.
Qed.

Lemma open_put acc bs fs : can_read acc benchmark_fn = true -> open_file acc (file_put benchmark_fn bs fs) = Ret bs.
Proof. intros R. unfold open_file. now rewrite put_same, R. Qed.

(** Reading back: the records that were written, and only the benchmark's file changes. *)
Theorem C119_uncompressed : forall acc p k fs, can_read acc benchmark_fn = true -> can_write acc benchmark_fn = true ->
  Forall pr_ok p -> has_extras k p -> 0 <= k <= 123 -> Z.of_nat (List.length p) * 64 <= 2 ^ 63 - 1 ->
  exists fs', benchmark_read_uncompressed acc p k fs = (fs', Ret p) /\ (forall n, n <> benchmark_fn -> fs' n = fs n).
Proof.
  intros acc p k fs R W P E K L. exists (file_put benchmark_fn (prs_bytes p) fs). split; [|intros n N; now apply put_other].
  unfold benchmark_read_uncompressed. rewrite (write_file_run _ _ _ _ W (records_emit p)), (open_put _ _ _ R). cbn [bind].
  pose proof (read_uncompressed_points_round_trip k p []) as Q. rewrite app_nil_r in Q. rewrite Q; [reflexivity|lia| | | |exact P|constructor].
  - rewrite record_size_eq. unfold struct_size, buffer_size. lia.
  - unfold zlen, sizeof_point_record, PTRDIFF_MAX, two63. lia.
  - apply Forall_forall. exact E.
Qed.

Theorem C119_compressed : forall z ZS debug acc p k fs, zlib_ok z ZS -> can_read acc benchmark_fn = true -> can_write acc benchmark_fn = true ->
  Forall pr_ok p -> has_extras k p -> k <= 255 -> 8 * Z.of_nat (List.length p) + 32 < 2 ^ 31 ->
  exists fs' f bytes, benchmark_read_compressed z debug acc p fs = (fs', Ret f) /\ kept_file (mk_file 0 1 (chars "WKT") true p) f
  /\ (forall n, n <> benchmark_fn -> fs' n = fs n) /\ fs' benchmark_fn = Some bytes /\ read_spoc_file z (i_open bytes) = Ret (f, i_open [])
  /\ exists fs2 bytes2 f2, benchmark_write_compressed z debug acc p fs = (fs2, Ret tt) /\ fs2 benchmark_fn = Some bytes2
     /\ read_spoc_file z (i_open bytes2) = Ret (f2, i_open []) /\ kept_file (mk_file 0 1 (chars "Test wkt") true p) f2.
Proof.
  intros z ZS debug acc p k fs Hz R W P E K L.
  assert (U : uniform p) by (intros a b Ia Ib; apply Nat2Z.inj; now rewrite (E a Ia), (E b Ib)).
  assert (X : forall wkt, Forall (fun b => 0 <= b < 256) wkt -> Z.of_nat (List.length wkt) <= 65535 ->
    exists bs f', emits (write_compressed z debug wkt p) bs tt /\ kept_file (mk_file 0 1 wkt true p) f'
      /\ read_spoc_file z (i_open bs) = Ret (f', i_open []) /\ read_spoc_file_compressed z (i_open bs) = Ret (f', i_open [])).
  { intros wkt Wb Wl. set (f := mk_file 0 1 wkt true p).
    assert (G : good_file f) by (split; try assumption; try reflexivity; cbn [f f_prs]; lia).
    destruct (compressed_file_round_trip z ZS Hz debug f G eq_refl) as (bs & H1 & H2 & _ & H3 & H4 & _).
    - eapply has_extras_le; eauto; lia.
    - unfold zlen, two31. cbn [f f_prs]. lia.
    - exists bs, (squash_file f). split; [|split; [apply squash_file_kept, G|]].
      + unfold write_compressed. eapply emits_lift; [|exact H2]. unfold file_ctor_wkt, file_ctor. now rewrite (proj2 (all_same_size_uniform p) U).
      + specialize (H3 []). specialize (H4 []). rewrite app_nil_r in H3, H4. now split. }
  destruct (X (chars "WKT")) as (bs & f' & E1 & K1 & R1 & C1); [repeat constructor; cbn; lia|cbn; lia|].
  destruct (X (chars "Test wkt")) as (bs2 & f2 & E2 & K2 & R2 & C2); [repeat constructor; cbn; lia|cbn; lia|].
  exists (file_put benchmark_fn bs fs), f', bs. split.
  { unfold benchmark_read_compressed. rewrite (write_file_run _ _ _ _ W E1), (open_put _ _ _ R). cbn [bind]. now rewrite C1. }
  split; [exact K1|]. split; [intros n N; now apply put_other|]. split; [apply put_same|]. split; [exact R1|].
  exists (file_put benchmark_fn bs2 fs), bs2, f2. split; [apply (write_file_run _ _ _ _ W E2)|]. split; [apply put_same|]. now split.
Qed.

(** The whole program, for any numbers of records and extra fields that can be stored,
    as are those of the program *)
Theorem C119_program : forall z ZS r debug acc n k fs, zlib_ok z ZS -> rng_ok r -> 0 <= n -> 8 * n + 32 < 2 ^ 31 -> 0 <= k <= 123 ->
  can_read acc benchmark_fn = true -> can_write acc benchmark_fn = true ->
  exists fs' bytes f, benchmark_io z r debug acc n k fs = (fs', Ret 0) /\ (forall m, m <> benchmark_fn -> fs' m = fs m)
  /\ fs' benchmark_fn = Some bytes /\ read_spoc_file z (i_open bytes) = Ret (f, i_open [])
  /\ kept_file (mk_file 0 1 (chars "WKT") true (generate_random_point_records r n k true 123)) f.
Proof.
  intros z ZS r debug acc n k fs Hz Hr Hn L K R W. unfold benchmark_io.
  destruct (C106_records r n k true 123 Hr Hn ltac:(lia)) as [Ln F].
  set (p := generate_random_point_records r n k true 123) in *. clearbody p.
  assert (E : has_extras k p) by (intros q I; rewrite Forall_forall in F; apply (F q I)).
  assert (P : Forall pr_ok p) by (eapply Forall_impl; [|exact F]; intros q; apply test_record_ok).
  unfold benchmark_write_uncompressed at 1. rewrite (write_file_run _ _ _ _ W (records_emit p)). cbn [and_then].
  destruct (C119_uncompressed acc p k (file_put benchmark_fn (prs_bytes p) fs) R W P E K ltac:(lia)) as (fs2 & -> & O2). cbn [and_then].
  destruct (C119_compressed z ZS debug acc p k fs2 Hz R W P E ltac:(lia) ltac:(lia)) as (_ & _ & _ & _ & _ & _ & _ & _ & fs3 & _ & _ & E3 & _).
  assert (O3 : forall m, m <> benchmark_fn -> fs3 m = fs2 m).
  { intros m N. unfold benchmark_write_compressed, write_file in E3. rewrite W in E3. cbn [negb] in E3.
    destruct (write_compressed z debug (chars "Test wkt") p o_open) as [o x]. injection E3 as <- _. now apply put_other. }
  rewrite E3. cbn [and_then].
  destruct (C119_compressed z ZS debug acc p k fs3 Hz R W P E ltac:(lia) ltac:(lia)) as (fs' & f & bytes & -> & Kf & O & Eb & Rd & _).
  exists fs', bytes, f. split; [reflexivity|]. split; [|now split].
  intros m N. rewrite (O m N), (O3 m N), (O2 m N). now apply put_other.
Qed.

(** Without the right to write it fails and changes nothing. *)
Theorem C119_no_access : forall z r debug acc n k fs, can_write acc benchmark_fn = false -> benchmark_io z r debug acc n k fs = (fs, Ret (-1)).
Proof. intros z r debug acc n k fs W. unfold benchmark_io, benchmark_write_uncompressed at 1, write_file. now rewrite W. Qed.

Example C119_example : rng_ok toy_rng /\ 8 * 10000000 + 32 < 2 ^ 31 /\ snd (benchmark_io toy toy_rng true all_rights 3 2 (fun _ => None)) = Ret 0
  /\ snd (benchmark_read_uncompressed all_rights (generate_random_point_records toy_rng 3 2 true 123) 1 (fun _ => None))
     <> Ret (generate_random_point_records toy_rng 3 2 true 123).
Proof.
  split; [apply toy_rng_ok|]. split; [reflexivity|]. split; [vm_compute; reflexivity|]. vm_compute. discriminate.
Qed.

Print Assumptions C118_running.
Print Assumptions C118_stopped.
Print Assumptions C118_clock_set_back.
Print Assumptions C119_uncompressed.
Print Assumptions C119_compressed.
Print Assumptions C119_program.
Print Assumptions C119_no_access.
