(** Properties C07 - C09: point records on streams. *)
From Coq Require Import String ZArith List Bool Lia.
From Verif.Model Require Import Base Double Header PointRecord File Compression IO.
From Verif.Spec Require Import Format Files Streams.
From Verif.Proofs Require Import BaseFacts HeaderFacts HeaderCutFacts PointRecordFacts IOFacts.
Import ListNotations.
Open Scope Z_scope.

(** A record with a NaN, a negative zero and two extra fields. *)
Definition p_example : point_record :=
  mk_pr 9221120237041090561 9223372036854775808 4607182418800017408
        4294967295 7 65535 1 2 3 [18446744073709551615; 5].

Example p_example_ok : pr_ok p_example.
Proof.
  constructor; try (unfold d_ok, u16_ok, u32_ok, two16, two32, two64; cbn; lia).
  repeat constructor; unfold u64_ok, two64; lia.
Qed.

(** C07: a written record, followed by anything, reads back bit for bit, and
    exactly its bytes are consumed. *)
Theorem C07_record_round_trip : forall p k, pr_ok p -> Z.of_nat (length (rextra p)) = k ->
  8 * k <= 2 ^ 63 - 1 ->
  exists bs, appends (write_point_record p) bs /\ Z.of_nat (length bs) = 40 + 8 * k
    /\ forall t, read_point_record k (i_open (bs ++ t)) = Ret (p, i_open t).
Proof.
  intros p k Hp Hk Hm. exists (pr_bytes p). split; [|split].
  - apply emits_appends, write_point_record_emits.
  - rewrite <- Hk. apply (zlen_pr_bytes p).
  - intros t. rewrite <- Hk. apply read_point_record_round_trip; [assumption|].
    unfold zlen, PTRDIFF_MAX, two63. lia.
Qed.

Example C07_example : exists bs, appends (write_point_record p_example) bs
  /\ Z.of_nat (length bs) = 56
  /\ read_point_record 2 (i_open (bs ++ [9])) = Ret (p_example, i_open [9]).
Proof.
  destruct (C07_record_round_trip p_example 2 p_example_ok eq_refl) as (bs & H1 & H2 & H3); [lia|].
  exists bs. auto.
Qed.

(** C08: the bytes follow the README. *)
Theorem C08_record_layout : forall p, pr_ok p ->
  exists bs, appends (write_point_record p) bs /\ record_layout p bs.
Proof.
  intros p Hp. exists (pr_bytes p). split.
  - apply emits_appends, write_point_record_emits.
  - now apply pr_bytes_layout.
Qed.

Example C08_example : appends (write_point_record (mk_pr d_one 0 0 1 2 3 4 5 6 [258]))
  [0;0;0;0;0;0;240;63; 0;0;0;0;0;0;0;0; 0;0;0;0;0;0;0;0; 1;0;0;0; 2;0;0;0; 3;0; 4;0; 5;0; 6;0;
   2;1;0;0;0;0;0;0].
Proof.
  assert (H : pr_bytes (mk_pr d_one 0 0 1 2 3 4 5 6 [258]) =
  [0;0;0;0;0;0;240;63; 0;0;0;0;0;0;0;0; 0;0;0;0;0;0;0;0; 1;0;0;0; 2;0;0;0; 3;0; 4;0; 5;0; 6;0;
   2;1;0;0;0;0;0;0]) by reflexivity.
  rewrite <- H. apply emits_appends, write_point_record_emits.
Qed.

(** C09: on a stream with at least [n] complete records of [e] <= 123 extra
    fields the buffered reader returns the records that [n] calls of
    [read_point_record] return, and leaves the same stream. *)
Theorem C09_bulk_equals_streaming : forall n e bs, 0 <= e <= 123 -> is_bytes bs ->
  Z.of_nat n * 64 <= 2 ^ 63 - 1 -> Z.of_nat n * (40 + 8 * e) <= Z.of_nat (length bs) ->
  exists prs s, read_records n e (i_open bs) = Ret (prs, s)
    /\ read_uncompressed_points (Z.of_nat n) e (i_open bs) = Ret (prs, s)
    /\ length prs = n /\ s = i_open (skipn (n * Z.to_nat (40 + 8 * e)) bs).
Proof.
  intros n e bs He Hbs Hn Hlen.
  assert (Hrs : record_size e = 40 + 8 * e) by (rewrite record_size_eq; lia).
  assert (Hl : Z.of_nat n * record_size e <= zlen bs) by (rewrite Hrs; unfold zlen; lia).
  destruct (read_records_spec e n bs) as (ps & Eps & Lps & Nps); auto; [lia|unfold PTRDIFF_MAX, two63; lia|].
  destruct (read_uncompressed_points_spec e (Z.of_nat n) bs (i_open bs)) as (p & s & Ep & Lp & Hst & Np & _); auto.
  - lia.
  - rewrite Hrs. unfold buffer_size. lia.
  - lia.
  - assert (Hs : s = i_open (zdrop (Z.of_nat n * record_size e) bs)).
    { destruct Hst as [[_ Hs]|([Hlt|[_ Hd]] & _)]; [exact Hs|lia|discriminate]. }
    assert (Hp : p = ps).
    { apply znth_ext; [lia|]. intros i Hi. rewrite Lp in Hi. rewrite Nps by lia. rewrite Np; [reflexivity|lia|].
      nia. }
    exists ps, s. rewrite Eps, Ep, Hs, Hp. split; [reflexivity|]. split; [reflexivity|]. split.
    + unfold zlen in Lps. lia.
    + rewrite zdrop_skipn. f_equal. f_equal. rewrite Hrs. rewrite Z2Nat.inj_mul by lia. now rewrite Nat2Z.id.
Qed.

(** Thirty records of one extra field are more than one buffer holds. *)
Example C09_example : exists prs s, read_records 30 1 (i_open (repeat 1 1500)) = Ret (prs, s)
  /\ read_uncompressed_points 30 1 (i_open (repeat 1 1500)) = Ret (prs, s) /\ length prs = 30%nat.
Proof.
  destruct (C09_bulk_equals_streaming 30 1 (repeat 1 1500)) as (prs & s & H1 & H2 & H3 & _).
  - lia.
  - apply Forall_forall. intros b Hb. apply repeat_spec in Hb. lia.
  - lia.
  - rewrite repeat_length. lia.
  - exists prs, s. auto.
Qed.

Print Assumptions C07_record_round_trip.
Print Assumptions C08_record_layout.
Print Assumptions C09_bulk_equals_streaming.
