(** Properties C01 - C06: file headers. *)
From Coq Require Import String ZArith List Bool Lia.
From Verif.Model Require Import Base Double Header PointRecord File Compression IO.
From Verif.Spec Require Import Format Files Streams ZlibContract.
From Verif.Proofs Require Import BaseFacts HeaderFacts HeaderCutFacts.
Import ListNotations.
Open Scope Z_scope.

(** A header used in the examples: WKT "ab", 3 extra fields, 1000 points, compressed. *)
Definition h_example : header := mk_header [83; 80; 79; 67] 0 1 [97; 98] 3 1000 1.

Example h_example_good : good_header h_example.
Proof. constructor; cbn; try lia; repeat constructor; lia. Qed.

(** C01: what [write_header] appends, followed by anything, reads back as the
    same header, and reading stops right after the header. *)
Theorem C01_header_round_trip : forall h, good_header h ->
  exists bs, appends (write_header h) bs
    /\ Z.of_nat (length bs) = header_size h
    /\ forall t, read_header (i_open (bs ++ t)) = Ret (h, i_open t).
Proof.
  intros h Hh. exists (header_bytes h). split; [|split].
  - apply emits_appends, write_header_emits, (gh_sig h Hh).
  - exact (header_bytes_len h Hh).
  - intros t. now apply read_header_round_trip.
Qed.

Example C01_example : exists bs, appends (write_header h_example) bs /\ Z.of_nat (length bs) = 20
  /\ read_header (i_open (bs ++ [1; 2; 3])) = Ret (h_example, i_open [1; 2; 3]).
Proof.
  destruct (C01_header_round_trip _ h_example_good) as (bs & H1 & H2 & H3).
  exists bs. split; [exact H1|]. split; [exact H2|]. apply H3.
Qed.

(** C02: [read_header] throws exactly when one of the first six bytes is present
    in the stream and differs from 'S' 'P' 'O' 'C' 0 1; otherwise it returns a
    header, whatever follows. *)
Definition wrong_start (bs : list Z) : Prop :=
  exists k b x, nth_error bs k = Some b /\ nth_error [83; 80; 79; 67; 0; 1] k = Some x /\ b <> x.

Theorem C02_header_acceptance : forall bs,
  ((exists e, read_header (i_open bs) = Throw e) <-> wrong_start bs)
  /\ ((exists h s, read_header (i_open bs) = Ret (h, s)) <-> ~ wrong_start bs).
Proof.
  intros bs. pose proof (read_header_accepts bs) as H.
  assert (Hw : agrees magic bs = false <-> wrong_start bs).
  { rewrite agrees_spec. split.
    - intros (k & b & Hb & x & Hx & Hne). exists k, b, x. auto.
    - intros (k & b & x & Hb & Hx & Hne). exists k, b. split; [assumption|]. exists x. auto. }
  destruct (agrees magic bs) eqn:E.
  - destruct H as (h & s & H). rewrite H. split; split.
    + intros [e He]. discriminate.
    + intros Hx. apply Hw in Hx. discriminate.
    + intros _ Hx. apply Hw in Hx. discriminate.
    + intros _. eauto.
  - destruct H as (e & H). rewrite H. split; split.
    + intros _. now apply Hw.
    + intros _. eauto.
    + intros (h & s & Hs). discriminate.
    + intros Hx. exfalso. apply Hx, Hw. reflexivity.
Qed.

Example C02_rejected : exists e, read_header (i_open [83; 80; 79; 67; 0; 2; 7; 7]) = Throw e.
Proof.
  apply (proj1 (C02_header_acceptance _)). exists 5%nat, 2, 1. cbn. repeat split; lia.
Qed.
Example C02_accepted : exists h s, read_header (i_open [83; 80; 79; 67; 0; 1; 255; 255; 9]) = Ret (h, s).
Proof.
  apply (proj2 (C02_header_acceptance _)).
  intros (k & b & x & Hb & Hx & Hne).
  do 6 (destruct k as [|k]; [cbn in Hb, Hx; congruence|]). destruct k; discriminate.
Qed.

(** C03: the bytes [write_header] appends are laid out as in the README. *)
Theorem C03_header_layout : forall h, good_header h ->
  exists bs, appends (write_header h) bs /\ header_layout h bs
    /\ Z.of_nat (length bs) = 18 + Z.of_nat (length (h_wkt h)).
Proof.
  intros h Hh. exists (header_bytes h). split; [|split].
  - apply emits_appends, write_header_emits, (gh_sig h Hh).
  - now apply header_bytes_layout.
  - exact (header_bytes_len h Hh).
Qed.

Example C03_example : appends (write_header h_example)
  [83; 80; 79; 67; 0; 1; 2; 0; 97; 98; 3; 232; 3; 0; 0; 0; 0; 0; 0; 1].
Proof.
  assert (H : header_bytes h_example
    = [83; 80; 79; 67; 0; 1; 2; 0; 97; 98; 3; 232; 3; 0; 0; 0; 0; 0; 0; 1]) by reflexivity.
  rewrite <- H. apply emits_appends, write_header_emits. reflexivity.
Qed.

(** C04: the constructor throws exactly when the WKT is longer than 65535 bytes. *)
Theorem C04_header_wkt_limit : forall major minor wkt extra total flag,
  (65535 < Z.of_nat (length wkt) <->
     exists e, header_ctor major minor wkt extra total flag = Throw e)
  /\ (Z.of_nat (length wkt) <= 65535 ->
     header_ctor major minor wkt extra total flag
     = Ret (mk_header [83; 80; 79; 67] (major mod 256) (minor mod 256) wkt (extra mod 256)
              (total mod 2 ^ 64) (if flag then 1 else 0))).
Proof.
  intros major minor wkt extra total flag. unfold header_ctor. change (Z.of_nat (length wkt)) with (zlen wkt).
  destruct (65535 <? zlen wkt) eqn:E; [apply Z.ltb_lt in E|apply Z.ltb_ge in E].
  - split; [|lia]. split; eauto.
  - split; [|reflexivity]. split; [lia|]. intros [e He]. discriminate.
Qed.

(** ... a file with such a WKT is refused before any byte is written ... *)
Theorem C04_file_wkt_limit : forall z debug f os, 65535 < Z.of_nat (length (f_wkt f)) ->
  exists e, write_spoc_file z debug f os = (os, Throw e).
Proof.
  intros z debug f os H. unfold write_spoc_file, get_header, header_ctor.
  change (Z.of_nat (length (f_wkt f))) with (zlen (f_wkt f)) in H.
  rewrite (proj2 (Z.ltb_lt _ _)) by lia. unfold w_bind, w_lift. eauto.
Qed.

(** ... but a header object whose [wkt] member is assigned directly is written
    without an error, and never reads back. *)
Theorem C04_bypass : forall h, h_sig h = [83; 80; 79; 67] -> is_bytes (h_wkt h) ->
  65535 < Z.of_nat (length (h_wkt h)) ->
  exists bs, appends (write_header h) bs
    /\ forall t s, is_bytes t -> read_header (i_open (bs ++ t)) <> Ret (h, s).
Proof.
  intros h Hs Hw Hl. exists (header_bytes h). split.
  - apply emits_appends, write_header_emits, Hs.
  - intros t s Ht H. apply read_header_good in H as [Hg _].
    + pose proof (gh_wkt_len h Hg). lia.
    + cbn [i_open i_rest]. apply Forall_app. split; [|exact Ht].
      unfold header_bytes. rewrite Hs. repeat (apply Forall_app; split); try apply le_bytes_ok.
      * repeat constructor; lia.
      * exact Hw.
Qed.

Example C04_long_wkt : 65535 < Z.of_nat (length (repeat 65 (Z.to_nat 65536)))
  /\ is_bytes (repeat 65 (Z.to_nat 65536)).
Proof.
  split.
  - rewrite repeat_length. rewrite Z2Nat.id; lia.
  - apply Forall_forall. intros b Hb. apply repeat_spec in Hb. lia.
Qed.

(** C05: a header cut anywhere is accepted; the stream is left in a failed state
    and the compressed flag comes back as 0, so the header of a compressed file
    is always wrong.  An empty stream yields the default header. *)
Theorem C05_truncated_headers_accepted : forall h k, good_header h -> 0 <= k < header_size h ->
  exists bs, appends (write_header h) bs
    /\ exists h' s', read_header (i_open (firstn (Z.to_nat k) bs)) = Ret (h', s')
       /\ i_good s' = false /\ h_compressed h' = 0
       /\ (h_compressed h <> 0 -> h' <> h).
Proof.
  intros h k Hh Hk. exists (header_bytes h). split.
  - apply emits_appends, write_header_emits, (gh_sig h Hh).
  - destruct (read_header_cut h k Hh Hk) as (h' & s' & E & Hb & Hc).
    exists h', s'. rewrite <- ztake_firstn. repeat split; auto. congruence.
Qed.

Theorem C05_empty_stream_accepted : exists s, i_good s = false
  /\ read_header (i_open []) = Ret (mk_header [83; 80; 79; 67] 0 1 [] 0 0 0, s).
Proof. eexists. split; [|reflexivity]. reflexivity. Qed.

Example C05_example : exists bs h' s', appends (write_header h_example) bs
  /\ read_header (i_open (firstn (Z.to_nat 13) bs)) = Ret (h', s') /\ h' <> h_example.
Proof.
  destruct (C05_truncated_headers_accepted h_example 13 h_example_good) as (bs & H & h' & s' & E & _ & _ & Hn).
  - cbn. lia.
  - exists bs, h', s'. repeat split; auto. apply Hn. cbn. lia.
Qed.

(** C06: [==] decides equality of all fields and [!=] is its negation. *)
Theorem C06_header_equality : forall a b,
  (header_eqb a b = true <->
     h_sig a = h_sig b /\ h_major a = h_major b /\ h_minor a = h_minor b /\ h_wkt a = h_wkt b
     /\ h_extra a = h_extra b /\ h_total a = h_total b /\ h_compressed a = h_compressed b)
  /\ header_neb a b = negb (header_eqb a b).
Proof.
  intros a b. split; [|apply header_neb_negb].
  rewrite header_eqb_eq. split.
  - intros ->. repeat split.
  - destruct a, b. cbn. intros (-> & -> & -> & -> & -> & -> & ->). reflexivity.
Qed.

Theorem C06_header_equivalence :
  (forall a, header_eqb a a = true)
  /\ (forall a b, header_eqb a b = header_eqb b a)
  /\ (forall a b c, header_eqb a b = true -> header_eqb b c = true -> header_eqb a c = true).
Proof.
  split; [|split].
  - intros a. now apply header_eqb_eq.
  - intros a b. apply eq_iff_eq_true. rewrite !header_eqb_eq. split; congruence.
  - intros a b c. rewrite !header_eqb_eq. congruence.
Qed.

Example C06_example : header_eqb h_example h_example = true
  /\ header_eqb h_example (mk_header [83; 80; 79; 67] 0 1 [97; 99] 3 1000 1) = false.
Proof. split; reflexivity. Qed.

Print Assumptions C01_header_round_trip.
Print Assumptions C02_header_acceptance.
Print Assumptions C03_header_layout.
Print Assumptions C04_header_wkt_limit.
Print Assumptions C04_file_wkt_limit.
Print Assumptions C04_bypass.
Print Assumptions C05_truncated_headers_accepted.
Print Assumptions C05_empty_stream_accepted.
Print Assumptions C06_header_equality.
Print Assumptions C06_header_equivalence.
