(** Headers cut short. *)
From Coq Require Import String ZArith List Bool Lia.
From Verif.Model Require Import Base Header.
From Verif.Spec Require Import Format Streams.
From Verif.Proofs Require Import BaseFacts HeaderFacts.
Import ListNotations.
Open Scope Z_scope.

Lemma emits_appends : forall w bs, emits w bs tt -> appends w bs.
Proof. intros w bs H os Hos. exact (emits_good w bs tt os H Hos). Qed.

Lemma is_read_good_inv : forall n s got s', 0 <= n -> is_read n s = (got, s') -> i_good s' = true ->
  i_good s = true /\ i_rest s = got ++ i_rest s' /\ zlen got = n.
Proof.
  intros n s got s' Hn H Hg. unfold is_read in H. destruct (i_good s) eqn:Es.
  - destruct (zlen (ztake n (i_rest s)) <? n) eqn:E; injection H as <- <-.
    + discriminate.
    + apply Z.ltb_ge in E. rewrite zlen_ztake in *. cbn [i_rest]. rewrite ztake_zdrop.
      split; [reflexivity|]. split; [reflexivity|]. lia.
  - injection H as <- <-. unfold i_good in Hg. cbn in Hg. destruct (i_eof s); discriminate.
Qed.

Lemma read_uint_good_inv : forall k old s v s', read_uint k old s = (v, s') -> i_good s' = true ->
  i_good s = true /\ exists bs, i_rest s = bs ++ i_rest s' /\ zlen bs = Z.of_nat k /\ v = le_val bs.
Proof.
  intros k old s v s' H Hg. unfold read_uint in H. destruct (is_read (Z.of_nat k) s) as [got s1] eqn:E.
  injection H as <- <-. destruct (is_read_good_inv _ _ _ _ (Nat2Z.is_nonneg k) E Hg) as (H1 & H2 & H3).
  split; [assumption|]. exists got. split; [assumption|]. split; [assumption|].
  rewrite overwrite_full; [reflexivity|]. rewrite zlen_le_bytes. lia.
Qed.

Lemma read_uint1_bad : forall old s v s', 0 <= old < 256 -> read_uint 1 old s = (v, s') -> i_good s' = false ->
  v = old.
Proof.
  intros old s v s' Ho H Hb. unfold read_uint, is_read in H.
  assert (Hov : le_val (overwrite [] (le_bytes 1 old)) = old).
  { rewrite overwrite_nil. apply le_val_bytes. lia. }
  destruct (i_good s) eqn:Es.
  - change (Z.of_nat 1) with 1 in H. destruct (zlen (ztake 1 (i_rest s)) <? 1) eqn:E.
    + apply Z.ltb_lt in E. pose proof (zlen_nonneg (ztake 1 (i_rest s))).
      rewrite (zlen_zero_nil (ztake 1 (i_rest s))) in H by lia. injection H as <- <-. exact Hov.
    + injection H as <- <-. discriminate.
  - injection H as <- <-. exact Hov.
Qed.

(** The shape of the input when [read_header] succeeds and the stream is still good. *)
Lemma read_header_good_shape : forall bs h s', bytes_ok bs -> read_header (i_open bs) = Ret (h, s') ->
  i_good s' = true ->
  exists b6 lenb wkt tl, bs = b6 ++ lenb ++ wkt ++ tl ++ i_rest s'
    /\ zlen b6 = 6 /\ zlen lenb = 2 /\ zlen wkt = le_val lenb /\ zlen tl = 10.
Proof.
  intros bs h s' Hok H Hg. unfold read_header in H.
  destruct (is_read 4 (i_open bs)) as [g0 s0] eqn:E0.
  destruct (beq_bytes _ SPOC); cbn [negb] in H; [|discriminate].
  destruct (read_uint 1 _ s0) as [ma s1] eqn:E1. destruct (ma =? MAJOR_VERSION); cbn [negb] in H; [|discriminate].
  destruct (read_uint 1 _ s1) as [mi s2] eqn:E2. destruct (mi =? MINOR_VERSION); cbn [negb] in H; [|discriminate].
  destruct (read_uint 2 0 s2) as [len s3] eqn:E3. destruct (is_read len s3) as [g4 s4] eqn:E4.
  destruct (read_uint 1 _ s4) as [e s5] eqn:E5. destruct (read_uint 8 _ s5) as [t s6] eqn:E6.
  destruct (read_uint 1 _ s6) as [c s7] eqn:E7. injection H as <- <-.
  destruct (is_read_ok _ _ _ _ (Hok : bytes_ok (i_rest (i_open bs))) E0) as [_ O0].
  destruct (read_uint_range _ _ _ _ _ O0 E1) as [_ O1].
  destruct (read_uint_range _ _ _ _ _ O1 E2) as [_ O2].
  destruct (read_uint_range _ _ _ _ _ O2 E3) as [Hlen O3].
  destruct (read_uint_good_inv _ _ _ _ _ E7 Hg) as (G6 & b7 & R6 & L7 & _).
  destruct (read_uint_good_inv _ _ _ _ _ E6 G6) as (G5 & b6 & R5 & L6 & _).
  destruct (read_uint_good_inv _ _ _ _ _ E5 G5) as (G4 & b5 & R4 & L5 & _).
  destruct (is_read_good_inv _ _ _ _ (proj1 Hlen) E4 G4) as (G3 & R3 & L4).
  destruct (read_uint_good_inv _ _ _ _ _ E3 G3) as (G2 & b3 & R2 & L3 & V3).
  destruct (read_uint_good_inv _ _ _ _ _ E2 G2) as (G1 & b2 & R1 & L2 & _).
  destruct (read_uint_good_inv _ _ _ _ _ E1 G1) as (G0 & b1 & R0 & L1 & _).
  destruct (is_read_good_inv 4 _ _ _ ltac:(lia) E0 G0) as (_ & R & L0).
  exists (g0 ++ b1 ++ b2), b3, g4, (b5 ++ b6 ++ b7). cbn [i_open i_rest] in R.
  rewrite !zlen_app. repeat split; try lia.
  rewrite R, R0, R1, R2, R3, R4, R5, R6. now rewrite <- !app_assoc.
Qed.

Lemma read_header_bad_flag : forall s h s', read_header s = Ret (h, s') -> i_good s' = false ->
  h_compressed h = 0.
Proof.
  intros s h s' H Hg. unfold read_header in H.
  destruct (is_read 4 s) as [g0 s0] eqn:E0.
  destruct (beq_bytes _ SPOC); cbn [negb] in H; [|discriminate].
  destruct (read_uint 1 _ s0) as [ma s1] eqn:E1. destruct (ma =? MAJOR_VERSION); cbn [negb] in H; [|discriminate].
  destruct (read_uint 1 _ s1) as [mi s2] eqn:E2. destruct (mi =? MINOR_VERSION); cbn [negb] in H; [|discriminate].
  destruct (read_uint 2 0 s2) as [len s3] eqn:E3. destruct (is_read len s3) as [g4 s4] eqn:E4.
  destruct (read_uint 1 _ s4) as [e s5] eqn:E5. destruct (read_uint 8 _ s5) as [t s6] eqn:E6.
  destruct (read_uint 1 _ s6) as [c s7] eqn:E7. injection H as <- <-.
  cbn [h_compressed]. eapply read_uint1_bad; eauto. cbn. lia.
Qed.

Lemma agrees_prefix : forall m k bs, agrees m bs = true -> agrees m (ztake k bs) = true.
Proof.
  intros m k bs. revert m k. induction bs as [|b bs IH]; intros [|x m] k H; try reflexivity.
  cbn [ztake]. destruct (k <=? 0); [reflexivity|]. cbn [agrees] in *.
  apply andb_prop in H as [H1 H2]. rewrite H1. cbn. now apply IH.
Qed.

Lemma app_inv_len : forall {A} (a b c d : list A), zlen a = zlen b -> a ++ c = b ++ d -> a = b /\ c = d.
Proof.
  intros A a b c d Hl H.
  assert (Ha : ztake (zlen a) (a ++ c) = ztake (zlen a) (b ++ d)) by now rewrite H.
  rewrite ztake_app_exact in Ha by reflexivity. rewrite ztake_app_exact in Ha by assumption.
  split; [assumption|]. subst b. now apply app_inv_head in H.
Qed.

Lemma read_header_cut : forall h k, good_header h -> 0 <= k < header_size h ->
  exists h' s', read_header (i_open (ztake k (header_bytes h))) = Ret (h', s')
    /\ i_good s' = false /\ h_compressed h' = 0.
Proof.
  intros h k Hh Hk.
  assert (Hag : agrees magic (ztake k (header_bytes h)) = true).
  { apply agrees_prefix. unfold header_bytes. rewrite (gh_sig h Hh), (gh_major h Hh), (gh_minor h Hh).
    reflexivity. }
  pose proof (read_header_accepts (ztake k (header_bytes h))) as Hacc. rewrite Hag in Hacc.
  destruct Hacc as (h' & s' & E). exists h', s'. split; [exact E|].
  assert (Hbad : i_good s' = false); [|split; [exact Hbad|now apply read_header_bad_flag in E]].
  destruct (i_good s') eqn:Eg; [exfalso|reflexivity].
  pose proof (header_bytes_ok h Hh) as Hok.
  destruct (read_header_good_shape _ _ _ (Forall_ztake _ k _ Hok) E Eg)
    as (b6 & lenb & wkt & tl & Hshape & L6 & Ll & Lw & Lt).
  assert (Hfull : header_bytes h = (b6 ++ lenb) ++ (wkt ++ tl ++ i_rest s') ++ zdrop k (header_bytes h)).
  { rewrite <- (ztake_zdrop k (header_bytes h)) at 1. rewrite Hshape. now rewrite <- !app_assoc. }
  assert (Hhb : header_bytes h = ((h_sig h ++ le_bytes 1 (h_major h) ++ le_bytes 1 (h_minor h))
     ++ le_bytes 2 (to_u16 (zlen (h_wkt h)))) ++ h_wkt h ++ le_bytes 1 (h_extra h)
     ++ le_bytes 8 (h_total h) ++ le_bytes 1 (h_compressed h)).
  { unfold header_bytes. now rewrite <- !app_assoc. }
  rewrite Hhb in Hfull at 1. apply app_inv_len in Hfull as [Hl _].
  2: { rewrite (gh_sig h Hh). rewrite !zlen_app, !zlen_le_bytes. rewrite L6, Ll. reflexivity. }
  apply app_inv_len in Hl as [_ Hl].
  2: { rewrite (gh_sig h Hh). rewrite !zlen_app, !zlen_le_bytes, L6. reflexivity. }
  pose proof (gh_wkt_len h Hh) as Hwl. fold (zlen (h_wkt h)) in Hwl. pose proof (zlen_nonneg (h_wkt h)).
  assert (Hu : to_u16 (zlen (h_wkt h)) = zlen (h_wkt h)).
  { unfold to_u16. apply Z.mod_small. unfold two16. lia. }
  rewrite Hu in Hl. apply (f_equal le_val) in Hl. rewrite le_val_bytes in Hl by (cbn; lia).
  apply (f_equal zlen) in Hshape. rewrite zlen_ztake, (header_bytes_len h Hh), !zlen_app in Hshape.
  unfold header_size in *. fold (zlen (h_wkt h)) in *. pose proof (zlen_nonneg (i_rest s')). lia.
Qed.
