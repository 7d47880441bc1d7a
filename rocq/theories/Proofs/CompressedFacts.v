(** Facts about the compressed half of Model/IO.v. *)
From Coq Require Import String ZArith List Bool Lia.
From Verif.Model Require Import Base Double Header PointRecord File Compression IO.
From Verif.Spec Require Import Format Files ZlibContract.
From Verif.Proofs Require Import BaseFacts HeaderFacts PointRecordFacts FileFacts IOFacts
  CompressionFacts.
Import ListNotations.
Open Scope Z_scope.

(** ** Indexes *)

Lemma zlen_zseq : forall n, zlen (zseq n) = Z.max 0 n.
Proof. intros n. unfold zseq. rewrite zlen_map. unfold zlen. rewrite seq_length. lia. Qed.

Lemma mapM_zseq_from : forall {A B} (F : Z -> outcome B) (g : A -> B) (l : list A) k,
  (forall n a, nth_error l n = Some a -> F (Z.of_nat (k + n)) = Ret (g a)) ->
  mapM F (map Z.of_nat (seq k (length l))) = Ret (map g l).
Proof.
  intros A B F g l. induction l as [|a l IH]; intros k H; cbn [length seq map mapM]; [reflexivity|].
  specialize (H O a eq_refl) as H0. rewrite Nat.add_0_r in H0. rewrite H0. cbn [bind].
  rewrite (IH (S k)); [reflexivity|].
  intros n b Hn. specialize (H (S n) b Hn). now rewrite <- Nat.add_succ_comm in H.
Qed.

Lemma mapM_zseq : forall {A B} (F : Z -> outcome B) (g : A -> B) (l : list A),
  (forall n a, znth l n = Some a -> F n = Ret (g a)) ->
  mapM F (zseq (zlen l)) = Ret (map g l).
Proof.
  intros A B F g l H. unfold zseq, zlen. rewrite Nat2Z.id. apply mapM_zseq_from.
  intros n a Hn. cbn. apply H. rewrite znth_nth_error by lia. now rewrite Nat2Z.id.
Qed.

(** ** Columns *)

Definition col_ok (t : coltype) (x : list Z) : Prop :=
  Forall (fun v => 0 <= v < 256 ^ Z.of_nat (ct_width t)) x.

Definition norm (t : coltype) (x : list Z) : list Z :=
  if all_zero t x then map (fun _ => 0) x else x.

Definition wc_bytes (c : list Z) : list Z := le_bytes 8 (zlen c) ++ c.

Lemma write_compressed_emits : forall c, emits (write_compressed c) (wc_bytes c) tt.
Proof.
  intros [|b c]; unfold write_compressed, wc_bytes.
  - rewrite app_nil_r. apply emits_put.
  - apply emits_seq; apply emits_put.
Qed.

Lemma col_image_ok : forall t x, bytes_ok (col_image t x).
Proof. intros. apply flat_map_ok. intros; apply le_bytes_ok. Qed.

Lemma zlen_col_image : forall t x, zlen (col_image t x) = Z.of_nat (ct_width t) * zlen x.
Proof. intros. apply zlen_flat_map_const. intros; apply zlen_le_bytes. Qed.

Section Facts.
Variable z : zlib.
Variable ZS : list Z -> list Z -> Prop.
Hypothesis Hz : zlib_ok z ZS.

Lemma col_get_zeros : forall (x : list Z) n, 0 <= n < zlen x ->
  col_get [] n = vec_get (map (fun _ => 0) x) n.
Proof.
  intros x n Hn. unfold col_get, vec_get. rewrite znth_map.
  destruct (znth_in_range x n Hn) as [a Ha]. now rewrite Ha.
Qed.

Lemma field_round_trip : forall t x, col_ok t x -> (0 < ct_width t)%nat ->
  Z.of_nat (ct_width t) * zlen x + 32 < two31 ->
  exists c, compress_field z t x = Ret c /\ bytes_ok c
    /\ forall rest, exists c', read_compressed z t (zlen x) (i_open (wc_bytes c ++ rest)) = Ret (c', i_open rest)
       /\ forall n, 0 <= n < zlen x -> col_get c' n = vec_get (norm t x) n.
Proof.
  intros t x Hx Hw Hlen. unfold compress_field, norm.
  pose proof (zlen_nonneg x) as Hxn.
  destruct (all_zero t x) eqn:Ea.
  - exists []. split; [reflexivity|]. split; [constructor|]. intros rest. exists [].
    split.
    + unfold read_compressed, wc_bytes. rewrite app_nil_r, read_uint_full; [reflexivity|].
      change (zlen (@nil Z)) with 0. cbn. lia.
    + intros n Hn. now apply col_get_zeros.
  - assert (Hne : x <> []).
    { intros ->. cbn in Ea. discriminate. }
    assert (Hxl : 0 < zlen x).
    { destruct x; [congruence|]. rewrite zlen_cons. pose proof (zlen_nonneg x). lia. }
    replace (zlen x * Z.of_nat (ct_width t)) with (zlen (col_image t x)) by (rewrite zlen_col_image; lia).
    destruct (compress_ptr_stream z ZS Hz (col_image t x) (-1)) as (out & E & HS & Hok & Hout & Hb);
      [lia|apply col_image_ok|].
    rewrite E. exists out. split; [reflexivity|]. split; [assumption|]. intros rest.
    exists x. split; [|reflexivity || (intros n Hn; destruct x; [congruence|reflexivity])].
    rewrite zlen_col_image in Hb, HS.
    rewrite Z.mod_small in HS by (zs; lia).
    rewrite <- zlen_col_image, ztake_all in HS by lia.
    unfold read_compressed, wc_bytes. rewrite <- app_assoc, read_uint_full.
    2:{ pose proof (zlen_nonneg out). cbn; zs; lia. }
    replace (zlen out =? 0) with false.
    2:{ symmetry. apply Z.eqb_neq. intros H. now apply zlen_zero_nil in H. }
    rewrite (proj2 (Z.ltb_ge PTRDIFF_MAX (zlen out))) by (unfold PTRDIFF_MAX; zs; lia).
    rewrite is_read_open by reflexivity.
    rewrite overwrite_full by (rewrite zlen_zrepeat; pose proof (zlen_nonneg out); lia).
    rewrite (proj2 (Z.ltb_ge PTRDIFF_MAX _)) by (unfold PTRDIFF_MAX; zs; lia).
    replace (zlen x =? 0) with false by (symmetry; apply Z.eqb_neq; lia).
    unfold decompress_to. rewrite (decompress_valid z ZS Hz _ _ HS) by (zs; lia). cbn [bind].
    replace (zlen (col_image t x) =? zlen x * Z.of_nat (ct_width t)) with true
      by (symmetry; apply Z.eqb_eq; rewrite zlen_col_image; lia). cbn [negb].
    destruct (col_image t x) as [|b0 im] eqn:Ei.
    { exfalso. pose proof (zlen_col_image t x) as Hl. rewrite Ei in Hl.
      change (zlen (@nil Z)) with 0 in Hl. nia. }
    rewrite <- Ei. cbn [bind]. unfold zlen at 1. rewrite Nat2Z.id.
    unfold col_image. rewrite words_image_exact by assumption. reflexivity.
Qed.

(** Integer columns are kept exactly. *)
Lemma norm_int : forall t x, (forall v, ct_nonzero t v = negb (v =? 0)) -> norm t x = x.
Proof.
  intros t x H. unfold norm. destruct (all_zero t x) eqn:E; [|reflexivity].
  unfold all_zero in E. destruct (existsb (ct_nonzero t) x) eqn:Ex; [discriminate|].
  rewrite <- (map_id x) at 2. apply map_ext_in. intros a Ha.
  destruct (a =? 0) eqn:E0; [apply Z.eqb_eq in E0; lia|].
  exfalso. assert (existsb (ct_nonzero t) x = true).
  { apply existsb_exists. exists a. rewrite H, E0. auto. }
  congruence.
Qed.

Lemma d_nonzero_spec : forall d, d_ok d -> (ct_nonzero t_double d = false <-> is_zero_double d).
Proof.
  intros d Hd. unfold is_zero_double. cbn. unfold d_neb, d_eqb, d_zero.
  unfold d_ok in Hd. change (d_is_nan 0) with false. change (d_key 0) with 0.
  unfold d_is_nan, d_key, d_mag. zs.
  destruct (d <? 9223372036854775808) eqn:E.
  - apply Z.ltb_lt in E. rewrite Z.mod_small by lia.
    destruct (d =? 0) eqn:E0.
    + apply Z.eqb_eq in E0. subst d. cbn. split; auto.
    + apply Z.eqb_neq in E0. rewrite andb_false_r. cbn. split; [discriminate|]. lia.
  - apply Z.ltb_ge in E.
    replace (d mod 9223372036854775808) with (d - 9223372036854775808).
    2:{ apply (Z.mod_unique_pos _ _ 1); lia. }
    destruct (9223372036854775808 - d =? 0) eqn:E0.
    + apply Z.eqb_eq in E0. replace d with 9223372036854775808 by lia. cbn. split; auto.
    + apply Z.eqb_neq in E0. rewrite andb_false_r. cbn. split; [discriminate|]. lia.
Qed.

Lemma all_zero_spec : forall x, Forall d_ok x ->
  (all_zero t_double x = true <-> forall v, In v x -> is_zero_double v).
Proof.
  intros x Hx. rewrite Forall_forall in Hx. unfold all_zero.
  destruct (existsb (ct_nonzero t_double) x) eqn:E.
  - split; [discriminate|]. intros H. apply existsb_exists in E as (v & Hv & Hn).
    rewrite (proj2 (d_nonzero_spec v (Hx v Hv))) in Hn by auto. discriminate.
  - split; [|auto]. intros _ v Hv. apply d_nonzero_spec; [auto|].
    destruct (ct_nonzero t_double v) eqn:En; [|reflexivity].
    assert (existsb (ct_nonzero t_double) x = true) by (apply existsb_exists; eauto). congruence.
Qed.

End Facts.
