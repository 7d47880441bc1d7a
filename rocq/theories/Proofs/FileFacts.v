(** Facts about Model/File.v. *)
From Coq Require Import String ZArith List Bool Lia.
From Verif.Model Require Import Base Double Header PointRecord File.
From Verif.Spec Require Import Format Files.
From Verif.Proofs Require Import BaseFacts HeaderFacts PointRecordFacts.
Import ListNotations.
Open Scope Z_scope.

Lemma all_same_size_uniform : forall prs, all_same_size_extra prs = true <-> uniform prs.
Proof.
  intros [|p0 l]; cbn [all_same_size_extra].
  - split; [intros _ p q []|reflexivity].
  - rewrite negb_true_iff. split.
    + intros H. assert (Hall : forall p, In p (p0 :: l) -> zlen (rextra p) = zlen (rextra p0)).
      { intros p Hp. destruct (zlen (rextra p) =? zlen (rextra p0)) eqn:E; [now apply Z.eqb_eq|].
        exfalso. assert (Ht : existsb (fun p => negb (zlen (rextra p) =? zlen (rextra p0))) (p0 :: l) = true).
        { apply existsb_exists. exists p. now rewrite E. }
        congruence. }
      intros p q Hp Hq. apply Hall in Hp, Hq. unfold zlen in *. lia.
    + intros H. destruct (existsb _ (p0 :: l)) eqn:E; [|reflexivity].
      apply existsb_exists in E as (p & Hp & Hne).
      rewrite (proj2 (Z.eqb_eq _ _)) in Hne; [discriminate|].
      unfold zlen. f_equal. apply H; cbn; auto.
Qed.

Lemma all_same_size_false : forall prs, all_same_size_extra prs = false <-> ~ uniform prs.
Proof.
  intros prs. rewrite <- all_same_size_uniform. destruct (all_same_size_extra prs); split; congruence.
Qed.

Lemma uniform_Forall : forall f, uniform (f_prs f) ->
  Forall (fun r => zlen (rextra r) = get_extra_fields f) (f_prs f).
Proof.
  intros f H. unfold get_extra_fields. apply Forall_forall. intros p Hp.
  destruct (f_prs f) as [|p0 l]; [destruct Hp|]. unfold zlen. f_equal. apply H; cbn; auto.
Qed.

Lemma get_extra_fields_nonneg : forall f, 0 <= get_extra_fields f.
Proof. intros f. unfold get_extra_fields. destruct (f_prs f); [lia|apply zlen_nonneg]. Qed.

Lemma has_extras_uniform : forall k prs, has_extras k prs -> uniform prs.
Proof. intros k prs H p q Hp Hq. apply H in Hp, Hq. lia. Qed.

Lemma Forall_has_extras : forall k prs,
  Forall (fun r => zlen (rextra r) = k) prs <-> has_extras k prs.
Proof. intros k prs. unfold has_extras, zlen. rewrite Forall_forall. reflexivity. Qed.

Lemma get_header_spec : forall f, good_file f -> get_extra_fields f <= 255 ->
  exists h, get_header f = Ret h /\ good_header h
    /\ h_wkt h = f_wkt f /\ h_extra h = get_extra_fields f
    /\ h_total h = zlen (f_prs f) /\ h_compressed h = b2z (f_compressed f)
    /\ h_sig h = SPOC.
Proof.
  intros f [Hma Hmi Hw Hwl Hp Hu Ht] He.
  pose proof (get_extra_fields_nonneg f). pose proof (zlen_nonneg (f_prs f)).
  unfold get_header, header_ctor. rewrite (proj2 (Z.ltb_ge _ _)) by (unfold zlen; lia).
  rewrite Hma, Hmi. unfold to_u8, to_u64; zs.
  rewrite (Z.mod_small 0), (Z.mod_small 1), (Z.mod_small (get_extra_fields f)), (Z.mod_small (zlen (f_prs f)))
    by (unfold zlen in *; lia).
  eexists. split; [reflexivity|]. cbn. repeat split; auto; unfold zlen in *; cbn; try lia;
    destruct (f_compressed f); cbn; lia.
Qed.

Lemma file_ctor_wkt_good : forall wkt c prs, uniform prs ->
  file_ctor_wkt wkt c prs = Ret (mk_file 0 1 wkt c prs).
Proof.
  intros wkt c prs H. unfold file_ctor_wkt, file_ctor.
  apply all_same_size_uniform in H. rewrite H. reflexivity.
Qed.

Lemma good_file_eta : forall f, good_file f -> mk_file 0 1 (f_wkt f) (f_compressed f) (f_prs f) = f.
Proof. intros [] [Hma Hmi _ _ _ _ _]. cbn in *. now subst. Qed.
