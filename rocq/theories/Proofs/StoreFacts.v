(** Writing a file and reading it back, for the theorems about the programs. *)
From Coq Require Import ZArith List Bool Lia.
From Verif.Model Require Import Base Double Header PointRecord File Compression IO.
From Verif.Spec Require Import Format ZlibContract Files Streams.
From Verif.Proofs Require Import BaseFacts HeaderFacts PointRecordFacts CompressedFacts FileFacts IOFacts FileIOFacts FileMoreFacts StreamFacts.
Import ListNotations.
Open Scope Z_scope.

Lemma storable_one : forall z ZS debug f, zlib_ok z ZS -> storable f ->
  exists cs f', emits (write_spoc_file z debug f) cs tt /\ is_bytes cs /\ kept f f'
    /\ forall t, is_bytes t -> read_spoc_file z (i_open (cs ++ t)) = Ret (f', i_open t).
Proof.
  intros z ZS debug f Hz (Hf & Hsize & k & Hk & Hkk).
  destruct (f_compressed f) eqn:Ec.
  - destruct (compressed_file_round_trip z ZS Hz debug f Hf Ec) as (cs & G1 & _ & G2 & G3 & _).
    { eapply has_extras_le; eauto; lia. }
    { unfold zlen, two31. lia. }
    exists cs, (squash_file f). repeat split; auto.
    unfold kept. rewrite Ec. apply squash_file_kept, Hf.
  - assert (He : get_extra_fields f <= 123) by (eapply has_extras_le; eauto; lia).
    destruct (get_header_spec f Hf ltac:(lia)) as (h & Hh & Hgh & _).
    exists (header_bytes h ++ prs_bytes (f_prs f)), f. repeat split.
    + apply write_file_uncompressed_emits; auto. apply Hf.
    + apply Forall_app; split; [now apply header_bytes_ok|]. apply flat_map_ok. intros; apply pr_bytes_ok.
    + unfold kept. now rewrite Ec.
    + intros t Ht. rewrite <- app_assoc. now apply read_file_of_uncompressed_bytes.
Qed.

Lemma kept_record_ok : forall prs p p', kept_record prs p p' -> pr_ok p -> pr_ok p'.
Proof.
  assert (K : forall sel prs p p', kept_coord sel prs p p' -> d_ok (sel p) -> d_ok (sel p')).
  { intros sel prs p p' [[-> _]|[-> _]] H; [exact H|]. unfold d_ok, two64. lia. }
  intros prs p p' (X & Y & Z & C & P & I & R & G & B & E) [].
  split; try (rewrite ?C, ?P, ?I, ?R, ?G, ?B, ?E; assumption); eapply K; eassumption.
Qed.

Lemma Forall2_In_r : forall {A B} (R : A -> B -> Prop) a b y, Forall2 R a b -> In y b -> exists x, In x a /\ R x y.
Proof.
  intros A B R a b y H. induction H as [|x z a b Hxz H IH]; intros I; [destruct I|].
  destruct I as [<-|I]; [exists x; split; [now left|exact Hxz]|].
  destruct (IH I) as (w & Hw & Rw). exists w. split; [now right|exact Rw].
Qed.

Lemma kept_storable : forall f f', storable f -> kept f f' -> storable f'.
Proof.
  intros f f' S K. unfold kept in K. destruct (f_compressed f) eqn:Ec; [|now subst].
  destruct S as (Hf & Hsize & k & Hk & Hkk). rewrite Ec in Hkk. destruct K as (K1 & K2 & K3 & K4 & K5).
  assert (L : length (f_prs f') = length (f_prs f)) by (clear - K5; induction K5; cbn; congruence).
  assert (X : forall p', In p' (f_prs f') -> exists p, In p (f_prs f) /\ kept_record (f_prs f) p p').
  { intros p' Hp'. exact (Forall2_In_r _ _ _ _ K5 Hp'). }
  assert (Hk' : has_extras k (f_prs f')).
  { intros p' Hp'. destruct (X p' Hp') as (p & Hp & KR). destruct KR as (_ & _ & _ & _ & _ & _ & _ & _ & _ & ->).
    now apply Hk. }
  split; [|split; [now rewrite L|exists k; split; [exact Hk'|rewrite K4, Ec; exact Hkk]]].
  destruct Hf. split; try congruence.
  - apply Forall_forall. intros p' Hp'. destruct (X p' Hp') as (p & Hp & KR).
    eapply kept_record_ok; [exact KR|]. rewrite Forall_forall in gf_prs. now apply gf_prs.
  - now apply has_extras_uniform with k.
Qed.

(** Picking records from a storable file gives a storable file. *)
Lemma storable_pick : forall f prs, storable f -> (forall p, In p prs -> In p (f_prs f)) ->
  (length prs <= length (f_prs f))%nat -> storable (with_prs f prs).
Proof.
  intros f prs (Hf & Hsize & k & Hk & Hkk) I L. destruct Hf.
  assert (Hk' : has_extras k prs) by (intros p Hp; apply Hk; auto).
  split; [|split; [cbn [f_prs with_prs]; lia|exists k; split; [exact Hk'|exact Hkk]]].
  split; cbn [f_prs with_prs f_major f_minor f_wkt]; auto.
  - apply Forall_forall. intros p Hp. rewrite Forall_forall in gf_prs. auto.
  - now apply has_extras_uniform with k.
  - lia.
Qed.
