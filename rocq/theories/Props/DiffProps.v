(** C61, C62: spoc_diff. *)
From Coq Require Import String ZArith List Bool Lia.
From Verif.Model Require Import Base Double Header PointRecord File Compression IO DiffApp.
From Verif.Spec Require Import Format Streams Files Fields Diffs Apps ZlibContract.
From Verif.Proofs Require Import BaseFacts HeaderFacts PointRecordFacts FileFacts FieldFacts DiffFacts HeaderCutFacts StoreFacts ToyZlib.
Import ListNotations.
Open Scope Z_scope.
Open Scope outcome_scope.

(** A file object of the current version with at most 255 extra fields. *)
Definition comparable (f : spoc_file) : Prop := good_file f /\ extras_of (f_prs f) <= 255.

(** ** C61 Without a selection of fields *)

(** 0 exactly when the parts that are compared are the same, -1 otherwise.  The headers
    are compared unless data-only is given, the data unless header-only is given alone. *)
Theorem C61_diff : forall f g header_only data_only, comparable f -> comparable g ->
  exists r, diff f g header_only data_only [] false = Ret r /\ (r = 0 \/ r = -1)
  /\ (r = 0 <-> (data_only = false -> same_header f g)
              /\ (data_only = true \/ header_only = false -> same_records (f_prs f) (f_prs g))).
Proof.
  intros f g ho dt [Hf Ef] [Hg Eg]. unfold diff.
  destruct (headers_differ_ok f g Hf Hg Ef Eg) as (d1 & D1 & H1).
  destruct (data_differ_ok f g (gf_prs f Hf) (gf_prs g Hg) (gf_uniform f Hf) (gf_uniform g Hg)) as (d2 & D2 & H2).
  destruct ho, dt; cbv beta iota zeta; rewrite ?D1, ?D2; cbn [bind]; cbv beta iota zeta; eexists.
  all: split; [reflexivity|].
  - destruct d2; cbn [orb]; (split; [lia|]); split; intros H; try discriminate H; try reflexivity.
    + destruct H as [_ H]. exfalso. cut (true = false); [discriminate|]. apply H2. apply H. now left.
    + split; [discriminate|]. intros _. now apply H2.
  - rewrite !orb_false_r. destruct d1; (split; [lia|]); split; intros H; try discriminate H; try reflexivity.
    + destruct H as [H _]. exfalso. cut (true = false); [discriminate|]. apply H1. now apply H.
    + split; [intros _; now apply H1|]. intros [?|?]; discriminate.
  - destruct d2; cbn [orb]; (split; [lia|]); split; intros H; try discriminate H; try reflexivity.
    + destruct H as [_ H]. exfalso. cut (true = false); [discriminate|]. apply H2. apply H. now left.
    + split; [discriminate|]. intros _. now apply H2.
  - rewrite orb_false_r. destruct d1, d2; cbn [orb]; (split; [lia|]); split; intros H; try discriminate H; try reflexivity.
    1,2: destruct H as [H _]; exfalso; cut (true = false); [discriminate|]; apply H1; now apply H.
    + destruct H as [_ H]. exfalso. cut (true = false); [discriminate|]. apply H2. apply H. now right.
    + split; intros _; [now apply H1|now apply H2].
Qed.

(** The comparison is symmetric, with any options. *)
Theorem C61_symmetric : forall f g header_only data_only fields reverse,
  diff f g header_only data_only fields reverse = diff g f header_only data_only fields reverse.
Proof.
  intros f g ho dt fs rv. unfold diff. rewrite (headers_differ_sym f g), (data_differ_sym f g), (fields_differ_sym fs f g).
  reflexivity.
Qed.

(** A file is the same as itself exactly when no coordinate is a NaN. *)
Theorem C61_reflexive : forall f, comparable f ->
  (diff f f false false [] false = Ret 0
   <-> forall p, In p (f_prs f) -> d_is_nan (rx p) = false /\ d_is_nan (ry p) = false /\ d_is_nan (rz p) = false).
Proof.
  intros f Hf. destruct (C61_diff f f false false Hf Hf) as (r & -> & _ & H).
  assert (E : Ret r = Ret 0 <-> r = 0) by (split; [intros [= ->]; reflexivity|intros ->; reflexivity]). rewrite E, H.
  split.
  - intros [_ R] p P. specialize (R (or_intror eq_refl)). clear - R P.
    assert (X : forall a b, Forall2 (fun p q => forall h, same_field h p q) a b -> In p a ->
      d_is_nan (rx p) = false /\ d_is_nan (ry p) = false /\ d_is_nan (rz p) = false).
    { intros a b S. induction S as [|u v a b U S IH]; intros I; [destruct I|]. destruct I as [->|I]; [|auto].
      destruct (U FX) as [X _]. destruct (U FY) as [Y _]. destruct (U FZ) as [Z _]. auto. }
    eapply X; eauto.
  - intros A. split; [intros _; unfold same_header; auto 8|]. intros _. unfold same_records.
    clear - A. induction (f_prs f) as [|p l IH]; [constructor|]. constructor; [|apply IH; intros q Q; apply A; now right].
    destruct (A p (or_introl eq_refl)) as (X & Y & Z). intros []; cbn; unfold same_double; auto.
Qed.

Lemma same_records_trans : forall a b c, same_records a b -> same_records b c -> same_records a c.
Proof.
  intros a b c H. revert c. induction H as [|p q a b R H IH]; intros c K; inversion K as [|? r ? c' S K']; subst; constructor.
  - assert (T : forall x y z, same_double x y -> same_double y z -> same_double x z).
    { unfold same_double. intros x y z (A & B & C) (D & E & F). repeat split; auto.
      destruct C as [->|[C C']]; [exact F|]. destruct F as [<-|[F F']]; auto. }
    intros h. specialize (R h). specialize (S h). destruct h; cbn [same_field] in *; try (eapply T; eassumption); congruence.
  - now apply IH.
Qed.

(** Without a selection of fields it is transitive. *)
Theorem C61_transitive : forall f g h header_only data_only, comparable f -> comparable g -> comparable h ->
  diff f g header_only data_only [] false = Ret 0 -> diff g h header_only data_only [] false = Ret 0 ->
  diff f h header_only data_only [] false = Ret 0.
Proof.
  intros f g h ho dt Hf Hg Hh A B.
  destruct (C61_diff f g ho dt Hf Hg) as (r1 & E1 & _ & H1). rewrite A in E1. injection E1 as <-.
  destruct (C61_diff g h ho dt Hg Hh) as (r2 & E2 & _ & H2). rewrite B in E2. injection E2 as <-.
  destruct (C61_diff f h ho dt Hf Hh) as (r3 & -> & _ & H3). f_equal. apply H3.
  destruct (proj1 H1 eq_refl) as [P1 Q1]. destruct (proj1 H2 eq_refl) as [P2 Q2]. split.
  - intros D. destruct (P1 D) as (a1 & a2 & a3 & a4 & a5 & a6). destruct (P2 D) as (b1 & b2 & b3 & b4 & b5 & b6).
    unfold same_header. repeat split; congruence.
  - intros D. eapply same_records_trans; eauto.
Qed.

(** *** The files *)

(** What writing and reading keeps of a record. *)
Definition near (p p' : point_record) : Prop :=
  (forall sel, In sel [rx; ry; rz] -> sel p' = sel p \/ is_zero_double (sel p) /\ sel p' = 0)
  /\ forall h, ~ In h [FX; FY; FZ] -> value h p' = value h p.

Lemma near_same : forall p p' q q', near p p' -> near q q' ->
  ((forall h, same_field h p q) <-> (forall h, same_field h p' q')).
Proof.
  intros p p' q q' [P1 P2] [Q1 Q2].
  assert (Z0 : forall x, is_zero_double x -> d_is_nan x = false) by (intros x [->| ->]; reflexivity).
  assert (Z1 : is_zero_double 0) by now left.
  assert (D : forall sel, In sel [rx; ry; rz] -> (same_double (sel p) (sel q) <-> same_double (sel p') (sel q'))).
  { intros sel I. unfold same_double. destruct (P1 sel I) as [->|[A ->]], (Q1 sel I) as [->|[B ->]]; [tauto| | |].
    - pose proof (Z0 _ B). pose proof (Z0 0 Z1). split; intros (a & b & [c|c]); repeat split; auto; right; split; try tauto.
      + congruence.
      + rewrite c. exact Z1.
    - pose proof (Z0 _ A). pose proof (Z0 0 Z1). split; intros (a & b & [c|c]); repeat split; auto; right; split; try tauto.
      + congruence.
      + rewrite <- c. exact Z1.
    - pose proof (Z0 _ A). pose proof (Z0 _ B). pose proof (Z0 0 Z1). split; intros _; repeat split; auto. }
  assert (H : forall h, same_field h p q <-> same_field h p' q').
  { intros h. destruct h; cbn [same_field]; [apply (D rx)|apply (D ry)|apply (D rz)|..]; try (cbn; tauto).
    all: rewrite P2, Q2 by (cbn; intuition discriminate); reflexivity. }
  split; intros A h; now apply H.
Qed.

Lemma near_records : forall a a' b b', Forall2 near a a' -> Forall2 near b b' ->
  (same_records a b <-> same_records a' b').
Proof.
  unfold same_records. intros a a' b b' A. revert b b'. induction A as [|p p' a a' R A IH]; intros b b' B.
  - destruct B as [|q q' b b' S B]; split; intros H; inversion H; constructor.
  - destruct B as [|q q' b b' S B]; [split; intros H; inversion H|].
    split; intros H; inversion H; subst; constructor; try (apply (near_same p p' q q'); assumption); now apply (IH b b' B).
Qed.

Lemma kept_near : forall f f', kept f f' -> same_meta f f' /\ Forall2 near (f_prs f) (f_prs f').
Proof.
  intros f f' K. unfold kept in K.
  destruct (f_compressed f) eqn:Ec.
  2: { subst f'. split; [repeat split|]. induction (f_prs f); constructor; auto. split; [intros sel _; now left|reflexivity]. }
  destruct K as (A & B & C & D & K). split; [repeat split; congruence|].
  assert (W : forall l l', incl l (f_prs f) -> Forall2 (kept_record (f_prs f)) l l' -> Forall2 near l l').
  { intros l l' I F. induction F as [|p p' l l' R F IH]; constructor; [|apply IH; intros x X; apply I; now right].
    assert (P : In p (f_prs f)) by (apply I; now left).
    destruct R as (X & Y & Z & c & i & j & r & g & b & e).
    assert (Q : forall sel, kept_coord sel (f_prs f) p p' -> sel p' = sel p \/ is_zero_double (sel p) /\ sel p' = 0).
    { intros sel [[U _]|[U V]]; [now left|]. right. split; [now apply V|exact U]. }
    split.
    - intros sel [<-|[<-|[<-|[]]]]; now apply Q.
    - intros h N. destruct h; cbn [value]; try congruence; [destruct N|destruct N|destruct N|]; cbn; auto. now rewrite e. }
  apply W; [apply incl_refl|exact K].
Qed.

Lemma near_extras : forall a a', Forall2 near a a' -> extras_of a' = extras_of a.
Proof.
  intros a a' A. destruct A as [|p p' a a' [_ R] A]; [reflexivity|]. cbn. f_equal. apply same_extra_length.
  intros k. apply R. cbn. intuition discriminate.
Qed.

Lemma kept_comparable : forall f f', storable f -> kept f f' -> comparable f'.
Proof.
  intros f f' S K. pose proof (kept_storable f f' S K) as (G & _ & k & E & L). split; [exact G|].
  assert (k <= 255) by (destruct (f_compressed f'); lia).
  unfold extras_of. destruct (f_prs f') as [|p l]; [lia|]. rewrite (E p) by now left. exact H.
Qed.

(** On two files that were written, compressed or not, with or without data-only or
    header-only: success exactly when the files were the same; the inputs are not
    changed by the compression, because it keeps all numbers. *)
Theorem C61_files : forall z ZS debug f g header_only data_only, zlib_ok z ZS -> storable f -> storable g ->
  exists a b r, appends (write_spoc_file z debug f) a /\ appends (write_spoc_file z debug g) b
  /\ diff_tool z (mk_diff_args header_only data_only [] false) a b = Ret r /\ (r = 0 \/ r = -1)
  /\ (r = 0 <-> (data_only = false -> same_header f g)
              /\ (data_only = true \/ header_only = false -> same_records (f_prs f) (f_prs g))).
Proof.
  intros z ZS debug f g ho dt Hz Hf Hg.
  destruct (storable_one z ZS debug f Hz Hf) as (a & f' & A1 & _ & K1 & R1).
  destruct (storable_one z ZS debug g Hz Hg) as (b & g' & B1 & _ & K2 & R2).
  destruct (kept_near f f' K1) as [(M1 & M2 & M3 & M4) N1]. destruct (kept_near g g' K2) as [(M5 & M6 & M7 & M8) N2].
  destruct (C61_diff f' g' ho dt (kept_comparable f f' Hf K1) (kept_comparable g g' Hg K2)) as (r & D & V & H).
  exists a, b, r. split; [now apply emits_appends|]. split; [now apply emits_appends|].
  split; [|split; [exact V|]].
  - unfold diff_tool, diff_run. cbn [da_header_only da_data_only da_fields da_reverse].
    replace (2 <? b2z ho + b2z dt + 0) with false by (destruct ho, dt; reflexivity).
    specialize (R1 [] (Forall_nil _)). specialize (R2 [] (Forall_nil _)). rewrite app_nil_r in R1, R2.
    rewrite R1, R2. cbn [bind]. now rewrite D.
  - rewrite H, (near_records _ _ _ _ N1 N2).
    assert (S : same_header f g <-> same_header f' g').
    { unfold same_header. rewrite M1, M2, M3, M4, M5, M6, M7, M8, (near_extras _ _ N1), (near_extras _ _ N2).
      rewrite (Forall2_length' _ _ _ N1), (Forall2_length' _ _ _ N2). reflexivity. }
    rewrite S. reflexivity.
Qed.

(** A file that cannot be read gives -1, also with the option reverse. *)
Theorem C61_unreadable : forall z args a b e,
  (read_spoc_file z (i_open a) = Throw e
   \/ (exists f s, read_spoc_file z (i_open a) = Ret (f, s)) /\ read_spoc_file z (i_open b) = Throw e) ->
  diff_tool z args a b = Ret (-1).
Proof.
  intros z args a b e H. unfold diff_tool, diff_run. destruct (2 <? _); [reflexivity|].
  destruct H as [->|[(f & s & ->) H]]; [reflexivity|]. cbn [bind]. now rewrite H.
Qed.

(** ** C62 The options *)

(** With a selection of fields: 0 exactly when all selected columns that both files have
    are the same; the options header-only and data-only are without effect.  (Finding: an
    extra field that only one file has is passed over, and so is any extra field when one
    of the files has no records.) *)
Theorem C62_fields : forall f g header_only data_only hs cs, good_file f -> good_file g ->
  cs <> [] -> Forall2 letter hs cs ->
  exists r, diff f g header_only data_only cs false = Ret r /\ (r = 0 \/ r = -1)
  /\ (r = 0 <-> forall h, In h hs -> in_both h (f_prs f) (f_prs g) -> same_column h (f_prs f) (f_prs g)).
Proof.
  intros f g ho dt hs cs Hf Hg N L.
  destruct (fields_differ_ok hs cs f g L (gf_prs f Hf) (gf_prs g Hg) (gf_uniform f Hf) (gf_uniform g Hg)) as (d & D & H).
  unfold diff. destruct cs as [|c cs]; [congruence|].
  destruct ho, dt; cbv beta iota zeta; cbn [bind]; rewrite D; cbn [bind orb]; eexists; (split; [reflexivity|]);
    destruct d; (split; [lia|]); rewrite <- H; split; intros X; try discriminate X; reflexivity.
Qed.

(** So, as a finding: *)
Theorem C62_missing_extra_is_equal : forall f g header_only data_only k, good_file f -> good_file g ->
  0 <= k <= 9 -> extras_of (f_prs f) <= k -> diff f g header_only data_only [48 + k] false = Ret 0
  /\ diff g f header_only data_only [48 + k] false = Ret 0.
Proof.
  intros f g ho dt k Hf Hg K E. rewrite (C61_symmetric g f). cut (diff f g ho dt [48 + k] false = Ret 0); [auto|].
  destruct (C62_fields f g ho dt [FE k] [48 + k] Hf Hg) as (r & -> & _ & H); [discriminate| |].
  - constructor; [|constructor]. cbn [letter]. auto.
  - f_equal. apply H. intros h [<-|[]] [A _]. lia.
Qed.

(** A letter that is none of x y z c p i r g b 0 ... 9 is refused, but only when no
    difference was found before. *)
Theorem C62_unknown_letter : forall f g header_only data_only hs cs c rest reverse, good_file f -> good_file g ->
  Forall2 letter hs cs -> (forall h, ~ letter h c) ->
  ((forall h, In h hs -> in_both h (f_prs f) (f_prs g) -> same_column h (f_prs f) (f_prs g)) ->
     exists what, diff f g header_only data_only (cs ++ c :: rest) reverse = Throw (runtime_error what))
  /\ (~ (forall h, In h hs -> in_both h (f_prs f) (f_prs g) -> same_column h (f_prs f) (f_prs g)) ->
     diff f g header_only data_only (cs ++ c :: rest) reverse = Ret (if reverse then 0 else -1)).
Proof.
  intros f g ho dt hs cs c rest rv Hf Hg L U.
  destruct (fields_differ_ok hs cs f g L (gf_prs f Hf) (gf_prs g Hg) (gf_uniform f Hf) (gf_uniform g Hg)) as (d & D & H).
  assert (X : forall cs, (fields_differ cs f g = Ret false -> fields_differ (cs ++ c :: rest) f g = fields_differ (c :: rest) f g)
    /\ (fields_differ cs f g = Ret true -> fields_differ (cs ++ c :: rest) f g = Ret true)).
  { clear. induction cs as [|x cs [I1 I2]]; cbn [fields_differ app]; [split; [reflexivity|discriminate]|].
    destruct (field_differs x f g) as [[]| | |]; cbn [bind]; split; intros Q; try discriminate Q; auto. }
  destruct (X cs) as [X1 X2]. rewrite <- H.
  assert (S : diff f g ho dt (cs ++ c :: rest) rv = (d3 <- fields_differ (cs ++ c :: rest) f g ;;
     Ret (if rv then (if (if (d3 : bool) then -1 else 0) =? 0 then 1 else 0) else if d3 then -1 else 0))).
  { unfold diff. destruct (cs ++ c :: rest) eqn:E; [destruct cs; discriminate E|]. destruct ho, dt; reflexivity. }
  rewrite S. split; intros Q.
  - subst d. rewrite (X1 D). cbn [fields_differ]. destruct (field_differs_unknown c f g U) as (w & ->). cbn [bind]. eauto.
  - destruct d; [|congruence]. rewrite (X2 D). cbn [bind]. now destruct rv.
Qed.

(** reverse: 1 for 0, and 0 for -1. *)
Theorem C62_reverse : forall f g header_only data_only fields r,
  diff f g header_only data_only fields false = Ret r ->
  diff f g header_only data_only fields true = Ret (if r =? 0 then 1 else 0).
Proof.
  intros f g ho dt fs r. unfold diff.
  destruct ho, dt, fs; cbv beta iota zeta;
  repeat match goal with |- (bind ?m _ = _) -> _ => destruct m; cbn [bind]; try (intros Q; discriminate Q) end.
  all: intros [= <-]; match goal with |- context [if ?b then -1 else 0] => destruct b end; reflexivity.
Qed.

(** (Finding) Combinations of header-only, data-only and fields are refused only when all
    three are given; of two, one wins. *)
Theorem C62_conflicts : forall z header_only data_only fields reverse a b f g s t, 
  read_spoc_file z (i_open a) = Ret (f, s) -> read_spoc_file z (i_open b) = Ret (g, t) ->
  (header_only = true /\ data_only = true /\ fields <> [] ->
     exists what, diff_run z (mk_diff_args header_only data_only fields reverse) a b = Throw (runtime_error what))
  /\ (~ (header_only = true /\ data_only = true /\ fields <> []) ->
     diff_run z (mk_diff_args header_only data_only fields reverse) a b
     = match fields with
       | [] => diff f g (if data_only then false else header_only) data_only [] reverse
       | _ => diff f g false false fields reverse
       end).
Proof.
  intros z ho dt fs rv a b f g s t A B. unfold diff_run. cbn [da_header_only da_data_only da_fields da_reverse].
  rewrite A, B. cbn [bind]. split.
  - intros (-> & -> & N). destruct fs; [congruence|]. cbn. eauto.
  - intros N. destruct ho, dt, fs; cbn; try reflexivity. exfalso. apply N. repeat split. discriminate.
Qed.

(** ** Examples *)

Definition dx (v : Z) (e : list Z) : point_record := mk_pr v d_one d_one 1 2 3 4 5 6 e.
Definition df (e : list point_record) : spoc_file := mk_file 0 1 [65] false e.

Lemma df_good : forall l, Forall pr_ok l -> uniform l -> (List.length l <= 5)%nat -> good_file (df l).
Proof.
  intros l P U L. split; cbn; auto; try lia. repeat constructor; lia.
Qed.

Example C61_example :
  comparable (df [dx 0 [7]; dx d_one [8]]) /\ comparable (df [dx d_nzero [7]; dx d_one [8]])
  /\ diff (df [dx 0 [7]; dx d_one [8]]) (df [dx d_nzero [7]; dx d_one [8]]) false false [] false = Ret 0
  /\ diff (df [dx 0 [7]; dx d_one [8]]) (df [dx 0 [7]; dx d_one [9]]) false false [] false = Ret (-1)
  /\ diff (df [dx 0 [7]; dx d_one [8]]) (df [dx 0 [7]; dx d_one [9]]) true false [] false = Ret 0
  /\ diff (df [dx d_qnan []]) (df [dx d_qnan []]) false false [] false = Ret (-1).
Proof.
  split; [|split; [|vm_compute; repeat split]].
  - split; [apply df_good; [|intros p q P Q; cbn in P, Q; intuition subst; reflexivity|cbn; lia]|cbn; lia].
    repeat constructor; cbn; unfold d_ok; try lia; now vm_compute.
  - split; [apply df_good; [|intros p q P Q; cbn in P, Q; intuition subst; reflexivity|cbn; lia]|cbn; lia].
    repeat constructor; cbn; unfold d_ok; try lia; now vm_compute.
Qed.

Example C61_files_example : exists a b, appends (write_spoc_file toy false (df [dx 0 [7]])) a
  /\ appends (write_spoc_file toy false (set_compressed true (df [dx 0 [7]]))) b
  /\ diff_tool toy (mk_diff_args false true [] false) a b = Ret 0
  /\ diff_tool toy (mk_diff_args false false [] false) a b = Ret (-1).
Proof.
  assert (G : forall c, storable (set_compressed c (df [dx 0 [7]]))).
  { intros c. split; [|split; [cbn; lia|exists 1; split; [intros p [<-|[]]; reflexivity|destruct c; cbn; lia]]].
    split; cbn; auto; try lia; [repeat constructor; lia| |intros p q [<-|[]] [<-|[]]; reflexivity].
    repeat constructor; cbn; unfold d_ok; try lia; now vm_compute. }
  destruct (C61_files toy toy_stream false _ _ false true toy_ok (G false) (G true)) as (a & b & r & A & B & D & V & H).
  destruct (C61_files toy toy_stream false _ _ false false toy_ok (G false) (G true)) as (a' & b' & r' & A' & B' & D' & V' & H').
  assert (E : forall w x y, appends w x -> appends w y -> x = y).
  { intros w x y Ha Hb. destruct (Ha o_open) as (s1 & E1 & _ & B1); [split; reflexivity|].
    destruct (Hb o_open) as (s2 & E2 & _ & B2); [split; reflexivity|]. rewrite E1 in E2. injection E2 as <-.
    cbn in B1, B2. congruence. }
  assert (a = a') as <- by (eapply E; eassumption). assert (b = b') as <- by (eapply E; eassumption).
  exists a, b. split; [exact A|]. split; [exact B|]. split.
  - rewrite D. f_equal. apply H. split; [discriminate|]. intros _. constructor; [|constructor].
    intros []; cbn; try reflexivity; repeat split; auto.
  - rewrite D'. f_equal. destruct V' as [->|V']; [|exact V']. destruct (proj1 H' eq_refl) as [S _].
    destruct (S eq_refl) as (_ & _ & _ & C & _). discriminate C.
Qed.

Example C62_example :
  Forall2 letter [FX; FE 1] (chars "x1") /\ (forall h, ~ letter h 119)
  /\ diff (df [dx 0 [7; 8]]) (df [dx 0 [6; 8]]) false false (chars "x1") false = Ret 0
  /\ diff (df [dx 0 [7; 8]]) (df [dx 0 [6; 8]]) false false (chars "x10") false = Ret (-1)
  /\ diff (df [dx 0 [7; 8]]) (df [dx 0 [6]]) false false (chars "1") false = Ret 0
  /\ diff (df [dx 0 [7; 8]]) (df [dx 0 [6; 8]]) false false (chars "0w") false = Ret (-1)
  /\ diff (df [dx 0 [7; 8]]) (df [dx 0 [6; 8]]) false false (chars "0") true = Ret 0.
Proof.
  split; [|split; [|vm_compute; repeat split]].
  - constructor; [reflexivity|]. constructor; [|constructor]. split; [lia|reflexivity].
  - intros []; cbn [letter]; lia.
Qed.

(** (Finding) With a selection of fields the comparison is not transitive. *)
Example C62_not_transitive : exists f g h, good_file f /\ good_file g /\ good_file h
  /\ diff f g false false (chars "0") false = Ret 0 /\ diff g h false false (chars "0") false = Ret 0
  /\ diff f h false false (chars "0") false = Ret (-1).
Proof.
  exists (df [dx 0 [1]]), (df [dx 0 []]), (df [dx 0 [2]]).
  split; [|split; [|split; [|vm_compute; repeat split]]].
  all: apply df_good; [|intros p q [<-|[]] [<-|[]]; reflexivity|cbn; lia].
  all: repeat constructor; cbn; unfold d_ok; try lia; now vm_compute.
Qed.

Print Assumptions C61_diff.
Print Assumptions C61_symmetric.
Print Assumptions C61_reflexive.
Print Assumptions C61_transitive.
Print Assumptions C61_files.
Print Assumptions C61_unreadable.
Print Assumptions C62_fields.
Print Assumptions C62_missing_extra_is_equal.
Print Assumptions C62_unknown_letter.
Print Assumptions C62_reverse.
Print Assumptions C62_conflicts.
