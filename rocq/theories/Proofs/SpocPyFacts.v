(** What writers put on a stream are bytes; the objects of a Python program. *)
From Coq Require Import String ZArith List Bool Lia.
From Verif.Model Require Import Base Double Header PointRecord File Compression IO TileApp SrsApp SpocPy.
From Verif.Spec Require Import Streams Files ZlibContract Format Python.
From Verif.Proofs Require Import BaseFacts CompressionFacts HeaderFacts PointRecordFacts FileFacts CompressedFacts SafetyFacts FileIOFacts ProgramFacts.
Import ListNotations.
Open Scope Z_scope.

(** ** Writers that put bytes only *)

Definition puts_bytes {A} (w : writer A) : Prop := forall os, bytes_ok (o_bytes os) -> bytes_ok (o_bytes (fst (w os))).

Lemma pb_lift {A} (m : outcome A) : puts_bytes (w_lift m).
Proof. intros os H. exact H. Qed.
Lemma pb_ret {A} (a : A) : puts_bytes (w_ret a).
Proof. intros os H. exact H. Qed.
Lemma pb_put bs : bytes_ok bs -> puts_bytes (w_put bs).
Proof.
  intros B os H. unfold w_put, os_write. cbn [fst]. destruct (o_bad os); [exact H|]. destruct (o_room os); [destruct (_ <=? _)|];
    cbn [o_bytes]; apply Forall_app; split; try exact H; try exact B.
  unfold bytes_ok in B. rewrite <- (ztake_zdrop z bs) in B. now apply Forall_app in B.
Qed.
Lemma pb_bind {A B} (m : writer A) (k : A -> writer B) : puts_bytes m -> (forall os a os', m os = (os', Ret a) -> puts_bytes (k a)) -> puts_bytes (w_bind m k).
Proof.
  intros M K os H. unfold w_bind. pose proof (M os H) as X. destruct (m os) as [os' r] eqn:E. cbn in X. destruct r; cbn; try exact X.
  now apply (K os a os').
Qed.
Lemma pb_seq {A} (m : writer unit) (k : writer A) : puts_bytes m -> puts_bytes k -> puts_bytes (w_seq m k).
Proof. intros M K. apply pb_bind; auto. Qed.
Lemma pb_iter {A} (f : A -> writer unit) l : (forall a, In a l -> puts_bytes (f a)) -> puts_bytes (w_iter f l).
Proof. induction l as [|a l IH]; intros H; cbn; [apply pb_ret|]. apply pb_seq; [apply H; now left|apply IH; intros; apply H; now right]. Qed.
Lemma pb_bind_lift {A B} (m : outcome A) (k : A -> writer B) : (forall a, m = Ret a -> puts_bytes (k a)) -> puts_bytes (w_bind (w_lift m) k).
Proof. intros K. apply pb_bind; [apply pb_lift|]. intros os a os' E. injection E as _ E. now apply K. Qed.

Lemma pb_header h : bytes_ok (h_wkt h) -> puts_bytes (write_header h).
Proof.
  intros W. unfold write_header. destruct (check_signature h) eqn:C; cbn [negb]; [|apply pb_lift].
  repeat apply pb_seq; apply pb_put; try apply le_bytes_ok; [|exact W].
  unfold check_signature in C. apply beq_bytes_eq in C. rewrite C. unfold bytes_ok, SPOC. repeat (apply Forall_cons; [unfold byte_ok, two8; lia|]). apply Forall_nil.
Qed.

Lemma pb_record p : puts_bytes (write_point_record p).
Proof.
  unfold write_point_record. apply pb_seq.
  - apply pb_put. pose proof (pr_bytes_ok p) as H. unfold pr_bytes in H. now apply Forall_app in H.
  - destruct (negb _); [|apply pb_ret]. apply pb_put. unfold u64s_image. apply flat_map_ok. intros; apply le_bytes_ok.
Qed.

Lemma pb_compressed c : bytes_ok c -> puts_bytes (write_compressed c).
Proof. intros B. unfold write_compressed. destruct c; [apply pb_put, le_bytes_ok|]. apply pb_seq; apply pb_put; [apply le_bytes_ok|exact B]. Qed.

Section WithZlib.
Variable z : zlib.
Variable ZS : list Z -> list Z -> Prop.
Hypothesis Hz : zlib_ok z ZS.

Lemma compress_loop_bytes fuel : forall st inp acc c, bytes_ok acc -> compress_loop z fuel st inp acc = Ret c -> bytes_ok c.
Proof.
  induction fuel as [|fuel IH]; intros st inp acc c B; cbn [compress_loop]; [discriminate|].
  destruct (deflate z st inp Z_FINISH BUFFER_SIZE) as [[st' rest] out] eqn:E.
  destruct (zk_deflate z ZS Hz _ _ _ _ _ _ _ BUFFER_pos E) as (_ & O & _).
  assert (X : bytes_ok (acc ++ out)) by (apply Forall_app; now split).
  destruct (_ =? 0); [apply IH, X|]. intros H. now injection H as <-.
Qed.

Lemma compress_field_bytes t x c : compress_field z t x = Ret c -> bytes_ok c.
Proof.
  unfold compress_field. destruct (all_zero t x); [intros H; injection H as <-; constructor|]. unfold compress_ptr.
  destruct (deflateInit z (-1)); [|discriminate]. apply compress_loop_bytes. constructor.
Qed.

Lemma mapM_all {A B} (f : A -> outcome B) (P : B -> Prop) l : (forall a b, f a = Ret b -> P b) -> forall bs, mapM f l = Ret bs -> Forall P bs.
Proof.
  intros H. induction l as [|a l IH]; cbn; intros bs; [intros E; injection E as <-; constructor|].
  destruct (f a) as [b| | |] eqn:E; try discriminate. cbn. destruct (mapM f l) as [bs'| | |]; try discriminate. cbn. intros X. injection X as <-.
  constructor; eauto.
Qed.

Lemma header_wkt f h : get_header f = Ret h -> h_wkt h = f_wkt f.
Proof. unfold get_header, header_ctor. destruct (_ <? _); [discriminate|]. intros E. now injection E as <-. Qed.

Lemma pb_file debug f : bytes_ok (f_wkt f) -> puts_bytes (write_spoc_file z debug f).
Proof.
  intros W. unfold write_spoc_file. apply pb_bind_lift. intros h0 _. destruct (negb _) eqn:Ec.
  - unfold write_spoc_file_compressed. apply pb_bind_lift. intros _ _. destruct (negb (f_compressed f)); [apply pb_lift|].
    apply pb_bind_lift. intros e _. apply pb_bind_lift. intros fields Ef. apply pb_bind_lift. intros extras Ee.
    apply pb_bind_lift. intros h Eh. apply header_wkt in Eh.
    apply mapM_all with (P := bytes_ok) in Ef; [|intros [t col] b; apply compress_field_bytes].
    apply mapM_all with (P := bytes_ok) in Ee; [|intros col b; apply compress_field_bytes].
    rewrite Forall_forall in Ef, Ee.
    apply pb_seq; [apply pb_header; now rewrite Eh|]. apply pb_seq; apply pb_iter; intros c Hc; apply pb_compressed; auto.
  - unfold write_spoc_file_uncompressed. apply pb_bind_lift. intros _ _. destruct (f_compressed f); [apply pb_lift|].
    apply pb_bind_lift. intros h Eh. apply header_wkt in Eh. apply pb_seq; [apply pb_header; now rewrite Eh|].
    apply pb_iter. intros; apply pb_record.
Qed.

(** ** The objects of a program *)

Lemma replace_at_Forall {A} (P : A -> Prop) i a l : P a -> Forall P l -> Forall P (replace_at i a l).
Proof. intros Ha. revert i. induction l as [|b l IH]; intros [|i] H; cbn; auto; inversion H; subst; constructor; auto. Qed.
Lemma replace_at_same {A} i (a : A) l : nth_error l i = Some a -> replace_at i a l = l.
Proof. revert i. induction l as [|b l IH]; intros [|i] H; cbn in *; try discriminate; [injection H as ->; reflexivity|]. now rewrite IH. Qed.
Lemma replace_at_nth {A} i (a : A) l b : nth_error l i = Some b -> nth_error (replace_at i a l) i = Some a.
Proof. revert i. induction l as [|c l IH]; intros [|i] H; cbn in *; try discriminate; auto. Qed.
Lemma replace_at_other {A} i j (a : A) l : i <> j -> nth_error (replace_at i a l) j = nth_error l j.
Proof. revert i j. induction l as [|c l IH]; intros [|i] [|j] H; cbn in *; try congruence; auto. Qed.
Lemma replace_at_length {A} i (a : A) l : length (replace_at i a l) = length l.
Proof. revert i. induction l as [|c l IH]; intros [|i]; cbn; congruence. Qed.
Lemma Forall_nth_error {A} (P : A -> Prop) l i a : Forall P l -> nth_error l i = Some a -> P a.
Proof. intros H E. apply nth_error_In in E. rewrite Forall_forall in H. auto. Qed.
Lemma the_Ret {A} (l : list A) i a : the l i = Ret a -> nth_error l i = Some a.
Proof. unfold the. destruct (nth_error l i); [|discriminate]. intros E. now injection E as ->. Qed.
End WithZlib.
