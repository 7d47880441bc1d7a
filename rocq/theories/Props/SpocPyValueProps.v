(** C113: what a Python program sees of its objects and files. *)
From Coq Require Import String ZArith List Bool Lia.
From Verif.Model Require Import Base Double Header PointRecord File Compression IO TileApp SrsApp SpocPy SpocPyValues.
From Verif.Spec Require Import Text Streams Files ZlibContract Format Fields Python.
From Verif.Proofs Require Import BaseFacts CompressionFacts HeaderFacts PointRecordFacts FileFacts CompressedFacts FileIOFacts FileMoreFacts SafetyFacts HistoryFacts HeaderCutFacts StoreFacts ProgramFacts SpocPyFacts ToyZlib.
From Verif.Props Require Import HeaderProps FileProps ProgramProps HistoryProps ScenarioProps SpocPyProps.
Import ListNotations.
Open Scope Z_scope.

(** The getters of columns and the fields they are named after *)
Definition named_after : list (py_getter * (list Z -> py_value) * (point_record -> Z)) :=
  [(G_getX, V_floats, rx); (G_getY, V_floats, ry); (G_getZ, V_floats, rz); (G_getC, V_ints, rc); (G_getP, V_ints, rp);
   (G_getI, V_ints, ri); (G_getR, V_ints, rr); (G_getG, V_ints, rg); (G_getB, V_ints, rb)].

(** A column holds the field of every record, in order. *)
Theorem C113_columns : forall g wrap fld, In (g, wrap, fld) named_after -> forall i st f,
  nth_error (py_spocfiles st) i = Some f ->
  exists col, py_value_of g i st = Ret (wrap col) /\ length col = length (f_prs f)
    /\ forall n p, nth_error (f_prs f) n = Some p -> nth_error col n = Some (fld p).
Proof.
  intros g wrap fld H i st f E. exists (map fld (f_prs f)).
  split; [|split; [apply map_length|intros n p; apply map_nth_error]].
  unfold py_value_of, the. rewrite E. cbn [bind].
  cbn in H. repeat (destruct H as [H|H]; [injection H as <- <- <-; reflexivity|]). destruct H.
Qed.

(** getExtra(k): the k-th extra field of every record; a k that no record has is an index out
    of range unless the object is empty; a k that is not a 64-bit unsigned number raises. *)
Theorem C113_extra : forall i st f k, sound st -> nth_error (py_spocfiles st) i = Some f ->
  match py_value_of (G_getExtra k) i st with
  | Ret v => 0 <= k < 2 ^ 64 /\ exists col, v = V_ints col /\ length col = length (f_prs f)
      /\ forall n p, nth_error (f_prs f) n = Some p -> nth_error col n = nth_error (rextra p) (Z.to_nat k)
           /\ k < Z.of_nat (length (rextra p))
  | Throw _ => ~ 0 <= k < 2 ^ 64
  | UB _ => exists p, In p (f_prs f) /\ Z.of_nat (length (rextra p)) <= k
  | Hang => False
  end.
Proof.
  intros i st f k So E. unfold py_value_of, the. rewrite E. cbn [bind py_get].
  destruct (fits 64 k) eqn:F; cbn [negb].
  2:{ unfold fits in F. apply andb_false_iff in F as [F|F]; [apply Z.leb_gt in F|apply Z.ltb_ge in F]; lia. }
  apply fits_range in F.
  destruct (Forall_dec (fun p => k < Z.of_nat (length (rextra p)))
              (fun p => Z_lt_dec k (Z.of_nat (length (rextra p)))) (f_prs f)) as [A|A].
  - rewrite Forall_forall in A.
    destruct (C25_extra_column (Z.to_nat k) (f_prs f)) as (col & Ec & L & N).
    { intros p Hp. specialize (A p Hp). lia. }
    rewrite Z2Nat.id in Ec by lia. rewrite Ec. cbn [bind]. split; [exact F|]. exists col. split; [reflexivity|]. split; [exact L|].
    intros n p Hn. split; [now apply N|]. apply A. eapply nth_error_In; eauto.
  - apply neg_Forall_Exists_neg in A; [|intros p; destruct (Z_lt_dec k (Z.of_nat (length (rextra p)))); auto].
    apply Exists_exists in A as (p & Hp & G).
    assert (G' : Z.of_nat (length (rextra p)) <= k) by lia.
    pose proof (C25_extra_missing (Z.to_nat k) (f_prs f) p Hp ltac:(lia)) as X. rewrite Z2Nat.id in X by lia. rewrite X. cbn [bind].
    now exists p.
Qed.

(** An object keeps its value while no method that changes it is called. *)
Lemma run_file z debug acc i cs : (forall c, In c cs -> ~ changes_file i c) -> forall st st' f,
  py_run z debug acc cs st = Some st' -> nth_error (py_spocfiles st) i = Some f -> nth_error (py_spocfiles st') i = Some f.
Proof.
  induction cs as [|c cs IH]; intros N st st' f; cbn [py_run]; [intros E; now injection E as <-|].
  destruct (py_step z debug acc c st) as [st1 r] eqn:E. destruct (C97_copies _ _ _ _ _ _ _ E) as (Fi & _).
  intros R H. assert (H1 : nth_error (py_spocfiles st1) i = Some f) by (apply Fi; [exact H|apply N; now left]).
  destruct r; try discriminate; (eapply IH; [intros; apply N; now right|exact R|exact H1]).
Qed.

Lemma value_of g i st f : nth_error (py_spocfiles st) i = Some f -> py_value_of g i st = py_get g f.
Proof. intros E. unfold py_value_of, the. now rewrite E. Qed.

(** The versions of every object are those of the module. *)
Theorem C113_versions : forall i st f, sound st -> nth_error (py_spocfiles st) i = Some f ->
  py_value_of G_getMajorVersion i st = Ret (V_int py_getmajorversion)
  /\ py_value_of G_getMinorVersion i st = Ret (V_int py_getminorversion)
  /\ py_getmajorversion = 0 /\ py_getminorversion = 1.
Proof.
  intros i st f So E. destruct (sound_nth _ _ _ So E) as (M1 & M2 & _).
  rewrite !(value_of _ _ _ _ E). cbn [py_get]. rewrite M1, M2. repeat split.
Qed.

(** What was set is what is got, whatever is called in between, until it is set again. *)
Theorem C113_set_get : forall z debug acc i f st cs st', nth_error (py_spocfiles st) i = Some f ->
  (forall c, In c cs -> ~ changes_file i c) ->
  (forall s, py_run z debug acc (Py_setWKT i s :: cs) st = Some st' ->
     py_value_of G_getWKT i st' = Ret (V_str s)
     /\ forall g, g <> G_getWKT -> py_value_of g i st' = py_value_of g i st)
  /\ (forall b, py_run z debug acc (Py_setCompressed i b :: cs) st = Some st' ->
     py_value_of G_getCompressed i st' = Ret (V_bool b)
     /\ forall g, g <> G_getCompressed -> py_value_of g i st' = py_value_of g i st).
Proof.
  intros z debug acc i f st cs st' E N. split.
  - intros s R. cbn [py_run py_step] in R. unfold method in R. rewrite E in R.
    assert (H : nth_error (py_spocfiles st') i = Some (set_wkt s f)).
    { eapply run_file; [exact N|exact R|]. cbn. eapply replace_at_nth, E. }
    split; [now rewrite (value_of _ _ _ _ H)|]. intros g G. rewrite (value_of _ _ _ _ H), (value_of _ _ _ _ E). destruct g; try reflexivity. congruence.
  - intros b R. cbn [py_run py_step] in R. unfold method in R. rewrite E in R.
    assert (H : nth_error (py_spocfiles st') i = Some (set_compressed b f)).
    { eapply run_file; [exact N|exact R|]. cbn. eapply replace_at_nth, E. }
    split; [now rewrite (value_of _ _ _ _ H)|]. intros g G. rewrite (value_of _ _ _ _ H), (value_of _ _ _ _ E). destruct g; try reflexivity. congruence.
Qed.

Lemma pairwise {A B} (P : A -> B -> Prop) l m : Forall2 P l m ->
  length l = length m /\ forall n a, nth_error l n = Some a -> exists b, nth_error m n = Some b /\ P a b.
Proof.
  intros H. induction H as [|a b l m Hab _ [L IH]]; [split; [reflexivity|intros [|n] a; discriminate]|].
  split; [cbn; now rewrite L|]. intros [|n] c E; cbn in *; [injection E as <-; now exists b|now apply IH].
Qed.

(** After setPointRecords the columns show the records as they were at that moment, also if
    the record objects change later. *)
Theorem C113_records : forall z debug acc i rs st st1 cs st',
  py_step z debug acc (Py_setPointRecords i rs) st = (st1, Ret tt) ->
  (forall c, In c cs -> ~ changes_file i c) -> py_run z debug acc cs st1 = Some st' ->
  forall g wrap fld, In (g, wrap, fld) named_after ->
  exists col, py_value_of g i st' = Ret (wrap col) /\ length col = length rs
    /\ forall n r p, nth_error rs n = Some r -> nth_error (py_records st) r = Some p -> nth_error col n = Some (fld p).
Proof.
  intros z debug acc i rs st st1 cs st' Es N R g wrap fld H.
  cbn [py_step] in Es. destruct (mapM (the (py_records st)) rs) as [prs| | |] eqn:M; try discriminate Es.
  unfold method in Es. destruct (nth_error (py_spocfiles st) i) as [f|] eqn:E; [|discriminate Es].
  unfold set_point_records, m_then, m_throw_if, m_update in Es.
  destruct (negb (all_same_size_extra prs)); [discriminate Es|]. injection Es as <-.
  assert (Hf : exists f', nth_error (py_spocfiles st') i = Some f' /\ f_prs f' = prs).
  { eexists. split; [|shelve]. eapply run_file; [exact N|exact R|]. cbn. eapply replace_at_nth, E. Unshelve. reflexivity. }
  destruct Hf as (f' & Hf & Ef). destruct (C113_columns g wrap fld H i st' f' Hf) as (col & Ev & L & Nc).
  exists col. split; [exact Ev|]. apply mapM_the in M. rewrite Ef in L, Nc.
  destruct (pairwise _ _ _ M) as [L2 P]. split; [lia|].
  intros n r p Hr Hp. destruct (P n r Hr) as (q & Hq & Eq). apply Nc. congruence.
Qed.

(** What is written begins with the header that describes the object. *)
Lemma write_head z ZS debug f : zlib_ok z ZS -> uniform (f_prs f) -> zlen (f_wkt f) <= 65535 ->
  exists h rest, get_header f = Ret h /\ emits (write_spoc_file z debug f) (header_bytes h ++ rest) tt.
Proof.
  intros Hz U W. destruct (header_short f W) as (h & Eh & Sh & Ch). exists h. unfold write_spoc_file.
  destruct (f_compressed f) eqn:C.
  - assert (X : Forall (fun r => zlen (rextra r) = get_extra_fields f) (f_prs f)) by now apply uniform_Forall.
    destruct (mapM_total (fun '(t, col) => compress_field z t col)
        [(t_double, map rx (f_prs f)); (t_double, map ry (f_prs f)); (t_double, map rz (f_prs f));
         (t_u32, map rc (f_prs f)); (t_u32, map rp (f_prs f)); (t_u16, map ri (f_prs f));
         (t_u16, map rr (f_prs f)); (t_u16, map rg (f_prs f)); (t_u16, map rb (f_prs f))]) as (cs & Ec).
    { intros [t col]. apply (compress_field_total z ZS Hz). }
    assert (Ex : exists e, mapM (extra_column (f_prs f)) (zseq (get_extra_fields f)) = Ret e).
    { eexists. apply (mapM_Ret _ (fun j => map (extra_sel j) (f_prs f))). intros j Hj.
      unfold zseq in Hj. apply in_map_iff in Hj as (i & <- & Hi). apply in_seq in Hi.
      unfold extra_column. apply mapM_Ret. intros p Hp. rewrite Forall_forall in X. specialize (X p Hp).
      unfold vec_get, extra_sel. destruct (znth_in_range (rextra p) (Z.of_nat i)) as [v ->]; [lia|reflexivity]. }
    destruct Ex as (e & Ex). destruct (mapM_total (compress_field z t_u64) e (compress_field_total z ZS Hz t_u64)) as (es & Ee).
    eexists. split; [exact Eh|]. eapply emits_lift; [exact Eh|]. rewrite Ch. cbn [b2z Z.eqb negb].
    unfold write_spoc_file_compressed. eapply emits_lift; [now apply require_valid_good|]. rewrite C. cbn [negb].
    eapply emits_lift; [exact Ex|]. eapply emits_lift; [exact Ec|]. eapply emits_lift; [exact Ee|]. eapply emits_lift; [exact Eh|].
    apply emits_seq; [now apply write_header_emits|]. apply emits_seq; apply emits_iter; intros; apply write_compressed_emits.
  - eexists. split; [exact Eh|]. eapply emits_lift; [exact Eh|]. rewrite Ch. cbn [b2z Z.eqb negb].
    unfold write_spoc_file_uncompressed. eapply emits_lift; [now apply require_valid_good|]. rewrite C.
    eapply emits_lift; [exact Eh|]. apply emits_seq; [now apply write_header_emits|].
    apply emits_iter. intros; apply write_point_record_emits.
Qed.

(** readheader of a file that was written, whatever was called in between: the WKT, the number
    of records, the flag as 0 or 1, version 0.1 and the number of extra fields modulo 256. *)
Theorem C113_header : forall z ZS debug acc fn i st f cs st', zlib_ok z ZS -> sound st -> nth_error (py_spocfiles st) i = Some f ->
  can_write acc fn = true -> can_read acc fn = true ->
  Z.of_nat (length (f_wkt f)) <= 65535 -> Z.of_nat (length (f_prs f)) < 2 ^ 64 ->
  (forall c, In c cs -> ~ writes_to fn c) -> py_run z debug acc (Py_writespocfile fn i :: cs) st = Some st' ->
  exists h, py_header_of acc fn st' = Ret h
    /\ py_header_get H_major_version h = V_int 0 /\ py_header_get H_minor_version h = V_int 1
    /\ py_header_get H_wkt h = V_str (f_wkt f) /\ py_header_get H_total_points h = V_int (Z.of_nat (length (f_prs f)))
    /\ py_header_get H_compressed h = V_int (if f_compressed f then 1 else 0)
    /\ (f_prs f = [] -> py_header_get H_extra_fields h = V_int 0)
    /\ (forall p, In p (f_prs f) -> py_header_get H_extra_fields h = V_int (Z.of_nat (length (rextra p)) mod 256)).
Proof.
  intros z ZS debug acc fn i st f cs st' Hz So E A B L T N Run. destruct (sound_nth _ _ _ So E) as (M1 & M2 & W & O & U).
  destruct (C97_write z ZS debug acc fn i st f Hz So E A L) as (bs & Ap & Es).
  destruct (write_head z ZS debug f Hz U L) as (h & rest & Eh & Em).
  rewrite (appends_once _ _ _ Ap (emits_appends _ _ Em)) in Es.
  cbn [py_run] in Run. rewrite Es in Run. apply (run_disk _ _ _ fn _ N) in Run. cbn [py_disk] in Run. rewrite put_self in Run.
  destruct (C24_get_header f) as (_ & D); [lia|lia|exact T|exact U|].
  destruct (D L) as (h' & Eh' & S1 & S2 & S3 & S4 & S5 & S6 & S7 & S8). rewrite Eh in Eh'. injection Eh' as <-.
  exists h. split.
  - unfold py_header_of, py_readheader, open_input. rewrite Run, B. cbn [bind].
    rewrite read_header_round_trip; [reflexivity|].
    assert (X : 0 <= h_extra h <= 255).
    { unfold get_header, header_ctor in Eh. destruct (65535 <? zlen (f_wkt f)); [discriminate|]. injection Eh as <-. cbn [h_extra].
      unfold to_u8. change two8 with 256. pose proof (Z.mod_pos_bound (get_extra_fields f) 256 eq_refl). lia. }
    constructor; [exact S1|congruence|congruence|rewrite S4; exact W|now rewrite S4|exact X|rewrite S5; lia|].
    rewrite S6. destruct (f_compressed f); lia.
  - unfold py_header_get. rewrite S2, S3, S4, S5, S6, M1, M2. repeat split; auto; intros; f_equal; auto.
Qed.

(** The values an attribute takes *)
Definition acceptable (a : py_header_attribute) (v : py_value) : Prop :=
  match a, v with
  | H_wkt, V_str _ => True
  | (H_major_version | H_minor_version | H_extra_fields | H_compressed), V_int n => 0 <= n < 256
  | H_total_points, V_int n => 0 <= n < 2 ^ 64
  | (H_major_version | H_minor_version | H_extra_fields | H_compressed | H_total_points), V_bool _ => True
  | _, _ => False
  end.

(** True is 1 and False is 0. *)
Definition as_int (v : py_value) : py_value := match v with V_bool true => V_int 1 | V_bool false => V_int 0 | _ => v end.

(** An assignment to an attribute of a Header sets this attribute and no other, or raises. *)
Theorem C113_header_attributes : forall a v h,
  (acceptable a v -> exists h', py_header_assign a v h = Ret h' /\ h_sig h' = h_sig h
     /\ py_header_get a h' = as_int v /\ forall b, b <> a -> py_header_get b h' = py_header_get b h)
  /\ (~ acceptable a v -> exists e, py_header_assign a v h = Throw e).
Proof.
  assert (F : forall bits n, fits bits n = true <-> 0 <= n < 2 ^ bits).
  { intros bits n. unfold fits. rewrite andb_true_iff, Z.leb_le, Z.ltb_lt. reflexivity. }
  intros a v h. destruct a, v as [n|s|[]|l|l]; cbn [acceptable py_header_assign as_int b2z];
    (split; intros H; try contradiction; try (exfalso; tauto));
    try (eexists; reflexivity);
    try (change 256 with (2 ^ 8) in H; apply F in H);
    try (match goal with |- context [fits ?k n] => destruct (fits k n) eqn:G end); try discriminate;
    try (apply F in G; exfalso; apply H; exact G); try (eexists; reflexivity);
    try (eexists; split; [reflexivity|]; split; [reflexivity|]; split; [reflexivity|]; intros [] Hb; try reflexivity; congruence).
Qed.

(** ** Examples *)

(** The program of C97: records 0 and 1 are put into an object, then changed. *)
Example C113_example : exists st st', py_run toy true py_rights py_program (fresh (fun _ => None)) = Some st
  /\ py_value_of G_getC 0 st = Ret (V_ints [3; 0; 5]) /\ py_value_of (G_getExtra 1) 0 st = Ret (V_ints [8; 2 ^ 64 - 1; 2 ^ 64 - 1])
  /\ (exists u, py_value_of (G_getExtra 2) 0 st = UB u) /\ (exists e, py_value_of (G_getExtra (-1)) 0 st = Throw e)
  /\ py_run toy true py_rights [Py_setWKT 0 (chars "A"); Py_writespocfile (chars "a") 0; Py_setWKT 0 (chars "B")] st = Some st'
  /\ py_value_of G_getWKT 0 st' = Ret (V_str (chars "B"))
  /\ py_header_of py_rights (chars "a") st' = Ret (mk_header [83; 80; 79; 67] 0 1 (chars "A") 2 3 0).
Proof.
  eexists. eexists. split; [vm_compute; reflexivity|]. split; [vm_compute; reflexivity|]. split; [vm_compute; reflexivity|].
  split; [eexists; vm_compute; reflexivity|]. split; [eexists; vm_compute; reflexivity|]. split; [vm_compute; reflexivity|].
  split; vm_compute; reflexivity.
Qed.

(** The hypotheses of C113_header hold for it. *)
Example C113_example_header : exists st f st', sound st /\ nth_error (py_spocfiles st) 0 = Some f
  /\ py_run toy true py_rights [Py_writespocfile (chars "a") 0; Py_setPointRecords 0 []] st = Some st'
  /\ exists h, py_header_of py_rights (chars "a") st' = Ret h /\ py_header_get H_total_points h = V_int 3 /\ py_header_get H_extra_fields h = V_int 2.
Proof.
  destruct C97_example_objects as (st & f & E & So & N & Q & _). vm_compute in E. injection E as <-. vm_compute in N. injection N as <-.
  eexists. eexists. eexists. split; [exact So|]. split; [reflexivity|]. split; [vm_compute; reflexivity|].
  match goal with |- exists h, py_header_of _ _ ?s = _ /\ _ => set (st2 := s) end.
  destruct (C113_header toy toy_stream true py_rights (chars "a") 0 _ _ [Py_setPointRecords 0 []] st2 toy_ok So eq_refl eq_refl eq_refl)
    as (h & A & _ & _ & _ & T & _ & _ & X).
  - cbn; lia.
  - cbn; lia.
  - intros c [<-|[]] (i & Y); discriminate Y.
  - vm_compute. reflexivity.
  - exists h. split; [exact A|]. split; [exact T|]. rewrite (X _ (or_introl eq_refl)). reflexivity.
Qed.

Print Assumptions C113_columns.
Print Assumptions C113_extra.
Print Assumptions C113_versions.
Print Assumptions C113_set_get.
Print Assumptions C113_records.
Print Assumptions C113_header.
Print Assumptions C113_header_attributes.
