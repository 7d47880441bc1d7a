(** The Python module: what its calls do to objects and files. *)
From Coq Require Import String ZArith List Bool Lia.
From Verif.Model Require Import Base Double Header PointRecord File Compression IO TileApp SrsApp SpocPy.
From Verif.Spec Require Import Text Streams Files ZlibContract Format Fields Python.
From Verif.Proofs Require Import BaseFacts HeaderFacts PointRecordFacts FileFacts CompressedFacts FileIOFacts SafetyFacts HistoryFacts HeaderCutFacts StoreFacts ProgramFacts SpocPyFacts ToyZlib.
From Verif.Props Require Import HeaderProps FileProps ProgramProps ScenarioProps.
Import ListNotations.
Open Scope Z_scope.

Lemma sound_nth st i f : sound st -> nth_error (py_spocfiles st) i = Some f -> sound_file f.
Proof. intros (A & _) E. now apply (Forall_nth_error _ _ _ _ A E). Qed.

Lemma mapM_the l rs prs : mapM (the l) rs = Ret prs -> Forall2 (fun r (p : point_record) => nth_error l r = Some p) rs prs.
Proof.
  revert prs. induction rs as [|r rs IH]; intros prs; cbn; [intros E; injection E as <-; constructor|].
  destruct (the l r) as [p| | |] eqn:E; try discriminate. cbn. destruct (mapM (the l) rs) as [ps| | |]; try discriminate. cbn.
  intros H. injection H as <-. constructor; [now apply the_Ret|now apply IH].
Qed.

Lemma mapM_the_throws l rs : match mapM (the (A := point_record) l) rs with UB _ | Hang => False | _ => True end.
Proof.
  induction rs as [|r rs IH]; cbn; [exact I|]. unfold the at 1. destruct (nth_error l r); cbn; [|exact I].
  destruct (mapM (the l) rs); cbn; auto.
Qed.

Lemma fits_range bits v : fits bits v = true -> 0 <= v < 2 ^ bits.
Proof. unfold fits. intros H. apply andb_prop in H as [A B]. apply Z.leb_le in A. apply Z.ltb_lt in B. lia. Qed.

Lemma assigned_ok a p p' : assign_attribute a p = Ret p' -> pr_ok p -> pr_ok p'.
Proof.
  intros E O. destruct O. destruct a; cbn [assign_attribute] in E;
    match type of E with (if ?c then _ else _) = _ => destruct c eqn:F; [|discriminate] end; injection E as <-;
    try (apply fits_range in F); constructor; cbn; try assumption; try exact F.
  apply Forall_forall. intros u Hu. rewrite forallb_forall in F. exact (fits_range 64 u (F u Hu)).
Qed.

(** [set_point_record] on an object of a program *)
Lemma set_record_result debug n p f : sound_file f -> pr_ok p -> 0 <= n ->
  let '(f', r) := set_point_record debug n p f in
  match r with
  | Ret _ => sound_file f' /\ exists q, nth_error (f_prs f) (Z.to_nat n) = Some q
      /\ f' = with_prs f (firstn (Z.to_nat n) (f_prs f) ++ p :: skipn (S (Z.to_nat n)) (f_prs f))
  | Throw _ => f' = f
  | UB _ => f' = f /\ zlen (f_prs f) <= n /\ debug = false
  | Hang => False
  end.
Proof.
  intros (M1 & M2 & W & O & U) Op N. unfold set_point_record, m_then, m_throw_if.
  destruct (debug && negb (n <? zlen (f_prs f))) eqn:C1; [reflexivity|].
  destruct (negb (zlen (rextra p) =? get_extra_fields f)) eqn:C2; [reflexivity|].
  apply negb_false_iff, Z.eqb_eq in C2. unfold m_store, vec_set. destruct (znth (f_prs f) n) as [q|] eqn:Zn.
  - pose proof (znth_Some_range _ _ _ Zn) as R. rewrite znth_nth_error in Zn by lia.
    assert (Es : zset (f_prs f) n p = Some (firstn (Z.to_nat n) (f_prs f) ++ p :: skipn (S (Z.to_nat n)) (f_prs f))).
    { rewrite <- (Z2Nat.id n) at 1 by lia. exact (zset_split _ _ _ q Zn). }
    rewrite Es.
    assert (L : length (rextra p) = length (rextra q)).
    { rewrite (get_extra_fields_In f q) in C2; [unfold zlen in C2; lia|exact U|eapply nth_error_In; eauto]. }
    split; [|exists q; auto]. split; [exact M1|]. split; [exact M2|]. split; [exact W|]. cbn [f_prs with_prs]. split.
    + apply Forall_app. rewrite <- (firstn_skipn (Z.to_nat n) (f_prs f)) in O at 1. apply Forall_app in O as [O1 O2]. split; [exact O1|].
      constructor; [exact Op|]. apply Forall_forall. intros v Hv. pose proof (proj2 (Forall_app _ _ _) (conj O1 O2)) as O.
      rewrite firstn_skipn in O. rewrite Forall_forall in O. apply O.
      rewrite <- (firstn_skipn (S (Z.to_nat n)) (f_prs f)). apply in_or_app. now right.
    + eapply uniform_replace; eauto.
  - apply znth_None_range in Zn. rewrite zset_None by exact Zn. split; [reflexivity|]. split; [lia|].
    destruct debug; [|reflexivity]. cbn in C1. apply negb_false_iff, Z.ltb_lt in C1. lia.
Qed.

Lemma read_sound z ZS acc fn fs f : zlib_ok z ZS -> (forall n bs, fs n = Some bs -> is_bytes bs) ->
  py_readspocfile z acc fn fs = Ret f -> sound_file f /\ zlen (f_wkt f) <= 65535.
Proof.
  intros Hz D. unfold py_readspocfile, open_input. destruct (fs fn) as [bs|] eqn:E; [|discriminate].
  destruct (can_read acc fn); [|discriminate]. cbn [bind]. destruct (read_spoc_file z (i_open bs)) as [[g s]| | |] eqn:R; try discriminate.
  cbn [bind]. intros X. injection X as <-. specialize (D _ _ E).
  destruct (read_writable z ZS Hz bs g s D R) as (U & W & M1 & M2 & O). split; [|exact W].
  split; [exact M1|]. split; [exact M2|]. split; [|now split].
  pose proof (read_file_total z ZS Hz (i_open bs) D) as H. rewrite R in H. destruct H as (h & s1 & Eh & _ & _ & -> & _).
  destruct (read_header_good (i_open bs) h s1 D Eh) as [[] _]. assumption.
Qed.

Lemma written_disk z ZS debug acc fn f fs : zlib_ok z ZS -> (forall n bs, fs n = Some bs -> is_bytes bs) -> is_bytes (f_wkt f) ->
  forall n bs, fst (py_writespocfile z debug acc fn f fs) n = Some bs -> is_bytes bs.
Proof.
  intros Hz D W n bs. unfold py_writespocfile. destruct (negb (can_write acc fn)); [apply D|].
  pose proof (pb_file z ZS Hz debug f W o_open ltac:(constructor)) as X. destruct (write_spoc_file z debug f o_open) as [os r]. cbn [fst] in *.
  unfold file_put. destruct (beq_bytes n fn); [|apply D]. intros E. now injection E as <-.
Qed.

Lemma zero_ok : pr_ok (pr_zero 0).
Proof. constructor; try (now split); cbn; constructor. Qed.

Lemma step_sound z ZS debug acc c st : zlib_ok z ZS -> text_ok c -> sound st ->
  match snd (py_step z debug acc c st) with Ret _ | Throw _ => sound (fst (py_step z debug acc c st)) | _ => True end.
Proof.
  intros Hz T (F & R & D). destruct c; cbn [py_step].
  - cbn. split; [exact F|]. split; [|exact D]. apply Forall_app. split; [exact R|]. constructor; [|constructor]. exact zero_ok.
  - unfold changes. destruct (the (py_records st) r) as [p| | |] eqn:E1; cbn [bind fst snd]; try exact I; [|now split].
    destruct (assign_attribute a p) as [p'| | |] eqn:E2; cbn [bind fst snd]; try exact I; [|now split].
    split; [exact F|]. split; [|exact D]. cbn. apply replace_at_Forall; [|exact R]. apply the_Ret in E1.
    apply (assigned_ok _ _ _ E2). apply (Forall_nth_error _ _ _ _ R E1).
  - cbn. split; [|split; [exact R|exact D]]. cbn. apply Forall_app. split; [exact F|]. constructor; [|constructor].
    split; [reflexivity|]. split; [reflexivity|]. split; [exact T|]. split; [constructor|]. intros ? ? [].
  - unfold method. destruct (nth_error (py_spocfiles st) f) as [g|] eqn:E; [|now split]. cbn.
    destruct (Forall_nth_error _ _ _ _ F E) as (M1 & M2 & W & O & U). split; [|now split]. cbn. apply replace_at_Forall; [|exact F]. now repeat split.
  - unfold method. destruct (nth_error (py_spocfiles st) f) as [g|] eqn:E; [|now split]. cbn.
    destruct (Forall_nth_error _ _ _ _ F E) as (M1 & M2 & W & O & U). split; [|now split]. cbn. apply replace_at_Forall; [|exact F]. now repeat split.
  - unfold changes. destruct (the (py_spocfiles st) f) as [g| | |] eqn:E1; cbn [bind fst snd]; try exact I; [|now split].
    destruct (fits 64 i); cbn [negb]; [|now split]. unfold get_point_record, vec_get.
    destruct (znth (f_prs g) i) as [p|] eqn:Zn; cbn [bind fst snd]; [|exact I].
    split; [exact F|]. split; [|exact D]. cbn. apply Forall_app. split; [exact R|]. constructor; [|constructor].
    pose proof (znth_Some_range _ _ _ Zn). rewrite znth_nth_error in Zn by lia. apply the_Ret in E1.
    destruct (Forall_nth_error _ _ _ _ F E1) as (_ & _ & _ & O & _). apply (Forall_nth_error _ _ _ _ O Zn).
  - destruct (the (py_records st) r) as [p| | |] eqn:E1; cbn [fst snd]; try exact I; [|now split].
    destruct (fits 64 i) eqn:Fi; cbn [negb]; [|now split]. apply fits_range in Fi. apply the_Ret in E1.
    unfold method. destruct (nth_error (py_spocfiles st) f) as [g|] eqn:E; [|now split].
    pose proof (set_record_result debug i p g (Forall_nth_error _ _ _ _ F E) (Forall_nth_error _ _ _ _ R E1) (proj1 Fi)) as H.
    destruct (set_point_record debug i p g) as [g' o]. cbn [fst snd]. destruct o; try exact I.
    + split; [|now split]. cbn. apply replace_at_Forall; [apply H|exact F].
    + subst g'. split; [|now split]. cbn. now rewrite replace_at_same.
  - unfold changes. destruct (the (py_spocfiles st) f) as [g| | |] eqn:E1; cbn [bind fst snd]; try exact I; [|now split].
    apply the_Ret in E1. split; [exact F|]. split; [|exact D]. cbn. apply Forall_app. split; [exact R|].
    now destruct (Forall_nth_error _ _ _ _ F E1) as (_ & _ & _ & O & _).
  - destruct (mapM (the (py_records st)) rs) as [prs| | |] eqn:E1; cbn [fst snd]; try exact I; [|now split].
    unfold method. destruct (nth_error (py_spocfiles st) f) as [g|] eqn:E; [|now split].
    destruct (Forall_nth_error _ _ _ _ F E) as (M1 & M2 & W & O & U).
    unfold set_point_records, m_then, m_throw_if, m_update. destruct (all_same_size_extra prs) eqn:A; cbn.
    + split; [|now split]. cbn. apply replace_at_Forall; [|exact F]. split; [exact M1|]. split; [exact M2|]. split; [exact W|]. cbn. split.
      * apply mapM_the in E1. clear - E1 R. induction E1; constructor; auto. apply (Forall_nth_error _ _ _ _ R H).
      * now apply all_same_size_uniform.
    + split; [|now split]. cbn. now rewrite replace_at_same.
  - unfold changes. destruct (py_readheader acc fn (py_disk st)); cbn; try exact I; now split.
  - unfold changes. destruct (py_readspocfile z acc fn (py_disk st)) as [g| | |] eqn:E; cbn [bind fst snd]; try exact I; [|now split].
    split; [|now split]. cbn. apply Forall_app. split; [exact F|]. constructor; [|constructor]. now apply (read_sound z ZS acc fn (py_disk st) g).
  - destruct (nth_error (py_spocfiles st) f) as [g|] eqn:E; [|now split].
    pose proof (written_disk z ZS debug acc fn g (py_disk st) Hz D) as X.
    destruct (py_writespocfile z debug acc fn g (py_disk st)) as [fs o]. cbn [fst snd] in *.
    destruct (Forall_nth_error _ _ _ _ F E) as (_ & _ & W & _). destruct o; try exact I; (split; [exact F|]; split; [exact R|]; exact (X W)).
Qed.

Lemma run_sound z ZS debug acc cs : zlib_ok z ZS -> Forall text_ok cs -> forall st st', sound st -> py_run z debug acc cs st = Some st' -> sound st'.
Proof.
  intros Hz T. induction T as [|c cs T Ts IH]; cbn; intros st st' S; [intros E; now injection E as <-|].
  pose proof (step_sound z ZS debug acc c st Hz T S) as X. destruct (py_step z debug acc c st) as [st1 r]. cbn in X.
  destruct r; try discriminate; now apply IH.
Qed.

(** ** C97: the Python module *)

(** Whatever a program calls, in any order and whether calls raise or not: its SpocFile
    objects have version 0.1, records whose members are within their ranges, and equally
    many extra fields in all records. *)
Theorem C97_objects z ZS debug acc disk cs st : zlib_ok z ZS -> (forall n bs, disk n = Some bs -> is_bytes bs) -> Forall text_ok cs ->
  py_run z debug acc cs (fresh disk) = Some st -> sound st.
Proof. intros Hz D T. apply (run_sound z ZS debug acc cs Hz T). split; [constructor|]. split; [constructor|exact D]. Qed.

(** A call makes new objects at most.  It changes a SpocFile object, a record object or a
    file only if it is a method of that object, an assignment to an attribute of that record
    or a write to that file: what getters return are copies. *)
Theorem C97_copies z debug acc c st st' r : py_step z debug acc c st = (st', r) ->
  (forall i f, nth_error (py_spocfiles st) i = Some f -> ~ changes_file i c -> nth_error (py_spocfiles st') i = Some f) /\
  (forall i p, nth_error (py_records st) i = Some p -> ~ changes_record i c -> nth_error (py_records st') i = Some p) /\
  (forall n, ~ writes_to n c -> py_disk st' n = py_disk st n).
Proof.
  intros E. assert (App : forall A (l l' : list A) i a, nth_error l i = Some a -> nth_error (l ++ l') i = Some a).
  { intros A l l' i a X. rewrite nth_error_app1; [exact X|]. apply nth_error_Some. congruence. }
  assert (Ch : forall m, py_step z debug acc c st = changes m st -> st' = st \/ m = Ret st').
  { intros m X. rewrite X in E. unfold changes in E. destruct m; injection E as <- <-; auto. }
  assert (Me : forall i m, py_step z debug acc c st = method i m st -> st' = st \/ exists g, st' = put_file i g st).
  { intros i m X. rewrite X in E. unfold method in E. destruct (nth_error _ i); [|injection E as <- <-; auto].
    destruct (m s) as [g o]. injection E as <- <-. eauto. }
  assert (Id : st' = st -> (forall i f, nth_error (py_spocfiles st) i = Some f -> ~ changes_file i c -> nth_error (py_spocfiles st') i = Some f) /\
    (forall i p, nth_error (py_records st) i = Some p -> ~ changes_record i c -> nth_error (py_records st') i = Some p) /\
    (forall n, ~ writes_to n c -> py_disk st' n = py_disk st n)) by (intros ->; auto).
  assert (Pf : forall j g, (forall i, ~ changes_file i c -> i <> j) -> st' = put_file j g st ->
    (forall i f, nth_error (py_spocfiles st) i = Some f -> ~ changes_file i c -> nth_error (py_spocfiles st') i = Some f) /\
    (forall i p, nth_error (py_records st) i = Some p -> ~ changes_record i c -> nth_error (py_records st') i = Some p) /\
    (forall n, ~ writes_to n c -> py_disk st' n = py_disk st n)).
  { intros j g N ->. split; [|split; auto]. intros i f X Y. cbn. rewrite replace_at_other; [exact X|]. intros <-. now apply (N j Y). }
  destruct c.
  - destruct (Ch _ eq_refl) as [X|X]; [now apply Id|]. injection X as <-. cbn. auto.
  - destruct (Ch _ eq_refl) as [X|X]; [now apply Id|]. destruct (the (py_records st) r0); try discriminate X. cbn [bind] in X.
    destruct (assign_attribute a a0); try discriminate X. injection X as <-. cbn. split; [auto|]. split; [|auto].
    intros i q Hq N. rewrite replace_at_other; [exact Hq|]. intros <-. apply N. now exists a.
  - destruct (Ch _ eq_refl) as [X|X]; [now apply Id|]. injection X as <-. cbn. auto.
  - destruct (Me _ _ eq_refl) as [X|(g & X)]; [now apply Id|]. apply (Pf f g); [|exact X]. intros i N ->. apply N. left. eauto.
  - destruct (Me _ _ eq_refl) as [X|(g & X)]; [now apply Id|]. apply (Pf f g); [|exact X]. intros i N ->. apply N. right. left. eauto.
  - destruct (Ch _ eq_refl) as [X|X]; [now apply Id|]. destruct (the (py_spocfiles st) f); try discriminate X. cbn [bind] in X.
    destruct (negb (fits 64 i)); [discriminate X|]. destruct (get_point_record a i); try discriminate X. injection X as <-. cbn. auto.
  - cbn [py_step] in Me, E. destruct (the (py_records st) r0); try (injection E as <- <-; now apply Id).
    destruct (negb (fits 64 i)); [injection E as <- <-; now apply Id|].
    destruct (Me _ _ eq_refl) as [X|(g & X)]; [now apply Id|]. apply (Pf f g); [|exact X]. intros j N ->. apply N. right. right. left. eauto.
  - destruct (Ch _ eq_refl) as [X|X]; [now apply Id|]. destruct (the (py_spocfiles st) f); try discriminate X. injection X as <-. cbn. auto.
  - cbn [py_step] in Me, E. destruct (mapM (the (py_records st)) rs); try (injection E as <- <-; now apply Id).
    destruct (Me _ _ eq_refl) as [X|(g & X)]; [now apply Id|]. apply (Pf f g); [|exact X]. intros j N ->. apply N. right. right. right. eauto.
  - destruct (Ch _ eq_refl) as [X|X]; [now apply Id|]. destruct (py_readheader acc fn (py_disk st)); try discriminate X. injection X as <-. auto.
  - destruct (Ch _ eq_refl) as [X|X]; [now apply Id|]. destruct (py_readspocfile z acc fn (py_disk st)); try discriminate X. injection X as <-. cbn. auto.
  - cbn [py_step] in E. destruct (nth_error (py_spocfiles st) f) as [g|]; [|injection E as <- <-; now apply Id].
    unfold py_writespocfile in E. destruct (negb (can_write acc fn)); [injection E as <- <-; auto|].
    destruct (write_spoc_file z debug g o_open) as [os o]. injection E as <- <-. cbn [py_spocfiles py_records py_disk]. split; [auto|]. split; [auto|].
    intros n N. unfold file_put. destruct (beq_bytes n fn) eqn:B; [|reflexivity]. apply beq_bytes_eq in B. subst n. exfalso. apply N. now exists f.
Qed.

(** A call that raises has no effect, but for writespocfile, which can have changed the file
    that it writes. *)
Theorem C97_refused z debug acc c st st' e : sound st -> py_step z debug acc c st = (st', Throw e) ->
  st' = st \/ exists n, writes_to n c /\ py_spocfiles st' = py_spocfiles st /\ py_records st' = py_records st.
Proof.
  intros S E. assert (Ch : forall m, (st', Throw e) = changes m st -> st' = st).
  { intros m X. unfold changes in X. destruct m; congruence. }
  destruct c; cbn [py_step] in E; try (left; eapply Ch; symmetry; exact E).
  - unfold method in E. destruct (nth_error _ f); [discriminate|left; congruence].
  - unfold method in E. destruct (nth_error _ f); [discriminate|left; congruence].
  - left. destruct (the (py_records st) r) as [p| | |] eqn:E1; try congruence. destruct (fits 64 i) eqn:Fi; cbn [negb] in E; [|congruence].
    apply fits_range in Fi. apply the_Ret in E1. unfold method in E. destruct (nth_error (py_spocfiles st) f) as [g|] eqn:E2; [|congruence].
    pose proof (set_record_result debug i p g (sound_nth _ _ _ S E2) (Forall_nth_error _ _ _ _ (proj1 (proj2 S)) E1) (proj1 Fi)) as H.
    destruct (set_point_record debug i p g) as [g' o]. injection E as <- ->. subst g'. unfold put_file. rewrite replace_at_same by exact E2. now destruct st.
  - left. destruct (mapM (the (py_records st)) rs) as [prs| | |]; try congruence. unfold method in E.
    destruct (nth_error (py_spocfiles st) f) as [g|] eqn:E2; [|congruence].
    unfold set_point_records, m_then, m_throw_if, m_update in E. destruct (negb _); [|discriminate]. injection E as <- _.
    unfold put_file. rewrite replace_at_same by exact E2. now destruct st.
  - destruct (nth_error (py_spocfiles st) f) as [g|] eqn:E2; [|left; congruence].
    destruct (py_writespocfile z debug acc fn g (py_disk st)) as [fs o]. injection E as <- ->. right. exists fn. split; [now exists f|]. now split.
Qed.

(** What an assignment to an attribute does: the attribute has the value if it is within the
    range of its type, and all others keep theirs; else the assignment raises. *)
Theorem C97_assign z debug acc r a f v p st : attribute a = Some (f, v) -> nth_error (py_records st) r = Some p ->
  (0 <= v < range f -> exists st' p', py_step z debug acc (Py_assign r a) st = (st', Ret tt)
     /\ nth_error (py_records st') r = Some p' /\ assigned f v p p') /\
  (~ 0 <= v < range f -> exists e, py_step z debug acc (Py_assign r a) st = (st, Throw e)).
Proof.
  intros A E. assert (X : exists p', assigned f v p p' /\ assign_attribute a p = if fits (Z.log2 (range f)) v then Ret p' else Throw type_error).
  { destruct a; try discriminate A; injection A as <- <-; eexists; (split; [|reflexivity]); (split; [reflexivity|]); (split; [reflexivity|]);
      intros [] N; try reflexivity; exfalso; apply N; now left. }
  assert (Rg : 2 ^ Z.log2 (range f) = range f) by (destruct f; reflexivity).
  destruct X as (p' & As & Eq). cbn [py_step]. unfold the. rewrite E. cbn [bind]. rewrite Eq. split; intros V.
  - assert (F : fits (Z.log2 (range f)) v = true).
    { unfold fits. rewrite Rg. apply andb_true_intro. split; [apply Z.leb_le|apply Z.ltb_lt]; lia. }
    rewrite F. eexists. exists p'. split; [reflexivity|]. split; [apply (replace_at_nth _ _ _ _ E)|exact As].
  - assert (F : fits (Z.log2 (range f)) v = false).
    { destruct (fits _ v) eqn:F; [|reflexivity]. apply fits_range in F. rewrite Rg in F. contradiction. }
    rewrite F. eexists. reflexivity.
Qed.

Theorem C97_assign_extra z debug acc r vs p st : nth_error (py_records st) r = Some p ->
  (Forall (fun v => 0 <= v < 2 ^ 64) vs -> exists st' p', py_step z debug acc (Py_assign r (Py_extra vs)) st = (st', Ret tt)
     /\ nth_error (py_records st') r = Some p' /\ rextra p' = vs /\ forall f, (forall k, f <> FE k) -> value f p' = value f p) /\
  (~ Forall (fun v => 0 <= v < 2 ^ 64) vs -> exists e, py_step z debug acc (Py_assign r (Py_extra vs)) st = (st, Throw e)).
Proof.
  intros E. cbn [py_step]. unfold the. rewrite E. cbn [bind assign_attribute].
  assert (X : forallb (fits 64) vs = true <-> Forall (fun v => 0 <= v < 2 ^ 64) vs).
  { rewrite forallb_forall, Forall_forall. split; intros H v Hv.
    - now apply fits_range, H.
    - specialize (H v Hv). unfold fits. apply andb_true_intro. split; [apply Z.leb_le|apply Z.ltb_lt]; lia. }
  split; intros V.
  - rewrite (proj2 X V). eexists. eexists. split; [reflexivity|]. split; [apply (replace_at_nth _ _ _ _ E)|]. split; [reflexivity|].
    intros [] N; try reflexivity. exfalso. now apply (N k).
  - destruct (forallb (fits 64) vs) eqn:F; [exfalso; now apply V, X|]. eexists. reflexivity.
Qed.

(** What new objects hold, and what the setters of a SpocFile set. *)
Theorem C97_new z debug acc st :
  py_step z debug acc Py_PointRecord st = (add_record (mk_pr 0 0 0 0 0 0 0 0 0 []) st, Ret tt) /\
  (forall wkt b, py_step z debug acc (Py_SpocFile wkt b) st = (add_file (mk_file 0 1 wkt b []) st, Ret tt)) /\
  (forall i f, nth_error (py_spocfiles st) i = Some f ->
    (forall s, exists st', py_step z debug acc (Py_setWKT i s) st = (st', Ret tt)
       /\ nth_error (py_spocfiles st') i = Some (mk_file (f_major f) (f_minor f) s (f_compressed f) (f_prs f))) /\
    (forall b, exists st', py_step z debug acc (Py_setCompressed i b) st = (st', Ret tt)
       /\ nth_error (py_spocfiles st') i = Some (mk_file (f_major f) (f_minor f) (f_wkt f) b (f_prs f)))).
Proof.
  split; [reflexivity|]. split; [reflexivity|]. intros i f E. cbn [py_step]. unfold method. rewrite E.
  split; intros; eexists; (split; [reflexivity|]); apply (replace_at_nth _ _ _ _ E).
Qed.

(** What is set is what is got: the values that the records have at the time of the call, in
    the order of the list. *)
Theorem C97_set_all z debug acc i rs st st' : py_step z debug acc (Py_setPointRecords i rs) st = (st', Ret tt) ->
  exists prs st2, Forall2 (fun r p => nth_error (py_records st) r = Some p) rs prs
    /\ py_step z debug acc (Py_getPointRecords i) st' = (st2, Ret tt) /\ py_records st2 = py_records st' ++ prs.
Proof.
  cbn [py_step]. destruct (mapM (the (py_records st)) rs) as [prs| | |] eqn:E1; try discriminate. unfold method.
  destruct (nth_error (py_spocfiles st) i) as [g|] eqn:E2; [|discriminate]. unfold set_point_records, m_then, m_throw_if, m_update.
  destruct (negb _); [discriminate|]. intros E. injection E as <-. exists prs. eexists. split; [now apply mapM_the|].
  unfold the, put_file. cbn [py_spocfiles]. rewrite (replace_at_nth _ _ _ _ E2). split; reflexivity.
Qed.

Lemma got z debug acc i n st st2 : 0 <= n < 2 ^ 64 -> py_step z debug acc (Py_getPointRecord i n) st = (st2, Ret tt) <->
  exists f q, nth_error (py_spocfiles st) i = Some f /\ nth_error (f_prs f) (Z.to_nat n) = Some q /\ st2 = add_record q st.
Proof.
  intros N. cbn [py_step]. unfold changes, the. split.
  - destruct (nth_error (py_spocfiles st) i) as [f|]; cbn [bind]; [|discriminate]. destruct (fits 64 n); cbn [negb]; [|discriminate].
    unfold get_point_record, vec_get. rewrite znth_nth_error by lia. destruct (nth_error (f_prs f) (Z.to_nat n)) as [q|] eqn:E; cbn [bind]; [|discriminate].
    intros X. injection X as <-. now exists f, q.
  - intros (f & q & -> & E & ->). cbn [bind]. unfold fits. rewrite (proj2 (Z.leb_le 0 n)), (proj2 (Z.ltb_lt n _)) by lia. cbn [andb negb].
    unfold get_point_record, vec_get. now rewrite znth_nth_error, E by lia.
Qed.

Lemma skipn_tail {A} n : forall (l : list A) a t, skipn n l = a :: t -> t = skipn (S n) l.
Proof. induction n as [|n IH]; intros [|b l] a t E; try discriminate E; [now injection E as _ <-|exact (IH l a t E)]. Qed.

Theorem C97_set_one z debug acc i n r st st' : sound st -> py_step z debug acc (Py_setPointRecord i n r) st = (st', Ret tt) ->
  exists p st2, nth_error (py_records st) r = Some p
    /\ py_step z debug acc (Py_getPointRecord i n) st' = (st2, Ret tt) /\ py_records st2 = py_records st' ++ [p]
    /\ forall m st3, m <> n -> 0 <= m < 2 ^ 64 -> py_step z debug acc (Py_getPointRecord i m) st = (st3, Ret tt) ->
         exists q st4, py_records st3 = py_records st ++ [q]
           /\ py_step z debug acc (Py_getPointRecord i m) st' = (st4, Ret tt) /\ py_records st4 = py_records st' ++ [q].
Proof.
  intros So E. cbn [py_step] in E. destruct (the (py_records st) r) as [p| | |] eqn:E1; try discriminate E. destruct (fits 64 n) eqn:Fn; cbn [negb] in E; [|discriminate E].
  apply fits_range in Fn. apply the_Ret in E1. unfold method in E. destruct (nth_error (py_spocfiles st) i) as [g|] eqn:E2; [|discriminate E].
  pose proof (set_record_result debug n p g (sound_nth _ _ _ So E2) (Forall_nth_error _ _ _ _ (proj1 (proj2 So)) E1) (proj1 Fn)) as H.
  destruct (set_point_record debug n p g) as [g' o]. injection E as <- ->. destruct H as (_ & q0 & Eq & ->).
  set (g' := with_prs g _). assert (X : nth_error (py_spocfiles (put_file i g' st)) i = Some g') by apply (replace_at_nth _ _ _ _ E2).
  assert (Len : (Z.to_nat n < length (f_prs g))%nat) by (apply nth_error_Some; congruence).
  exists p, (add_record p (put_file i g' st)). split; [exact E1|]. split; [|split; [reflexivity|]].
  - apply (got z debug acc); [exact Fn|]. exists g', p. split; [exact X|]. split; [|reflexivity]. subst g'. cbn [f_prs with_prs].
    rewrite nth_error_app2; rewrite firstn_length_le by lia; [|lia]. now rewrite Nat.sub_diag.
  - intros m st3 Nm Rm G. apply (got z debug acc i m st st3 Rm) in G as (g0 & q & Eg & Em & ->). rewrite E2 in Eg. injection Eg as <-.
    exists q, (add_record q (put_file i g' st)). split; [reflexivity|]. split; [|reflexivity].
    apply (got z debug acc); [exact Rm|]. exists g', q. split; [exact X|]. split; [|reflexivity]. subst g'. cbn [f_prs with_prs].
    assert (D : (Z.to_nat m < Z.to_nat n \/ Z.to_nat n < Z.to_nat m)%nat) by lia.
    rewrite <- (firstn_skipn (Z.to_nat n) (f_prs g)) in Em. destruct D as [D|D].
    + rewrite nth_error_app1 in * by (rewrite firstn_length_le; lia). exact Em.
    + rewrite nth_error_app2 in * by (rewrite firstn_length_le; lia). rewrite firstn_length_le in * by lia.
      destruct (Z.to_nat m - Z.to_nat n)%nat as [|k] eqn:K; [lia|]. cbn [nth_error].
      destruct (skipn (Z.to_nat n) (f_prs g)) as [|a t] eqn:Sk; [now destruct k|]. cbn [nth_error] in Em.
      replace (skipn (S (Z.to_nat n)) (f_prs g)) with t; [exact Em|].
      exact (skipn_tail _ _ _ _ Sk).
Qed.

Lemma long_wkt z debug f : 65535 < zlen (f_wkt f) -> exists e, write_spoc_file z debug f o_open = (o_open, Throw e).
Proof. intros L. unfold write_spoc_file, get_header, header_ctor. rewrite (proj2 (Z.ltb_lt _ _) L). eexists. reflexivity. Qed.

Lemma put_self n bs fs : file_put n bs fs n = Some bs.
Proof. unfold file_put. now rewrite (proj2 (beq_bytes_eq n n) eq_refl). Qed.

(** Which calls can end the program: an index out of range with getPointRecord, or with
    setPointRecord when the module was compiled without checks, and reading a file. *)
Theorem C97_safe z ZS debug acc c st : zlib_ok z ZS -> sound st ->
  match snd (py_step z debug acc c st) with
  | Ret _ | Throw _ => True
  | UB _ => (exists fn, c = Py_readspocfile fn)
      \/ (exists i n f, c = Py_getPointRecord i n /\ nth_error (py_spocfiles st) i = Some f /\ Z.of_nat (length (f_prs f)) <= n)
      \/ (exists i n r f, c = Py_setPointRecord i n r /\ nth_error (py_spocfiles st) i = Some f /\ Z.of_nat (length (f_prs f)) <= n /\ debug = false)
  | Hang => exists fn, c = Py_readspocfile fn
  end.
Proof.
  intros Hz So. pose proof So as (F & R & D). destruct c; cbn [py_step].
  - exact I.
  - unfold changes, the. destruct (nth_error (py_records st) r); cbn [bind snd]; [|exact I].
    destruct a; cbn [assign_attribute]; match goal with |- context [if ?c then _ else _] => destruct c end; exact I.
  - exact I.
  - unfold method. destruct (nth_error _ f); exact I.
  - unfold method. destruct (nth_error _ f); exact I.
  - unfold changes, the. destruct (nth_error (py_spocfiles st) f) as [g|] eqn:E; cbn [bind snd]; [|exact I].
    destruct (fits 64 i) eqn:Fi; cbn [negb]; [|exact I]. apply fits_range in Fi. unfold get_point_record, vec_get.
    destruct (znth (f_prs g) i) eqn:Zn; cbn [bind snd]; [exact I|]. right. left. exists f, i, g. split; [reflexivity|]. split; [exact E|].
    apply znth_None_range in Zn. unfold zlen in Zn. lia.
  - unfold the. destruct (nth_error (py_records st) r) as [p|] eqn:E1; [|exact I]. destruct (fits 64 i) eqn:Fi; cbn [negb]; [|exact I].
    apply fits_range in Fi. unfold method. destruct (nth_error (py_spocfiles st) f) as [g|] eqn:E2; [|exact I].
    pose proof (set_record_result debug i p g (sound_nth _ _ _ So E2) (Forall_nth_error _ _ _ _ R E1) (proj1 Fi)) as H.
    destruct (set_point_record debug i p g) as [g' o]. cbn [snd]. destruct o; try exact I; [|contradiction].
    right. right. exists f, i, r, g. unfold zlen in H. intuition.
  - unfold changes, the. destruct (nth_error (py_spocfiles st) f); exact I.
  - pose proof (mapM_the_throws (py_records st) rs) as X. destruct (mapM (the (py_records st)) rs); try contradiction; try exact I.
    unfold method. destruct (nth_error (py_spocfiles st) f) as [g|]; [|exact I].
    unfold set_point_records, m_then, m_throw_if, m_update. destruct (negb _); exact I.
  - unfold changes, py_readheader, open_input. destruct (py_disk st fn) as [bs|]; [|exact I]. destruct (can_read acc fn); [|exact I]. cbn [bind].
    destruct (read_header_total (i_open bs)) as [(h & s' & ->)|(e & ->)]; exact I.
  - unfold changes. destruct (py_readspocfile z acc fn (py_disk st)); cbn [bind snd]; try exact I; [left|]; now exists fn.
  - destruct (nth_error (py_spocfiles st) f) as [g|] eqn:E; [|exact I]. destruct (sound_nth _ _ _ So E) as (_ & _ & _ & _ & U).
    unfold py_writespocfile. destruct (negb (can_write acc fn)); [exact I|].
    destruct (Z.le_gt_cases (zlen (f_wkt g)) 65535) as [L|L].
    + destruct (write_total z ZS Hz debug g U L) as (bs & W). destruct (emits_appends _ _ W o_open) as (os & Ew & _); [now split|]. rewrite Ew. exact I.
    + destruct (long_wkt z debug g L) as (e & ->). exact I.
Qed.

(** Writing an object whose WKT is at most 65535 bytes long always succeeds and replaces the
    file. *)
Theorem C97_write z ZS debug acc fn i st f : zlib_ok z ZS -> sound st -> nth_error (py_spocfiles st) i = Some f -> can_write acc fn = true ->
  Z.of_nat (length (f_wkt f)) <= 65535 ->
  exists bytes, appends (write_spoc_file z debug f) bytes
    /\ py_step z debug acc (Py_writespocfile fn i) st = (mk_py (py_spocfiles st) (py_records st) (file_put fn bytes (py_disk st)), Ret tt).
Proof.
  intros Hz So E A L. destruct (sound_nth _ _ _ So E) as (_ & _ & _ & _ & U). destruct (write_total z ZS Hz debug f U L) as (bs & W).
  exists bs. split; [now apply emits_appends|]. cbn [py_step]. rewrite E. unfold py_writespocfile. rewrite A. cbn [negb].
  destruct (emits_appends _ _ W o_open) as (os & Ew & _ & Eb); [now split|]. rewrite Ew. cbn in Eb. now rewrite Eb.
Qed.

(** setWKT takes any string.  Writing an object with a longer WKT raises, but the file has
    been emptied by then, and reading it again gives an empty object without any error. *)
Theorem C97_long_wkt z debug acc fn i st f : nth_error (py_spocfiles st) i = Some f -> can_write acc fn = true -> can_read acc fn = true ->
  65535 < Z.of_nat (length (f_wkt f)) ->
  exists e st', py_step z debug acc (Py_writespocfile fn i) st = (st', Throw e) /\ py_disk st' fn = Some []
    /\ py_step z debug acc (Py_readspocfile fn) st' = (add_file (mk_file 0 1 [] false []) st', Ret tt).
Proof.
  intros E A B L. destruct (long_wkt z debug f L) as (e & Ew). exists e. eexists. cbn [py_step]. rewrite E. unfold py_writespocfile. rewrite A. cbn [negb]. rewrite Ew.
  split; [reflexivity|]. cbn [py_disk o_bytes o_open]. split; [apply put_self|].
  unfold changes, py_readspocfile, open_input. cbn [py_disk]. rewrite put_self, B. cbn [bind].
  destruct C05_empty_stream_accepted as (s & _ & H). unfold read_spoc_file. rewrite H. reflexivity.
Qed.

Lemma run_disk z debug acc fn cs : (forall c, In c cs -> ~ writes_to fn c) -> forall st st', py_run z debug acc cs st = Some st' -> py_disk st' fn = py_disk st fn.
Proof.
  induction cs as [|c cs IH]; intros N st st'; cbn [py_run]; [intros E; now injection E as <-|].
  destruct (py_step z debug acc c st) as [st1 r] eqn:E. destruct (C97_copies _ _ _ _ _ _ _ E) as (_ & _ & Dk).
  rewrite <- (Dk fn) by (apply N; now left). destruct r; try discriminate; apply IH; intros; apply N; now right.
Qed.

(** Write an object, do anything that does not write to that file, and read it: the new object
    holds what the format keeps (C12, C13). *)
Theorem C97_write_read z ZS debug acc fn i st f cs st' : zlib_ok z ZS -> sound st -> nth_error (py_spocfiles st) i = Some f ->
  can_write acc fn = true -> can_read acc fn = true ->
  Z.of_nat (length (f_wkt f)) <= 65535 -> 8 * Z.of_nat (length (f_prs f)) + 32 < 2 ^ 31 ->
  (forall p, In p (f_prs f) -> Z.of_nat (length (rextra p)) <= if f_compressed f then 255 else 123) ->
  (forall c, In c cs -> ~ writes_to fn c) -> py_run z debug acc (Py_writespocfile fn i :: cs) st = Some st' ->
  exists f', kept f f' /\ py_step z debug acc (Py_readspocfile fn) st' = (add_file f' st', Ret tt).
Proof.
  intros Hz So E A B L Size X N Run. destruct (sound_nth _ _ _ So E) as (M1 & M2 & W & O & U).
  assert (St : storable f).
  { split; [split; auto; lia|]. split; [exact Size|]. destruct (f_prs f) as [|p l] eqn:Ep.
    - exists 0. split; [intros ? []|destruct (f_compressed f); lia].
    - exists (Z.of_nat (length (rextra p))). split; [|apply X; now left]. intros q Hq. f_equal. apply U; [exact Hq|now left]. }
  destruct (storable_one z ZS debug f Hz St) as (bs & f' & Ew & Bs & K & R). exists f'. split; [exact K|].
  destruct (C97_write z ZS debug acc fn i st f Hz So E A L) as (bs' & Ap & Es). rewrite (appends_once _ _ _ Ap (emits_appends _ _ Ew)) in Es.
  cbn [py_run] in Run. rewrite Es in Run. apply (run_disk _ _ _ fn _ N) in Run. cbn [py_disk] in Run. rewrite put_self in Run.
  cbn [py_step]. unfold changes, py_readspocfile, open_input. rewrite Run, B. cbn [bind]. rewrite <- (app_nil_r bs), (R [] ltac:(constructor)). reflexivity.
Qed.

(** ** Examples *)

Definition py_rights : access_rights := mk_access (fun _ => true) (fun _ => true).
Definition py_program : list py_call :=
  [Py_PointRecord; Py_assign 0 (Py_c 3); Py_assign 0 (Py_extra [7; 8]); Py_PointRecord; Py_assign 1 (Py_extra [9; 2 ^ 64 - 1]);
   Py_assign 1 (Py_i 65536); Py_SpocFile (chars "WGS84") false; Py_setPointRecords 0 [0; 1; 0]%nat; Py_assign 1 (Py_c 5); Py_setPointRecord 0 2 1].

Example C97_example_objects : exists st f, py_run toy true py_rights py_program (fresh (fun _ => None)) = Some st /\ sound st
  /\ nth_error (py_spocfiles st) 0 = Some f /\ map rc (f_prs f) = [3; 0; 5] /\ map ri (f_prs f) = [0; 0; 0].
Proof.
  destruct (py_run toy true py_rights py_program (fresh (fun _ => None))) as [st|] eqn:E; [|vm_compute in E; discriminate E].
  assert (S : sound st).
  { apply (C97_objects toy toy_stream true py_rights (fun _ => None) py_program st toy_ok); [discriminate| |exact E].
    repeat constructor; cbn; lia. }
  exists st. vm_compute in E. injection E as <-. eexists. split; [reflexivity|]. split; [exact S|]. split; [reflexivity|]. now split.
Qed.

(** The object is written; the program then changes it and reads the file: the file has what
    was written. *)
Example C97_example_read : exists st st' f, py_run toy true py_rights py_program (fresh (fun _ => None)) = Some st
  /\ nth_error (py_spocfiles st) 0 = Some f
  /\ py_run toy true py_rights [Py_writespocfile (chars "a") 0; Py_setPointRecords 0 []; Py_assign 0 (Py_p 4)] st = Some st'
  /\ nth_error (py_spocfiles st') 0 <> Some f
  /\ py_step toy true py_rights (Py_readspocfile (chars "a")) st' = (add_file f st', Ret tt).
Proof.
  destruct C97_example_objects as (st & f & E & S & N & Q & _). vm_compute in E. injection E as <-. vm_compute in N. injection N as <-.
  eexists. eexists. eexists. split; [reflexivity|]. split; [reflexivity|]. split; [vm_compute; reflexivity|]. split; [discriminate|].
  match goal with |- py_step _ _ _ _ ?st' = _ => set (st2 := st') end.
  destruct (C97_write_read toy toy_stream true py_rights (chars "a") 0 _ _ [Py_setPointRecords 0 []; Py_assign 0 (Py_p 4)] st2 toy_ok S eq_refl eq_refl eq_refl)
    as (f' & K & R).
  - cbn; lia.
  - cbn; lia.
  - intros p [<-|[<-|[<-|[]]]]; cbn; lia.
  - intros c [<-|[<-|[]]] (i & X); discriminate X.
  - vm_compute. reflexivity.
  - rewrite R. now rewrite K.
Qed.

(** An out of range value, an unknown object and a list of records with different numbers of
    extra fields raise. *)
Example C97_example_refused :
  (forall st, snd (py_step toy true py_rights (Py_assign 0 (Py_i 65536)) st) <> Ret tt)
  /\ exists st e, py_run toy true py_rights [Py_PointRecord; Py_assign 0 (Py_extra [1]); Py_PointRecord; Py_SpocFile [] true] (fresh (fun _ => None)) = Some st
       /\ py_step toy true py_rights (Py_setPointRecords 0 [0; 1]%nat) st = (st, Throw e).
Proof.
  split.
  - intros st. cbn [py_step]. unfold changes, the. destruct (nth_error (py_records st) 0); discriminate.
  - eexists. eexists. split; [vm_compute; reflexivity|]. vm_compute. reflexivity.
Qed.

(** Without checks, an index out of range is undefined behaviour. *)
Example C97_example_undefined : exists st, py_run toy false py_rights [Py_PointRecord; Py_SpocFile [] false] (fresh (fun _ => None)) = Some st
  /\ (exists u, snd (py_step toy false py_rights (Py_setPointRecord 0 0 0) st) = UB u)
  /\ (exists u, snd (py_step toy true py_rights (Py_getPointRecord 0 0) st) = UB u)
  /\ (exists e, py_step toy true py_rights (Py_setPointRecord 0 0 0) st = (st, Throw e)).
Proof. eexists. split; [vm_compute; reflexivity|]. repeat split; eexists; vm_compute; reflexivity. Qed.

(** A program that loses a file: an earlier version of it is on the disk. *)
Example C97_example_long : exists disk st e st', disk (chars "a") = Some [83; 80; 79; 67]
  /\ py_run toy true py_rights [Py_SpocFile (repeat 32 (Z.to_nat 65536)) false] (fresh disk) = Some st
  /\ py_step toy true py_rights (Py_writespocfile (chars "a") 0) st = (st', Throw e) /\ py_disk st' (chars "a") = Some [].
Proof.
  exists (file_put (chars "a") [83; 80; 79; 67] (fun _ => None)). eexists.
  edestruct (C97_long_wkt toy true py_rights (chars "a") 0
    (mk_py [mk_file 0 1 (repeat 32 (Z.to_nat 65536)) false []] [] (file_put (chars "a") [83; 80; 79; 67] (fun _ => None)))) as (e & st' & A & B & _).
  1-3: reflexivity.
  { cbn [f_wkt]. rewrite repeat_length. lia. }
  exists e, st'. split; [reflexivity|]. split; [reflexivity|]. split; [exact A|exact B].
Qed.

Print Assumptions C97_objects.
Print Assumptions C97_copies.
Print Assumptions C97_refused.
Print Assumptions C97_assign.
Print Assumptions C97_assign_extra.
Print Assumptions C97_new.
Print Assumptions C97_set_all.
Print Assumptions C97_set_one.
Print Assumptions C97_safe.
Print Assumptions C97_write.
Print Assumptions C97_long_wkt.
Print Assumptions C97_write_read.
