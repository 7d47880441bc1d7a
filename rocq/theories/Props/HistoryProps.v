(** C21-C25: [spoc_file] objects under arbitrary use. *)
From Coq Require Import String ZArith List Bool Lia.
From Verif.Model Require Import Base Double Header PointRecord File.
From Verif.Spec Require Import Files History.
From Verif.Proofs Require Import BaseFacts FileFacts HistoryFacts.
Import ListNotations.
Open Scope Z_scope.

(** Objects a program may start with: built by the library earlier, or returned
    by a reader (C16). *)
Definition start (s : store) : Prop :=
  Forall (fun f => uniform (f_prs f) /\ 0 <= f_major f < 256 /\ 0 <= f_minor f < 256) s.

Lemma start_ok : forall s, start s -> Forall obj_ok s.
Proof. intros s H. eapply Forall_impl; [|exact H]. cbn. intros f (A & B & C). now constructor. Qed.

(** ** C21: all records of every object have equally many extra fields *)

Theorem C21_uniform : forall debug s ops s', start s -> run debug s ops = Some s' ->
  Forall (fun f => uniform (f_prs f)) s'.
Proof.
  intros debug s ops s' H E. apply start_ok in H. eapply run_ok in E; [|exact H].
  eapply Forall_impl; [|exact E]. intros f [_ _ U]. exact U.
Qed.

Definition p0 := pr_zero 0.
Definition p1 := mk_pr 0 d_one 0 7 1 2 3 4 5 [9].
Definition p2 := mk_pr d_one d_one 0 2 1 2 3 4 5 [1; 2].

(** A program with accepted and refused operations. *)
Definition program : list op :=
  [NewDefault; PushBack 0 p1; PushBack 0 p2; Copy 0; PushBack 1 p1; SetRecord 1 1 p2; Resize 1 3;
   CloneEmpty 0; SetRecords 2 [p1; p2]; SetRecords 2 [p2; p2]; Swap 0 2; MoveOut 1 true;
   NewVersion 1 300 [65] true [p1; p2]; Assign 1 0; SetWkt 1 [65; 66]; SetCompressed 1 true;
   SetRecord 1 0 (mk_pr 0 0 0 0 0 0 0 0 0 [3; 4]); Resize 2 0; MoveIn 2 [p1; p2]].

Example C21_example : start [] /\ exists s', run false [] program = Some s'
  /\ s' = [mk_file 0 1 [] false [p2; p2];
           mk_file 0 1 [65; 66] true [mk_pr 0 0 0 0 0 0 0 0 0 [3; 4]; p2];
           mk_file 0 1 [] false [mk_pr 0 d_one 0 7 1 2 3 4 5 []]].
Proof. split; [constructor|]. eexists. split; vm_compute; reflexivity. Qed.

(** When memory runs out in the middle of [resize_extra_fields] the records
    handled so far have the new size and the others the old one. *)
Theorem C21_out_of_memory : exists alloc_ok f f',
  uniform (f_prs f) /\ resize_extra_fields_alloc alloc_ok 2 f = (f', Throw bad_alloc)
  /\ ~ uniform (f_prs f').
Proof.
  exists (fun n => n <? 1), (mk_file 0 1 [] false [p1; p1]). eexists.
  split; [|split; [vm_compute; reflexivity|]].
  - intros p q [<-|[<-|[]]] [<-|[<-|[]]]; reflexivity.
  - intros U. specialize (U (mk_pr 0 d_one 0 7 1 2 3 4 5 [9; 0]) p1).
    cbn in U. assert (X : 2%nat = 1%nat) by (apply U; tauto). discriminate.
Qed.

(** ** C22: a refused operation changes nothing, and exactly the right ones are refused *)

Theorem C22_refused_unchanged : forall debug s ops s1 o s2 e, start s -> run debug s ops = Some s1 ->
  step debug s1 o = (s2, Throw e) -> s2 = s1.
Proof.
  intros debug s ops s1 o s2 e H E S. apply start_ok in H. eapply run_ok in E; [|exact H].
  apply step_follows in S; [|exact E]. destruct S as [S _]. cbn in S. inversion S; reflexivity.
Qed.

(** Which operations have to be refused. *)
Definition must_refuse (debug : bool) (s : store) (o : op) : Prop :=
  match o with
  | NewVersion _ _ _ _ prs | NewWkt _ _ prs => ~ uniform prs
  | PushBack i p => exists f, nth_error s i = Some f /\ ~ uniform (f_prs f ++ [p])
  | SetRecords i prs | MoveIn i prs => (exists f, nth_error s i = Some f) /\ ~ uniform prs
  | SetRecord i n p => exists f, nth_error s i = Some f /\
      ((debug = true /\ Z.of_nat (length (f_prs f)) <= n)
       \/ (f_prs f = [] /\ rextra p <> [])
       \/ (exists q, In q (f_prs f) /\ length (rextra p) <> length (rextra q)))
  | Resize i k => exists f p, nth_error s i = Some f /\ In p (f_prs f)
      /\ Z.of_nat (length (rextra p)) < k /\ 2 ^ 63 <= k * 8
  | _ => False
  end.

Lemma spec_refused : forall debug s o s', spec_step debug s o s' false -> must_refuse debug s o.
Proof.
  intros debug s o s' H.
  inversion H; subst; cbn; repeat match goal with |- _ /\ _ => split | |- exists _, _ => eexists end; eauto; eauto 7.
Qed.

Lemma spec_accepted : forall debug s o s', Forall obj_ok s -> spec_step debug s o s' true -> ~ must_refuse debug s o.
Proof.
  intros debug s o s' Hok H R. rewrite Forall_forall in Hok.
  inversion H; subst; cbn in R; auto.
  - destruct R as (g & Hg & R). rewrite H0 in Hg. injection Hg as <-. auto.
  - destruct R as (g & Hg & R). rewrite H0 in Hg. injection Hg as <-.
    assert (L : (n < length (f_prs f))%nat) by (apply nth_error_Some; congruence).
    destruct R as [[_ R]|[[R _]|(r & Hr & R)]].
    + lia.
    + rewrite R in L. cbn in L. lia.
    + apply R. rewrite H2. destruct (Hok f) as [_ _ U]; [eapply nth_error_In; eauto|].
      apply U; [eapply nth_error_In; eauto|exact Hr].
  - tauto.
  - tauto.
  - destruct R as (g & p & Hg & R & L & K). rewrite H0 in Hg. injection Hg as <-.
    specialize (H1 p R L). lia.
  - destruct o; cbn in *; try tauto;
      repeat match goal with X : _ /\ _ |- _ => destruct X | X : exists _, _ |- _ => destruct X end; congruence.
Qed.

Theorem C22_refused_iff : forall debug s ops s1 o s2 r, start s -> run debug s ops = Some s1 ->
  step debug s1 o = (s2, r) -> (forall u, r <> UB u) ->
  ((exists e, r = Throw e) <-> must_refuse debug s1 o).
Proof.
  intros debug s ops s1 o s2 r H E S N. apply start_ok in H. eapply run_ok in E; [|exact H].
  apply step_follows in S; [|exact E]. destruct S as [S _].
  destruct r as [a|e|u|]; cbn in S; [| |now destruct (N u)|destruct S].
  - apply spec_accepted in S; [|exact E]. split; [intros [e X]; discriminate|tauto].
  - apply spec_refused in S. split; eauto.
Qed.

Example C22_example : exists s1, run false [] [NewDefault; PushBack 0 p1] = Some s1
  /\ (exists e, step false s1 (PushBack 0 p2) = (s1, Throw e))
  /\ must_refuse false s1 (PushBack 0 p2) /\ ~ must_refuse false s1 (PushBack 0 p1).
Proof.
  eexists. split; [vm_compute; reflexivity|]. split; [eexists; vm_compute; reflexivity|].
  split.
  - eexists. split; [reflexivity|]. intros U. specialize (U p1 p2). cbn in U.
    assert (X : 1%nat = 2%nat) by (apply U; tauto). discriminate.
  - intros (f & E & N). cbn in E. injection E as <-. apply N. cbn.
    intros p q [<-|[<-|[]]] [<-|[<-|[]]]; reflexivity.
Qed.

(** ** C23: every program behaves as if objects were plain lists *)

Theorem C23_objects_are_lists : forall debug s ops s1 o s2 r, start s -> run debug s ops = Some s1 ->
  step debug s1 o = (s2, r) ->
  match r with
  | Ret _ => spec_step debug s1 o s2 true
  | Throw _ => spec_step debug s1 o s2 false
  | Hang => False
  | UB _ =>                        (* an unchecked index out of range *)
    exists i n p f, o = SetRecord i n p /\ nth_error s1 i = Some f
      /\ ~ (0 <= n < Z.of_nat (length (f_prs f))) /\ (debug = true -> n < 0)
  end.
Proof.
  intros debug s ops s1 o s2 r H E S. apply start_ok in H. eapply run_ok in E; [|exact H].
  apply step_follows in S; [|exact E]. destruct S as [S _]. exact S.
Qed.

(** Reading one position. *)
Theorem C23_get_point_record : forall f (i : nat) p,
  get_point_record f (Z.of_nat i) = Ret p <-> nth_error (f_prs f) i = Some p.
Proof.
  intros f i p. unfold get_point_record, vec_get. rewrite znth_nth_error by lia. rewrite Nat2Z.id.
  destruct (nth_error (f_prs f) i); split; intros H; try discriminate; congruence.
Qed.

(** The release build really reaches the undefined behaviour. *)
Example C23_ub : step false [file_default] (SetRecord 0 0 p0) = ([file_default], UB ub_index)
  /\ exists e, step true [file_default] (SetRecord 0 0 p0) = ([file_default], Throw e).
Proof. split; [|eexists]; reflexivity. Qed.

(** ** C24: [get_header] describes the file *)

Theorem C24_get_header : forall f, 0 <= f_major f < 256 -> 0 <= f_minor f < 256 ->
  Z.of_nat (length (f_prs f)) < 2 ^ 64 -> uniform (f_prs f) ->
  (65535 < Z.of_nat (length (f_wkt f)) -> exists e, get_header f = Throw e)
  /\ (Z.of_nat (length (f_wkt f)) <= 65535 -> exists h, get_header f = Ret h
      /\ h_sig h = [83; 80; 79; 67] /\ h_major h = f_major f /\ h_minor h = f_minor f /\ h_wkt h = f_wkt f
      /\ h_total h = Z.of_nat (length (f_prs f)) /\ h_compressed h = (if f_compressed f then 1 else 0)
      /\ (f_prs f = [] -> h_extra h = 0)
      /\ (forall p, In p (f_prs f) -> h_extra h = Z.of_nat (length (rextra p)) mod 256)).
Proof.
  intros f Ma Mi L U. unfold get_header, header_ctor. fold (zlen (f_wkt f)). split.
  - intros H. replace (65535 <? zlen (f_wkt f)) with true by lia. eauto.
  - intros H. replace (65535 <? zlen (f_wkt f)) with false by lia.
    eexists. split; [reflexivity|]. cbn [h_sig h_major h_minor h_wkt h_total h_compressed h_extra].
    split; [reflexivity|]. unfold to_u8, to_u64. rewrite !(Z.mod_small _ two8) by (unfold two8; lia).
    rewrite Z.mod_small by (unfold two64, zlen; lia).
    do 5 (split; [reflexivity|]). unfold get_extra_fields.
    split; [intros ->; reflexivity|].
    intros p Hp. destruct (f_prs f) as [|q t] eqn:E; [destruct Hp|].
    unfold zlen, two8. rewrite (U q p); auto. now left.
Qed.

Example C24_example : exists h, get_header (mk_file 0 1 [65; 66] true [p2; p2; p2]) = Ret h
  /\ h_total h = 3 /\ h_extra h = 2.
Proof. eexists. split; [reflexivity|]. split; reflexivity. Qed.

(** ** C25: column accessors *)

(** The accessors and the fields they are named after. *)
Definition columns : list ((list point_record -> list Z) * (point_record -> Z)) :=
  [(get_x, rx); (get_y, ry); (get_z, rz); (get_c, rc); (get_p, rp); (get_i, ri);
   (get_r, rr); (get_g, rg); (get_b, rb)].

Theorem C25_columns : forall get field, In (get, field) columns -> forall prs,
  length (get prs) = length prs
  /\ forall n p, nth_error prs n = Some p -> nth_error (get prs) n = Some (field p).
Proof.
  intros get field H prs.
  assert (E : get prs = map field prs).
  { cbn in H. repeat (destruct H as [H|H]; [injection H as <- <-; reflexivity|]). destruct H. }
  rewrite E, map_length. split; [reflexivity|]. intros n p Hn. now apply map_nth_error.
Qed.

Theorem C25_extra_column : forall k prs, (forall p, In p prs -> (k < length (rextra p))%nat) ->
  exists col, get_extra (Z.of_nat k) prs = Ret col /\ length col = length prs
    /\ forall n p, nth_error prs n = Some p -> nth_error col n = nth_error (rextra p) k.
Proof.
  intros k prs. induction prs as [|p t IH]; intros H.
  - exists []. cbn. split; [reflexivity|]. split; [reflexivity|]. intros [|n] p E; discriminate.
  - destruct IH as (col & E & L & N). { intros q Hq. apply H. now right. }
    assert (Hp : (k < length (rextra p))%nat) by (apply H; now left).
    destruct (nth_error (rextra p) k) as [v|] eqn:Ev; [|apply nth_error_None in Ev; lia].
    exists (v :: col). unfold get_extra in *. cbn [mapM].
    unfold vec_get at 1. rewrite znth_nth_error by lia. rewrite Nat2Z.id, Ev. cbn [bind].
    rewrite E. cbn. split; [reflexivity|]. split; [now rewrite L|].
    intros [|n] q Hn; cbn in *; [injection Hn as <-; congruence|now apply N].
Qed.

(** Asking for a field that some record does not have reads outside its vector. *)
Theorem C25_extra_missing : forall k prs p, In p prs -> (length (rextra p) <= k)%nat ->
  get_extra (Z.of_nat k) prs = UB ub_index.
Proof.
  intros k prs p. unfold get_extra. induction prs as [|q t IH]; [intros []|]. intros Hp L. cbn [mapM].
  unfold vec_get at 1. rewrite znth_nth_error by lia. rewrite Nat2Z.id.
  destruct (nth_error (rextra q) k) eqn:E; [|reflexivity].
  cbn [bind]. destruct Hp as [->|Hp].
  - assert (X : nth_error (rextra p) k <> None) by congruence. apply nth_error_Some in X. lia.
  - rewrite IH by auto. reflexivity.
Qed.

Definition zero_tests : list ((list point_record -> bool) * (point_record -> Z)) :=
  [(has_all_zero_c, rc); (has_all_zero_p, rp); (has_all_zero_i, ri); (has_all_zero_r, rr);
   (has_all_zero_g, rg); (has_all_zero_b, rb)].

Lemma has_all_zero_spec : forall field prs,
  has_all_zero field prs = true <-> forall p, In p prs -> field p = 0.
Proof.
  intros field prs. unfold has_all_zero. rewrite negb_true_iff. split.
  - intros H p Hp. destruct (Z.eqb_spec (field p) 0) as [E|E]; [exact E|].
    assert (X : existsb (fun p => negb (field p =? 0)) prs = true).
    { apply existsb_exists. exists p. split; [exact Hp|]. now apply negb_true_iff, Z.eqb_neq. }
    congruence.
  - intros H. destruct (existsb _ _) eqn:X; [|reflexivity]. apply existsb_exists in X.
    destruct X as (p & Hp & X). rewrite H in X by exact Hp. discriminate.
Qed.

Theorem C25_zero_tests : forall test field, In (test, field) zero_tests -> forall prs,
  test prs = true <-> forall p, In p prs -> field p = 0.
Proof.
  intros test field H prs. cbn in H.
  repeat (destruct H as [H|H]; [injection H as <- <-; apply has_all_zero_spec|]). destruct H.
Qed.

Theorem C25_zero_rgb : forall prs, has_all_zero_rgb prs = true
  <-> forall p, In p prs -> rr p = 0 /\ rg p = 0 /\ rb p = 0.
Proof.
  intros prs. unfold has_all_zero_rgb. rewrite !andb_true_iff.
  unfold has_all_zero_r, has_all_zero_g, has_all_zero_b. rewrite !has_all_zero_spec.
  split; [intros [[A B] C] p Hp; auto|]. intros H. repeat split; intros p Hp; now apply H.
Qed.

Theorem C25_zero_extra : forall k prs, (forall p, In p prs -> (k < length (rextra p))%nat) ->
  exists b, has_all_zero_extra (Z.of_nat k) prs = Ret b
    /\ (b = true <-> forall p, In p prs -> nth k (rextra p) 1 = 0).
Proof.
  intros k prs. induction prs as [|p t IH]; intros H.
  - exists true. split; [reflexivity|]. split; [intros _ p []|reflexivity].
  - destruct IH as (b & E & Hb). { intros q Hq. apply H. now right. }
    assert (Hp : (k < length (rextra p))%nat) by (apply H; now left).
    cbn. unfold vec_get. rewrite znth_nth_error by lia. rewrite Nat2Z.id.
    rewrite (nth_error_nth' _ 1 Hp). cbn [bind].
    destruct (Z.eqb_spec (nth k (rextra p) 1) 0) as [Z0|Z0]; cbn [negb].
    + exists b. split; [exact E|]. rewrite Hb. split.
      * intros A q [<-|Hq]; auto.
      * intros A q Hq. apply A. now right.
    + exists false. split; [reflexivity|]. split; [discriminate|]. intros A. destruct Z0. apply A. now left.
Qed.

Example C25_example : get_c [p1; p2] = [7; 2] /\ get_extra 1 [p2; p2] = Ret [2; 2]
  /\ has_all_zero_c [p0; p0] = true /\ has_all_zero_c [p0; p2] = false
  /\ has_all_zero_extra 0 [p1; p1] = Ret false /\ get_extra 1 [p2; p1] = UB ub_index.
Proof. repeat split; reflexivity. Qed.

Print Assumptions C21_uniform.
Print Assumptions C21_out_of_memory.
Print Assumptions C22_refused_unchanged.
Print Assumptions C22_refused_iff.
Print Assumptions C23_objects_are_lists.
Print Assumptions C23_get_point_record.
Print Assumptions C24_get_header.
Print Assumptions C25_columns.
Print Assumptions C25_extra_column.
Print Assumptions C25_extra_missing.
Print Assumptions C25_zero_tests.
Print Assumptions C25_zero_rgb.
Print Assumptions C25_zero_extra.
