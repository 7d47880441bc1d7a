(** Programs over [spoc_file] objects follow the list specification. *)
From Coq Require Import String ZArith List Bool Lia.
From Verif.Model Require Import Base Double Header PointRecord File.
From Verif.Spec Require Import Files History.
From Verif.Proofs Require Import BaseFacts FileFacts.
Import ListNotations.
Open Scope Z_scope.

(** What holds of every object a program can build. *)
Record obj_ok (f : spoc_file) : Prop := mk_obj_ok {
  oo_major : 0 <= f_major f < 256;
  oo_minor : 0 <= f_minor f < 256;
  oo_uniform : uniform (f_prs f)
}.

Lemma file_eta : forall f, mk_file (f_major f) (f_minor f) (f_wkt f) (f_compressed f) (f_prs f) = f.
Proof. now intros []. Qed.

Lemma upd_same : forall s i f, nth_error s i = Some f -> upd s i f = s.
Proof.
  intros s i f H. unfold upd. revert s H. induction i as [|i IH]; intros [|g s] H; cbn in *; try discriminate.
  - now injection H as ->.
  - f_equal. now apply IH.
Qed.

Lemma upd_Forall : forall (P : spoc_file -> Prop) s i f, Forall P s -> P f -> Forall P (upd s i f).
Proof.
  intros P s i f Hs Hf. unfold upd. apply Forall_app. split.
  - rewrite <- (firstn_skipn i s) in Hs. apply Forall_app in Hs. tauto.
  - apply Forall_cons; [exact Hf|]. rewrite <- (firstn_skipn (S i) s) in Hs. apply Forall_app in Hs. tauto.
Qed.

Lemma uniform_nil : uniform [].
Proof. intros p q []. Qed.

Lemma file_copy_ok : forall f, obj_ok f -> file_copy f = Ret f.
Proof.
  intros f [H1 H2 H3]. unfold file_copy, file_ctor.
  apply all_same_size_uniform in H3. rewrite H3. cbn. unfold to_u8.
  rewrite !Z.mod_small by (unfold two8; lia). f_equal. apply file_eta.
Qed.

Lemma uniform_push : forall prs p, uniform prs ->
  (match prs with [] => false | p0 :: _ => negb (zlen (rextra p) =? zlen (rextra p0)) end) = false
  <-> uniform (prs ++ [p]).
Proof.
  intros prs p H. destruct prs as [|p0 t].
  - split; [|auto]. intros _ a b [->|[]] [->|[]]. reflexivity.
  - rewrite negb_false_iff, Z.eqb_eq. unfold zlen. split.
    + intros E.
      assert (A : forall a, In a ((p0 :: t) ++ [p]) -> length (rextra a) = length (rextra p0)).
      { intros a Ha. apply in_app_iff in Ha. destruct Ha as [Ha|[<-|[]]]; [|lia].
        apply H; [exact Ha|now left]. }
      intros a b Ha Hb. now rewrite (A a Ha), (A b Hb).
    + intros U. rewrite (U p p0); [reflexivity| |now left].
      apply in_app_iff. right. now left.
Qed.

Lemma pr_resized : forall k p, resized k p (pr_resize_extra k p).
Proof.
  intros k p. unfold resized, pr_resize_extra. cbn. do 9 (split; [reflexivity|]).
  unfold zresize, zrepeat. rewrite ztake_firstn. split.
  - rewrite app_length, firstn_length, repeat_length. unfold zlen. lia.
  - intros j Hj. destruct (Nat.lt_ge_cases j (length (rextra p))) as [L|L].
    + rewrite nth_error_app1 by (rewrite firstn_length; lia).
      rewrite (nth_error_nth' _ 0) by (rewrite firstn_length; lia). f_equal.
      rewrite <- (firstn_skipn (Z.to_nat k) (rextra p)) at 2.
      rewrite app_nth1 by (rewrite firstn_length; lia). reflexivity.
    + rewrite nth_error_app2 by (rewrite firstn_length; lia).
      rewrite (nth_overflow (rextra p)) by lia.
      rewrite nth_error_repeat; [reflexivity|]. rewrite firstn_length. unfold zlen. lia.
Qed.

Lemma resized_uniform : forall k prs prs', Forall2 (resized k) prs prs' -> uniform prs'.
Proof.
  intros k prs prs' H.
  assert (A : forall p, In p prs' -> length (rextra p) = Z.to_nat k).
  { induction H as [|a b l l' R H IH]; intros p [].
    - subst p. apply R.
    - now apply IH. }
  intros p q Hp Hq. now rewrite (A p Hp), (A q Hq).
Qed.

Lemma resize_loop_ok : forall k prs n,
  (forall p, In p prs -> zlen (rextra p) < k -> k * 8 < two63) ->
  resize_loop (fun _ => true) k n prs = (map (pr_resize_extra k) prs, Ret tt).
Proof.
  intros k prs. induction prs as [|p t IH]; intros n H; cbn [resize_loop map]; [reflexivity|].
  replace ((zlen (rextra p) <? k) && (PTRDIFF_MAX <? k * 8)) with false.
  2: { symmetry. apply andb_false_iff. destruct (Z.ltb_spec (zlen (rextra p)) k) as [L|L]; [right|now left].
       apply Z.ltb_ge. specialize (H p (or_introl eq_refl) L). unfold PTRDIFF_MAX. lia. }
  cbn [negb]. rewrite andb_false_r. rewrite IH; [reflexivity|].
  intros q Hq. apply H. now right.
Qed.

Lemma resize_loop_throw : forall k prs n p, uniform prs -> In p prs -> zlen (rextra p) < k -> two63 <= k * 8 ->
  resize_loop (fun _ => true) k n prs = (prs, Throw length_error).
Proof.
  intros k [|q t] n p U Hp L Hk; [destruct Hp|]. cbn [resize_loop].
  unfold zlen in *. rewrite (U q p) by (auto; now left).
  replace (Z.of_nat (length (rextra p)) <? k) with true by lia.
  replace (PTRDIFF_MAX <? k * 8) with true by (unfold PTRDIFF_MAX; lia). reflexivity.
Qed.

Lemma resize_dec : forall k prs,
  (forall p, In p prs -> zlen (rextra p) < k -> k * 8 < two63)
  \/ (exists p, In p prs /\ zlen (rextra p) < k /\ two63 <= k * 8).
Proof.
  intros k prs. destruct (Z.lt_ge_cases (k * 8) two63) as [L|L]; [left; auto|].
  induction prs as [|p t IH].
  - left. intros p [].
  - destruct IH as [IH|(q & Hq & H)].
    + destruct (Z.lt_ge_cases (zlen (rextra p)) k).
      * right. exists p. split; [now left|auto].
      * left. intros q [<-|Hq] Hl; [lia|now apply (IH q)].
    + right. exists q. split; [now right|auto].
Qed.

Lemma Forall2_map_resized : forall k prs, Forall2 (resized k) prs (map (pr_resize_extra k) prs).
Proof. induction prs as [|p t IH]; constructor; auto using pr_resized. Qed.

Lemma zset_split : forall prs n p (q : point_record), nth_error prs n = Some q ->
  zset prs (Z.of_nat n) p = Some (firstn n prs ++ p :: skipn (S n) prs).
Proof.
  induction prs as [|a t IH]; intros [|n] p q H; try discriminate; cbn [zset].
  - reflexivity.
  - rewrite (proj2 (Z.eqb_neq (Z.of_nat (S n)) 0)) by lia.
    rewrite (proj2 (Z.ltb_ge (Z.of_nat (S n)) 0)) by lia.
    replace (Z.of_nat (S n) - 1) with (Z.of_nat n) by lia.
    rewrite (IH n p q) by exact H. reflexivity.
Qed.

Lemma uniform_replace : forall prs n p (q : point_record), uniform prs -> nth_error prs n = Some q ->
  length (rextra p) = length (rextra q) -> uniform (firstn n prs ++ p :: skipn (S n) prs).
Proof.
  intros prs n p q U Hq L.
  assert (A : forall a, In a (firstn n prs ++ p :: skipn (S n) prs) -> length (rextra a) = length (rextra q)).
  { intros a Ha. apply in_app_iff in Ha. destruct Ha as [Ha|[<-|Ha]].
    - apply U; [|eapply nth_error_In; eauto]. rewrite <- (firstn_skipn n prs). apply in_app_iff. now left.
    - exact L.
    - apply U; [|eapply nth_error_In; eauto]. rewrite <- (firstn_skipn (S n) prs). apply in_app_iff. now right. }
  intros a b Ha Hb. now rewrite (A a Ha), (A b Hb).
Qed.

(** The outcome of a step that has one, and what the specification calls it. *)
Definition follows (debug : bool) (s : store) (o : op) (s' : store) (r : outcome unit) : Prop :=
  match r with
  | Ret _ => spec_step debug s o s' true
  | Throw _ => spec_step debug s o s' false
  | Hang => False
  | UB _ => exists i n p f, o = SetRecord i n p /\ nth_error s i = Some f
              /\ ~ (0 <= n < Z.of_nat (length (f_prs f))) /\ (debug = true -> n < 0)
  end.

Lemma get_extra_fields_In : forall f q, uniform (f_prs f) -> In q (f_prs f) ->
  get_extra_fields f = zlen (rextra q).
Proof.
  intros f q U Hq. unfold get_extra_fields. destruct (f_prs f) as [|p t] eqn:E; [destruct Hq|].
  unfold zlen. rewrite (U p q); auto. now left.
Qed.

Lemma step_follows : forall debug s o s' r, Forall obj_ok s -> step debug s o = (s', r) ->
  follows debug s o s' r /\ (forall u, r <> UB u -> Forall obj_ok s').
Proof.
  intros debug s o s' r Hs E.
  assert (Hget : forall i f, nth_error s i = Some f -> obj_ok f).
  { intros i f Hi. rewrite Forall_forall in Hs. apply Hs. eapply nth_error_In; eauto. }
  assert (Hnew : forall f, obj_ok f -> Forall obj_ok (s ++ [f])).
  { intros f Hf. apply Forall_app. split; [exact Hs|]. now apply Forall_cons. }
  assert (Hupd : forall i f, obj_ok f -> Forall obj_ok (upd s i f)).
  { intros. now apply upd_Forall. }
  destruct o as [|ma mi w c prs|w c prs|i|i|i p|i n p|i prs|i prs|i taken|i k|i j|i j|i w|i c]; cbn in E.
  - injection E as <- <-. split; [constructor|]. intros _ _. apply Hnew.
    split; cbn; try (unfold MAJOR_VERSION, MINOR_VERSION; lia). apply uniform_nil.
  - unfold file_ctor in E. destruct (all_same_size_extra prs) eqn:A; cbn in E; injection E as <- <-; cbn.
    + apply all_same_size_uniform in A. split; [now constructor|]. intros _ _. apply Hnew.
      pose proof (Z.mod_pos_bound ma two8). pose proof (Z.mod_pos_bound mi two8). unfold two8 in *.
      split; cbn; unfold to_u8, two8; try lia; auto.
    + apply all_same_size_false in A. split; [now constructor|auto].
  - unfold file_ctor_wkt, file_ctor in E.
    destruct (all_same_size_extra prs) eqn:A; cbn in E; injection E as <- <-; cbn.
    + apply all_same_size_uniform in A. split; [now constructor|]. intros _ _. apply Hnew.
      split; cbn; try lia. exact A.
    + apply all_same_size_false in A. split; [now constructor|auto].
  - destruct (nth_error s i) as [f|] eqn:Hi.
    + rewrite (file_copy_ok f) in E by eauto. cbn in E. injection E as <- <-.
      split; [now constructor|]. intros _ _. apply Hnew. eauto.
    + injection E as <- <-. split; [now constructor|auto].
  - destruct (nth_error s i) as [f|] eqn:Hi.
    + unfold clone_empty, file_ctor in E. cbn in E. unfold to_u8 in E.
      destruct (Hget i f Hi) as [M1 M2 _]. rewrite !Z.mod_small in E by (unfold two8; lia).
      injection E as <- <-. split; [apply (s_clone _ _ _ _ Hi)|]. intros _ _. apply Hnew.
      split; cbn; auto using uniform_nil.
    + injection E as <- <-. split; [now constructor|auto].
  - unfold on in E. destruct (nth_error s i) as [f|] eqn:Hi.
    2: { injection E as <- <-. split; [now constructor|auto]. }
    pose proof (Hget i f Hi) as [M1 M2 U].
    unfold push_back, m_then, m_throw_if, m_update in E.
    destruct (match f_prs f with [] => false | p0 :: _ => negb (zlen (rextra p) =? zlen (rextra p0)) end) eqn:C.
    + injection E as <- <-. rewrite (upd_same s i f Hi). cbn. split; [|auto].
      apply (s_push_bad _ _ _ f); [exact Hi|]. intros U'. apply uniform_push in U'; [|exact U]. congruence.
    + injection E as <- <-. apply uniform_push in C; [|exact U]. cbn.
      split; [apply (s_push _ _ _ f); auto|]. intros _ _. apply Hupd. split; cbn; auto.
  - unfold on in E. destruct (nth_error s i) as [f|] eqn:Hi.
    2: { injection E as <- <-. split; [now constructor|auto]. }
    pose proof (Hget i f Hi) as [M1 M2 U].
    unfold set_point_record, m_then, m_throw_if in E.
    destruct (debug && negb (n <? zlen (f_prs f))) eqn:C1.
    + injection E as <- <-. rewrite (upd_same s i f Hi). cbn. split; [|auto].
      apply andb_true_iff in C1. destruct C1 as [D C1]. apply negb_true_iff, Z.ltb_ge in C1.
      now apply (s_set_range _ _ _ f).
    + destruct (negb (zlen (rextra p) =? get_extra_fields f)) eqn:C2.
      * injection E as <- <-. rewrite (upd_same s i f Hi). cbn. split; [|auto].
        apply negb_true_iff, Z.eqb_neq in C2. destruct (f_prs f) as [|q t] eqn:EP.
        -- apply (s_set_empty _ _ _ f); auto. unfold get_extra_fields in C2. rewrite EP in C2.
           intros X. rewrite X in C2. now apply C2.
        -- apply (s_set_bad _ _ _ f _ _ q); auto; [rewrite EP; now left|].
           rewrite (get_extra_fields_In f q) in C2; [unfold zlen in C2; lia|now rewrite EP|rewrite EP; now left].
      * apply negb_false_iff, Z.eqb_eq in C2. unfold m_store, vec_set in E.
        destruct (znth (f_prs f) n) as [q|] eqn:Zn.
        -- pose proof (znth_Some_range _ _ _ Zn) as R. rewrite znth_nth_error in Zn by lia.
           rewrite <- (Z2Nat.id n) in E by lia. rewrite (zset_split _ _ _ q Zn) in E.
           injection E as <- <-. cbn. rewrite <- (Z2Nat.id n) by lia. rewrite Nat2Z.id.
           assert (L : length (rextra p) = length (rextra q)).
           { rewrite (get_extra_fields_In f q) in C2; [unfold zlen in C2; lia|exact U|eapply nth_error_In; eauto]. }
           split; [apply (s_set _ _ _ f _ _ q); auto|]. intros _ _. apply Hupd. split; cbn; auto.
           eapply uniform_replace; eauto.
        -- apply znth_None_range in Zn. rewrite zset_None in E by exact Zn. injection E as <- <-.
           rewrite (upd_same s i f Hi). split; [|auto].
           exists i, n, p, f. split; [reflexivity|]. split; [exact Hi|]. split; [exact Zn|].
           intros ->. cbn in C1. apply negb_false_iff in C1. unfold zlen in *. lia.
  - unfold on in E. destruct (nth_error s i) as [f|] eqn:Hi.
    2: { injection E as <- <-. split; [now constructor|auto]. }
    pose proof (Hget i f Hi) as [M1 M2 U].
    unfold set_point_records, m_then, m_throw_if, m_update in E.
    destruct (all_same_size_extra prs) eqn:A; cbn in E; injection E as <- <-; cbn.
    + apply all_same_size_uniform in A. split; [now apply s_set_all|]. intros _ _. apply Hupd. split; cbn; auto.
    + apply all_same_size_false in A. rewrite (upd_same s i f Hi). split; [now apply (s_set_all_bad _ _ _ f)|auto].
  - unfold on in E. destruct (nth_error s i) as [f|] eqn:Hi.
    2: { injection E as <- <-. split; [now constructor|auto]. }
    pose proof (Hget i f Hi) as [M1 M2 U].
    unfold move_point_records_in in E.
    destruct (all_same_size_extra prs) eqn:A; cbn in E; injection E as <- <-; cbn.
    + apply all_same_size_uniform in A. split; [now apply s_move_in|]. intros _ _. apply Hupd. split; cbn; auto.
    + apply all_same_size_false in A. rewrite (upd_same s i f Hi). split; [now apply (s_move_in_bad _ _ _ f)|auto].
  - unfold on in E. destruct (nth_error s i) as [f|] eqn:Hi.
    2: { injection E as <- <-. split; [now constructor|auto]. }
    pose proof (Hget i f Hi) as [M1 M2 U].
    destruct taken; cbn in E; injection E as <- <-; cbn.
    + split; [now apply (s_move_out _ _ _ f)|]. intros _ _. apply Hupd. split; cbn; auto using uniform_nil.
    + rewrite (upd_same s i f Hi). split; [now apply (s_look _ _ _ f)|auto].
  - unfold on in E. destruct (nth_error s i) as [f|] eqn:Hi.
    2: { injection E as <- <-. split; [now constructor|auto]. }
    pose proof (Hget i f Hi) as [M1 M2 U].
    unfold resize_extra_fields, resize_extra_fields_alloc in E.
    destruct (resize_dec k (f_prs f)) as [D|(p & Hp & L & Hk)].
    + rewrite resize_loop_ok in E by exact D. injection E as <- <-. cbn.
      split.
      * apply s_resize; [exact Hi|exact D|apply Forall2_map_resized].
      * intros _ _. apply Hupd. split; cbn; auto.
        eapply resized_uniform, Forall2_map_resized.
    + rewrite (resize_loop_throw k (f_prs f) 0 p) in E by auto. injection E as <- <-. cbn.
      unfold with_prs. rewrite file_eta, (upd_same s i f Hi).
      split; [apply (s_resize_bad _ _ _ f k p); auto|auto].
  - destruct (nth_error s i) as [f|] eqn:Hi; [destruct (nth_error s j) as [g|] eqn:Hj|].
    + injection E as <- <-. rewrite !file_eta. split; [now apply s_swap|].
      intros _ _. apply upd_Forall; eauto.
    + injection E as <- <-. split; [constructor; cbn; tauto|auto].
    + injection E as <- <-. split; [constructor; cbn; tauto|auto].
  - destruct (Nat.eqb_spec i j) as [->|N].
    + injection E as <- <-. split; [|auto]. cbn. destruct (nth_error s j) as [f|] eqn:Hj.
      * rewrite <- (upd_same s j f Hj) at 2. now apply (s_assign _ _ _ _ f f).
      * constructor. cbn. tauto.
    + destruct (nth_error s j) as [g|] eqn:Hj; [|injection E as <- <-; split; [constructor; cbn; tauto|auto]].
      unfold on in E. destruct (nth_error s i) as [f|] eqn:Hi; [|injection E as <- <-; split; [constructor; cbn; tauto|auto]].
      unfold assign in E. rewrite (file_copy_ok g) in E by eauto. cbn in E. rewrite file_eta in E.
      injection E as <- <-. split; [now apply (s_assign _ _ _ _ f g)|]. intros _ _. eauto.
  - unfold on in E. destruct (nth_error s i) as [f|] eqn:Hi.
    2: { injection E as <- <-. split; [now constructor|auto]. }
    pose proof (Hget i f Hi) as [M1 M2 U]. injection E as <- <-.
    split; [now apply s_setwkt|]. intros _ _. apply Hupd. split; cbn; auto.
  - unfold on in E. destruct (nth_error s i) as [f|] eqn:Hi.
    2: { injection E as <- <-. split; [now constructor|auto]. }
    pose proof (Hget i f Hi) as [M1 M2 U]. injection E as <- <-.
    split; [now apply s_setflag|]. intros _ _. apply Hupd. split; cbn; auto.
Qed.

Lemma run_ok : forall debug ops s s', Forall obj_ok s -> run debug s ops = Some s' -> Forall obj_ok s'.
Proof.
  intros debug ops. induction ops as [|o ops IH]; intros s s' H E; cbn in E.
  - now injection E as <-.
  - destruct (step debug s o) as [s1 r] eqn:ES. apply step_follows in ES; [|exact H]. destruct ES as [_ ES].
    destruct r; try discriminate; eapply IH; [apply (ES ub_index); discriminate|exact E
      |apply (ES ub_index); discriminate|exact E].
Qed.
