(** C105: changing all records of a file, three ways. *)
From Coq Require Import String ZArith List Bool Lia.
From Verif.Model Require Import Base Double Arith Header PointRecord File Benchmarks.
From Verif.Spec Require Import Files Apps Updates.
From Verif.Proofs Require Import BaseFacts FileFacts.
Import ListNotations.
Open Scope Z_scope.

Lemma turns_mapM : forall g prs l, turns g prs l -> mapM g prs = Ret l.
Proof. intros g prs l H. induction H as [|p p' prs l E H IH]; cbn; [reflexivity|]. now rewrite E, IH. Qed.

Lemma mapM_throw : forall g pre l p post e, turns g pre l -> g p = Throw e -> mapM g (pre ++ p :: post) = Throw e.
Proof. intros g pre l p post e H E. induction H as [|a a' pre l Ea H IH]; cbn; [now rewrite E|]. now rewrite Ea, IH. Qed.

Lemma turns_same_turns : forall g prs l, turns_same g prs l -> turns g prs l.
Proof. intros g prs l H. induction H as [|a b prs l [E _] H IH]; constructor; auto. Qed.

Definition sized (k : nat) (prs : list point_record) : Prop := Forall (fun p => length (rextra p) = k) prs.

Lemma turns_same_sized : forall g k prs l, turns_same g prs l -> sized k prs -> sized k l.
Proof. intros g k prs l H. unfold sized. induction H as [|a b prs l [_ E] H IH]; intros S; inversion S; subst; constructor; auto. Qed.

Lemma sized_uniform : forall k prs, sized k prs -> uniform prs.
Proof. intros k prs S p q Ip Iq. unfold sized in S. rewrite Forall_forall in S. now rewrite (S p Ip), (S q Iq). Qed.

Lemma uniform_sized : forall prs, uniform prs -> exists k, sized k prs.
Proof.
  intros [|p t] U; [exists 0%nat; constructor|]. exists (length (rextra p)). apply Forall_forall. intros q I. apply U; [exact I|now left].
Qed.

Lemma znth_mid : forall {A} (a b : list A) x, znth (a ++ x :: b) (zlen a) = Some x.
Proof. intros A a b x. rewrite znth_app_r by lia. now rewrite Z.sub_diag. Qed.

Lemma zset_mid : forall {A} (a b : list A) x y, zset (a ++ x :: b) (zlen a) y = Some (a ++ y :: b).
Proof.
  intros A a b x y. induction a as [|u a IH]; [reflexivity|]. cbn [app]. rewrite zlen_cons. cbn [zset].
  pose proof (zlen_nonneg a). rewrite (proj2 (Z.eqb_neq _ 0)) by lia. rewrite (proj2 (Z.ltb_ge _ 0)) by lia.
  match goal with |- context [zset (a ++ x :: b) ?n y] => replace n with (zlen a) by lia end. now rewrite IH.
Qed.

Lemma extra_fields_sized : forall f k done p post, sized k (done ++ p :: post) ->
  get_extra_fields (holding f (done ++ p :: post)) = Z.of_nat k.
Proof.
  intros f k done p post S. unfold get_extra_fields. cbn [f_prs holding].
  destruct done as [|d done]; cbn [app]; inversion S; subst; unfold zlen; reflexivity.
Qed.

Lemma set_mid : forall debug f k done p post p', sized k (done ++ p :: post) ->
  set_point_record debug (zlen done) p' (holding f (done ++ p :: post))
  = if (length (rextra p') =? k)%nat then (holding f (done ++ p' :: post), Ret tt)
    else (holding f (done ++ p :: post), Throw (runtime_error "spoc_file::set_point_record(): the point record extra fields size is inconsistent with existing point records")).
Proof.
  intros debug f k done p post p' S. unfold set_point_record, m_then, m_throw_if.
  rewrite (extra_fields_sized f k done p post S). cbn [f_prs holding].
  replace (zlen done <? zlen (done ++ p :: post)) with true; [|symmetry; apply Z.ltb_lt; unfold zlen; rewrite app_length; cbn; lia].
  rewrite andb_false_r. unfold m_store. cbn [f_prs holding]. unfold vec_set. rewrite zset_mid.
  unfold zlen. destruct (length (rextra p') =? k)%nat eqn:N.
  - apply Nat.eqb_eq in N. rewrite N, Z.eqb_refl. reflexivity.
  - apply Nat.eqb_neq in N. rewrite (proj2 (Z.eqb_neq _ _)) by lia. reflexivity.
Qed.

Lemma holding_holding : forall f a b, holding (holding f a) b = holding f b.
Proof. reflexivity. Qed.

Lemma holding_same : forall f, holding f (f_prs f) = f.
Proof. now intros []. Qed.

Lemma update_steps : forall debug g f k pre l, turns_same g pre l -> forall done post, sized k (done ++ pre ++ post) ->
  update_from debug g (length (pre ++ post)) (zlen done) (holding f (done ++ pre ++ post))
  = update_from debug g (length post) (zlen (done ++ l)) (holding f ((done ++ l) ++ post)).
Proof.
  intros debug g f k pre l H. induction H as [|p p' pre l [E L] H IH]; intros done post S.
  { cbn [app length]. now rewrite app_nil_r. }
  cbn [app length update_from]. unfold get_point_record, vec_get. cbn [f_prs holding].
  cbn [app] in S. rewrite znth_mid. cbn [bind]. rewrite E. unfold m_then at 1.
  fold (holding f (done ++ p :: pre ++ post)).
  rewrite (set_mid debug f k done p (pre ++ post) p' S).
  assert (Lp : length (rextra p) = k).
  { unfold sized in S. rewrite Forall_forall in S. apply S. apply in_or_app. right. now left. }
  replace (length (rextra p') =? k)%nat with true by (symmetry; apply Nat.eqb_eq; congruence).
  replace (zlen done + 1) with (zlen (done ++ [p'])) by (unfold zlen; rewrite app_length; cbn; lia).
  replace (done ++ p' :: pre ++ post) with ((done ++ [p']) ++ pre ++ post) by (rewrite <- app_assoc; reflexivity).
  rewrite (IH (done ++ [p']) post).
  - rewrite <- !app_assoc. reflexivity.
  - rewrite <- app_assoc. cbn [app]. unfold sized in *. apply Forall_app in S as [S1 S2]. inversion S2; subst.
    apply Forall_app. split; [exact S1|]. constructor; [congruence|assumption].
Qed.

(** A change that keeps the number of extra fields: the three ways do the same, they give
    each record its change and keep everything else. *)
Theorem C105_agree : forall debug g f l, live f -> turns_same g (f_prs f) l ->
  update_each debug g f = (holding f l, Ret tt)
  /\ update_copy g f = (holding f l, Ret tt)
  /\ update_move g f = (holding f l, Ret tt).
Proof.
  intros debug g f l Lf H. destruct (uniform_sized _ (lv_uniform f Lf)) as [k S].
  pose proof (turns_mapM _ _ _ (turns_same_turns _ _ _ H)) as M.
  assert (U : all_same_size_extra l = true).
  { apply all_same_size_uniform. eapply sized_uniform. eapply turns_same_sized; eauto. }
  split; [|split].
  - unfold update_each. pose proof (update_steps debug g f k (f_prs f) l H [] []) as E.
    cbn [app] in E. rewrite !app_nil_r, holding_same in E. specialize (E S). change (zlen []) with 0 in E. rewrite E. reflexivity.
  - unfold update_copy. rewrite M. unfold set_point_records, m_then, m_throw_if. rewrite U. reflexivity.
  - unfold update_move, move_point_records_out. rewrite M. unfold move_point_records_in. rewrite U. reflexivity.
Qed.

(** A change that throws, at some record: what the file then holds differs. *)
Theorem C105_exception : forall debug g f pre p post l e, live f -> f_prs f = pre ++ p :: post ->
  turns_same g pre l -> g p = Throw e ->
  update_each debug g f = (holding f (l ++ p :: post), Throw e)
  /\ update_copy g f = (f, Throw e)
  /\ update_move g f = (holding f [], Throw e).
Proof.
  intros debug g f pre p post l e Lf Ep H Eg. destruct (uniform_sized _ (lv_uniform f Lf)) as [k S]. rewrite Ep in S.
  pose proof (mapM_throw g pre l p post e (turns_same_turns _ _ _ H) Eg) as M.
  split; [|split].
  - unfold update_each. pose proof (update_steps debug g f k pre l H [] (p :: post)) as E. cbn [app] in E.
    rewrite <- (holding_same f) at 2. rewrite Ep. specialize (E S). change (zlen []) with 0 in E. rewrite E.
    cbn [length update_from]. unfold get_point_record, vec_get. cbn [f_prs holding]. rewrite znth_mid. cbn [bind]. rewrite Eg. reflexivity.
  - unfold update_copy. now rewrite Ep, M.
  - unfold update_move, move_point_records_out. now rewrite Ep, M.
Qed.

(** A change after which not all records have equally many extra fields: each way throws. *)
Theorem C105_inconsistent : forall debug g f pre p post l p' l2, live f -> f_prs f = pre ++ p :: post ->
  turns_same g pre l -> pre <> [] -> g p = Ret p' -> length (rextra p') <> length (rextra p) -> turns g post l2 ->
  exists w w', update_each debug g f = (holding f (l ++ p :: post), Throw (runtime_error w))
  /\ update_copy g f = (f, Throw (runtime_error w'))
  /\ update_move g f = (holding f [], Throw (runtime_error w')).
Proof.
  intros debug g f pre p post l p' l2 Lf Ep H Ne Eg D H2. destruct (uniform_sized _ (lv_uniform f Lf)) as [k S]. rewrite Ep in S.
  assert (M : mapM g (pre ++ p :: post) = Ret (l ++ p' :: l2)).
  { apply turns_mapM. apply Forall2_app; [now apply turns_same_turns|]. constructor; [exact Eg|exact H2]. }
  assert (Lp : length (rextra p) = k).
  { unfold sized in S. rewrite Forall_forall in S. apply S. apply in_or_app. right. now left. }
  assert (U : all_same_size_extra (l ++ p' :: l2) = false).
  { destruct (all_same_size_extra (l ++ p' :: l2)) eqn:U; [|reflexivity]. exfalso. apply all_same_size_uniform in U.
    apply Forall_app in S as [S1 _]. pose proof (turns_same_sized g k pre l H S1) as S3.
    destruct l as [|q l]; [inversion H; subst; now apply Ne|]. inversion S3; subst.
    specialize (U q p' ltac:(now left) ltac:(apply in_or_app; right; now left)). congruence. }
  eexists _, _. split; [|split].
  - unfold update_each. pose proof (update_steps debug g f k pre l H [] (p :: post)) as E. cbn [app] in E.
    rewrite <- (holding_same f) at 2. rewrite Ep. specialize (E S). change (zlen []) with 0 in E. rewrite E.
    cbn [length update_from]. unfold get_point_record, vec_get. cbn [f_prs holding]. rewrite znth_mid. cbn [bind]. rewrite Eg.
    unfold m_then at 1. fold (holding f (l ++ p :: post)). rewrite (set_mid debug f k l p post p').
    + replace (length (rextra p') =? k)%nat with false by (symmetry; apply Nat.eqb_neq; congruence). reflexivity.
    + apply Forall_app in S as [S1 S2]. apply Forall_app. split; [eapply turns_same_sized; eauto|exact S2].
  - unfold update_copy. rewrite Ep, M. unfold set_point_records, m_then, m_throw_if. rewrite U. reflexivity.
  - unfold update_move, move_point_records_out. rewrite Ep, M. unfold move_point_records_in. rewrite U. reflexivity.
Qed.

(** A change of the number of extra fields, the same in all records: only possible for all
    records at once. *)
Theorem C105_resized : forall debug g f p post l, live f -> f_prs f = p :: post -> turns g (f_prs f) l -> uniform l ->
  (exists p', g p = Ret p' /\ length (rextra p') <> length (rextra p)) ->
  (exists w, update_each debug g f = (f, Throw (runtime_error w)))
  /\ update_copy g f = (holding f l, Ret tt) /\ update_move g f = (holding f l, Ret tt).
Proof.
  intros debug g f p post l Lf Ep H U (p' & Eg & D). destruct (uniform_sized _ (lv_uniform f Lf)) as [k S]. rewrite Ep in S.
  pose proof (turns_mapM _ _ _ H) as M. apply all_same_size_uniform in U. split; [|split].
  - eexists. unfold update_each. rewrite Ep. cbn [length update_from]. unfold get_point_record, vec_get. rewrite Ep. cbn [znth Z.eqb bind].
    rewrite Eg. unfold m_then at 1. rewrite <- (holding_same f), Ep.
    pose proof (set_mid debug f k [] p post p' S) as E. cbn [app] in E. change (zlen []) with 0 in E. rewrite E.
    inversion S; subst. replace (length (rextra p') =? length (rextra p))%nat with false by (symmetry; now apply Nat.eqb_neq). reflexivity.
  - unfold update_copy. rewrite M. unfold set_point_records, m_then, m_throw_if. rewrite U. reflexivity.
  - unfold update_move, move_point_records_out. rewrite M. unfold move_point_records_in. rewrite U. reflexivity.
Qed.

(** The benchmark's change: it keeps the number of extra fields, adds to x and, modulo 2^64,
    to the last extra field, and leaves the other fields. *)
Theorem C105_bump : forall k p, zlen (rextra p) = k -> 1 <= k ->
  exists old p', bump k p = Ret p' /\ length (rextra p') = length (rextra p)
  /\ znth (rextra p) (k - 1) = Some old /\ znth (rextra p') (k - 1) = Some ((old + 123) mod 2 ^ 64)
  /\ (forall j, j <> k - 1 -> znth (rextra p') j = znth (rextra p) j)
  /\ rx p' = d_add (rx p) d_1_23 /\ ry p' = ry p /\ rz p' = rz p /\ rc p' = rc p /\ rp p' = rp p
  /\ ri p' = ri p /\ rr p' = rr p /\ rg p' = rg p /\ rb p' = rb p.
Proof.
  intros k p Hk Pk. assert (exists init last, rextra p = init ++ [last]) as (init & last & E).
  { destruct (rextra p) as [|a t] eqn:Er; [unfold zlen in Hk; cbn in Hk; lia|].
    destruct (@exists_last _ (a :: t) ltac:(discriminate)) as (i & x & ->). eauto. }
  assert (L : k - 1 = zlen init) by (rewrite <- Hk, E; unfold zlen; rewrite app_length; cbn; lia).
  unfold bump. rewrite L, E. unfold vec_get, vec_set. rewrite znth_mid. cbn [bind]. rewrite zset_mid. cbn [bind].
  eexists last, _. split; [reflexivity|]. cbn [rextra rx ry rz rc rp ri rr rg rb].
  split; [now rewrite !app_length|]. split; [reflexivity|]. split; [now rewrite znth_mid|]. split; [|repeat split].
  intros j Nj. destruct (Z_lt_ge_dec j (zlen init)); [now rewrite !znth_app_l by lia|].
  rewrite !znth_app_r by lia. rewrite !(proj2 (znth_None_range _ _)); [reflexivity| |]; rewrite zlen_cons; change (zlen (@nil Z)) with 0; lia.
Qed.

(** Example *)
Definition u_pr (c e : Z) : point_record := mk_pr d_one d_zero d_zero c 0 0 0 0 0 [7; e].
Definition u_file : spoc_file := mk_file 0 1 (chars "WKT") false [u_pr 1 5; u_pr 2 (2 ^ 64 - 1)].
Definition u_done : spoc_file := mk_file 0 1 (chars "WKT") false
  [mk_pr 4612203932384535511 d_zero d_zero 1 0 0 0 0 0 [7; 128]; mk_pr 4612203932384535511 d_zero d_zero 2 0 0 0 0 0 [7; 122]].
(** A change that fails for class 2, and one that drops the extra fields of class 2 *)
Definition u_fails : change := fun p => if rc p =? 2 then Throw out_of_range else Ret (with_id 9 p).
Definition u_drops : change := fun p => Ret (if rc p =? 2 then mk_pr (rx p) (ry p) (rz p) (rc p) 0 0 0 0 0 [] else with_id 9 p).
Definition u_all : change := fun p => Ret (mk_pr (rx p) (ry p) (rz p) (rc p) 0 0 0 0 0 []).

Example C105_example : live u_file /\ turns_same (bump 2) (f_prs u_file) (f_prs u_done)
  /\ update_each true (bump 2) u_file = (u_done, Ret tt)
  /\ (turns_same u_fails [u_pr 1 5] [with_id 9 (u_pr 1 5)] /\ u_fails (u_pr 2 (2 ^ 64 - 1)) = Throw out_of_range)
  /\ (turns_same u_drops [u_pr 1 5] [with_id 9 (u_pr 1 5)] /\ exists p', u_drops (u_pr 2 (2 ^ 64 - 1)) = Ret p' /\ rextra p' = [])
  /\ (exists l, turns u_all (f_prs u_file) l /\ uniform l).
Proof.
  split; [split; cbn; try lia; intros p q [<-|[<-|[]]] [<-|[<-|[]]]; reflexivity|].
  split.
  { apply Forall2_cons; [split; vm_compute; reflexivity|]. apply Forall2_cons; [split; vm_compute; reflexivity|apply Forall2_nil]. }
  split; [vm_compute; reflexivity|].
  split; [split; [repeat constructor|reflexivity]|].
  split; [split; [repeat constructor|eexists; split; reflexivity]|].
  eexists. split; [repeat constructor|]. intros p q [<-|[<-|[]]] [<-|[<-|[]]]; reflexivity.
Qed.

Print Assumptions C105_agree.
Print Assumptions C105_exception.
Print Assumptions C105_inconsistent.
Print Assumptions C105_resized.
Print Assumptions C105_bump.
