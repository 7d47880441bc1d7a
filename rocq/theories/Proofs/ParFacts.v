(** Iterations that access only their own element can be run in any order. *)
From Coq Require Import ZArith List Bool Lia.
From Verif.Model Require Import Base Subsampling Par.
From Verif.Spec Require Import Schedules.
From Verif.Proofs Require Import BaseFacts SubsampleFacts.
Import ListNotations.
Open Scope Z_scope.
Open Scope outcome_scope.

Section Par.
Context {A : Type}.

Inductive owns (i : Z) : thread A -> Prop :=
| owns_done : owns i Done
| owns_fail : forall f, owns i (Fail f)
| owns_load : forall k, (forall a, owns i (k a)) -> owns i (Load i k)
| owns_modify : forall g k, owns i k -> owns i (Modify i g k).

Fixpoint run_local (t : thread A) (a : A) : outcome A :=
  match t with
  | Done => Ret a
  | Fail f => failed f
  | Load _ k => run_local (k a) a
  | Modify _ g k => run_local k (g a)
  end.

Definition is_ret {B} (o : outcome B) : Prop := match o with Ret _ => True | _ => False end.

Record inv (s : machine A) (rs : list (outcome A)) : Prop := mk_inv {
  inv_mem : zlen (memory s) = zlen rs;
  inv_thr : zlen (threads s) = zlen rs;
  inv_run : forall i t a r, znth (threads s) i = Some t -> znth (memory s) i = Some a ->
    znth rs i = Some r -> owns i t /\ run_local t a = r
}.

Lemma vec_get_Some : forall {B} (l : list B) i b, znth l i = Some b -> vec_get l i = Ret b.
Proof. intros B l i b H. unfold vec_get. now rewrite H. Qed.

Lemma zset_znth : forall {B} (l : list B) i b, 0 <= i < zlen l ->
  exists l', zset l i b = Some l' /\ zlen l' = zlen l
    /\ (forall j, znth l' j = if j =? i then Some b else znth l j).
Proof.
  induction l as [|x l IH]; intros i b H; [rewrite zlen_nil in H; lia|].
  rewrite zlen_cons in H. cbn [zset]. destruct (i =? 0) eqn:E.
  - apply Z.eqb_eq in E as ->. exists (b :: l). split; [reflexivity|]. split; [now rewrite !zlen_cons|].
    intros j. cbn [znth]. now destruct (j =? 0).
  - apply Z.eqb_neq in E. replace (i <? 0) with false by (symmetry; apply Z.ltb_ge; lia).
    destruct (IH (i - 1) b ltac:(lia)) as (l' & -> & L & S). exists (x :: l').
    split; [reflexivity|]. split; [rewrite !zlen_cons; lia|].
    intros j. cbn [znth]. destruct (j =? 0) eqn:J.
    + apply Z.eqb_eq in J as ->. replace (0 =? i) with false by (symmetry; apply Z.eqb_neq; lia). reflexivity.
    + apply Z.eqb_neq in J. destruct (j <? 0) eqn:K.
      * apply Z.ltb_lt in K. replace (j =? i) with false by (symmetry; apply Z.eqb_neq; lia). reflexivity.
      * rewrite S. destruct (Z.eqb_spec (j - 1) (i - 1)), (Z.eqb_spec j i); try lia; reflexivity.
Qed.

Lemma vec_set_in : forall {B} (l : list B) i b, 0 <= i < zlen l ->
  exists l', vec_set l i b = Ret l' /\ zlen l' = zlen l
    /\ (forall j, znth l' j = if j =? i then Some b else znth l j).
Proof.
  intros B l i b H. unfold vec_set. destruct (zset_znth l i b H) as (l' & E & L & S).
  rewrite E. exists l'. now split.
Qed.

Lemma access_owned : forall i t (m : list A) a, owns i t -> znth m i = Some a ->
  (exists f, t = Fail f) \/
  exists m' t' a', access m t = Ret (m', t') /\ owns i t' /\ zlen m' = zlen m
    /\ znth m' i = Some a' /\ (forall j, j <> i -> znth m' j = znth m j)
    /\ run_local t' a' = run_local t a.
Proof.
  intros i t m a O H. destruct O as [|f|k O|g k O].
  - right. exists m, Done, a. repeat split; auto; constructor.
  - left. now exists f.
  - right. exists m, (k a), a. cbn [access]. rewrite (vec_get_Some _ _ _ H). repeat split; auto.
  - right. cbn [access]. rewrite (vec_get_Some _ _ _ H). cbn [bind].
    destruct (vec_set_in m i (g a) (znth_Some_range _ _ _ H)) as (m' & -> & L & S).
    exists m', k, (g a). cbn [bind]. split; [reflexivity|]. split; [exact O|]. split; [exact L|].
    split; [rewrite S, Z.eqb_refl; reflexivity|]. split; [|reflexivity].
    intros j N. rewrite S. now apply Z.eqb_neq in N as ->.
Qed.

Lemma inv_get : forall s rs i t, inv s rs -> znth (threads s) i = Some t ->
  exists a r, znth (memory s) i = Some a /\ znth rs i = Some r /\ owns i t /\ run_local t a = r.
Proof.
  intros s rs i t [M T R] H. pose proof (znth_Some_range _ _ _ H) as B.
  destruct (znth_in_range (memory s) i ltac:(lia)) as [a Ha].
  destruct (znth_in_range rs i ltac:(lia)) as [r Hr].
  destruct (R _ _ _ _ H Ha Hr) as [O E]. exists a, r. now repeat split.
Qed.

Lemma pstep_inv : forall s rs i, inv s rs ->
  (exists f, znth (threads s) i = Some (Fail f) /\ pstep i s = failed f)
  \/ exists s', pstep i s = Ret s' /\ inv s' rs
     /\ (forall j, j <> i -> znth (threads s') j = znth (threads s) j)
     /\ (forall t, znth (threads s) i = Some t -> exists m t', access (memory s) t = Ret (m, t') /\ znth (threads s') i = Some t').
Proof.
  intros s rs i I. unfold pstep. destruct (znth (threads s) i) as [t|] eqn:E.
  2: { right. exists s. split; [reflexivity|]. split; [exact I|]. split; [reflexivity|]. intros t H. discriminate H. }
  destruct (inv_get _ _ _ _ I E) as (a & r & Ha & Hr & O & Q).
  destruct (access_owned i t (memory s) a O Ha) as [[f ->]|(m' & t' & a' & EA & O' & L & Ha' & Hj & Q')].
  - left. exists f. split; [reflexivity|]. cbn [access]. now destruct f.
  - right. rewrite EA. cbn [bind].
    destruct (vec_set_in (threads s) i t' (znth_Some_range _ _ _ E)) as (ts & -> & LT & ST). cbn [bind].
    exists (mk_machine m' ts). split; [reflexivity|]. split; [|split].
    + destruct I as [M T R]. constructor; cbn [memory threads]; try lia.
      intros j tj aj rj Hj1 Hj2 Hj3. rewrite ST in Hj1. destruct (Z.eqb_spec j i) as [->|N].
      * injection Hj1 as <-. rewrite Ha' in Hj2. injection Hj2 as <-. rewrite Hr in Hj3. injection Hj3 as <-.
        split; [exact O'|]. rewrite Q'. exact Q.
      * rewrite (Hj j N) in Hj2. exact (R _ _ _ _ Hj1 Hj2 Hj3).
    + intros j N. cbn [threads]. rewrite ST. now apply Z.eqb_neq in N as ->.
    + intros t0 H0. injection H0 as <-. exists m', t'. split; [exact EA|]. cbn [threads]. rewrite ST, Z.eqb_refl. reflexivity.
Qed.

Lemma prun_inv : forall sched s rs, inv s rs ->
  (exists s', prun sched s = Ret s' /\ inv s' rs)
  \/ (forall s', prun sched s <> Ret s') /\ exists i r, znth rs i = Some r /\ ~ is_ret r.
Proof.
  induction sched as [|i t IH]; intros s rs I; cbn [prun].
  - left. exists s. split; [reflexivity|exact I].
  - destruct (pstep_inv s rs i I) as [(f & E & P)|(s' & P & I' & _)].
    + right. rewrite P. split.
      * intros s'. destruct f; cbn; intros H; discriminate H.
      * destruct (inv_get _ _ _ _ I E) as (a & r & _ & Hr & _ & Q). exists i, r. split; [exact Hr|].
        rewrite <- Q. cbn [run_local]. destruct f; cbn; auto.
    + rewrite P. cbn [bind]. exact (IH s' rs I').
Qed.

Lemma inv_no_race : forall s rs, inv s rs -> ~ race s.
Proof.
  intros s rs I (i & i' & t & t' & j & w & w' & N & H & H' & X & X' & _).
  destruct (inv_get _ _ _ _ I H) as (_ & _ & _ & _ & O & _).
  destruct (inv_get _ _ _ _ I H') as (_ & _ & _ & _ & O' & _).
  destruct O; cbn in X; try discriminate; destruct O'; cbn in X'; try discriminate; congruence.
Qed.

Lemma mapM_id_Ret : forall (l : list A), mapM (fun x => x) (map Ret l) = Ret l.
Proof. induction l as [|a l IH]; [reflexivity|]. cbn [map mapM bind]. rewrite IH. reflexivity. Qed.

Lemma finished_results : forall s rs, inv s rs -> finished s -> rs = map Ret (memory s).
Proof.
  intros s rs I F. pose proof I as [M T R]. apply znth_ext; [rewrite zlen_map; lia|].
  intros i B. rewrite znth_map.
  destruct (znth_in_range (memory s) i ltac:(lia)) as [a Ha].
  destruct (znth_in_range (threads s) i ltac:(lia)) as [t Ht].
  destruct (znth_in_range rs i ltac:(lia)) as [r Hr].
  destruct (R _ _ _ _ Ht Ha Hr) as [_ Q]. unfold finished in F. rewrite Forall_forall in F.
  rewrite (F t (znth_In _ _ _ Ht)) in Q. cbn in Q. rewrite Hr, Ha, <- Q. reflexivity.
Qed.

Lemma prun_app : forall a b (s : machine A), prun (a ++ b) s = (s' <- prun a s ;; prun b s').
Proof.
  induction a as [|i a IH]; intros b s; [reflexivity|]. cbn [app prun].
  destruct (pstep i s) as [s'|e|u|]; cbn [bind]; [apply IH|reflexivity..].
Qed.

Lemma finish_one : forall t s rs i r, inv s rs -> znth (threads s) i = Some t -> znth rs i = Some r ->
  exists more,
   (is_ret r /\ exists s', prun more s = Ret s' /\ inv s' rs /\ znth (threads s') i = Some Done
      /\ forall j, j <> i -> znth (threads s') j = znth (threads s) j)
   \/ (~ is_ret r /\ forall s', prun more s <> Ret s').
Proof.
  induction t as [|f|j k IH|j g k IH]; intros s rs i r I H Hr.
  - destruct (inv_get _ _ _ _ I H) as (a & r' & _ & Hr' & _ & Q). rewrite Hr in Hr'. injection Hr' as <-.
    exists []. left. cbn in Q. subst r. split; [exact Logic.I|]. exists s. split; [reflexivity|]. split; [exact I|]. split; [exact H|]. reflexivity.
  - destruct (inv_get _ _ _ _ I H) as (a & r' & _ & Hr' & _ & Q). rewrite Hr in Hr'. injection Hr' as <-.
    exists [i]. right. cbn in Q. subst r. split; [now destruct f|]. intros s'. cbn [prun].
    unfold pstep. rewrite H. cbn [access]. destruct f; cbn; intros X; discriminate X.
  - destruct (inv_get _ _ _ _ I H) as (a & r' & Ha & Hr' & O & Q). assert (j = i) as -> by (inversion O; reflexivity).
    destruct (pstep_inv s rs i I) as [(f & E & P)|(s1 & P & I1 & N1 & T1)].
    + rewrite H in E. discriminate E.
    + destruct (T1 _ H) as (m & t' & EA & H1). cbn [access] in EA.
      rewrite (vec_get_Some _ _ _ Ha) in EA. cbn [bind] in EA. injection EA as _ <-.
      destruct (IH a s1 rs i r I1 H1 Hr) as (more & [(R & s' & P' & I' & D & N)|(R & P')]).
      * exists (i :: more). left. split; [exact R|]. exists s'. cbn [prun]. rewrite P. cbn [bind].
        split; [exact P'|]. split; [exact I'|]. split; [exact D|]. intros j Hj. rewrite (N j Hj). exact (N1 j Hj).
      * exists (i :: more). right. split; [exact R|]. intros s'. cbn [prun]. rewrite P. cbn [bind]. apply P'.
  - destruct (inv_get _ _ _ _ I H) as (a & r' & Ha & Hr' & O & Q). assert (j = i) as -> by (inversion O; reflexivity).
    destruct (pstep_inv s rs i I) as [(f & E & P)|(s1 & P & I1 & N1 & T1)].
    + rewrite H in E. discriminate E.
    + destruct (T1 _ H) as (m & t' & EA & H1). cbn [access] in EA.
      rewrite (vec_get_Some _ _ _ Ha) in EA. cbn [bind] in EA.
      destruct (vec_set_in (memory s) i (g a) (znth_Some_range _ _ _ Ha)) as (m' & E' & _). rewrite E' in EA.
      cbn [bind] in EA. injection EA as _ <-.
      destruct (IH s1 rs i r I1 H1 Hr) as (more & [(R & s' & P' & I' & D & N)|(R & P')]).
      * exists (i :: more). left. split; [exact R|]. exists s'. cbn [prun]. rewrite P. cbn [bind].
        split; [exact P'|]. split; [exact I'|]. split; [exact D|]. intros j Hj. rewrite (N j Hj). exact (N1 j Hj).
      * exists (i :: more). right. split; [exact R|]. intros s'. cbn [prun]. rewrite P. cbn [bind]. apply P'.
Qed.

Lemma finish_upto : forall n s rs, inv s rs -> Forall is_ret rs -> Z.of_nat n <= zlen rs ->
  exists more s', prun more s = Ret s' /\ inv s' rs /\ forall i, 0 <= i < Z.of_nat n -> znth (threads s') i = Some Done.
Proof.
  induction n as [|n IH]; intros s rs I F L.
  - exists [], s. split; [reflexivity|]. split; [exact I|]. intros i Hi. lia.
  - destruct (IH s rs I F ltac:(lia)) as (m1 & s1 & P1 & I1 & D1).
    pose proof (inv_thr _ _ I1) as T1.
    destruct (znth_in_range (threads s1) (Z.of_nat n) ltac:(lia)) as [t Ht].
    destruct (znth_in_range rs (Z.of_nat n) ltac:(lia)) as [r Hr].
    destruct (finish_one t s1 rs _ r I1 Ht Hr) as (m2 & [(R & s2 & P2 & I2 & D2 & N2)|(R & _)]).
    + exists (m1 ++ m2), s2. rewrite prun_app, P1. cbn [bind]. split; [exact P2|]. split; [exact I2|].
      intros i Hi. destruct (Z.eq_dec i (Z.of_nat n)) as [->|N]; [exact D2|]. rewrite N2 by exact N. apply D1. lia.
    + exfalso. apply R. rewrite Forall_forall in F. apply F. exact (znth_In _ _ _ Hr).
Qed.

Lemma finish_all : forall s rs, inv s rs -> Forall is_ret rs ->
  exists more s', prun more s = Ret s' /\ finished s'.
Proof.
  intros s rs I F. destruct (finish_upto (length rs) s rs I F) as (more & s' & P & I' & D); [unfold zlen; lia|].
  exists more, s'. split; [exact P|]. apply Forall_forall. intros t Ht.
  apply In_nth_error in Ht as [n Hn].
  assert (L : (n < length (threads s'))%nat) by (apply nth_error_Some; congruence).
  pose proof (inv_thr _ _ I') as T. unfold zlen in T.
  assert (E := znth_nth_error (threads s') (Z.of_nat n) ltac:(lia)).
  rewrite D in E by lia. rewrite Nat2Z.id in E. congruence.
Qed.

Lemma mapM_id_ret : forall (rs : list (outcome A)) m, mapM (fun x => x) rs = Ret m -> rs = map Ret m.
Proof.
  induction rs as [|r rs IH]; intros m H; cbn [mapM] in H.
  - injection H as <-. reflexivity.
  - destruct r as [a|e|u|]; cbn [bind] in H; try discriminate H.
    destruct (mapM (fun x => x) rs) as [l|e|u|] eqn:E; cbn [bind] in H; try discriminate H.
    injection H as <-. cbn. now rewrite (IH l eq_refl).
Qed.

Lemma mapM_id_fail : forall (rs : list (outcome A)), ~ is_ret (mapM (fun x => x) rs) ->
  exists i r, znth rs i = Some r /\ ~ is_ret r.
Proof.
  induction rs as [|r rs IH]; intros H; cbn [mapM] in H; [cbn in H; tauto|].
  destruct r as [a|e|u|]; cbn [bind] in H.
  - destruct (mapM (fun x => x) rs) as [l|e|u|]; cbn [bind] in H; [cbn in H; tauto|..];
      destruct (IH H) as (i & r & Hi & Hr); exists (i + 1), r; (split; [|exact Hr]);
      pose proof (znth_Some_range _ _ _ Hi) as B; cbn [znth];
      replace (i + 1 =? 0) with false by (symmetry; apply Z.eqb_neq; lia);
      replace (i + 1 <? 0) with false by (symmetry; apply Z.ltb_ge; lia);
      replace (i + 1 - 1) with i by lia; exact Hi.
  - exists 0. eexists. split; [reflexivity|]. exact H.
  - exists 0. eexists. split; [reflexivity|]. exact H.
  - exists 0. eexists. split; [reflexivity|]. exact H.
Qed.

Lemma inv_free : forall s rs, inv s rs -> schedule_free s (mapM (fun x => x) rs).
Proof.
  intros s rs I. split.
  - intros sched s' P. destruct (prun_inv sched s rs I) as [(s1 & P1 & I1)|[P1 _]].
    + rewrite P in P1. injection P1 as <-. exact (inv_no_race _ _ I1).
    + exfalso. exact (P1 _ P).
  - assert (OK : forall m, mapM (fun x => x) rs = Ret m ->
      forall sched, exists s', prun sched s = Ret s' /\ (finished s' -> memory s' = m)
        /\ exists more s'', prun more s' = Ret s'' /\ finished s'').
    { intros m E sched. pose proof (mapM_id_ret _ _ E) as R.
      assert (F : Forall is_ret rs).
      { rewrite R. apply Forall_forall. intros r Hr. apply in_map_iff in Hr as (a & <- & _). exact Logic.I. }
      destruct (prun_inv sched s rs I) as [(s1 & P1 & I1)|[_ (i & r & Hi & Hr)]].
      - exists s1. split; [exact P1|]. split.
        + intros D. pose proof (finished_results _ _ I1 D) as Q. rewrite Q, mapM_id_Ret in E. now injection E.
        + exact (finish_all s1 rs I1 F).
      - exfalso. apply Hr. rewrite Forall_forall in F. apply F. exact (znth_In _ _ _ Hi). }
    assert (KO : ~ is_ret (mapM (fun x => x) rs) ->
      forall sched s', prun sched s = Ret s' -> ~ finished s' /\ exists more, forall s'', prun more s' <> Ret s'').
    { intros E sched s' P. destruct (prun_inv sched s rs I) as [(s1 & P1 & I1)|[P1 _]].
      2: { exfalso. exact (P1 _ P). }
      rewrite P in P1. injection P1 as <-. split.
      - intros D. apply E. rewrite (finished_results _ _ I1 D), mapM_id_Ret. exact Logic.I.
      - destruct (mapM_id_fail rs E) as (i & r & Hi & Hr).
        pose proof (znth_Some_range _ _ _ Hi) as B. pose proof (inv_thr _ _ I1) as T.
        destruct (znth_in_range (threads s') i ltac:(lia)) as [t Ht].
        destruct (finish_one t s' rs i r I1 Ht Hi) as (more & [(R & _)|(_ & P')]); [contradiction|].
        exists more. exact P'. }
    destruct (mapM (fun x => x) rs) as [m|e|u|] eqn:E; [exact (OK m eq_refl)|..]; apply KO; cbn; tauto.
Qed.

(** The loop as a whole. *)
Lemma par_for_free : forall n body (m : list A) rs, length m = n -> length rs = n ->
  (forall i a r, znth m i = Some a -> znth rs i = Some r -> owns i (body i) /\ run_local (body i) a = r) ->
  schedule_free (par_for n body m) (mapM (fun x => x) rs).
Proof.
  intros n body m rs Lm Lr H. apply inv_free. constructor; cbn [par_for memory threads].
  - unfold zlen. congruence.
  - rewrite zlen_map. unfold zlen. rewrite iota_length. congruence.
  - intros i t a r Ht Ha Hr. rewrite znth_map in Ht.
    pose proof (znth_Some_range _ _ _ Ha) as B. rewrite iota_nth in Ht by (unfold zlen in B; lia).
    cbn in Ht. injection Ht as <-. exact (H i a r Ha Hr).
Qed.

Lemma mapM_map_id : forall {B} (f : B -> outcome A) l, mapM (fun x => x) (map f l) = mapM f l.
Proof. induction l as [|b l IH]; [reflexivity|]. cbn [map mapM]. now rewrite IH. Qed.

(** Iteration [i] transforms element [i] by [f], whatever [i]. *)
Lemma par_for_map : forall body (m : list A) (f : A -> outcome A),
  (forall i a, owns i (body i) /\ run_local (body i) a = f a) ->
  schedule_free (par_for (length m) body m) (mapM f m).
Proof.
  intros body m f H. rewrite <- mapM_map_id. apply par_for_free; [reflexivity|now rewrite map_length|].
  intros i a r Ha Hr. rewrite znth_map, Ha in Hr. cbn in Hr. injection Hr as <-. apply H.
Qed.

Lemma mapM_total : forall {B} (f : B -> A) l, mapM (fun b => Ret (f b)) l = Ret (map f l).
Proof. induction l as [|b l IH]; [reflexivity|]. cbn [mapM map bind]. now rewrite IH. Qed.

Lemma compute_owns : forall {B} i (o : outcome B) (k : B -> thread A), (forall b, owns i (k b)) -> owns i (compute o k).
Proof. intros B i [b|e|u|] k H; cbn; try constructor. apply H. Qed.

Lemma compute_run : forall {B} (o : outcome B) (k : B -> thread A) a,
  run_local (compute o k) a = (b <- o ;; run_local (k b) a).
Proof. now intros B [b|e|u|] k a. Qed.

End Par.
