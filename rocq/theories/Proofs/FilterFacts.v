(** Lemmas about spoc_filter. *)
From Coq Require Import ZArith List Bool Lia Sorting Permutation.
From Verif.Model Require Import Base Double Header PointRecord Point File Subsampling AppUtils FilterApp.
From Verif.Spec Require Import Files Apps Sampling.
From Verif.Proofs Require Import BaseFacts FileFacts HistoryFacts SubsampleFacts.
Import ListNotations.
Open Scope Z_scope.
Open Scope outcome_scope.

Lemma member_iff : forall x c, member x c = true <-> In x c.
Proof. intros x c. unfold member. destruct (in_dec Z.eq_dec x c); split; congruence || tauto. Qed.

Lemma member_existsb : forall x c, existsb (Z.eqb x) c = member x c.
Proof.
  intros x c. apply eq_true_iff_eq. rewrite member_iff, existsb_exists. split.
  - intros (y & I & E). apply Z.eqb_eq in E. now subst.
  - intros I. exists x. split; [exact I|apply Z.eqb_refl].
Qed.

Lemma live_clone : forall f, live f -> clone_empty f = Ret (with_prs f []).
Proof.
  intros f [A B C]. unfold clone_empty, file_ctor. cbn [all_same_size_extra negb].
  unfold to_u8. change two8 with 256. now rewrite !Z.mod_small by assumption.
Qed.

Lemma live_copy : forall f, live f -> file_copy f = Ret f.
Proof.
  intros f [A B C]. unfold file_copy, file_ctor. apply all_same_size_uniform in C. rewrite C. cbn [negb].
  unfold to_u8. change two8 with 256. rewrite !Z.mod_small by assumption. now destruct f.
Qed.

Lemma uniform_sub : forall a b, (forall p, In p a -> In p b) -> uniform b -> uniform a.
Proof. intros a b H U p q Hp Hq. apply U; auto. Qed.

Lemma live_sub : forall f prs, live f -> (forall p, In p prs -> In p (f_prs f)) -> live (with_prs f prs).
Proof. intros f prs [A B C] H. split; cbn; auto. eapply uniform_sub; eassumption. Qed.

Lemma with_prs_same : forall f prs, same_meta f (with_prs f prs).
Proof. intros. now repeat split. Qed.

Lemma after_push : forall g p, uniform (f_prs g ++ [p]) ->
  after (push_back p) g = Ret (with_prs g (f_prs g ++ [p])).
Proof.
  intros g p U. unfold after, push_back, m_then, m_throw_if, m_update.
  destruct (f_prs g) as [|q t] eqn:E; [reflexivity|].
  replace (zlen (rextra p) =? zlen (rextra q)) with true; [reflexivity|].
  symmetry. apply Z.eqb_eq. unfold zlen. f_equal.
  apply U; apply in_or_app; [right|left]; now left.
Qed.

Lemma push_if_filter : forall keep prs g, uniform (f_prs g ++ prs) ->
  push_if keep prs g = Ret (with_prs g (f_prs g ++ filter keep prs)).
Proof.
  induction prs as [|p t IH]; intros g U; cbn [push_if filter].
  - rewrite app_nil_r. now destruct g.
  - destruct (keep p).
    + rewrite after_push. cbn [bind].
      * rewrite IH; cbn [f_prs with_prs]; rewrite <- app_assoc; [reflexivity|exact U].
      * eapply uniform_sub; [|exact U]. intros q Hq. rewrite in_app_iff in *. cbn in *. tauto.
    + apply IH. eapply uniform_sub; [|exact U]. intros q Hq. rewrite in_app_iff in *. cbn. tauto.
Qed.

Lemma filter_file : forall keep f, live f ->
  (g <- clone_empty f ;; push_if keep (f_prs f) g) = Ret (with_prs f (filter keep (f_prs f))).
Proof.
  intros keep f L. rewrite live_clone by exact L. cbn [bind]. rewrite push_if_filter; [reflexivity|].
  cbn. apply L.
Qed.

Lemma live_filter : forall keep f, live f -> live (with_prs f (filter keep (f_prs f))).
Proof. intros keep f L. apply live_sub; [exact L|]. intros p H. apply filter_In in H. tauto. Qed.

Lemma filter_filter : forall {A} (k : A -> bool) l, filter k (filter k l) = filter k l.
Proof. induction l as [|a t IH]; cbn; [reflexivity|]. destruct (k a) eqn:E; cbn; rewrite ?E, IH; reflexivity. Qed.

Lemma push_at_map : forall prs idx g, uniform (f_prs g ++ prs) -> (forall i, In i idx -> 0 <= i < zlen prs) ->
  exists sel, push_at prs idx g = Ret (with_prs g (f_prs g ++ sel)) /\ map Some sel = map (znth prs) idx.
Proof.
  induction idx as [|i t IH]; intros g U B; cbn [push_at].
  - exists []. split; [rewrite app_nil_r; now destruct g|reflexivity].
  - destruct (znth_in_range prs i (B i (or_introl eq_refl))) as [p Hp].
    rewrite (proj2 (vec_get_znth _ _ _) Hp). cbn [bind]. pose proof (znth_In _ _ _ Hp) as Ip.
    rewrite after_push by (eapply uniform_sub; [|exact U]; intros q Hq; rewrite in_app_iff in *; cbn in *;
      destruct Hq as [Hq|[<-|[]]]; tauto). cbn [bind].
    destruct (IH (with_prs g (f_prs g ++ [p]))) as (sel & E & M).
    + cbn [f_prs with_prs]. eapply uniform_sub; [|exact U]. intros q Hq. rewrite !in_app_iff in *. cbn in *.
      destruct Hq as [[Hq|[<-|[]]]|Hq]; tauto.
    + intros j J. apply B. now right.
    + exists (p :: sel). rewrite E. cbn [f_prs with_prs map]. rewrite <- app_assoc, Hp, M. now split.
Qed.

(** [split_blank] *)
Lemma split_blank_one : forall w, ~ In 32 w -> split_blank w = [w].
Proof.
  induction w as [|c t IH]; intros H; cbn [split_blank]; [reflexivity|].
  rewrite IH by (intros I; apply H; now right).
  destruct (Z.eqb_spec c 32); [exfalso; apply H; left; congruence|reflexivity].
Qed.

Lemma split_blank_inv : forall s, exists w ws, split_blank s = w :: ws /\ ~ In 32 w
  /\ ((ws = [] /\ s = w) \/ exists t, s = w ++ 32 :: t /\ ws = split_blank t).
Proof.
  induction s as [|c t IH].
  - exists [], []. cbn. auto.
  - destruct IH as (w & ws & E & N & D). cbn [split_blank]. rewrite E.
    destruct (Z.eqb_spec c 32) as [->|C].
    + exists [], (w :: ws). cbn. split; [reflexivity|]. split; [tauto|]. right. exists t. auto.
    + exists (c :: w), ws. split; [reflexivity|]. split; [cbn; intuition|].
      destruct D as [[-> ->]|(u & -> & ->)]; [left|right]; auto. exists u. auto.
Qed.

Lemma split_blank_app : forall w t, ~ In 32 w -> split_blank (w ++ 32 :: t) = w :: split_blank t.
Proof.
  induction w as [|c w IH]; intros t H.
  - cbn [app split_blank]. destruct (split_blank t) as [|u us] eqn:E; [|reflexivity].
    exfalso. destruct (split_blank_inv t) as (w & ws & F & _). rewrite F in E. discriminate E.
  - cbn [app split_blank]. rewrite IH by (intros I; apply H; now right).
    destruct (Z.eqb_spec c 32); [exfalso; apply H; left; congruence|reflexivity].
Qed.

(** A list of locations with no two equal ones is visited completely. *)
Lemma firsts_all : forall same idx kept,
  (forall i j, In i (kept ++ idx) -> In j (kept ++ idx) -> i <> j -> same i j = false) -> NoDup (kept ++ idx) ->
  firsts same kept idx = kept ++ idx.
Proof.
  intros same. induction idx as [|j t IH]; intros kept H N; cbn [firsts]; [now rewrite app_nil_r|].
  replace (existsb (fun i => same i j) kept) with false.
  - replace (kept ++ j :: t) with ((kept ++ [j]) ++ t) in * by (now rewrite <- app_assoc). apply IH; assumption.
  - symmetry. apply not_true_iff_false. intros E. apply existsb_exists in E as (i & I & E).
    rewrite H in E; [discriminate E|apply in_or_app; now left|apply in_or_app; right; now left|].
    intros ->. apply NoDup_remove_2 in N. apply N, in_or_app. now left.
Qed.

Lemma map_Some_inj : forall {A} (a b : list A), map Some a = map Some b -> a = b.
Proof.
  induction a as [|x a IH]; intros [|y b] H; try discriminate H; [reflexivity|].
  cbn in H. injection H as -> H. f_equal. now apply IH.
Qed.

Lemma znth_iota_id : forall {A} (l : list A), map (znth l) (iota (length l)) = map Some l.
Proof.
  intros A l. apply znth_ext.
  - rewrite !zlen_map. unfold zlen. now rewrite iota_length.
  - intros i. rewrite !zlen_map. unfold zlen. rewrite iota_length. intros B.
    rewrite !znth_map, iota_nth by exact B. cbn [option_map].
    destruct (znth_in_range l i B) as [a ->]. reflexivity.
Qed.

Lemma NoDup_znth : forall {A} (l : list A), NoDup l -> forall i j a, znth l i = Some a -> znth l j = Some a -> i = j.
Proof.
  induction 1 as [|x l N H IH]; intros i j a Hi Hj; [discriminate Hi|]. cbn [znth] in Hi, Hj.
  destruct (Z.eqb_spec i 0) as [->|I]; destruct (Z.eqb_spec j 0) as [->|J]; auto.
  - injection Hi as ->. destruct (j <? 0); [discriminate Hj|]. apply znth_In in Hj. tauto.
  - injection Hj as ->. destruct (i <? 0); [discriminate Hi|]. apply znth_In in Hi. tauto.
  - destruct (i <? 0); [discriminate Hi|]. destruct (j <? 0); [discriminate Hj|].
    specialize (IH _ _ _ Hi Hj). lia.
Qed.

Lemma filter_partition : forall {A} (q : A -> bool) l, Permutation (filter q l ++ filter (fun p => negb (q p)) l) l.
Proof.
  induction l as [|p t IH]; cbn [filter]; [constructor|]. destruct (q p) eqn:E; cbn [negb app].
  - constructor. exact IH.
  - etransitivity; [|constructor; exact IH]. symmetry. apply Permutation_middle.
Qed.

Lemma filter_sub : forall {A} (q : A -> bool) l, sub (filter q l) l.
Proof. induction l as [|p t IH]; cbn [filter]; [constructor|]. destruct (q p); constructor; exact IH. Qed.

(** Picking by indexes. *)
Lemma sub_trans : forall {A} (a b c : list A), sub a b -> sub b c -> sub a c.
Proof.
  intros A a b c H K. revert a H. induction K as [|x b c K IH|x b c K IH]; intros a H; [exact H| |].
  - constructor. now apply IH.
  - inversion H; subst; constructor; now apply IH.
Qed.

Lemma sub_refl : forall {A} (a : list A), sub a a.
Proof. induction a; constructor; assumption. Qed.

Lemma sub_picks : forall {A} (a b : list A), sub a b -> exists rest, Permutation (a ++ rest) b.
Proof.
  intros A a b H. induction H as [|x a b H (r & IH)|x a b H (r & IH)].
  - exists []. constructor.
  - exists (x :: r). etransitivity; [symmetry; apply Permutation_middle|]. now constructor.
  - exists r. cbn. now constructor.
Qed.

Lemma znth_shift : forall {A} (x : A) l idx, (forall i, In i idx -> 0 < i) ->
  map (znth (x :: l)) idx = map (znth l) (map (fun i => i - 1) idx).
Proof.
  intros A x l idx H. rewrite map_map. apply map_ext_in. intros i I. specialize (H i I). cbn [znth].
  destruct (Z.eqb_spec i 0); [lia|]. destruct (Z.ltb_spec i 0); [lia|reflexivity].
Qed.

Lemma sorted_shift : forall idx, StronglySorted Z.lt idx -> StronglySorted Z.lt (map (fun i => i - 1) idx).
Proof.
  induction 1 as [|i idx S IH F]; cbn; constructor; [exact IH|].
  apply Forall_forall. intros j J. apply in_map_iff in J as (k & <- & K). rewrite Forall_forall in F.
  specialize (F k K). lia.
Qed.

Lemma sorted_pick_sub : forall {A} (l : list A) idx sel, StronglySorted Z.lt idx -> (forall i, In i idx -> 0 <= i) ->
  map Some sel = map (znth l) idx -> sub sel l.
Proof.
  intros A. induction l as [|x l IH]; intros idx sel S P M.
  - destruct idx as [|i idx]; [|destruct sel; discriminate M].
    destruct sel; [constructor|discriminate M].
  - destruct idx as [|i idx]; [destruct sel; [apply sub_nil_l|discriminate M]|].
    inversion S as [|? ? S' F]; subst. rewrite Forall_forall in F.
    assert (Pi : forall j, In j idx -> 0 < j).
    { intros j J. specialize (F j J). specialize (P i (or_introl eq_refl)). lia. }
    destruct (Z.eq_dec i 0) as [->|Ni].
    + destruct sel as [|y sel]; [discriminate M|].
      assert (M1 : y = x) by (inversion M; reflexivity).
      assert (M2 : map Some sel = map (znth (x :: l)) idx) by (inversion M; assumption). subst y.
      apply sub_take. rewrite (znth_shift x l idx Pi) in M2. apply (IH (map (fun i => i - 1) idx)); [now apply sorted_shift| |exact M2].
      intros j J. apply in_map_iff in J as (k & <- & K). specialize (Pi k K). lia.
    + apply sub_skip. assert (Pa : forall j, In j (i :: idx) -> 0 < j).
      { intros j [<-|J]; [specialize (P i (or_introl eq_refl)); lia|now apply Pi]. }
      rewrite (znth_shift x l _ Pa) in M. apply (IH (map (fun i => i - 1) (i :: idx))); [now apply sorted_shift| |exact M].
      intros j J. apply in_map_iff in J as (k & <- & K). specialize (Pa k K). lia.
Qed.

Lemma NoDup_app : forall {A} (a b : list A), NoDup a -> NoDup b -> (forall x, In x a -> In x b -> False) -> NoDup (a ++ b).
Proof.
  induction 1 as [|x a N H IH]; intros B D; [exact B|]. cbn. constructor.
  - rewrite in_app_iff. intros [I|I]; [tauto|]. apply (D x); [now left|exact I].
  - apply IH; [exact B|]. intros y I J. apply (D y); [now right|exact J].
Qed.

Lemma nodup_picks : forall {A} (l : list A) idx sel, NoDup idx -> (forall i, In i idx -> 0 <= i < zlen l) ->
  map Some sel = map (znth l) idx -> exists rest, Permutation (sel ++ rest) l.
Proof.
  intros A l idx sel N B M.
  set (out := filter (fun i => negb (member i idx)) (iota (length l))).
  assert (P : Permutation (idx ++ out) (iota (length l))).
  { apply NoDup_Permutation.
    - apply NoDup_app; [exact N|apply NoDup_filter, iota_nodup|].
      intros i I J. apply filter_In in J as [_ J]. apply member_iff in I. rewrite I in J. discriminate J.
    - apply iota_nodup.
    - intros i. rewrite in_app_iff. unfold out. rewrite filter_In. split.
      + intros [I|[I _]]; [|exact I]. apply iota_In. apply B in I. exact I.
      + intros I. destruct (member i idx) eqn:E; [left; now apply member_iff|right; auto]. }
  assert (O : exists rest, map Some rest = map (znth l) out).
  { assert (Bo : forall i, In i out -> 0 <= i < zlen l).
    { intros i I. unfold out in I. apply filter_In in I as [I _]. apply iota_In in I. exact I. }
    clear - Bo. induction out as [|i t IH]; [exists []; reflexivity|].
    destruct IH as [r E]; [intros j J; apply Bo; now right|].
    destruct (znth_in_range l i (Bo i (or_introl eq_refl))) as [a Ha]. exists (a :: r). cbn. now rewrite Ha, E. }
  destruct O as [rest O]. exists rest.
  apply (Permutation_map (znth l)) in P. rewrite map_app, <- M, <- O, znth_iota_id, <- map_app in P.
  apply (Permutation_map (fun o => match o with Some a => [a] | None => [] end)) in P.
  rewrite !map_map in P.
  assert (C : forall k : list A, concat (map (fun x => [x]) k) = k) by (induction k; cbn; congruence).
  rewrite <- (C (sel ++ rest)), <- (C l). clear - P.
  induction P; cbn; auto using Permutation_app.
  - rewrite !app_assoc. apply Permutation_app_tail, Permutation_app_comm.
  - etransitivity; eassumption.
Qed.
