(** Lemmas about the vocabulary of Model/Base.v. *)
From Coq Require Import ZArith List Bool Lia.
From Verif.Model Require Import Base.
Import ListNotations.
Open Scope Z_scope.

Ltac zs := unfold two8, two16, two31, two32, two63, two64 in *.

(** ** zlen, ztake, zdrop *)

Lemma zlen_nonneg : forall {A} (l : list A), 0 <= zlen l.
Proof. intros; unfold zlen; lia. Qed.

Lemma zlen_nil : forall A, zlen (@nil A) = 0.
Proof. reflexivity. Qed.

Lemma zlen_cons : forall {A} (a : A) l, zlen (a :: l) = 1 + zlen l.
Proof. intros; unfold zlen; cbn [length]; lia. Qed.

Lemma zlen_app : forall {A} (a b : list A), zlen (a ++ b) = zlen a + zlen b.
Proof. intros; unfold zlen; rewrite app_length; lia. Qed.

Lemma zlen_map : forall {A B} (f : A -> B) l, zlen (map f l) = zlen l.
Proof. intros; unfold zlen; rewrite map_length; lia. Qed.

Lemma zlen_zero_nil : forall {A} (l : list A), zlen l = 0 -> l = [].
Proof. intros A [|a l]; [reflexivity|]; rewrite zlen_cons; pose proof (zlen_nonneg l); lia. Qed.

Lemma ztake_firstn : forall {A} (l : list A) n, ztake n l = firstn (Z.to_nat n) l.
Proof.
  induction l as [|a l IH]; intros n; cbn [ztake].
  - now rewrite firstn_nil.
  - destruct (n <=? 0) eqn:E.
    + apply Z.leb_le in E. replace (Z.to_nat n) with O by lia. reflexivity.
    + apply Z.leb_gt in E. rewrite IH.
      replace (Z.to_nat n) with (S (Z.to_nat (n - 1))) by lia. reflexivity.
Qed.

Lemma zdrop_skipn : forall {A} (l : list A) n, zdrop n l = skipn (Z.to_nat n) l.
Proof.
  induction l as [|a l IH]; intros n; cbn [zdrop].
  - now rewrite skipn_nil.
  - destruct (n <=? 0) eqn:E.
    + apply Z.leb_le in E. replace (Z.to_nat n) with O by lia. reflexivity.
    + apply Z.leb_gt in E. rewrite IH.
      replace (Z.to_nat n) with (S (Z.to_nat (n - 1))) by lia. reflexivity.
Qed.

Lemma ztake_zdrop : forall {A} n (l : list A), ztake n l ++ zdrop n l = l.
Proof. intros; rewrite ztake_firstn, zdrop_skipn; apply firstn_skipn. Qed.

Lemma zlen_ztake : forall {A} n (l : list A), zlen (ztake n l) = Z.max 0 (Z.min n (zlen l)).
Proof. intros; rewrite ztake_firstn; unfold zlen; rewrite firstn_length; lia. Qed.

Lemma zlen_zdrop : forall {A} n (l : list A), zlen (zdrop n l) = Z.max 0 (zlen l - Z.max 0 n).
Proof. intros; rewrite zdrop_skipn; unfold zlen; rewrite skipn_length; lia. Qed.

Lemma ztake_le0 : forall {A} n (l : list A), n <= 0 -> ztake n l = [].
Proof. intros; rewrite ztake_firstn; replace (Z.to_nat n) with O by lia; reflexivity. Qed.

Lemma zdrop_le0 : forall {A} n (l : list A), n <= 0 -> zdrop n l = l.
Proof. intros; rewrite zdrop_skipn; replace (Z.to_nat n) with O by lia; reflexivity. Qed.

Lemma ztake_all : forall {A} n (l : list A), zlen l <= n -> ztake n l = l.
Proof. intros A n l H; rewrite ztake_firstn; apply firstn_all2; unfold zlen in H; lia. Qed.

Lemma zdrop_all : forall {A} n (l : list A), zlen l <= n -> zdrop n l = [].
Proof. intros A n l H; rewrite zdrop_skipn; apply skipn_all2; unfold zlen in H; lia. Qed.

Lemma ztake_app_l : forall {A} n (a b : list A), n <= zlen a -> ztake n (a ++ b) = ztake n a.
Proof.
  intros A n a b H; rewrite !ztake_firstn, firstn_app; unfold zlen in H.
  replace (Z.to_nat n - length a)%nat with O by lia. cbn. now rewrite app_nil_r.
Qed.

Lemma ztake_app_r : forall {A} n (a b : list A),
  zlen a <= n -> ztake n (a ++ b) = a ++ ztake (n - zlen a) b.
Proof.
  intros A n a b H; rewrite !ztake_firstn, firstn_app; unfold zlen in *.
  rewrite (firstn_all2 a) by lia. do 2 f_equal. lia.
Qed.

Lemma ztake_app_exact : forall {A} n (a b : list A), n = zlen a -> ztake n (a ++ b) = a.
Proof. intros; subst; rewrite ztake_app_l by lia; apply ztake_all; lia. Qed.

Lemma zdrop_app_l : forall {A} n (a b : list A), n <= zlen a -> zdrop n (a ++ b) = zdrop n a ++ b.
Proof.
  intros A n a b H; rewrite !zdrop_skipn, skipn_app; unfold zlen in H.
  replace (Z.to_nat n - length a)%nat with O by lia. reflexivity.
Qed.

Lemma zdrop_app_r : forall {A} n (a b : list A),
  zlen a <= n -> zdrop n (a ++ b) = zdrop (n - zlen a) b.
Proof.
  intros A n a b H; rewrite !zdrop_skipn, skipn_app; unfold zlen in *.
  rewrite (skipn_all2 a) by lia. cbn. f_equal. lia.
Qed.

Lemma zdrop_app_exact : forall {A} n (a b : list A), n = zlen a -> zdrop n (a ++ b) = b.
Proof. intros; subst; rewrite zdrop_app_r by lia; apply zdrop_le0; lia. Qed.

Lemma zdrop_zdrop : forall {A} m n (l : list A), 0 <= m -> 0 <= n -> zdrop m (zdrop n l) = zdrop (n + m) l.
Proof.
  intros A m n l Hm Hn. rewrite !zdrop_skipn.
  replace (Z.to_nat (n + m)) with (Z.to_nat n + Z.to_nat m)%nat by lia.
  generalize (Z.to_nat n) as a, (Z.to_nat m) as b. clear. intros a; revert l.
  induction a as [|a IH]; intros l b; cbn; [reflexivity|].
  destruct l; [now rewrite skipn_nil|apply IH].
Qed.

Lemma ztake_ztake : forall {A} m n (l : list A), m <= n -> ztake m (ztake n l) = ztake m l.
Proof.
  intros A m n l H. rewrite !ztake_firstn, firstn_firstn. f_equal. lia.
Qed.

Lemma zdrop_ztake : forall {A} m n (l : list A),
  0 <= m -> zdrop m (ztake n l) = ztake (n - m) (zdrop m l).
Proof.
  intros A m n l Hm. rewrite !ztake_firstn, !zdrop_skipn.
  rewrite skipn_firstn_comm. f_equal. lia.
Qed.

Lemma Forall_ztake : forall {A} (P : A -> Prop) n l, Forall P l -> Forall P (ztake n l).
Proof.
  intros A P n l H. rewrite <- (ztake_zdrop n l) in H. apply Forall_app in H. tauto.
Qed.

Lemma Forall_zdrop : forall {A} (P : A -> Prop) n l, Forall P l -> Forall P (zdrop n l).
Proof.
  intros A P n l H. rewrite <- (ztake_zdrop n l) in H. apply Forall_app in H. tauto.
Qed.

Lemma zlen_zrepeat : forall {A} (a : A) n, zlen (zrepeat a n) = Z.max 0 n.
Proof. intros; unfold zlen, zrepeat; rewrite repeat_length; lia. Qed.

Lemma Forall_zrepeat : forall {A} (P : A -> Prop) a n, P a -> Forall P (zrepeat a n).
Proof. intros A P a n H; apply Forall_forall; intros x Hx; apply repeat_spec in Hx; now subst. Qed.

Lemma zlen_overwrite : forall {A} (s d : list A), zlen s <= zlen d -> zlen (overwrite s d) = zlen d.
Proof.
  intros A s d H; unfold overwrite; rewrite zlen_app, zlen_zdrop.
  pose proof (zlen_nonneg s); lia.
Qed.

Lemma overwrite_full : forall {A} (s d : list A), zlen s = zlen d -> overwrite s d = s.
Proof. intros A s d H; unfold overwrite; rewrite zdrop_all by lia; apply app_nil_r. Qed.

Lemma overwrite_nil : forall {A} (d : list A), overwrite [] d = d.
Proof. intros A d; unfold overwrite; cbn [app]; rewrite zdrop_le0; [reflexivity|unfold zlen; cbn; lia]. Qed.

Lemma Forall_overwrite : forall {A} (P : A -> Prop) s d,
  Forall P s -> Forall P d -> Forall P (overwrite s d).
Proof. intros; unfold overwrite; apply Forall_app; split; [assumption|now apply Forall_zdrop]. Qed.

(** ** znth, zset *)

Lemma znth_nth_error : forall {A} (l : list A) n,
  0 <= n -> znth l n = nth_error l (Z.to_nat n).
Proof.
  induction l as [|a l IH]; intros n Hn; cbn [znth].
  - now destruct (Z.to_nat n).
  - destruct (n =? 0) eqn:E.
    + apply Z.eqb_eq in E. subst. reflexivity.
    + apply Z.eqb_neq in E. replace (n <? 0) with false by (symmetry; apply Z.ltb_ge; lia).
      rewrite IH by lia. replace (Z.to_nat n) with (S (Z.to_nat (n - 1))) by lia. reflexivity.
Qed.

Lemma znth_neg : forall {A} (l : list A) n, n < 0 -> znth l n = None.
Proof.
  intros A [|a l] n Hn; cbn; [reflexivity|].
  replace (n =? 0) with false by (symmetry; apply Z.eqb_neq; lia).
  replace (n <? 0) with true by (symmetry; apply Z.ltb_lt; lia). reflexivity.
Qed.

Lemma znth_Some_range : forall {A} (l : list A) n a, znth l n = Some a -> 0 <= n < zlen l.
Proof.
  intros A l n a H. destruct (Z_lt_ge_dec n 0) as [Hn|Hn].
  - rewrite znth_neg in H by lia. discriminate.
  - rewrite znth_nth_error in H by lia.
    assert (nth_error l (Z.to_nat n) <> None) by congruence.
    apply nth_error_Some in H0. unfold zlen. lia.
Qed.

Lemma znth_in_range : forall {A} (l : list A) n, 0 <= n < zlen l -> exists a, znth l n = Some a.
Proof.
  intros A l n H. rewrite znth_nth_error by lia.
  destruct (nth_error l (Z.to_nat n)) eqn:E; [eauto|].
  apply nth_error_None in E. unfold zlen in H. lia.
Qed.

Lemma znth_None_range : forall {A} (l : list A) n, znth l n = None <-> ~ (0 <= n < zlen l).
Proof.
  intros A l n. split.
  - intros H Hr. destruct (znth_in_range l n Hr) as [a Ha]. congruence.
  - intros H. destruct (znth l n) eqn:E; [|reflexivity]. now apply znth_Some_range in E.
Qed.

Lemma znth_app_l : forall {A} (a b : list A) n, n < zlen a -> znth (a ++ b) n = znth a n.
Proof.
  intros A a b n H. destruct (Z_lt_ge_dec n 0) as [Hn|Hn].
  - now rewrite !znth_neg by lia.
  - rewrite !znth_nth_error by lia. apply nth_error_app1. unfold zlen in H. lia.
Qed.

Lemma znth_app_r : forall {A} (a b : list A) n, zlen a <= n -> znth (a ++ b) n = znth b (n - zlen a).
Proof.
  intros A a b n H. pose proof (zlen_nonneg a).
  rewrite !znth_nth_error by lia. rewrite nth_error_app2 by (unfold zlen in H; lia).
  f_equal. unfold zlen in *. lia.
Qed.

Lemma znth_map : forall {A B} (f : A -> B) l n, znth (map f l) n = option_map f (znth l n).
Proof.
  intros A B f l n. destruct (Z_lt_ge_dec n 0) as [Hn|Hn].
  - now rewrite !znth_neg by lia.
  - rewrite !znth_nth_error by lia.
    generalize (Z.to_nat n) as k; clear.
    induction l as [|a l IH]; intros [|k]; cbn; auto.
Qed.

Lemma znth_In : forall {A} (l : list A) n a, znth l n = Some a -> In a l.
Proof.
  intros A l n a H. pose proof (znth_Some_range _ _ _ H).
  rewrite znth_nth_error in H by lia. eapply nth_error_In; eauto.
Qed.

Lemma znth_ext : forall {A} (a b : list A),
  zlen a = zlen b -> (forall n, 0 <= n < zlen a -> znth a n = znth b n) -> a = b.
Proof.
  intros A a. induction a as [|x a IH]; intros [|y b] Hl Hn; try reflexivity.
  - rewrite zlen_cons, zlen_nil in Hl. pose proof (zlen_nonneg b). lia.
  - rewrite zlen_cons, zlen_nil in Hl. pose proof (zlen_nonneg a). lia.
  - rewrite !zlen_cons in *. f_equal.
    + pose proof (zlen_nonneg a). assert (E : znth (x :: a) 0 = znth (y :: b) 0) by (apply Hn; lia).
      cbn [znth] in E. change (0 =? 0) with true in E. cbv iota in E. congruence.
    + apply IH; [lia|]. intros n Hr. assert (E : znth (x :: a) (n + 1) = znth (y :: b) (n + 1)) by (apply Hn; lia).
      cbn [znth] in E. replace (n + 1 =? 0) with false in E by (symmetry; apply Z.eqb_neq; lia).
      replace (n + 1 <? 0) with false in E by (symmetry; apply Z.ltb_ge; lia).
      replace (n + 1 - 1) with n in E by lia. exact E.
Qed.

Lemma zset_spec : forall {A} (l : list A) n a,
  0 <= n < zlen l -> zset l n a = Some (ztake n l ++ a :: zdrop (n + 1) l).
Proof.
  induction l as [|x l IH]; intros n a H.
  - rewrite zlen_nil in H. lia.
  - rewrite zlen_cons in H. cbn [zset ztake zdrop].
    destruct (n =? 0) eqn:E.
    + apply Z.eqb_eq in E. subst. cbn. now rewrite zdrop_le0 by lia.
    + apply Z.eqb_neq in E.
      replace (n <? 0) with false by (symmetry; apply Z.ltb_ge; lia).
      replace (n <=? 0) with false by (symmetry; apply Z.leb_gt; lia).
      replace (n + 1 <=? 0) with false by (symmetry; apply Z.leb_gt; lia).
      rewrite IH by lia. replace (n + 1 - 1) with (n - 1 + 1) by lia. reflexivity.
Qed.

Lemma zset_None : forall {A} (l : list A) n a, ~ (0 <= n < zlen l) -> zset l n a = None.
Proof.
  induction l as [|x l IH]; intros n a H; cbn [zset]; [reflexivity|].
  rewrite zlen_cons in H. pose proof (zlen_nonneg l).
  destruct (n =? 0) eqn:E; [apply Z.eqb_eq in E; lia|]. apply Z.eqb_neq in E.
  destruct (n <? 0) eqn:E2; [reflexivity|]. apply Z.ltb_ge in E2.
  rewrite IH by lia. reflexivity.
Qed.

(** ** Byte images *)

Lemma length_le_bytes : forall k v, length (le_bytes k v) = k.
Proof. induction k; intros; cbn; auto. Qed.

Lemma zlen_le_bytes : forall k v, zlen (le_bytes k v) = Z.of_nat k.
Proof. intros; unfold zlen; now rewrite length_le_bytes. Qed.

Lemma le_bytes_ok : forall k v, bytes_ok (le_bytes k v).
Proof.
  induction k; intros; cbn; constructor.
  - unfold byte_ok; zs. apply Z.mod_pos_bound. lia.
  - apply IHk.
Qed.

Lemma le_val_bytes : forall k v, 0 <= v < 256 ^ Z.of_nat k -> le_val (le_bytes k v) = v.
Proof.
  induction k; intros v H; cbn [le_bytes le_val].
  - cbn in H. lia.
  - rewrite IHk.
    + pose proof (Z.div_mod v 256). lia.
    + rewrite Nat2Z.inj_succ, Z.pow_succ_r in H by lia. split.
      * apply Z.div_pos; lia.
      * apply Z.div_lt_upper_bound; lia.
Qed.

Lemma le_val_range : forall l, bytes_ok l -> 0 <= le_val l < 256 ^ zlen l.
Proof.
  induction l as [|b l IH]; intros H; cbn [le_val].
  - cbn. lia.
  - inversion H as [|? ? Hb Hl]; subst. specialize (IH Hl).
    rewrite zlen_cons. pose proof (zlen_nonneg l).
    rewrite Z.pow_add_r by lia. unfold byte_ok in Hb; zs. lia.
Qed.

Lemma le_bytes_val : forall l, bytes_ok l -> le_bytes (length l) (le_val l) = l.
Proof.
  induction l as [|b l IH]; intros H; cbn [length le_bytes le_val]; [reflexivity|].
  inversion H as [|? ? Hb Hl]; subst. unfold byte_ok in Hb; zs.
  replace (b + 256 * le_val l) with (b + le_val l * 256) by lia.
  rewrite Z.mod_add, Z.div_add by lia.
  rewrite Z.mod_small, Z.div_small by lia. rewrite Z.add_0_l, IH; auto.
Qed.

Lemma beq_bytes_eq : forall a b, beq_bytes a b = true <-> a = b.
Proof.
  induction a as [|x a IH]; intros [|y b]; cbn; split; intros H; try discriminate; auto.
  - apply andb_prop in H as [H1 H2]. apply Z.eqb_eq in H1. apply IH in H2. congruence.
  - injection H as -> ->. rewrite Z.eqb_refl. cbn. now apply IH.
Qed.

Lemma beq_bytes_refl : forall a, beq_bytes a a = true.
Proof. intros; now apply beq_bytes_eq. Qed.

(** ** Streams *)

Lemma is_read_full : forall n bs t s,
  i_rest s = bs ++ t -> i_eof s = false -> i_fail s = false -> zlen bs = n ->
  is_read n s = (bs, mk_istream t false false).
Proof.
  intros n bs t s Hr He Hf Hn. unfold is_read, i_good. rewrite He, Hf. cbn.
  rewrite Hr, ztake_app_exact by lia.
  replace (zlen bs <? n) with false by (symmetry; apply Z.ltb_ge; lia).
  now rewrite zdrop_app_exact by lia.
Qed.

Lemma is_read_open : forall n bs t, zlen bs = n ->
  is_read n (i_open (bs ++ t)) = (bs, i_open t).
Proof. intros; eapply is_read_full; eauto. Qed.

Lemma is_read_zlen : forall n s got s', 0 <= n -> is_read n s = (got, s') -> 0 <= zlen got <= n.
Proof.
  intros n s got s' Hn H. unfold is_read in H. destruct (i_good s).
  - destruct (zlen (ztake n (i_rest s)) <? n); injection H as <- <-;
      rewrite zlen_ztake; pose proof (zlen_nonneg (i_rest s)); lia.
  - injection H as <- <-. rewrite zlen_nil. lia.
Qed.

Lemma is_read_ok : forall n s got s', bytes_ok (i_rest s) -> is_read n s = (got, s') ->
  bytes_ok got /\ bytes_ok (i_rest s').
Proof.
  intros n s got s' Hok H. unfold is_read in H. destruct (i_good s).
  - destruct (zlen (ztake n (i_rest s)) <? n); injection H as <- <-; cbn.
    + split; [now apply Forall_ztake|constructor].
    + split; [now apply Forall_ztake|now apply Forall_zdrop].
  - injection H as <- <-. cbn. split; [constructor|assumption].
Qed.

Lemma is_read_bad : forall n s, i_good s = false ->
  is_read n s = ([], mk_istream (i_rest s) (i_eof s) true).
Proof. intros n s H; unfold is_read; now rewrite H. Qed.

(** ** Writers on any stream *)

Definition o_good (s : ostream) : Prop := o_room s = None /\ o_bad s = false.

Definition o_wf (s : ostream) : Prop := forall r, o_room s = Some r -> 0 <= r.

(** [w] returns [a] and does to the stream what writing [bs] does. *)
Definition emits {A} (w : writer A) (bs : list Z) (a : A) : Prop :=
  forall s, o_wf s -> w s = (os_write bs s, Ret a).

Lemma os_write_nil : forall s, o_wf s -> os_write [] s = s.
Proof.
  intros [b r bad] H. unfold os_write. cbn. destruct bad; [reflexivity|].
  destruct r as [r|]; rewrite app_nil_r; [|reflexivity].
  specialize (H r eq_refl). change (zlen (@nil Z)) with 0.
  rewrite (proj2 (Z.leb_le _ _)) by lia. do 2 f_equal. lia.
Qed.

Lemma os_write_wf : forall bs s, o_wf s -> o_wf (os_write bs s).
Proof.
  intros bs [b r bad] H. unfold os_write. cbn. destruct bad; [assumption|].
  destruct r as [r|]; [|intros r Hr; discriminate].
  specialize (H r eq_refl).
  destruct (zlen bs <=? r) eqn:E; intros r' Hr; cbn in Hr; injection Hr as <-; [|lia].
  apply Z.leb_le in E. lia.
Qed.

Lemma os_write_app : forall bs cs s, o_wf s -> os_write cs (os_write bs s) = os_write (bs ++ cs) s.
Proof.
  intros bs cs [b r bad] H. unfold os_write at 2 3. cbn [o_bad o_room o_bytes]. destruct bad; [reflexivity|].
  pose proof (zlen_nonneg bs). pose proof (zlen_nonneg cs).
  destruct r as [r|]; [specialize (H r eq_refl)|unfold os_write; cbn; now rewrite app_assoc].
  rewrite zlen_app. destruct (zlen bs <=? r) eqn:E.
  - apply Z.leb_le in E. unfold os_write. cbn [o_bad o_room o_bytes].
    destruct (zlen cs <=? r - zlen bs) eqn:E2.
    + apply Z.leb_le in E2. rewrite (proj2 (Z.leb_le _ _)) by lia. rewrite app_assoc. do 2 f_equal. lia.
    + apply Z.leb_gt in E2. rewrite (proj2 (Z.leb_gt _ _)) by lia.
      rewrite ztake_app_r by lia. now rewrite app_assoc.
  - apply Z.leb_gt in E. rewrite (proj2 (Z.leb_gt _ _)) by lia.
    rewrite ztake_app_l by lia. reflexivity.
Qed.

Lemma emits_good : forall {A} (w : writer A) bs a s, emits w bs a -> o_good s ->
  exists s', w s = (s', Ret a) /\ o_good s' /\ o_bytes s' = o_bytes s ++ bs.
Proof.
  intros A w bs a [b r bad] H [Hr Hb]. cbn in Hr, Hb. subst. rewrite H by (intros r Hr; discriminate).
  eexists; split; [reflexivity|]. unfold o_good, os_write. cbn. auto.
Qed.

Lemma emits_put : forall bs, emits (w_put bs) bs tt.
Proof. intros bs s Hs. reflexivity. Qed.

Lemma emits_ret : forall {A} (a : A), emits (w_ret a) [] a.
Proof. intros A a s H. now rewrite os_write_nil. Qed.

Lemma emits_bind : forall {A B} (m : writer A) (k : A -> writer B) bs cs a b,
  emits m bs a -> emits (k a) cs b -> emits (w_bind m k) (bs ++ cs) b.
Proof.
  intros A B m k bs cs a b Hm Hk s Hs. unfold w_bind.
  rewrite (Hm s Hs). rewrite (Hk _ (os_write_wf _ _ Hs)). now rewrite os_write_app.
Qed.

Lemma emits_seq : forall {A} (m : writer unit) (k : writer A) bs cs a,
  emits m bs tt -> emits k cs a -> emits (w_seq m k) (bs ++ cs) a.
Proof. intros; unfold w_seq; eapply emits_bind; eauto. Qed.

Lemma emits_lift : forall {A B} (m : outcome A) (k : A -> writer B) a cs b,
  m = Ret a -> emits (k a) cs b -> emits (w_bind (w_lift m) k) cs b.
Proof. intros A B m k a cs b -> Hk s Hs. cbn. apply Hk; auto. Qed.

Lemma emits_iter : forall {A} (f : A -> writer unit) (g : A -> list Z) l,
  (forall a, In a l -> emits (f a) (g a) tt) -> emits (w_iter f l) (flat_map g l) tt.
Proof.
  intros A f g l. induction l as [|a l IH]; intros H; cbn.
  - apply emits_ret.
  - apply emits_seq; [apply H; now left|apply IH; intros; apply H; now right].
Qed.

(** ** mapM *)

Lemma mapM_Ret : forall {A B} (f : A -> outcome B) (g : A -> B) l,
  (forall a, In a l -> f a = Ret (g a)) -> mapM f l = Ret (map g l).
Proof.
  intros A B f g l. induction l as [|a l IH]; intros H; cbn; [reflexivity|].
  rewrite H by now left. cbn. rewrite IH by (intros; apply H; now right). reflexivity.
Qed.

Lemma mapM_Ret_inv : forall {A B} (f : A -> outcome B) l bs,
  mapM f l = Ret bs -> Forall2 (fun a b => f a = Ret b) l bs.
Proof.
  intros A B f l. induction l as [|a l IH]; intros bs H; cbn in H.
  - injection H as <-. constructor.
  - destruct (f a) eqn:E; try discriminate. cbn in H.
    destruct (mapM f l) eqn:E2; try discriminate. cbn in H. injection H as <-.
    constructor; auto.
Qed.

Lemma bind_Ret_inv : forall {A B} (m : outcome A) (k : A -> outcome B) b,
  bind m k = Ret b -> exists a, m = Ret a /\ k a = Ret b.
Proof. intros A B [] k b H; cbn in H; try discriminate; eauto. Qed.

