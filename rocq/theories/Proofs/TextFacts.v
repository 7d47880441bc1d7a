(** Lemmas about reading and printing numbers. *)
From Coq Require Import ZArith List Bool Lia String.
From Verif.Model Require Import Base Double AppUtils.
From Verif.Spec Require Import Text.
From Verif.Proofs Require Import BaseFacts.
Import ListNotations.
Open Scope Z_scope.
Open Scope outcome_scope.

Lemma is_digit_iff : forall c, is_digit c = true <-> digit c.
Proof. intros c. unfold is_digit, digit. rewrite andb_true_iff, !Z.leb_le. tauto. Qed.

Lemma is_space_iff : forall c, is_space c = true <-> white c.
Proof.
  intros c. unfold is_space, white. rewrite orb_true_iff, andb_true_iff, Z.eqb_eq, !Z.leb_le. cbn [In]. lia.
Qed.

Lemma is_alnum_iff : forall c, is_alnum c = true <-> alphanumeric c.
Proof.
  intros c. unfold is_alnum, alphanumeric, is_digit. rewrite !orb_true_iff, !andb_true_iff, !Z.leb_le. lia.
Qed.

Lemma span_spec : forall (f : Z -> bool) (P : Z -> Prop), (forall c, f c = true <-> P c) ->
  forall s a b, span f s = (a, b) <-> s = a ++ b /\ Forall P a /\ not_first P b.
Proof.
  intros f P H. induction s as [|c t IH]; intros a b; cbn [span].
  - split.
    + intros [= <- <-]. split; [reflexivity|]. split; [constructor|]. intros c u E. discriminate E.
    + intros (E & _ & _). symmetry in E. apply app_eq_nil in E as [-> ->]. reflexivity.
  - destruct (f c) eqn:F.
    + destruct (span f t) as [a' b'] eqn:S. split.
      * intros [= <- <-]. apply IH in S as (-> & A & B); [|exact a'|exact b'] || (destruct (proj1 (IH a' b') eq_refl) as (-> & A & B)).
        split; [reflexivity|]. split; [constructor; [now apply H|exact A]|exact B].
      * intros (E & A & B). destruct a as [|x a].
        -- cbn in E. subst b. exfalso. apply (B c t eq_refl). now apply H.
        -- cbn in E. injection E as <- E. inversion A; subst.
           assert (S' : (a', b') = (a, b)) by (apply IH; auto). now injection S' as -> ->.
    + split.
      * intros [= <- <-]. split; [reflexivity|]. split; [constructor|]. intros x u [= <- <-] Q. apply H in Q. congruence.
      * intros (E & A & B). destruct a as [|x a].
        -- cbn in E. now subst.
        -- cbn in E. injection E as <- E. inversion A; subst. match goal with Q : P c |- _ => apply H in Q; congruence end.
Qed.

Lemma span_app : forall (f : Z -> bool) (P : Z -> Prop) a b, (forall c, f c = true <-> P c) -> Forall P a -> not_first P b ->
  span f (a ++ b) = (a, b).
Proof. intros f P a b H A B. apply (span_spec f P H). auto. Qed.

Lemma dec_value_app : forall ds v, fold_left (fun v d => 10 * v + (d - 48)) ds v
  = v * 10 ^ Z.of_nat (List.length ds) + number ds.
Proof.
  induction ds as [|d t IH]; intros v; cbn [fold_left number List.length]; [cbn; lia|].
  rewrite IH, Nat2Z.inj_succ, Z.pow_succ_r by lia. lia.
Qed.

Lemma dec_value_number : forall ds, dec_value ds = number ds.
Proof. intros. unfold dec_value. rewrite dec_value_app. lia. Qed.

Lemma number_nonneg : forall ds, Forall digit ds -> 0 <= number ds.
Proof.
  induction 1 as [|d t D F IH]; cbn [number]; [lia|]. unfold digit in D.
  assert (0 < 10 ^ Z.of_nat (List.length t)) by (apply Z.pow_pos_nonneg; lia). nia.
Qed.

Lemma number_app : forall a b, number (a ++ b) = number a * 10 ^ Z.of_nat (List.length b) + number b.
Proof.
  induction a as [|d t IH]; intros b; cbn [app number]; [lia|].
  rewrite IH, app_length, Nat2Z.inj_add, Z.pow_add_r by lia. ring.
Qed.

(** Printing *)
Lemma put_digits_spec : forall fuel n acc, 0 <= n < 2 ^ Z.of_nat fuel -> (0 < fuel)%nat ->
  exists ds, put_digits fuel n acc = ds ++ acc /\ decimal n ds.
Proof.
  induction fuel as [|k IH]; intros n acc H F; [lia|]. cbn [put_digits].
  destruct (Z.ltb_spec n 10).
  - exists [48 + n]. split; [reflexivity|]. split; [discriminate|]. split; [repeat constructor; unfold digit; lia|].
    cbn [number List.length Z.of_nat]. split; [change (10 ^ 0) with 1; lia|]. cbn [hd]. intros E. now rewrite E.
  - assert (D : n = 10 * (n / 10) + n mod 10) by (apply Z.div_mod; lia).
    pose proof (Z.mod_pos_bound n 10 ltac:(lia)) as M.
    destruct k as [|k].
    { cbn in H. lia. }
    destruct (IH (n / 10) ((48 + n mod 10) :: acc)) as (ds & E & N & A & V & Z).
    { split; [apply Z.div_pos; lia|]. rewrite Nat2Z.inj_succ, Z.pow_succ_r in H by lia. apply Z.div_lt_upper_bound; lia. }
    { lia. }
    exists (ds ++ [48 + n mod 10]). split; [rewrite E, <- app_assoc; reflexivity|].
    split; [now destruct ds|]. split; [apply Forall_app; split; [exact A|repeat constructor; unfold digit; lia]|].
    split; [rewrite number_app, V; cbn [number List.length]; change (10 ^ Z.of_nat 1) with 10; change (10 ^ Z.of_nat 0) with 1; lia|].
    destruct ds as [|d ds]; [congruence|]. cbn [hd app] in *. intros ->. specialize (Z eq_refl). injection Z as ->.
    cbn in V. lia.
Qed.

Lemma put_uint_spec : forall n, 0 <= n -> decimal n (put_uint n).
Proof.
  intros n H. unfold put_uint. destruct (put_digits_spec (S (Z.to_nat (Z.log2 n))) n []) as (ds & -> & D).
  - split; [exact H|]. rewrite Nat2Z.inj_succ, Z2Nat.id by apply Z.log2_nonneg.
    destruct (Z.eq_dec n 0) as [->|]; [cbn; lia|]. apply Z.log2_spec. lia.
  - lia.
  - now rewrite app_nil_r.
Qed.

(** Reading *)
Lemma not_first_digit_sign : forall ds junk, Forall digit ds -> ds <> [] ->
  exists d t, ds ++ junk = d :: t /\ d <> 45 /\ d <> 43 /\ ~ white d.
Proof.
  intros [|d ds] junk F N; [congruence|]. exists d, (ds ++ junk). inversion F; subst. unfold digit, white in *. cbn [In].
  repeat split; try lia.
Qed.

Lemma strtol_spec : forall s v n, strtol s = Some (v, n) <->
  exists sp sg ds junk, s = sp ++ sg ++ ds ++ junk /\ Forall white sp /\ In sg [[]; [43]; [45]]
    /\ ds <> [] /\ Forall digit ds /\ not_first digit junk
    /\ v = (if list_eq_dec Z.eq_dec sg [45] then - number ds else number ds)
    /\ n = zlen sp + zlen sg + zlen ds.
Proof.
  intros s v n. unfold strtol. destruct (span is_space s) as [sp s1] eqn:S.
  pose proof (proj1 (span_spec is_space white is_space_iff _ _ _) S) as (-> & W & F1).
  assert (U : forall sp' sg ds junk, sp ++ s1 = sp' ++ sg ++ ds ++ junk -> Forall white sp' -> In sg [[]; [43]; [45]] ->
     ds <> [] -> Forall digit ds -> sp' = sp /\ s1 = sg ++ ds ++ junk).
  { intros sp' sg ds junk E W' G N D.
    assert (F' : not_first white (sg ++ ds ++ junk)).
    { intros c u E'. cbn [In] in G. destruct G as [<-|[<-|[<-|[]]]].
      - destruct (not_first_digit_sign ds junk D N) as (d & t & E2 & _ & _ & Wd). cbn [app] in E'. rewrite E2 in E'.
        injection E' as -> _. exact Wd.
      - injection E' as <- _. unfold white. cbn [In]. lia.
      - injection E' as <- _. unfold white. cbn [In]. lia. }
    pose proof (span_app is_space white sp' _ is_space_iff W' F') as X. rewrite <- E in X. rewrite S in X.
    injection X as -> ->. auto. }
  assert (Main : forall neg sg s2, (if neg : bool then sg = [45] else In sg [[]; [43]]) -> s1 = sg ++ s2 ->
     (forall sg' ds junk, s1 = sg' ++ ds ++ junk -> In sg' [[]; [43]; [45]] -> ds <> [] -> Forall digit ds -> sg' = sg) ->
     (let '(ds, _) := span is_digit s2 in
        match ds with
        | [] => None
        | _ => Some (if neg then - dec_value ds else dec_value ds, zlen sp + zlen sg + zlen ds)
        end) = Some (v, n) <->
     exists sp0 sg0 ds junk, sp ++ s1 = sp0 ++ sg0 ++ ds ++ junk /\ Forall white sp0 /\ In sg0 [[]; [43]; [45]]
       /\ ds <> [] /\ Forall digit ds /\ not_first digit junk
       /\ v = (if list_eq_dec Z.eq_dec sg0 [45] then - number ds else number ds)
       /\ n = zlen sp0 + zlen sg0 + zlen ds).
  { intros neg sg s2 G -> Q. destruct (span is_digit s2) as [ds junk] eqn:S2.
    pose proof (proj1 (span_spec is_digit digit is_digit_iff _ _ _) S2) as (-> & D & J).
    assert (Gi : In sg [[]; [43]; [45]]).
    { destruct neg; [subst; cbn; auto|]. cbn in *. tauto. }
    assert (Gv : (if list_eq_dec Z.eq_dec sg [45] then true else false) = neg).
    { destruct neg; [subst; reflexivity|]. cbn in G. destruct G as [<-|[<-|[]]]; reflexivity. }
    split.
    - intros E. destruct ds as [|d t] eqn:Ed; [discriminate E|]. rewrite <- Ed in *. injection E as <- <-.
      exists sp, sg, ds, junk. rewrite dec_value_number.
      split; [reflexivity|]. split; [exact W|]. split; [exact Gi|]. split; [now rewrite Ed|]. split; [exact D|].
      split; [exact J|]. split; [|reflexivity]. rewrite <- Gv. now destruct (list_eq_dec Z.eq_dec sg [45]).
    - intros (sp0 & sg0 & ds0 & junk0 & E & W0 & G0 & N0 & D0 & J0 & -> & ->).
      destruct (U _ _ _ _ E W0 G0 N0 D0) as [-> E1].
      pose proof (Q _ _ _ E1 G0 N0 D0) as ->. apply app_inv_head in E1.
      pose proof (span_app is_digit digit ds0 junk0 is_digit_iff D0 J0) as X. rewrite <- E1, S2 in X. injection X as -> ->.
      destruct ds0 as [|d t] eqn:Ed; [congruence|]. rewrite <- Ed. rewrite dec_value_number.
      rewrite <- Gv. now destruct (list_eq_dec Z.eq_dec sg [45]). }
  destruct s1 as [|c t].
  { apply (Main false [] []); [now left|reflexivity|].
    intros sg' ds junk E _ N _. symmetry in E. apply app_eq_nil in E as [_ E]. apply app_eq_nil in E as [E _]. congruence. }
  destruct (Z.eqb_spec c 45) as [->|C1].
  { apply (Main true [45] t); [reflexivity|reflexivity|].
    intros sg' ds junk E G N D. cbn [In] in G. destruct G as [<-|[<-|[<-|[]]]]; [|discriminate E|reflexivity].
    destruct (not_first_digit_sign ds junk D N) as (d & u & E2 & A & _). cbn [app] in E. rewrite E2 in E. congruence. }
  destruct (Z.eqb_spec c 43) as [->|C2].
  { apply (Main false [43] t); [right; now left|reflexivity|].
    intros sg' ds junk E G N D. cbn [In] in G. destruct G as [<-|[<-|[<-|[]]]]; [|reflexivity|discriminate E].
    destruct (not_first_digit_sign ds junk D N) as (d & u & E2 & _ & A & _). cbn [app] in E. rewrite E2 in E. congruence. }
  apply (Main false [] (c :: t)); [now left|reflexivity|].
  intros sg' ds junk E G N D. cbn [In] in G. destruct G as [<-|[<-|[<-|[]]]]; [reflexivity| |]; cbn in E; congruence.
Qed.

Lemma stoi_spec : forall s v n, stoi s = Ret (v, n) <-> strtol s = Some (v, n) /\ - two31 <= v < two31.
Proof.
  intros s v n. unfold stoi. destruct (strtol s) as [[w m]|]; [|split; [intros E; discriminate E|intros [E _]; discriminate E]].
  destruct (Z.leb_spec (- two31) w), (Z.ltb_spec w two31); cbn [andb]; split; intros E;
    try discriminate E; try (injection E as <- <-); try (destruct E as [[= <- <-] E]); auto; lia.
Qed.

Lemma stoi_cases : forall s, (exists v n, stoi s = Ret (v, n)) \/ exists e, stoi s = Throw e.
Proof. intros s. unfold stoi. destruct (strtol s) as [[w m]|]; [|eauto]. destruct (_ && _); eauto. Qed.

(** The text of an integer followed by something that is not a digit *)
Lemma strtol_int_text : forall v t junk, int_text v t -> not_first digit junk ->
  strtol (t ++ junk) = Some (v, zlen t).
Proof.
  intros v t junk T J. apply strtol_spec. unfold int_text in T. destruct (Z.ltb_spec v 0).
  - destruct T as (u & -> & N & D & V & _). exists [], [45], u, junk. cbn [app].
    split; [reflexivity|]. split; [constructor|]. split; [cbn; auto|]. split; [exact N|]. split; [exact D|].
    split; [exact J|]. destruct (list_eq_dec Z.eq_dec [45] [45]) as [_|X]; [|congruence]. split; [lia|].
    rewrite zlen_cons, zlen_nil. change (zlen [45]) with 1. lia.
  - destruct T as (N & D & V & _). exists [], [], t, junk. cbn [app].
    split; [reflexivity|]. split; [constructor|]. split; [cbn; auto|]. split; [exact N|]. split; [exact D|].
    split; [exact J|]. destruct (list_eq_dec Z.eq_dec [] [45]) as [X|_]; [discriminate X|]. split; [lia|].
    rewrite zlen_nil. lia.
Qed.

Lemma int_text_nonempty : forall v t, int_text v t -> t <> [].
Proof.
  intros v t T. unfold int_text in T. destruct (v <? 0); [destruct T as (u & -> & _); discriminate|]. apply T.
Qed.

Lemma zdrop_app_len : forall {A} (a b : list A), zdrop (zlen a) (a ++ b) = b.
Proof.
  induction a as [|x a IH]; intros b.
  - rewrite zlen_nil. destruct b; reflexivity.
  - cbn [app zdrop]. rewrite zlen_cons. pose proof (zlen_nonneg a).
    destruct (Z.leb_spec (1 + zlen a) 0); [lia|]. replace (1 + zlen a - 1) with (zlen a) by lia. apply IH.
Qed.

Lemma zdrop_1 : forall {A} (l : list A), zdrop 1 l = tl l.
Proof. intros A [|x [|y t]]; reflexivity. Qed.

Lemma consume_int_text : forall v t c junk, int_text v t -> - two31 <= v < two31 -> ~ digit c ->
  consume_int (t ++ c :: junk) = Ret (to_u32 v, junk).
Proof.
  intros v t c junk T B C. unfold consume_int.
  assert (J : not_first digit (c :: junk)) by (intros x u [= <- <-]; exact C).
  rewrite (proj2 (stoi_spec _ _ _) (conj (strtol_int_text v t _ T J) B)).
  f_equal. f_equal. replace (t ++ c :: junk) with ((t ++ [c]) ++ junk) by (now rewrite <- app_assoc).
  replace (zlen t + 1) with (zlen (t ++ [c])) by (rewrite zlen_app; reflexivity). apply zdrop_app_len.
Qed.

Lemma consume_int_end : forall v t, int_text v t -> - two31 <= v < two31 -> consume_int t = Ret (to_u32 v, []).
Proof.
  intros v t T B. unfold consume_int.
  assert (J : not_first digit []) by (intros x u E; discriminate E).
  pose proof (strtol_int_text v t [] T J) as S. rewrite app_nil_r in S.
  rewrite (proj2 (stoi_spec _ _ _) (conj S B)).
  f_equal. f_equal. clear. induction t as [|c t IH]; [reflexivity|]. cbn [zdrop]. rewrite zlen_cons.
  pose proof (zlen_nonneg t). destruct (Z.leb_spec (1 + zlen t + 1) 0); [lia|].
  replace (1 + zlen t + 1 - 1) with (zlen t + 1) by lia. exact IH.
Qed.

Lemma zdrop_shorter : forall {A} n (l : list A), 0 < n -> l <> [] -> (List.length (zdrop n l) < List.length l)%nat.
Proof.
  intros A n l N. revert n N. induction l as [|x t IH]; intros n N H; [congruence|]. cbn [zdrop].
  destruct (Z.leb_spec n 0); [lia|]. cbn [List.length]. destruct (Z.eq_dec n 1) as [->|].
  - change (1 - 1) with 0. destruct t; cbn; lia.
  - destruct t as [|y t]; [cbn; lia|]. specialize (IH (n - 1) ltac:(lia) ltac:(discriminate)). lia.
Qed.

Lemma consume_int_shorter : forall s v s', consume_int s = Ret (v, s') -> (List.length s' < List.length s)%nat.
Proof.
  intros s v s' H. unfold consume_int in H. destruct (stoi s) as [[w n]|e|u|] eqn:E; try discriminate H.
  injection H as _ <-. apply stoi_spec in E as [E _].
  apply strtol_spec in E as (sp & sg & ds & junk & -> & _ & _ & N & _ & _ & _ & ->).
  apply zdrop_shorter.
  - pose proof (zlen_nonneg sp). pose proof (zlen_nonneg sg). pose proof (zlen_nonneg ds). lia.
  - intros E. apply N. apply app_eq_nil in E as [_ E]. apply app_eq_nil in E as [_ E]. now apply app_eq_nil in E as [E _].
Qed.

Lemma consume_rest_total : forall fuel s, (List.length s < fuel)%nat -> exists vs s', consume_rest fuel s = Ret (vs, s').
Proof.
  induction fuel as [|k IH]; intros s H; [lia|]. cbn [consume_rest].
  destruct (consume_int s) as [[v s1]|e|u|] eqn:E; eauto.
  apply consume_int_shorter in E. destruct (IH s1 ltac:(lia)) as (vs & s' & ->). cbn [bind]. eauto.
Qed.

Lemma consume_rest_texts : forall ts u vs, separated ts u ->
  Forall2 int_text vs ts -> Forall (fun v => - two31 <= v < two31) vs ->
  forall fuel, (List.length u < fuel)%nat -> consume_rest fuel u = Ret (map to_u32 vs, []).
Proof.
  intros ts u vs S. revert vs. induction S as [t|t c ts u C S IH]; intros vs T B fuel F.
  - inversion T as [|v ? vs' ? T1 T2]; subst. inversion T2; subst. inversion B; subst.
    destruct fuel as [|k]; [lia|]. cbn [consume_rest]. rewrite (consume_int_end v t) by assumption.
    pose proof (int_text_nonempty v t T1) as N. destruct t as [|x t]; [congruence|]. cbn in F.
    destruct k as [|k]; [lia|]. reflexivity.
  - inversion T as [|v ? vs' ? T1 T2]; subst. inversion B; subst.
    destruct fuel as [|k]; [lia|]. cbn [consume_rest]. rewrite (consume_int_text v t c u) by assumption.
    rewrite app_length in F. cbn in F. cbn [bind map]. rewrite (IH vs') by (auto; lia). reflexivity.
Qed.
