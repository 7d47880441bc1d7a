(** C125: transforming before or after merging. *)
From Coq Require Import String ZArith List Bool Lia.
From Verif.Model Require Import Base Double Arith Header PointRecord Point File Compression IO AppUtils AppConvert MergeApp FilterApp ToolApp TransformApp Par Utils Affine.
From Verif.Spec Require Import Text Streams Files Apps Fields Transforms ZlibContract TransformFilter.
From Verif.Proofs Require Import BaseFacts FileFacts ToyZlib TextFacts StreamFacts StoreFacts HeaderCutFacts HistoryFacts ToolFacts FilterFacts.
From Verif.Props Require Import FileProps MergeProps ToolProps TransformProps ScenarioProps TransformFilterProps.
Import ListNotations.
Open Scope Z_scope.
Open Scope outcome_scope.

Lemma field_name_part s name s' : consume_field_name s = Ret (name, s') -> ~ In 112 s -> ~ In 112 name /\ ~ In 112 s'.
Proof.
  unfold consume_field_name. destruct (span is_alnum s) as [n r] eqn:E. destruct (negb (check_field_name n)); [discriminate|]. intros [= <- <-] H.
  assert (X : s = n ++ r).
  { clear H. revert n r E. induction s as [|c s IH]; cbn [span]; intros n r E; [now injection E as <- <-|].
    destruct (is_alnum c); [|now injection E as <- <-]. destruct (span is_alnum s) as [n' r']. injection E as <- <-. cbn. f_equal. now apply IH. }
  split; intros I; apply H; rewrite X; apply in_or_app; [now left|]. right.
  rewrite zdrop_skipn in I. change (Z.to_nat 1) with 1%nat in I. destruct r as [|c r]; cbn in I; [destruct I|]. now right.
Qed.

Lemma first_not_p name : ~ In 112 name -> first_char name =? ch_p = false.
Proof. intros H. destruct name as [|c l]; [reflexivity|]. cbn. apply Z.eqb_neq. intros ->. apply H. now left. Qed.

Lemma source_id name j i p : ~ In 112 name -> copy_source name j (with_id i p) = copy_source name j p.
Proof. intros H. unfold copy_source. rewrite (first_not_p name H). reflexivity. Qed.

Lemma put_extra_id j v i p q : put_extra j v p = Ret q -> put_extra j v (with_id i p) = Ret (with_id i q).
Proof. unfold put_extra. change (rextra (with_id i p)) with (rextra p). destruct (vec_set (rextra p) j v); cbn [bind]; try discriminate. intros [= <-]. reflexivity. Qed.

Lemma dest_id name j v i p q : ~ In 112 name -> copy_dest name j v p = Ret q -> copy_dest name j v (with_id i p) = Ret (with_id i q).
Proof.
  intros H. unfold copy_dest. rewrite (first_not_p name H).
  repeat match goal with |- (if ?b then _ else _) = _ -> _ => destruct b end; try (intros [= <-]; reflexivity).
  unfold check_extra. change (rextra (with_id i p)) with (rextra p). destruct (zlen (rextra p) <=? j); cbn [bind]; [discriminate|]. apply put_extra_id.
Qed.

Lemma quantize_id v k i p q : get_quantize_op v k p = Ret q -> get_quantize_op v k (with_id i p) = Ret (with_id i q).
Proof.
  unfold get_quantize_op. change (rx (with_id i p)) with (rx p). destruct (quantize1 (rx p) v) as [x| | |]; cbn [bind]; try discriminate.
  change (ry (set_x x (with_id i p))) with (ry p). change (ry (set_x x p)) with (ry p). destruct (quantize1 (ry p) v) as [y| | |]; cbn [bind]; try discriminate.
  change (rz (set_y y (set_x x (with_id i p)))) with (rz p). change (rz (set_y y (set_x x p))) with (rz p). destruct (quantize1 (rz p) v); cbn [bind]; try discriminate.
  intros [= <-]. reflexivity.
Qed.

Lemma op_other_id stod t noise seed e c op : get_op stod t noise seed e c = Ret op -> ignores_id c ->
  forall k i p q, op k p = Ret q -> op k (with_id i p) = Ret (with_id i q).
Proof.
  intros E [R P]. revert E. unfold get_op. cbv zeta.
  assert (N : forall g : double -> top, (forall v k i p q, g v k p = Ret q -> g v k (with_id i p) = Ret (with_id i q)) ->
     ('(v, _) <- consume_double stod (cmd_params c) ;; Ret (g v)) = Ret op -> forall k i p q, op k p = Ret q -> op k (with_id i p) = Ret (with_id i q)).
  { intros g G H. destruct (consume_double stod (cmd_params c)) as [[v s]| | |]; try discriminate. cbn [bind] in H. injection H as <-. intros; now apply G. }
  repeat match goal with |- (if beq_bytes ?a ?b then _ else _) = _ -> _ => let B := fresh "B" in destruct (beq_bytes a b) eqn:B;
    [apply beq_bytes_eq in B; try (apply N; intros v k i p q; first [apply quantize_id|intros [= <-]; reflexivity])|] end.
  all: try (exfalso; eapply R; [|eassumption]; unfold random_commands; cbn; tauto).
  - destruct (consume_field_name _) as [[f1 s]| | |] eqn:C1; try discriminate. cbn [bind]. destruct (consume_field_name s) as [[f2 s']| | |] eqn:C2; try discriminate. cbn [bind].
    destruct (field_name_part _ _ _ C1 P) as [P1 Ps]. destruct (field_name_part _ _ _ C2 Ps) as [P2 _].
    unfold get_copy_field_op. destruct (refuse_xyz _ f1); try discriminate. cbn [bind]. destruct (refuse_xyz _ f2); try discriminate. cbn [bind]. intros [= <-] k i p q.
    rewrite source_id by exact P1. destruct (copy_source f1 _ p); cbn [bind]; try discriminate. now apply dest_id.
  - destruct (consume_field_name _) as [[f1 s]| | |] eqn:C1; try discriminate. cbn [bind]. destruct (consume_int s) as [[v1 s']| | |]; try discriminate. cbn [bind].
    destruct (consume_int s') as [[v2 s'']| | |]; try discriminate. cbn [bind]. destruct (field_name_part _ _ _ C1 P) as [P1 _].
    unfold get_replace_op. destruct (refuse_xyz _ f1); try discriminate. cbn [bind]. intros [= <-] k i p q. cbv zeta. rewrite (first_not_p f1 P1).
    change (rc (with_id i p)) with (rc p). change (ri (with_id i p)) with (ri p). change (rr (with_id i p)) with (rr p). change (rg (with_id i p)) with (rg p). change (rb (with_id i p)) with (rb p).
    repeat match goal with |- (if ?b then _ else _) = _ -> _ => destruct b end; try (match goal with |- Ret (if ?b then _ else _) = _ -> _ => destruct b end); try (intros [= <-]; reflexivity).
    unfold check_extra. change (rextra (with_id i p)) with (rextra p). destruct (zlen (rextra p) <=? _); cbn [bind]; [discriminate|].
    destruct (vec_get (rextra p) _) as [v| | |]; cbn [bind]; try discriminate. destruct (v =? v1); [apply put_extra_id|intros [= <-]; reflexivity].
  - destruct (consume_field_name _) as [[f1 s]| | |] eqn:C1; try discriminate. cbn [bind]. destruct (consume_ints s) as [[v s']| | |]; try discriminate. cbn [bind].
    destruct (field_name_part _ _ _ C1 P) as [P1 _].
    unfold get_replace_not_op. destruct (refuse_xyz _ f1); try discriminate. cbn [bind]. destruct (zlen v <? 2); try discriminate. intros [= <-] k i p q.
    assert (X : forall l, not_listed f1 (field_index f1 e) l (with_id i p) = not_listed f1 (field_index f1 e) l p).
    { induction l as [|w l IH]; [reflexivity|]. cbn [not_listed]. rewrite source_id by exact P1. destruct (copy_source f1 _ p); cbn [bind]; try reflexivity. destruct (_ =? w); [reflexivity|exact IH]. }
    rewrite X. destruct (not_listed f1 _ _ p) as [b| | |]; cbn [bind]; try discriminate. destruct b; [|intros [= <-]; reflexivity].
    unfold put_replacement. rewrite (first_not_p f1 P1).
    repeat match goal with |- (if ?b then _ else _) = _ -> _ => destruct b end; try (intros [= <-]; reflexivity). apply put_extra_id.
  - destruct (consume_field_name _) as [[f1 s]| | |] eqn:C1; try discriminate. cbn [bind]. destruct (consume_double stod s) as [[v s']| | |]; try discriminate. cbn [bind].
    destruct (field_name_part _ _ _ C1 P) as [P1 _]. intros [= <-] k i p q. unfold get_set_op. cbv zeta. rewrite (first_not_p f1 P1).
    repeat match goal with |- (if ?b then _ else _) = _ -> _ => destruct b end; try (intros [= <-]; reflexivity).
    all: try (destruct (d_to_u32 v); cbn [bind]; try discriminate; intros [= <-]; reflexivity).
    all: try (destruct (d_to_u16 v); cbn [bind]; try discriminate; intros [= <-]; reflexivity).
    unfold check_extra. change (rextra (with_id i p)) with (rextra p). destruct (zlen (rextra p) <=? _); cbn [bind]; [discriminate|].
    destruct (d_to_size v); cbn [bind]; try discriminate. apply put_extra_id.
  - discriminate.
Qed.

Lemma applies_id stod t noise seed e cs : (forall c, In c cs -> ignores_id c) -> forall k k' i p q,
  applies stod t noise seed e cs k p q -> applies stod t noise seed e cs k' (with_id i p) (with_id i q).
Proof.
  intros L k k' i p q A. induction A as [k p|c cs op k p p1 p2 O E A IH]; [constructor|].
  pose proof (L c (or_introl eq_refl)) as Ig. econstructor; [exact O| |apply IH; intros x X; apply L; now right].
  apply (op_other_id _ _ _ _ _ _ _ O Ig). rewrite <- E. apply (op_any_number _ _ _ _ _ _ _ O (proj1 Ig)).
Qed.

Lemma numbered_app {A} (a b : list A) i : numbered i (a ++ b) = numbered i a ++ numbered (i + zlen a) b.
Proof.
  revert i. induction a as [|x a IH]; intros i; [unfold zlen; cbn; now rewrite Z.add_0_r|]. cbn [numbered app]. rewrite IH, zlen_cons. do 2 f_equal. f_equal. lia.
Qed.

Lemma numbered_in {A} (l : list A) i j h : In (j, h) (numbered i l) -> In h l.
Proof. revert i. induction l as [|x l IH]; cbn; intros i I; [destruct I|]. destruct I as [[= <- <-]|I]; [now left|]. right. eapply IH. exact I. Qed.

(** [g] is the result of the commands on [f]. *)
Definition transformed (stod : stod_fn) (t : trig) (noise : noise_fn) (seed : Z) (cs : list command) (f g : spoc_file) : Prop :=
  exists prs', g = with_prs f prs'
  /\ Forall2 (fun kp p' => applies stod t noise seed (get_extra_fields f) cs (fst kp) (snd kp) p') (numbered 0 (f_prs f)) prs'.

(** Merging the transformed files gives the transformed merged file. *)
Theorem C125_transform : forall z ZS stod t noise seed debug args cs n f fs g gs, zlib_ok z ZS ->
  (forall s v n, stod s = Some (v, n) -> d_ok v) -> cs <> [] -> understood stod t noise seed n cs -> (forall c, In c cs -> ignores_id c) ->
  fs <> [] -> n <= 123 ->
  (forall h, In h (f :: fs) -> good_file h /\ f_compressed h = false /\ has_extras n (f_prs h)) ->
  8 * Z.of_nat (List.length (flat_map f_prs (f :: fs))) + 32 < 2 ^ 31 ->
  Forall2 (transformed stod t noise seed cs) (f :: fs) (g :: gs) ->
  exists bs bs' m m' warned b b',
     Forall2 (fun h b => appends (write_spoc_file z debug h) b) (f :: fs) bs
  /\ Forall2 (fun b b' => appends (transform_tool stod t noise cs seed b) b') bs bs'
  /\ merge_files z args (map Some bs) = Ret (m, warned) /\ merge_files z args (map Some bs') = Ret (m', warned)
  /\ appends (write_spoc_file z debug m) b /\ appends (transform_tool stod t noise cs seed b) b' /\ appends (write_spoc_file z debug m') b'.
Proof.
  intros z ZS stod t noise seed debug args cs n f fs g gs Hz Sok Ncs U Ig Nfs Hn G Tot T.
  assert (Ue : forall e, understood stod t noise seed e cs).
  { intros e c Ic. destruct (U c Ic) as (op & E). eapply understood_any. exact E. }
  (* the files on both sides *)
  assert (Bs : exists bs bs', Forall2 (fun h b => appends (write_spoc_file z debug h) b) (f :: fs) bs
     /\ Forall2 (fun b b' => appends (transform_tool stod t noise cs seed b) b') bs bs'
     /\ Forall2 (file_of (read_spoc_file z)) bs (f :: fs) /\ Forall2 (file_of (read_spoc_file z)) bs' (g :: gs)
     /\ Forall is_bytes bs /\ Forall is_bytes bs').
  { clear Nfs. revert G T Tot. generalize (f :: fs) (g :: gs). intros l l' G T. induction T as [|h h' l l' (prs' & -> & A) T IH]; intros Tot.
    - exists [], []. repeat split; constructor.
    - cbn [flat_map] in Tot. rewrite app_length in Tot.
      destruct IH as (bs & bs' & B1 & B2 & B3 & B4 & B5 & B6); [intros x X; apply G; now right|lia|].
      destruct (G h (or_introl eq_refl)) as (Gh & Ch & Eh).
      destruct (C56_file stod t noise seed Sok z debug h n cs prs' Gh Ch Eh ltac:(lia) Ncs (Ue _) A) as (b & b' & W & Tr & W' & Rd).
      destruct (transformed_good stod t noise seed Sok h n cs prs' Gh Eh A) as (Gh' & Eh' & _ & Ln).
      assert (S : storable h) by (split; [exact Gh|]; split; [lia|]; exists n; rewrite Ch; auto).
      assert (S' : storable (with_prs h prs')) by (split; [exact Gh'|]; split; [cbn [f_prs with_prs]; rewrite Ln; lia|]; exists n; cbn [f_compressed with_prs]; rewrite Ch; auto).
      assert (St : forall h b, storable h -> f_compressed h = false -> appends (write_spoc_file z debug h) b -> is_bytes b /\ file_of (read_spoc_file z) b h).
      { clear - Hz. intros h b S C W. destruct (storable_one z ZS debug h Hz S) as (c & h' & E & Bc & K & R).
        unfold kept in K. rewrite C in K. subst h'. apply emits_appends in E. rewrite (appends_once _ _ _ W E). split; [exact Bc|].
        exists (i_open []). rewrite <- (app_nil_r c). apply R. constructor. }
      destruct (St h b S Ch W) as [Bb Fb]. destruct (St _ b' S' Ch W') as [Bb' Fb'].
      exists (b :: bs), (b' :: bs'). repeat (split; [constructor; assumption|]). constructor; assumption. }
  destruct Bs as (bs & bs' & W & Tr & R & R' & By & By').
  assert (Ex : forall h p, In h (f :: fs) -> In p (f_prs h) -> Z.of_nat (List.length (rextra p)) = n).
  { intros h p Ih Ip. destruct (G h Ih) as (_ & _ & X). now apply X. }
  assert (Uf : uniform (flat_map f_prs (f :: fs))).
  { intros p q Ip Iq. apply in_flat_map in Ip as (h & Ih & Ip), Iq as (h' & Ih' & Iq). pose proof (Ex h p Ih Ip). pose proof (Ex h' q Ih' Iq). lia. }
  assert (Ug : uniform (flat_map f_prs (g :: gs))).
  { assert (Eg : forall h p, In h (g :: gs) -> In p (f_prs h) -> Z.of_nat (List.length (rextra p)) = n).
    { intros h p Ih Ip. destruct (Forall2_In_r _ _ _ _ T Ih) as (h0 & I0 & prs' & -> & A). destruct (G h0 I0) as (Gh & Ch & Eh).
      destruct (transformed_good stod t noise seed Sok h0 n cs prs' Gh Eh A) as (_ & Eh' & _). now apply Eh'. }
    intros p q Ip Iq. apply in_flat_map in Ip as (h & Ih & Ip), Iq as (h' & Ih' & Iq). pose proof (Eg h p Ih Ip). pose proof (Eg h' q Ih' Iq). lia. }
  assert (Ngs : gs <> []) by (intros ->; inversion T as [|? ? ? ? _ X]; inversion X; congruence).
  destruct (C51_concatenates z ZS args bs f fs Hz By R Nfs Uf) as (m & w & M & Ma & Mi & Wk & C & P & Wn).
  destruct (C51_concatenates z ZS args bs' g gs Hz By' R' Ngs Ug) as (m' & w' & M' & Ma' & Mi' & Wk' & C' & P' & Wn').
  set (idf := fun i => if ma_point_id args <? 0 then i mod 2 ^ 32 else ma_point_id args mod 2 ^ 32).
  change (f_prs m = flat_map (fun '(i, h) => map (with_id (idf i)) (f_prs h)) (numbered 0 (f :: fs))) in P.
  change (f_prs m' = flat_map (fun '(i, h) => map (with_id (idf i)) (f_prs h)) (numbered 0 (g :: gs))) in P'.
  assert (Idf : forall i, 0 <= idf i < 2 ^ 32) by (intros i; unfold idf; destruct (_ <? 0); apply Z.mod_pos_bound; lia). clearbody idf.
  assert (Mw : f_wkt g = f_wkt f) by (inversion T as [|? ? ? ? (pr & -> & _) _]; reflexivity).
  assert (Cf : forall h, In h (g :: gs) -> f_compressed h = false).
  { intros h Ih. destruct (Forall2_In_r _ _ _ _ T Ih) as (h0 & I0 & prs' & -> & _). now destruct (G h0 I0) as (_ & X & _). }
  assert (Cm : f_compressed m = false).
  { apply not_true_iff_false. intros X. rewrite C in X. pose proof (X f (or_introl eq_refl)). destruct (G f (or_introl eq_refl)) as (_ & Y & _). congruence. }
  assert (Cm' : f_compressed m' = false).
  { apply not_true_iff_false. intros X. rewrite C' in X. pose proof (X g (or_introl eq_refl)). pose proof (Cf g (or_introl eq_refl)). congruence. }
  assert (Ww : w' = w).
  { apply eq_true_iff_eq. rewrite Wn, Wn', Mw. inversion T as [|? ? ? ? _ TT]; subst. clear - TT.
    assert (X : (exists h, In h gs /\ f_wkt h <> f_wkt f) <-> (exists h, In h fs /\ f_wkt h <> f_wkt f)); [|now rewrite X].
    split; intros (h & I & D).
    - destruct (Forall2_In_r _ _ _ _ TT I) as (h0 & I0 & pr & -> & _). exists h0. split; [exact I0|exact D].
    - induction TT as [|a b l l' (pr & E & _) TT IH]; [destruct I|]. destruct I as [->|I].
      + exists b. split; [now left|]. rewrite E. exact D.
      + destruct (IH I) as (h0 & I0 & D0). exists h0. split; [now right|exact D0]. }
  subst w'.
  assert (Em : has_extras n (f_prs m)).
  { intros p Ip. rewrite P in Ip. apply in_flat_map in Ip as ([i h] & Ih & Ip). apply in_map_iff in Ip as (q & <- & Iq). cbn [rextra with_id]. apply (Ex h q); [|exact Iq].
    eapply numbered_in. exact Ih. }
  assert (Lm : List.length (f_prs m) = List.length (flat_map f_prs (f :: fs))).
  { rewrite P. generalize 0. generalize (f :: fs). induction l as [|h l IH]; intros i; [reflexivity|]. cbn [numbered flat_map]. now rewrite !app_length, map_length, IH. }
  assert (Gm : good_file m).
  { destruct (G f (or_introl eq_refl)) as (Gf & _). split; try assumption.
    - rewrite Wk. apply Gf.
    - rewrite Wk. apply Gf.
    - rewrite P. apply Forall_forall. intros p Ip. apply in_flat_map in Ip as ([i h] & Ih & Ip). apply in_map_iff in Ip as (q & <- & Iq).
      apply numbered_in in Ih. destruct (G h Ih) as (Gh & _). pose proof (gf_prs h Gh) as Pr. rewrite Forall_forall in Pr. specialize (Pr q Iq).
      destruct Pr. split; cbn; try assumption. apply Idf.
    - intros p q Ip Iq. pose proof (Em p Ip). pose proof (Em q Iq). lia.
    - rewrite Lm. lia. }
  assert (Am : Forall2 (fun kp p' => applies stod t noise seed (get_extra_fields m) cs (fst kp) (snd kp) p') (numbered 0 (f_prs m)) (f_prs m')).
  { assert (Ap : forall l l', (forall h, In h l -> In h (f :: fs)) -> Forall2 (transformed stod t noise seed cs) l l' -> forall i j,
       Forall2 (fun kp p' => applies stod t noise seed (get_extra_fields m) cs (fst kp) (snd kp) p')
         (numbered j (flat_map (fun '(i, h) => map (with_id (idf i)) (f_prs h)) (numbered i l))) (flat_map (fun '(i, h) => map (with_id (idf i)) (f_prs h)) (numbered i l'))).
    { intros l l' Il TT. induction TT as [|h h' l l' (prs' & -> & A) TT IH]; intros i j; [constructor|]. cbn [numbered flat_map f_prs with_prs].
      rewrite numbered_app. apply Forall2_app; [|apply IH; intros x X; apply Il; now right].
      assert (Ee : f_prs h <> [] -> get_extra_fields h = get_extra_fields m).
      { intros Ne. assert (Ih : In h (f :: fs)) by (apply Il; now left). unfold get_extra_fields. destruct (f_prs h) as [|p ps] eqn:Eh; [congruence|].
        assert (Lp : Z.of_nat (List.length (rextra p)) = n) by (apply (Ex h p Ih); rewrite Eh; now left).
        destruct (f_prs m) as [|q qs] eqn:Eq.
        - exfalso.
          assert (Ip : In p (flat_map f_prs (f :: fs))) by (apply in_flat_map; exists h; rewrite Eh; split; [exact Ih|now left]).
          destruct (flat_map f_prs (f :: fs)); [destruct Ip|cbn in Lm; discriminate Lm].
        - pose proof (Em q (or_introl eq_refl)). unfold zlen. lia. }
      destruct (f_prs h) as [|p ps] eqn:Eh; [inversion A; constructor|]. rewrite Ee in A by discriminate. rewrite <- Eh in *. clear - A Ig. revert j A.
      generalize 0. generalize (f_prs h). intros l0. revert prs'. induction l0 as [|p l0 IH]; intros prs' k j A; inversion A as [|? q ? qs Aq A']; subst; [constructor|].
      cbn [map numbered]. constructor; [|now apply (IH qs (k + 1))]. cbn [fst snd] in *. eapply applies_id; eassumption. }
    rewrite P, P'. apply Ap; [auto|exact T]. }
  assert (Em' : m' = with_prs m (f_prs m')).
  { destruct m' as [a1 a2 a3 a4 a5], m as [c1 c2 c3 c4 c5]. cbn in *. unfold with_prs. cbn. congruence. }
  destruct (C56_file stod t noise seed Sok z debug m n cs (f_prs m') Gm Cm Em ltac:(lia) Ncs (Ue _) Am) as (b & b' & Wm & Tm & Wm' & _).
  rewrite <- Em' in Wm'. exists bs, bs', m, m', w, b, b'. auto 10.
Qed.

(** ** resize-extra *)

Lemma resize_run debug k f : live f -> 0 <= k < 2 ^ 31 -> resize_extra debug k f = Ret (with_prs f (map (pr_resize_extra k) (f_prs f))).
Proof.
  intros Lf K. unfold resize_extra. rewrite (live_valid debug f Lf). cbn [bind]. unfold require.
  destruct (Z.leb_spec 0 k); [|lia]. cbn [negb]. rewrite andb_false_r. cbn [bind]. rewrite (live_copy f Lf). cbn [bind].
  unfold to_u64. rewrite Z.mod_small by (unfold two64; lia).
  unfold after, resize_extra_fields, resize_extra_fields_alloc. rewrite resize_loop_ok by (intros; unfold two63; lia). reflexivity.
Qed.

Lemma resize_id k i p : pr_resize_extra k (with_id i p) = with_id i (pr_resize_extra k p).
Proof. reflexivity. Qed.

(** Files whose records have different numbers of extra fields can be merged after resize-extra;
    when they could be merged before, resize-extra may as well come after. *)
Theorem C125_resize : forall z ZS debug args k bs bs' f fs g gs, zlib_ok z ZS -> 0 <= k < 2 ^ 31 -> Forall is_bytes bs -> Forall is_bytes bs' ->
  Forall2 (file_of (read_spoc_file z)) bs (f :: fs) -> Forall2 (file_of (read_spoc_file z)) bs' (g :: gs) -> fs <> [] ->
  Forall2 (fun f g => resize_extra debug k f = Ret g) (f :: fs) (g :: gs) ->
  exists m' warned, merge_files z args (map Some bs') = Ret (m', warned)
  /\ (uniform (flat_map f_prs (f :: fs)) -> exists m, merge_files z args (map Some bs) = Ret (m, warned) /\ resize_extra debug k m = Ret m').
Proof.
  intros z ZS debug args k bs bs' f fs g gs Hz K B B' R R' N FG.
  assert (Lv : forall h, In h (f :: fs) -> live h).
  { clear - Hz B R. intros h I. destruct (Forall2_In_r _ _ _ _ R I) as (b & Ib & (s & Rb)). rewrite Forall_forall in B.
    pose proof (C16_reading_is_safe z ZS (i_open b) Hz (B b Ib)) as T. rewrite Rb in T.
    destruct T as (hd & s1 & _ & _ & _ & Uh & _ & Ma & Mi & _). split; try lia. exact Uh. }
  assert (FG' : Forall2 (fun h g => g = with_prs h (map (pr_resize_extra k) (f_prs h))) (f :: fs) (g :: gs)).
  { clear - FG Lv K. induction FG as [|h g0 hs gs0 E FG IH]; constructor.
    - rewrite (resize_run debug k h (Lv h (or_introl eq_refl)) K) in E. now injection E as <-.
    - apply IH. intros h' I. apply Lv. now right. }
  assert (Pg : flat_map f_prs (g :: gs) = map (pr_resize_extra k) (flat_map f_prs (f :: fs))).
  { clear - FG'. induction FG' as [|h g0 hs gs0 -> FG IH]; [reflexivity|]. cbn [flat_map]. now rewrite map_app, IH. }
  assert (Ug : uniform (flat_map f_prs (g :: gs))) by (rewrite Pg; eapply resized_uniform, Forall2_map_resized).
  assert (Ngs : gs <> []) by (intros ->; inversion FG' as [|? ? ? ? _ X]; inversion X; congruence).
  destruct (C51_concatenates z ZS args bs' g gs Hz B' R' Ngs Ug) as (m' & w & M' & Ma' & Mi' & Wk' & C' & P' & Wn').
  exists m', w. split; [exact M'|]. intros Uf.
  destruct (C51_concatenates z ZS args bs f fs Hz B R N Uf) as (m & w0 & M & Ma & Mi & Wk & C & P & Wn).
  set (idf := fun i => if ma_point_id args <? 0 then i mod 2 ^ 32 else ma_point_id args mod 2 ^ 32).
  change (f_prs m = flat_map (fun '(i, h) => map (with_id (idf i)) (f_prs h)) (numbered 0 (f :: fs))) in P.
  change (f_prs m' = flat_map (fun '(i, h) => map (with_id (idf i)) (f_prs h)) (numbered 0 (g :: gs))) in P'. clearbody idf.
  assert (Wg : f_wkt g = f_wkt f) by (inversion FG'; subst; reflexivity).
  assert (Meta : forall Q : list Z -> bool -> Prop, forall l l', Forall2 (fun h g => g = with_prs h (map (pr_resize_extra k) (f_prs h))) l l' ->
     ((exists h, In h l' /\ Q (f_wkt h) (f_compressed h)) <-> (exists h, In h l /\ Q (f_wkt h) (f_compressed h)))).
  { clear. intros Q l l' F. induction F as [|a b l l' -> F IH]; [reflexivity|]. split; intros (h & [<-|I] & D).
    - exists a. split; [now left|exact D].
    - destruct (proj1 IH (ex_intro _ h (conj I D))) as (h0 & I0 & D0). exists h0. split; [now right|exact D0].
    - exists (with_prs a (map (pr_resize_extra k) (f_prs a))). split; [now left|exact D].
    - destruct (proj2 IH (ex_intro _ h (conj I D))) as (h0 & I0 & D0). exists h0. split; [now right|exact D0]. }
  assert (Ww : w0 = w).
  { apply eq_true_iff_eq. rewrite Wn, Wn', Wg. inversion FG' as [|? ? ? ? _ FT]; subst. pose proof (Meta (fun w _ => w <> f_wkt f) fs gs FT) as X. cbv beta in X. now rewrite X. }
  assert (Cc : f_compressed m' = f_compressed m).
  { apply eq_true_iff_eq. rewrite C, C'. pose proof (Meta (fun _ c => c <> true) _ _ FG') as X. cbv beta in X.
    split; intros A h I; destruct (f_compressed h) eqn:E; try reflexivity; exfalso.
    - destruct (proj2 X) as (h0 & I0 & D0); [exists h; split; [exact I|congruence]|]. apply D0, A, I0.
    - destruct (proj1 X) as (h0 & I0 & D0); [exists h; split; [exact I|congruence]|]. apply D0, A, I0. }
  assert (Pm : f_prs m' = map (pr_resize_extra k) (f_prs m)).
  { rewrite P, P'. clear - FG'. revert FG'. generalize (f :: fs) (g :: gs) 0. intros l l' i F. revert i. induction F as [|a b l l' -> F IH]; intros i; [reflexivity|].
    cbn [numbered flat_map]. rewrite map_app, IH. f_equal. cbn [f_prs with_prs]. rewrite !map_map. apply map_ext. intros p. now rewrite resize_id. }
  exists m. subst w0. split; [exact M|].
  assert (Lm : live m).
  { split; try lia. rewrite P. clear - Uf. intros p q I J. apply in_flat_map in I as ([i h] & I & Ip). apply in_flat_map in J as ([j h'] & J & Jq).
    apply in_map_iff in Ip as (p0 & <- & Ip), Jq as (q0 & <- & Jq). cbn [rextra with_id]. apply Uf; apply in_flat_map; [exists h|exists h']; (split; [eapply numbered_in; eassumption|assumption]). }
  rewrite (resize_run debug k m Lm K). f_equal. rewrite <- Pm. destruct m', m; unfold with_prs; cbn in *. congruence.
Qed.

(** Two files of two records, moved and with their extra field set, before and after merging; *)
Definition tm_run (b : list Z) (cs : list command) : list Z := o_bytes (fst (transform_tool tx_stod tx_trig tx_noise cs 7 b o_open)).
Definition tm_cs : list command := [tx_cmd "add-y" "1"; tx_cmd "set" "e1,2"].
Example C125_transform_example :
  (forall c, In c tm_cs -> ignores_id c) /\ understood tx_stod tx_trig tx_noise 7 2 tm_cs
  /\ (forall h, In h [tf_file; tx_file [tx_p]] -> good_file h /\ f_compressed h = false /\ has_extras 2 (f_prs h))
  /\ Forall2 (transformed tx_stod tx_trig tx_noise 7 tm_cs) [tf_file; tx_file [tx_p]]
       [tx_file (map (fun p => set_extra [8; 2] (set_y d_one p)) [set_c 9 tx_p; tx_p]); tx_file [set_extra [8; 2] (set_y d_one tx_p)]]
  /\ (exists m m', merge_files toy (mk_merge_args true (-1)) (map Some [tf_bytes tf_file; tf_bytes (tx_file [tx_p])]) = Ret (m, false)
      /\ merge_files toy (mk_merge_args true (-1)) (map Some [tm_run (tf_bytes tf_file) tm_cs; tm_run (tf_bytes (tx_file [tx_p])) tm_cs]) = Ret (m', false)
      /\ tm_run (tf_bytes m) tm_cs = tf_bytes m' /\ List.length (f_prs m') = 3%nat).
Proof.
  split; [|split; [|split; [|split]]].
  - intros c C. cbn [In tm_cs] in C. destruct C as [<-|[<-|[]]]; (split; [intros n I; cbn in I; repeat (destruct I as [<-|I]; [discriminate|]); destruct I|]); cbn; intuition discriminate.
  - intros c C. cbn [In tm_cs] in C. destruct C as [<-|[<-|[]]]; eexists; reflexivity.
  - intros h [<-|[<-|[]]]; (split; [|split; [reflexivity|intros p P; cbn in P; intuition subst; reflexivity]]).
    all: split; cbn; try lia; try reflexivity; [repeat constructor; lia| |].
    all: try (repeat constructor; cbn; unfold d_ok; try lia; now vm_compute).
    all: intros p q P Q; cbn in P, Q; intuition subst; reflexivity.
  - constructor; [|constructor; [|constructor]]; eexists; (split; [reflexivity|]); repeat constructor; cbn [fst snd numbered].
    all: eapply ap_next; [reflexivity|vm_compute; reflexivity|]; eapply ap_next; [reflexivity|vm_compute; reflexivity|constructor].
  - eexists _, _. split; [vm_compute; reflexivity|]. split; [vm_compute; reflexivity|]. split; vm_compute; reflexivity.
Qed.

(** and a file with two extra fields and one without, which can be merged after resize-extra. *)
Definition tm_bare : spoc_file := tx_file [set_extra [] tx_p].
Example C125_resize_example : exists g g' m',
  merge_files toy (mk_merge_args true (-1)) (map Some [tf_bytes tf_file; tf_bytes tm_bare]) = Throw (runtime_error "The number of extra fields is incorrect")
  /\ resize_extra false 1 tf_file = Ret g /\ resize_extra false 1 tm_bare = Ret g'
  /\ file_of (read_spoc_file toy) (tf_bytes tf_file) tf_file /\ file_of (read_spoc_file toy) (tf_bytes tm_bare) tm_bare
  /\ file_of (read_spoc_file toy) (tf_bytes g) g /\ file_of (read_spoc_file toy) (tf_bytes g') g'
  /\ merge_files toy (mk_merge_args true (-1)) (map Some [tf_bytes g; tf_bytes g']) = Ret (m', false)
  /\ map rextra (f_prs m') = [[8]; [8]; [0]].
Proof.
  eexists _, _, _. split; [vm_compute; reflexivity|]. split; [vm_compute; reflexivity|]. split; [vm_compute; reflexivity|].
  do 4 (split; [eexists; vm_compute; reflexivity|]). split; vm_compute; reflexivity.
Qed.

Print Assumptions C125_transform.
Print Assumptions C125_resize.
