(** C124: transforming before or after filtering. *)
From Coq Require Import String ZArith List Bool Lia.
From Verif.Model Require Import Base Double Arith Header PointRecord Point File Compression IO AppUtils AppConvert FilterApp TransformApp Par.
From Verif.Spec Require Import Text Streams Files Apps Fields Transforms ZlibContract FilterOrder TransformFilter.
From Verif.Proofs Require Import BaseFacts FileFacts FilterFacts ToyZlib.
From Verif.Props Require Import FilterProps FilterOrderProps TransformProps.
Import ListNotations.
Open Scope Z_scope.
Open Scope outcome_scope.

(** Whether a command is understood does not depend on the number of extra fields. *)
Lemma understood_any stod t noise seed e e' c op : get_op stod t noise seed e c = Ret op -> exists op', get_op stod t noise seed e' c = Ret op'.
Proof.
  unfold get_op. cbv zeta.
  repeat match goal with |- (if ?b then _ else _) = _ -> _ => destruct b end; eauto.
  - destruct (consume_field_name _) as [[f1 s]| | |]; try discriminate. cbn [bind]. destruct (consume_field_name s) as [[f2 s']| | |]; try discriminate. cbn [bind].
    unfold get_copy_field_op. destruct (refuse_xyz _ f1); try discriminate. cbn [bind]. destruct (refuse_xyz _ f2); try discriminate. cbn [bind]. eauto.
  - destruct (consume_field_name _) as [[f1 s]| | |]; try discriminate. cbn [bind]. destruct (consume_int s) as [[v1 s']| | |]; try discriminate. cbn [bind].
    destruct (consume_int s') as [[v2 s'']| | |]; try discriminate. cbn [bind]. unfold get_replace_op. destruct (refuse_xyz _ f1); try discriminate. cbn [bind]. eauto.
  - destruct (consume_field_name _) as [[f1 s]| | |]; try discriminate. cbn [bind]. destruct (consume_ints s) as [[v s']| | |]; try discriminate. cbn [bind].
    unfold get_replace_not_op. destruct (refuse_xyz _ f1); try discriminate. cbn [bind]. destruct (zlen v <? 2); try discriminate. eauto.
  - destruct (consume_field_name _) as [[f1 s]| | |]; try discriminate. cbn [bind]. destruct (consume_double stod s) as [[v s']| | |]; try discriminate. cbn [bind]. eauto.
Qed.

(** Only the random commands look at the number of the record. *)
Lemma op_any_number stod t noise seed e c op : get_op stod t noise seed e c = Ret op ->
  (forall n, In n random_commands -> cmd_name c <> chars n) -> forall k k' p, op k p = op k' p.
Proof.
  unfold get_op. cbv zeta. intros E R.
  assert (N : forall g : double -> top, (forall v k k' p, g v k p = g v k' p) -> ('(v, _) <- consume_double stod (cmd_params c) ;; Ret (g v)) = Ret op -> forall k k' p, op k p = op k' p).
  { intros g G H. destruct (consume_double stod (cmd_params c)) as [[v s]| | |]; try discriminate. cbn [bind] in H. injection H as <-. intros; apply G. }
  revert E.
  repeat match goal with |- (if beq_bytes ?a ?b then _ else _) = _ -> _ => let B := fresh "B" in destruct (beq_bytes a b) eqn:B;
    [apply beq_bytes_eq in B; try (exfalso; apply (R _ ltac:(unfold random_commands; cbn; eauto 12) B); fail); try (apply N; intros; reflexivity)|] end.
  all: try (exfalso; eapply R; [|eassumption]; unfold random_commands; cbn; tauto).
  - destruct (consume_field_name _) as [[f1 s]| | |]; try discriminate. cbn [bind]. destruct (consume_field_name s) as [[f2 s']| | |]; try discriminate. cbn [bind].
    unfold get_copy_field_op. destruct (refuse_xyz _ f1); try discriminate. cbn [bind]. destruct (refuse_xyz _ f2); try discriminate. cbn [bind]. intros [= <-]. reflexivity.
  - destruct (consume_field_name _) as [[f1 s]| | |]; try discriminate. cbn [bind]. destruct (consume_int s) as [[v1 s']| | |]; try discriminate. cbn [bind].
    destruct (consume_int s') as [[v2 s'']| | |]; try discriminate. cbn [bind]. unfold get_replace_op. destruct (refuse_xyz _ f1); try discriminate. cbn [bind]. intros [= <-]. reflexivity.
  - destruct (consume_field_name _) as [[f1 s]| | |]; try discriminate. cbn [bind]. destruct (consume_ints s) as [[v s']| | |]; try discriminate. cbn [bind].
    unfold get_replace_not_op. destruct (refuse_xyz _ f1); try discriminate. cbn [bind]. destruct (zlen v <? 2); try discriminate. intros [= <-]. reflexivity.
  - destruct (consume_field_name _) as [[f1 s]| | |]; try discriminate. cbn [bind]. destruct (consume_double stod s) as [[v s']| | |]; try discriminate. cbn [bind]. intros [= <-]. reflexivity.
  - discriminate.
Qed.

Lemma leaves_record stod t noise seed g e cs : (forall c, In c cs -> leaves_field g c) -> forall k k' p p',
  applies stod t noise seed e cs k p p' -> applies stod t noise seed e cs k' p p' /\ value g p' = value g p.
Proof.
  intros L k k' p p' A. induction A as [k p|c cs op k p p1 p2 O E A IH]; [split; [constructor|reflexivity]|].
  destruct (L c (or_introl eq_refl)) as [R T]. destruct IH as [IA IV]; [intros x X; apply L; now right|].
  split.
  - econstructor; [exact O| |exact IA]. now rewrite (op_any_number _ _ _ _ _ _ _ O R k' k p).
  - destruct (C56_frame stod t noise seed e c op O) as (fs & Tf & H). destruct (H k p p1 E) as [_ V]. rewrite IV. apply V. now apply T.
Qed.

Lemma looking stod g F : looks_at stod g F ->
  exists k, (forall f, live f -> F f = Ret (with_prs f (filter k (f_prs f)))) /\ forall p q, value g p = value g q -> k p = k q.
Proof.
  intros H. destruct H as [c|c|a g o v x n A O V S].
  - exists (class_in c). split; [intros f L; now apply filter_file|]. intros p q [= E]. unfold class_in. now rewrite E.
  - exists (fun p => negb (class_in c p)). split; [intros f L; now apply (filter_file (fun p => negb (class_in c p)))|]. intros p q [= E]. unfold class_in. now rewrite E.
  - assert (Ea : exists sel, In (chars a, sel) [(chars "x", rx); (chars "y", ry); (chars "z", rz)] /\ forall p q, value g p = value g q -> sel p = sel q).
    { cbn [In] in A. destruct A as [[= <- <-]|[[= <- <-]|[[= <- <-]|[]]]]; eexists; (split; [cbn; eauto|]); intros p q [= E]; exact E. }
    assert (Eo : exists cmp, In (chars o, cmp) [(chars "<", fun u w => d_ltb u w); (chars ">", fun u w => d_ltb w u)]).
    { cbn [In] in O. destruct O as [<-|[<-|[]]]; eexists; cbn; eauto. }
    destruct Ea as (sel & Ea & Es). destruct Eo as [cmp Eo]. exists (fun p => negb (cmp (sel p) x)). split.
    + intros f L. destruct (C50_removes_matching stod f _ sel cmp v x n L (cc (chars a) sel (chars o) cmp v Ea Eo V) S) as (h & E & (M1 & M2 & M3 & M4) & P).
      rewrite E. f_equal. unfold with_prs. rewrite <- P. destruct h; cbn in *. congruence.
    + intros p q E. now rewrite (Es p q E).
Qed.

(** Filtering the transformed file gives the transformed filtered file. *)
Theorem C124_commute : forall z debug stod t noise seed g F f n cs prs', (forall s v n, stod s = Some (v, n) -> d_ok v) ->
  good_file f -> f_compressed f = false -> has_extras n (f_prs f) -> n <= 255 ->
  cs <> [] -> understood stod t noise seed (get_extra_fields f) cs ->
  Forall2 (fun kp p' => applies stod t noise seed (get_extra_fields f) cs (fst kp) (snd kp) p') (numbered 0 (f_prs f)) prs' ->
  looks_at stod g F -> (forall c, In c cs -> leaves_field g c) ->
  exists input output f1 input1 output1 g1,
     appends (write_spoc_file z debug f) input /\ appends (transform_tool stod t noise cs seed input) output
  /\ appends (write_spoc_file z debug (with_prs f prs')) output
  /\ F f = Ret f1 /\ appends (write_spoc_file z debug f1) input1 /\ appends (transform_tool stod t noise cs seed input1) output1
  /\ F (with_prs f prs') = Ret g1 /\ appends (write_spoc_file z debug g1) output1.
Proof.
  intros z debug stod t noise seed g F f n cs prs' Sok Hf Hc Hk Hn N U A HF L.
  destruct (C56_file stod t noise seed Sok z debug f n cs prs' Hf Hc Hk Hn N U A) as (input & output & I & T & O & _).
  destruct (looking stod g F HF) as (k & K & Kv).
  assert (Lf : live f) by (split; [rewrite (gf_major f Hf); lia|rewrite (gf_minor f Hf); lia|apply Hf]).
  destruct (transformed_good stod t noise seed Sok f n cs prs' Hf Hk A) as (Hf' & _ & _ & Ln).
  assert (Lf' : live (with_prs f prs')) by (split; [rewrite (gf_major _ Hf'); lia|rewrite (gf_minor _ Hf'); lia|apply Hf']).
  set (f1 := with_prs f (filter k (f_prs f))). set (g1 := with_prs f (filter k prs')).
  assert (G1 : good_file f1).
  { destruct Hf as [a1 a2 a3 a4 a5 a6 a7]. split; try assumption; unfold f1; cbn [f_prs with_prs].
    - clear - a5. rewrite Forall_forall in *. intros p P. apply filter_In in P as [P _]. now apply a5.
    - clear - a6. intros p q P Q. apply filter_In in P as [P _], Q as [Q _]. now apply a6.
    - clear - a7. assert (List.length (filter k (f_prs f)) <= List.length (f_prs f))%nat; [|lia].
      induction (f_prs f) as [|p l IH]; cbn; [lia|]. destruct (k p); cbn in *; lia. }
  assert (Hk1 : has_extras n (f_prs f1)).
  { intros p P. apply filter_In in P as [P _]. now apply Hk. }
  assert (Ee : f_prs f1 <> [] -> get_extra_fields f1 = get_extra_fields f).
  { unfold get_extra_fields. destruct (f_prs f1) as [|p l] eqn:E1; [congruence|]. intros _.
    assert (P : In p (f_prs f)) by (apply (proj1 (proj1 (filter_In k p (f_prs f)) ltac:(change (In p (f_prs f1)); rewrite E1; now left)))).
    destruct (f_prs f) as [|q m]; [destruct P|]. unfold zlen. rewrite (Hk p P), (Hk q (or_introl eq_refl)). reflexivity. }
  assert (U1 : understood stod t noise seed (get_extra_fields f1) cs).
  { intros c Ic. destruct (U c Ic) as (op & E). eapply understood_any. exact E. }
  assert (Ap : forall e j i l m, Forall2 (fun kp p' => applies stod t noise seed e cs (fst kp) (snd kp) p') (numbered j l) m ->
     Forall2 (fun kp p' => applies stod t noise seed e cs (fst kp) (snd kp) p') (numbered i (filter k l)) (filter k m)).
  { clear - L Kv. intros e j i l. revert j i. induction l as [|p l IH]; intros j i m H; inversion H as [|? q ? m' Hq H']; subst; [constructor|].
    cbn [fst snd] in Hq. destruct (leaves_record _ _ _ _ _ _ _ L _ i _ _ Hq) as [Hi V]. cbn [filter]. rewrite (Kv q p V).
    destruct (k p); [|now apply (IH (j + 1) i)]. cbn [numbered]. constructor; [exact Hi|]. now apply (IH (j + 1) (i + 1)). }
  assert (A1 : Forall2 (fun kp p' => applies stod t noise seed (get_extra_fields f1) cs (fst kp) (snd kp) p') (numbered 0 (f_prs f1)) (filter k prs')).
  { pose proof (Ap _ 0 0 _ _ A) as X. change (filter k (f_prs f)) with (f_prs f1) in X. destruct (f_prs f1) as [|p l] eqn:E1; [inversion X; constructor|].
    rewrite Ee by discriminate. exact X. }
  destruct (C56_file stod t noise seed Sok z debug f1 n cs (filter k prs') G1 Hc Hk1 Hn N U1 A1) as (input1 & output1 & I1 & T1 & O1 & _).
  exists input, output, f1, input1, output1, g1. repeat (split; try assumption).
  - apply (K f Lf).
  - apply (K _ Lf').
Qed.

(** ** Where the order matters *)

(** The result of the commands, read back, filtered before and filtered after *)
Definition tf_bytes (f : spoc_file) : list Z := o_bytes (fst (write_spoc_file toy false f o_open)).
Definition tf_run (noise : noise_fn) (cs : list command) (f : spoc_file) : outcome spoc_file :=
  let r := transform_tool tx_stod tx_trig noise cs 7 (tf_bytes f) o_open in
  _ <- snd r ;; '(g, _) <- read_spoc_file toy (i_open (o_bytes (fst r))) ;; Ret g.
Definition tf_file : spoc_file := tx_file [set_c 9 tx_p; tx_p].

(** The random numbers belong to the numbers of the records: noise before or after keeping
    the second of two records differs. *)
Definition tf_noise : noise_fn := fun _ _ _ k _ => if k =? 0 then d_zero else d_one.
Theorem C124_random_differs : let cs := [tx_cmd "gaussian-noise-x" "1"] in
  exists g g1 f1 g2, tf_run tf_noise cs tf_file = Ret g /\ keep_classes g [2] = Ret g1
    /\ keep_classes tf_file [2] = Ret f1 /\ tf_run tf_noise cs f1 = Ret g2 /\ g1 <> g2.
Proof.
  intros cs. eexists _, _, _, _. split; [vm_compute; reflexivity|]. split; [vm_compute; reflexivity|]. split; [vm_compute; reflexivity|].
  split; [vm_compute; reflexivity|discriminate].
Qed.

(** replace-not on the intensity sets the class, so that it interferes with the class filters. *)
Theorem C124_replace_not_differs : forall noise, let cs := [tx_cmd "replace-not" "i,1,5"] in
  exists g g1 f1 g2, tf_run noise cs tf_file = Ret g /\ keep_classes g [2] = Ret g1
    /\ keep_classes tf_file [2] = Ret f1 /\ tf_run noise cs f1 = Ret g2 /\ f_prs g1 = [] /\ f_prs g2 <> [].
Proof.
  intros noise cs. eexists _, _, _, _. split; [vm_compute; reflexivity|]. split; [vm_compute; reflexivity|]. split; [vm_compute; reflexivity|].
  split; [vm_compute; reflexivity|]. split; [reflexivity|discriminate].
Qed.

Example C124_example : let cs := [tx_cmd "add-x" "1"; tx_cmd "add-y" "1"] in
  let prs' := map (fun p => set_y d_one (set_x 4611686018427387904 p)) (f_prs tf_file) in
  good_file tf_file /\ f_compressed tf_file = false /\ has_extras 2 (f_prs tf_file) /\ cs <> []
  /\ understood tx_stod tx_trig tx_noise 7 (get_extra_fields tf_file) cs
  /\ Forall2 (fun kp p' => applies tx_stod tx_trig tx_noise 7 (get_extra_fields tf_file) cs (fst kp) (snd kp) p') (numbered 0 (f_prs tf_file)) prs'
  /\ looks_at tx_stod FC (fun f => keep_classes f [2]) /\ (forall c, In c cs -> leaves_field FC c)
  /\ (exists g g1 f1, tf_run tx_noise cs tf_file = Ret g /\ keep_classes g [2] = Ret g1 /\ keep_classes tf_file [2] = Ret f1
       /\ tf_run tx_noise cs f1 = Ret g1 /\ List.length (f_prs g1) = 1%nat).
Proof.
  cbv zeta. split; [|split; [reflexivity|split; [|split; [discriminate|split; [|split; [|split; [|split]]]]]]].
  - split; cbn; try lia; try reflexivity; [repeat constructor; lia| |].
    + repeat constructor; cbn; unfold d_ok; try lia; now vm_compute.
    + intros p q P Q. cbn in P, Q. intuition subst; reflexivity.
  - intros p P. cbn in P. intuition subst; reflexivity.
  - intros c C. cbn in C. destruct C as [<-|[<-|[]]]; eexists; reflexivity.
  - repeat constructor; cbn [fst snd numbered].
    + eapply ap_next; [reflexivity|vm_compute; reflexivity|]. eapply ap_next; [reflexivity|vm_compute; reflexivity|constructor].
    + eapply ap_next; [reflexivity|vm_compute; reflexivity|]. eapply ap_next; [reflexivity|vm_compute; reflexivity|constructor].
  - constructor.
  - intros c C. cbn [In] in C. destruct C as [<-|[<-|[]]].
    all: split; [intros n I; cbn in I; repeat (destruct I as [<-|I]; [discriminate|]); destruct I|].
    all: intros fs [(n & E & I)|[(E & _)|[([E|E] & _)|(E & _)]]]; try discriminate E.
    all: cbn in I; repeat (destruct I as [[= <- <-]|I]; [first [discriminate E|intros [X|[]]; discriminate X]|]); destruct I.
  - eexists _, _, _. split; [vm_compute; reflexivity|]. split; [vm_compute; reflexivity|]. split; [vm_compute; reflexivity|]. split; vm_compute; reflexivity.
Qed.

Print Assumptions C124_commute.
Print Assumptions C124_random_differs.
Print Assumptions C124_replace_not_differs.
