(** Lemmas about the loop of spoc_transform. *)
From Coq Require Import String ZArith List Bool Lia.
From Verif.Model Require Import Base Double Arith Header PointRecord File Utils Par Affine AppUtils TransformApp.
From Verif.Spec Require Import Format Streams Text Fields Files Apps.
From Verif.Proofs Require Import BaseFacts ArithFacts HeaderFacts PointRecordFacts IOFacts TextFacts FieldFacts.
From Verif.Props Require Import TextProps.
Import ListNotations.
Open Scope Z_scope.
Open Scope outcome_scope.

(** [w] writes [bs] and ends with [o], whatever the stream *)
Definition leaves {A} (w : writer A) (bs : list Z) (o : outcome A) : Prop :=
  forall s, o_wf s -> w s = (os_write bs s, o).

Lemma leaves_good : forall {A} (w : writer A) bs o s, leaves w bs o -> o_good s ->
  exists s', w s = (s', o) /\ o_good s' /\ o_bytes s' = o_bytes s ++ bs.
Proof.
  intros A w bs o [b r bad] H [Hr Hb]. cbn in Hr, Hb. subst. rewrite H by (intros r Hr; discriminate).
  eexists; split; [reflexivity|]. unfold o_good, os_write. cbn. auto.
Qed.

Lemma leaves_seq : forall {A} (m : writer unit) (k : writer A) bs cs o,
  emits m bs tt -> leaves k cs o -> leaves (w_seq m k) (bs ++ cs) o.
Proof.
  intros A m k bs cs o Hm Hk s Hs. unfold w_seq, w_bind. rewrite (Hm s Hs). rewrite (Hk _ (os_write_wf _ _ Hs)).
  now rewrite os_write_app.
Qed.

(** The results of the records *)
Definition all_run (ops : list top) (k : Z) (prs prs' : list point_record) : Prop :=
  Forall2 (fun kp p' => run_ops ops (fst kp) (snd kp) = Ret p') (numbered k prs) prs'.

Lemma transform_points_run : forall e ops prs k prs' m tl, Forall pr_ok prs -> Forall (fun p => zlen (rextra p) = e) prs ->
  0 <= e <= 255 -> all_run ops k prs prs' ->
  forall bs o, leaves (transform_points m (k + zlen prs) e ops (i_open tl)) bs o ->
  leaves (transform_points (List.length prs + m) k e ops (i_open (prs_bytes prs ++ tl))) (prs_bytes prs' ++ bs) o.
Proof.
  intros e ops prs. induction prs as [|p prs IH]; intros k prs' m tl P X E R bs o T.
  - inversion R; subst. rewrite zlen_nil in T. replace (k + 0) with k in T by lia. exact T.
  - inversion P; subst. inversion X; subst. inversion R as [|a b c d R1 R2]; subst. cbn [fst snd] in R1.
    unfold prs_bytes. cbn [List.length Nat.add transform_points flat_map]. rewrite <- !app_assoc.
    intros s Hs. unfold w_bind at 1, w_lift at 1.
    rewrite read_point_record_round_trip; [|assumption|unfold PTRDIFF_MAX, two63; lia].
    unfold w_bind at 1, w_lift at 1. rewrite R1.
    apply leaves_seq; [apply write_point_record_emits| |exact Hs].
    apply IH; auto. rewrite zlen_cons in T. replace (k + 1 + zlen prs) with (k + (1 + zlen prs)) by lia. exact T.
Qed.

Lemma transform_points_stop : forall e ops p k n tl, pr_ok p -> zlen (rextra p) = e -> 0 <= e <= 255 ->
  (forall p', run_ops ops k p <> Ret p') ->
  leaves (transform_points (S n) k e ops (i_open (pr_bytes p ++ tl))) []
         (match run_ops ops k p with Ret _ => Ret tt | Throw x => Throw x | UB u => UB u | Hang => Hang end).
Proof.
  intros e ops p k n tl P <- E R s Hs. cbn [transform_points]. unfold w_bind at 1, w_lift at 1.
  rewrite read_point_record_round_trip; [|assumption|unfold PTRDIFF_MAX, two63; lia].
  unfold w_bind at 1, w_lift at 1. rewrite os_write_nil by exact Hs.
  destruct (run_ops ops k p) as [p'|x|u|]; [now destruct (R p')| | |]; reflexivity.
Qed.

(** What an operation can be *)
Section Ops.
Variable stod : stod_fn.
Variable t : trig.
Variable noise : noise_fn.
Variable seed e : Z.

Definition number_op (v : double) (op : top) : Prop :=
  op = get_add_x_op v \/ op = get_add_y_op v \/ op = get_add_z_op v
  \/ op = get_scale_x_op v \/ op = get_scale_y_op v \/ op = get_scale_z_op v
  \/ op = get_rotate_x_op t v \/ op = get_rotate_y_op t v \/ op = get_rotate_z_op t v
  \/ op = get_quantize_op v \/ exists kind sx sy sz, op = get_noise_op noise kind seed sx sy sz.

Lemma get_op_cases : forall c op, get_op stod t noise seed e c = Ret op ->
  (exists v n, stod (cmd_params c) = Some (v, n) /\ number_op v op)
  \/ (exists f1 f2 n1 n2, names f1 n1 /\ names f2 n2 /\ get_copy_field_op n1 n2 e = Ret op)
  \/ (exists f l v1 v2, names f l /\ 0 <= v1 < 2 ^ 32 /\ 0 <= v2 < 2 ^ 32 /\ get_replace_op l v1 v2 e = Ret op)
  \/ (exists f l vs, names f l /\ get_replace_not_op l vs e = Ret op)
  \/ (exists f l r v n, names f l /\ stod r = Some (v, n) /\ op = get_set_op l v e).
Proof.
  intros [name s] op. unfold get_op. cbn [cmd_name cmd_params].
  assert (NUM : forall g : double -> top, (forall v, number_op v (g v)) ->
    ('(v, _) <- consume_double stod s ;; Ret (g v)) = Ret op ->
    (exists v n, stod s = Some (v, n) /\ number_op v op)).
  { intros g H. unfold consume_double. destruct (stod s) as [[v n]|]; cbn [bind]; intros E; [|discriminate E].
    injection E as <-. eauto. }
  assert (CI : forall r v r', consume_int r = Ret (v, r') -> 0 <= v < 2 ^ 32).
  { intros r v r' E. unfold consume_int in E. destruct (stoi r) as [[w n]| | |]; try discriminate E.
    injection E as <- _. unfold to_u32, two32. apply Z.mod_pos_bound. lia. }
  assert (FLD : forall r l r', consume_field_name r = Ret (l, r') -> exists f, names f l).
  { intros r l r' E. apply consume_name_inv in E as (tail & f & _ & _ & _ & _ & N). eauto. }
  repeat match goal with
  | |- (if ?b then _ else _) = _ -> _ => destruct b
  end.
  all: try (intros E; left; revert E; apply NUM; intros v; unfold number_op; tauto).
  all: try (intros E; left; revert E; apply NUM; intros v; unfold number_op; do 10 right; eexists _, _, _, _; reflexivity).
  - intros E. right. left. destruct (consume_field_name s) as [[n1 r1]| | |] eqn:E1; try discriminate E. cbn [bind] in E.
    destruct (consume_field_name r1) as [[n2 r2]| | |] eqn:E2; try discriminate E. cbn [bind] in E.
    apply FLD in E1 as (f1 & N1). apply FLD in E2 as (f2 & N2). exists f1, f2, n1, n2. auto.
  - intros E. do 2 right. left. destruct (consume_field_name s) as [[l r]| | |] eqn:E1; try discriminate E. cbn [bind] in E.
    destruct (consume_int r) as [[v1 r1]| | |] eqn:E2; try discriminate E. cbn [bind] in E.
    destruct (consume_int r1) as [[v2 r2]| | |] eqn:E3; try discriminate E. cbn [bind] in E.
    apply FLD in E1 as (f & N). apply CI in E2, E3. exists f, l, v1, v2. auto.
  - intros E. do 3 right. left. destruct (consume_field_name s) as [[l r]| | |] eqn:E1; try discriminate E. cbn [bind] in E.
    destruct (consume_ints r) as [[vs r1]| | |] eqn:E2; try discriminate E. cbn [bind] in E.
    apply FLD in E1 as (f & N). exists f, l, vs. auto.
  - intros E. do 4 right. destruct (consume_field_name s) as [[l r]| | |] eqn:E1; try discriminate E. cbn [bind] in E.
    unfold consume_double in E. destruct (stod r) as [[v n]|] eqn:E2; try discriminate E. cbn [bind] in E. injection E as <-.
    apply FLD in E1 as (f & N). exists f, l, r, v, n. auto.
  - intros E. discriminate E.
Qed.

Lemma get_op_total : forall c, match get_op stod t noise seed e c with Ret _ => True | Throw (runtime_error _) => True | _ => False end.
Proof.
  intros [name s]. unfold get_op. cbn [cmd_name cmd_params].
  assert (NUM : forall g : double -> top, match '(v, _) <- consume_double stod s ;; Ret (g v) with Ret _ => True | Throw (runtime_error _) => True | _ => False end).
  { intros g. unfold consume_double. destruct (stod s) as [[v n]|]; exact I. }
  assert (CI : forall r, (exists v, consume_int r = Ret v) \/ exists w, consume_int r = Throw (runtime_error w)).
  { intros r. unfold consume_int. destruct (stoi r) as [[w n]| | |]; eauto. }
  assert (FLD : forall r, (exists v, consume_field_name r = Ret v) \/ exists w, consume_field_name r = Throw (runtime_error w)).
  { intros r. unfold consume_field_name. destruct (span is_alnum r). destruct (negb _); eauto. }
  assert (RX : forall w l, refuse_xyz w l = Ret tt \/ refuse_xyz w l = Throw (runtime_error w)).
  { intros w l. unfold refuse_xyz. repeat match goal with |- context [if ?b then _ else _] => destruct b end; auto. }
  repeat match goal with
  | |- match (if ?b then _ else _) with _ => _ end => destruct b; [try apply NUM|]
  end.
  - destruct (FLD s) as [([n1 r1] & ->)|(w & ->)]; cbn [bind]; [|exact I].
    destruct (FLD r1) as [([n2 r2] & ->)|(w & ->)]; cbn [bind]; [|exact I].
    unfold get_copy_field_op. edestruct RX as [-> | ->]; cbn [bind]; [|exact I]. edestruct RX as [-> | ->]; exact I.
  - destruct (FLD s) as [([l r] & ->)|(w & ->)]; cbn [bind]; [|exact I].
    destruct (CI r) as [([v1 r1] & ->)|(w & ->)]; cbn [bind]; [|exact I].
    destruct (CI r1) as [([v2 r2] & ->)|(w & ->)]; cbn [bind]; [|exact I].
    unfold get_replace_op. edestruct RX as [-> | ->]; exact I.
  - destruct (FLD s) as [([l r] & ->)|(w & ->)]; cbn [bind]; [|exact I].
    destruct (C74_terminates r) as [(v & vs & rest & ->)|(w & ->)]; cbn [bind]; [|exact I].
    unfold get_replace_not_op. edestruct RX as [-> | ->]; cbn [bind]; [|exact I]. destruct (_ <? 2); exact I.
  - destruct (FLD s) as [([l r] & ->)|(w & ->)]; cbn [bind]; [|exact I].
    unfold consume_double. destruct (stod r) as [[v n]|]; exact I.
  - exact I.
Qed.

(** The results of operations are records whose fields hold valid values. *)
Hypothesis stod_ok : forall s v n, stod s = Some (v, n) -> d_ok v.

Lemma assigned_ok : forall f v p p', pr_ok p -> assigned f v p p' -> 0 <= v < range f -> pr_ok p'.
Proof.
  intros f v p p' P [V [L O]] R.
  assert (G : forall g w, value g p' = Some w -> 0 <= w < range g).
  { intros g w W. assert (D : {g = f} + {g <> f}) by (decide equality; apply Z.eq_dec). destruct D as [->|N].
    - rewrite V in W. injection W as <-. exact R.
    - rewrite O in W by (intros [I|[]]; congruence).
      destruct P. unfold d_ok, u16_ok, u32_ok, two64, two32, two16 in *.
      destruct g; cbn [value range] in *; try (injection W as <-; lia).
      destruct (k <? 0); [discriminate W|]. apply nth_error_In in W. rewrite Forall_forall in ok_extra.
      apply ok_extra in W. exact W. }
  split; unfold d_ok, u16_ok, u32_ok, two64, two32, two16.
  - exact (G FX _ eq_refl). - exact (G FY _ eq_refl). - exact (G FZ _ eq_refl). - exact (G FC _ eq_refl).
  - exact (G FP _ eq_refl). - exact (G FI _ eq_refl). - exact (G FR _ eq_refl). - exact (G FG _ eq_refl).
  - exact (G FB _ eq_refl).
  - apply Forall_forall. intros w W. apply In_nth_error in W as (n & W). apply (G (FE (Z.of_nat n))).
    cbn [value]. destruct (Z.ltb_spec (Z.of_nat n) 0); [lia|]. now rewrite Nat2Z.id.
Qed.

Lemma put_value_pr_ok : forall f v p, (forall k, f <> FE k) -> pr_ok p -> 0 <= v < range f -> pr_ok (put_value f v p).
Proof. intros f v p F P R. eapply assigned_ok; [exact P|apply put_value_ok, F|exact R]. Qed.

Lemma put_extra_inv : forall k v p p', 0 <= k -> put_extra k v p = Ret p' -> assigned (FE k) v p p'.
Proof.
  intros k v p p' K H. destruct (value (FE k) p) as [w|] eqn:V.
  - destruct (put_extra_ok k v p w K V) as (q & E & S). congruence.
  - rewrite value_extra in V by lia. unfold put_extra, vec_set in H. rewrite zset_None in H; [discriminate H|].
    now apply znth_None_range.
Qed.

Ltac ch_false := cbn [Z.eqb Pos.eqb ch_x ch_y ch_z ch_c ch_p ch_i ch_r ch_g ch_b ch_e].
Ltac ch_false_in H := cbn [Z.eqb Pos.eqb ch_x ch_y ch_z ch_c ch_p ch_i ch_r ch_g ch_b ch_e] in H.

Lemma u32_range : forall v, 0 <= to_u32 v < 2 ^ 32.
Proof. intros. unfold to_u32, two32. apply Z.mod_pos_bound. lia. Qed.
Lemma u16_range : forall v, 0 <= to_u16 v < 2 ^ 16.
Proof. intros. unfold to_u16, two16. apply Z.mod_pos_bound. lia. Qed.
Lemma u64_range : forall v, 0 <= to_u64 v < 2 ^ 64.
Proof. intros. unfold to_u64, two64. apply Z.mod_pos_bound. lia. Qed.

Lemma number_op_ok : forall v op k p p', number_op v op -> pr_ok p -> op k p = Ret p' -> pr_ok p'.
Proof.
  intros v op k p p' H P E. unfold number_op in H.
  destruct H as [->|[->|[->|[->|[->|[->|[->|[->|[->|[->|(kind & sx & sy & sz & ->)]]]]]]]]]].
  1: injection E as <-; apply (put_value_pr_ok FX); [discriminate|exact P|apply d_add_ok].
  1: injection E as <-; apply (put_value_pr_ok FY); [discriminate|exact P|apply d_add_ok].
  1: injection E as <-; apply (put_value_pr_ok FZ); [discriminate|exact P|apply d_add_ok].
  1: injection E as <-; apply (put_value_pr_ok FX); [discriminate|exact P|apply d_mul_ok].
  1: injection E as <-; apply (put_value_pr_ok FY); [discriminate|exact P|apply d_mul_ok].
  1: injection E as <-; apply (put_value_pr_ok FZ); [discriminate|exact P|apply d_mul_ok].
  1: injection E as <-; apply (put_value_pr_ok FZ); [discriminate|apply (put_value_pr_ok FY); [discriminate|exact P|apply d_sub_ok]|apply d_add_ok].
  1: injection E as <-; apply (put_value_pr_ok FZ); [discriminate|apply (put_value_pr_ok FX); [discriminate|exact P|apply d_sub_ok]|apply d_add_ok].
  1: injection E as <-; apply (put_value_pr_ok FY); [discriminate|apply (put_value_pr_ok FX); [discriminate|exact P|apply d_sub_ok]|apply d_add_ok].
  - unfold get_quantize_op, quantize1 in E.
    destruct (d_to_int (d_div (rx p) v)) as [x| | |]; try discriminate E. cbn [bind] in E.
    match type of E with context [d_to_int ?a] => destruct (d_to_int a) as [y| | |]; try discriminate E; cbn [bind] in E end.
    match type of E with context [d_to_int ?a] => destruct (d_to_int a) as [z| | |]; try discriminate E; cbn [bind] in E end.
    injection E as <-. apply (put_value_pr_ok FZ); [discriminate| |apply d_mul_ok].
    apply (put_value_pr_ok FY); [discriminate| |apply d_mul_ok]. apply (put_value_pr_ok FX); [discriminate|exact P|apply d_mul_ok].
  - unfold get_noise_op in E. injection E as <-.
    assert (A : forall b q x, pr_ok q -> pr_ok (if b : bool then set_x (d_add (rx q) x) q else q)).
    { intros [] q x Q; [|exact Q]. apply (put_value_pr_ok FX); [discriminate|exact Q|apply d_add_ok]. }
    assert (B : forall b q x, pr_ok q -> pr_ok (if b : bool then set_y (d_add (ry q) x) q else q)).
    { intros [] q x Q; [|exact Q]. apply (put_value_pr_ok FY); [discriminate|exact Q|apply d_add_ok]. }
    assert (C : forall b q x, pr_ok q -> pr_ok (if b : bool then set_z (d_add (rz q) x) q else q)).
    { intros [] q x Q; [|exact Q]. apply (put_value_pr_ok FZ); [discriminate|exact Q|apply d_add_ok]. }
    apply C, B, A, P.
Qed.

Lemma get_op_ok : forall c op k p p', get_op stod t noise seed e c = Ret op -> pr_ok p -> op k p = Ret p' -> pr_ok p'.
Proof.
  intros c op k p p' O P E.
  apply get_op_cases in O as [(v & n & S & H)|[(f1 & f2 & n1 & n2 & N1 & N2 & H)|[(f & l & v1 & v2 & N & B1 & B2 & H)|[(f & l & vs & N & H)|(f & l & r & v & n & N & S & ->)]]]].
  - eapply number_op_ok; eassumption.
  - unfold get_copy_field_op in H.
    destruct (integer_dec f1) as [F1|F1]; [rewrite (refuse_xyz_ok _ f1 n1 N1 F1) in H|rewrite (refuse_xyz_bad _ f1 n1 N1 F1) in H; discriminate H].
    cbn [bind] in H.
    destruct (integer_dec f2) as [F2|F2]; [rewrite (refuse_xyz_ok _ f2 n2 N2 F2) in H|rewrite (refuse_xyz_bad _ f2 n2 N2 F2) in H; discriminate H].
    cbn [bind] in H. injection H as <-.
    pose proof (copy_source_cases f1 n1 e p N1 F1) as C. destruct (value f1 p) as [v|] eqn:V1; rewrite C in E; cbn [bind] in E; [|discriminate E].
    pose proof (value_range f1 p v P F1 V1) as Rv.
    unfold copy_dest in E. rewrite (names_label f2 n2 N2) in E.
    destruct f2; try (exfalso; apply F2; cbn; tauto); cbn [label] in E; ch_false_in E.
    7: { rewrite (names_index k0 n2 e N2) in E. destruct N2 as [B _].
      destruct (check_extra k0 p) as [[]| | |]; try discriminate E. cbn [bind] in E.
      apply put_extra_inv in E; [|lia]. eapply assigned_ok; [exact P|exact E|]. cbn [range].
      destruct f1; cbn [range] in Rv; lia. }
    all: injection E as <-.
    + apply (put_value_pr_ok FC); [discriminate|exact P|apply u32_range].
    + apply (put_value_pr_ok FP); [discriminate|exact P|apply u32_range].
    + apply (put_value_pr_ok FI); [discriminate|exact P|apply u16_range].
    + apply (put_value_pr_ok FR); [discriminate|exact P|apply u16_range].
    + apply (put_value_pr_ok FG); [discriminate|exact P|apply u16_range].
    + apply (put_value_pr_ok FB); [discriminate|exact P|apply u16_range].
  - unfold get_replace_op in H.
    destruct (integer_dec f) as [F|F]; [rewrite (refuse_xyz_ok _ f l N F) in H|rewrite (refuse_xyz_bad _ f l N F) in H; discriminate H].
    cbn [bind] in H. injection H as <-. rewrite (names_label f l N) in E.
    destruct f; try (exfalso; apply F; cbn; tauto); cbn [label] in E; ch_false_in E.
    7: { rewrite (names_index k0 l e N) in E. destruct N as [B _].
      destruct (check_extra k0 p) as [[]| | |]; try discriminate E. cbn [bind] in E.
      destruct (vec_get (rextra p) k0) as [w| | |]; try discriminate E. cbn [bind] in E.
      destruct (w =? v1); [|injection E as <-; exact P].
      apply put_extra_inv in E; [|lia]. eapply assigned_ok; [exact P|exact E|]. cbn [range]. lia. }
    all: injection E as <-; match goal with |- pr_ok (if ?b then _ else _) => destruct b; [|exact P] end.
    + apply (put_value_pr_ok FC); [discriminate|exact P|exact B2].
    + apply (put_value_pr_ok FP); [discriminate|exact P|exact B2].
    + apply (put_value_pr_ok FI); [discriminate|exact P|apply u16_range].
    + apply (put_value_pr_ok FR); [discriminate|exact P|apply u16_range].
    + apply (put_value_pr_ok FG); [discriminate|exact P|apply u16_range].
    + apply (put_value_pr_ok FB); [discriminate|exact P|apply u16_range].
  - unfold get_replace_not_op in H.
    destruct (integer_dec f) as [F|F]; [rewrite (refuse_xyz_ok _ f l N F) in H|rewrite (refuse_xyz_bad _ f l N F) in H; discriminate H].
    cbn [bind] in H. destruct (zlen vs <? 2); [discriminate H|]. injection H as <-.
    match type of E with bind ?m _ = _ => destruct m as [b| | |]; try discriminate E; cbn [bind] in E end.
    destruct b; [|injection E as <-; exact P].
    unfold put_replacement in E. rewrite (names_label f l N) in E.
    destruct f; try (exfalso; apply F; cbn; tauto); cbn [label] in E; ch_false_in E.
    7: { rewrite (names_index k0 l e N) in E. destruct N as [B _].
      apply put_extra_inv in E; [|lia]. eapply assigned_ok; [exact P|exact E|]. apply u64_range. }
    all: injection E as <-; apply (put_value_pr_ok FC); [discriminate|exact P|apply u32_range].
  - apply stod_ok in S. unfold get_set_op in E. rewrite (names_label f l N) in E.
    assert (D : forall hi w, d_cast 0 (hi - 1) v = Ret w -> 0 <= w < hi).
    { intros hi w H. apply d_cast_ret in H as (_ & _ & H). lia. }
    destruct f; cbn [label] in E; ch_false_in E.
    1: injection E as <-; apply (put_value_pr_ok FX); [discriminate|exact P|exact S].
    1: injection E as <-; apply (put_value_pr_ok FY); [discriminate|exact P|exact S].
    1: injection E as <-; apply (put_value_pr_ok FZ); [discriminate|exact P|exact S].
    1-2: unfold d_to_u32 in E; change two32 with (2 ^ 32) in E; destruct (d_cast 0 (2 ^ 32 - 1) v) as [w| | |] eqn:W; try discriminate E;
         apply D in W; cbn [bind] in E; injection E as <-.
    1: apply (put_value_pr_ok FC); [discriminate|exact P|exact W].
    1: apply (put_value_pr_ok FP); [discriminate|exact P|exact W].
    1-4: unfold d_to_u16 in E; change two16 with (2 ^ 16) in E; destruct (d_cast 0 (2 ^ 16 - 1) v) as [w| | |] eqn:W; try discriminate E;
         apply D in W; cbn [bind] in E; injection E as <-.
    + apply (put_value_pr_ok FI); [discriminate|exact P|exact W].
    + apply (put_value_pr_ok FR); [discriminate|exact P|exact W].
    + apply (put_value_pr_ok FG); [discriminate|exact P|exact W].
    + apply (put_value_pr_ok FB); [discriminate|exact P|exact W].
    + rewrite (names_index k0 l e N) in E. destruct N as [B _].
      destruct (check_extra k0 p) as [[]| | |]; try discriminate E. cbn [bind] in E.
      unfold d_to_size in E; change two64 with (2 ^ 64) in E; destruct (d_cast 0 (2 ^ 64 - 1) v) as [w| | |] eqn:W; try discriminate E;
        apply D in W; cbn [bind] in E.
      apply put_extra_inv in E; [|lia]. eapply assigned_ok; [exact P|exact E|exact W].
Qed.

(** What can happen when an operation runs *)
Definition ends_well {A} (o : outcome A) : Prop :=
  match o with Ret _ => True | Throw (runtime_error _) => True | UB ub_float_to_int => True | _ => False end.

Lemma d_cast_ends : forall A lo hi v (k : Z -> outcome A), (forall n, ends_well (k n)) -> ends_well (n <- d_cast lo hi v ;; k n).
Proof. intros A lo hi v k H. destruct (d_cast_cases lo hi v) as [(n & ->)| ->]; cbn [bind]; [apply H|exact I]. Qed.

Lemma check_ends : forall A j p (k : outcome A), (0 <= j < zlen (rextra p) -> ends_well k) -> 0 <= j ->
  ends_well (_ <- check_extra j p ;; k).
Proof.
  intros A j p k H J. unfold check_extra. destruct (Z.leb_spec (zlen (rextra p)) j); cbn [bind]; [exact I|]. apply H. lia.
Qed.

Lemma put_extra_ends : forall j v p, 0 <= j < zlen (rextra p) -> ends_well (put_extra j v p).
Proof. intros j v p J. unfold put_extra, vec_set. rewrite zset_spec by exact J. exact I. Qed.

Lemma vec_get_ends : forall A j (p : point_record) (k : Z -> outcome A), 0 <= j < zlen (rextra p) -> (forall n, ends_well (k n)) ->
  ends_well (n <- vec_get (rextra p) j ;; k n).
Proof. intros A j p k J H. unfold vec_get. destruct (znth_in_range (rextra p) j J) as (a & ->). apply H. Qed.

Lemma get_op_ends : forall c op k p, get_op stod t noise seed e c = Ret op -> ends_well (op k p).
Proof.
  intros c op k p O.
  apply get_op_cases in O as [(v & n & S & H)|[(f1 & f2 & n1 & n2 & N1 & N2 & H)|[(f & l & v1 & v2 & N & B1 & B2 & H)|[(f & l & vs & N & H)|(f & l & r & v & n & N & S & ->)]]]].
  - destruct H as [->|[->|[->|[->|[->|[->|[->|[->|[->|[->|(kind & sx & sy & sz & ->)]]]]]]]]]]; try exact I.
    unfold get_quantize_op, quantize1, d_to_int.
    destruct (d_cast_cases (- two31) (two31 - 1) (d_div (rx p) v)) as [(x & ->)| ->]; cbn [bind]; [|exact I].
    match goal with |- context [d_cast ?a ?b ?c] => destruct (d_cast_cases a b c) as [(y & ->)| ->]; cbn [bind]; [|exact I] end.
    match goal with |- context [d_cast ?a ?b ?c] => destruct (d_cast_cases a b c) as [(z & ->)| ->]; cbn [bind]; exact I end.
  - unfold get_copy_field_op in H.
    destruct (integer_dec f1) as [F1|F1]; [rewrite (refuse_xyz_ok _ f1 n1 N1 F1) in H|rewrite (refuse_xyz_bad _ f1 n1 N1 F1) in H; discriminate H].
    cbn [bind] in H.
    destruct (integer_dec f2) as [F2|F2]; [rewrite (refuse_xyz_ok _ f2 n2 N2 F2) in H|rewrite (refuse_xyz_bad _ f2 n2 N2 F2) in H; discriminate H].
    cbn [bind] in H. injection H as <-.
    pose proof (copy_source_cases f1 n1 e p N1 F1) as C. destruct (value f1 p) as [v|] eqn:V1; rewrite C; cbn [bind]; [|exact I].
    unfold copy_dest. rewrite (names_label f2 n2 N2).
    destruct f2; try (exfalso; apply F2; cbn; tauto); cbn [label]; ch_false; try exact I.
    rewrite (names_index k0 n2 e N2). destruct N2 as [B _]. apply check_ends; [|lia]. apply put_extra_ends.
  - unfold get_replace_op in H.
    destruct (integer_dec f) as [F|F]; [rewrite (refuse_xyz_ok _ f l N F) in H|rewrite (refuse_xyz_bad _ f l N F) in H; discriminate H].
    cbn [bind] in H. injection H as <-. rewrite (names_label f l N).
    destruct f; try (exfalso; apply F; cbn; tauto); cbn [label]; ch_false; try exact I.
    rewrite (names_index k0 l e N). destruct N as [B _]. apply check_ends; [|lia]. intros J. apply vec_get_ends; [exact J|].
    intros w. destruct (w =? v1); [|exact I]. now apply put_extra_ends.
  - unfold get_replace_not_op in H.
    destruct (integer_dec f) as [F|F]; [rewrite (refuse_xyz_ok _ f l N F) in H|rewrite (refuse_xyz_bad _ f l N F) in H; discriminate H].
    cbn [bind] in H. destruct (Z.ltb_spec (zlen vs) 2) as [|L]; [discriminate H|]. injection H as <-.
    assert (NE : removelast vs <> []).
    { destruct vs as [|a [|b vs]]; [rewrite zlen_nil in L; lia|rewrite zlen_cons, zlen_nil in L; lia|discriminate]. }
    pose proof (copy_source_cases f l e p N F) as C. destruct (value f p) as [v|] eqn:V.
    + assert (NL : forall l', exists b, not_listed l (field_index l e) l' p = Ret b).
      { induction l' as [|i l' IH]; [eexists; reflexivity|]. cbn [not_listed]. rewrite C. cbn [bind]. destruct (v =? i); eauto. }
      destruct (NL (removelast vs)) as ([] & ->); cbn [bind]; [|exact I].
      unfold put_replacement. rewrite (names_label f l N).
      destruct f; try (exfalso; apply F; cbn; tauto); cbn [label]; ch_false; try exact I.
      rewrite (names_index k0 l e N). destruct N as [B _]. rewrite value_extra in V by lia. apply znth_Some_range in V.
      now apply put_extra_ends.
    + destruct (removelast vs); [congruence|]. cbn [not_listed]. rewrite C. exact I.
  - unfold get_set_op. rewrite (names_label f l N).
    destruct f; cbn [label]; ch_false; try exact I; try (apply d_cast_ends; intros; exact I).
    rewrite (names_index k0 l e N). destruct N as [B _]. apply check_ends; [|lia]. intros J. apply d_cast_ends.
    intros w. now apply put_extra_ends.
Qed.

Lemma run_ops_ends : forall ops k p, (forall op, In op ops -> exists c, get_op stod t noise seed e c = Ret op) ->
  ends_well (run_ops ops k p).
Proof.
  induction ops as [|op ops IH]; intros k p H; cbn [run_ops]; [exact I|].
  destruct (H op (or_introl eq_refl)) as (c & C). pose proof (get_op_ends c op k p C) as E.
  destruct (op k p) as [p'|x|u|]; cbn [bind]; [|exact E|exact E|exact E]. apply IH. intros o O. apply H. now right.
Qed.
End Ops.
