(** C79: the spoc_tool program, from file to file. *)
From Coq Require Import String ZArith List Bool Lia.
From Verif.Model Require Import Base Double Arith Header PointRecord Point File Compression IO Utils Par Affine Extent Voxel
  AppUtils AppConvert FilterApp TransformApp ToolApp.
From Verif.Spec Require Import Text Streams Fields Files History Apps ZlibContract Tools.
From Verif.Proofs Require Import BaseFacts DoubleFacts ArithFacts TextFacts FieldFacts FileFacts FileIOFacts HeaderCutFacts FilterFacts HistoryFacts
  StoreFacts VoxelFacts DiffFacts ToolFacts ToolGeometryFacts ToyZlib.
From Verif.Props Require Import ToolProps ToolGeometryProps.
Import ListNotations.
Open Scope Z_scope.
Open Scope outcome_scope.

(** ** Values stay within the range of their fields *)

Definition reads_bits (rd : read_double_fn) : Prop := forall t v failed rest, rd t = (v, failed, rest) -> d_ok v.

Lemma pr_ok_values : forall p, pr_ok p <-> forall fld v, value fld p = Some v -> 0 <= v < range fld.
Proof.
  intros p. split.
  - intros [A1 A2 A3 A4 A5 A6 A7 A8 A9 A10] fld v V. destruct fld; cbn [value range] in *; try (injection V as <-).
    1-9: unfold d_ok, u32_ok, u16_ok, two64, two32, two16 in *; lia.
    destruct (k <? 0); [discriminate V|]. apply nth_error_In in V. rewrite Forall_forall in A10. specialize (A10 v V). unfold u64_ok, two64 in A10. lia.
  - intros H. split; [exact (H FX _ eq_refl)|exact (H FY _ eq_refl)|exact (H FZ _ eq_refl)|exact (H FC _ eq_refl)|exact (H FP _ eq_refl)
      |exact (H FI _ eq_refl)|exact (H FR _ eq_refl)|exact (H FG _ eq_refl)|exact (H FB _ eq_refl)|].
    apply Forall_forall. intros v I. apply In_nth_error in I as (n & E). apply (H (FE (Z.of_nat n)) v). cbn [value].
    destruct (Z.ltb_spec (Z.of_nat n) 0); [lia|]. now rewrite Nat2Z.id.
Qed.

Lemma field_dec : forall a b : field, {a = b} + {a <> b}.
Proof. decide equality. apply Z.eq_dec. Qed.

Lemma only_ok : forall fs p p', only fs p p' -> pr_ok p -> (forall fld v, In fld fs -> value fld p' = Some v -> 0 <= v < range fld) -> pr_ok p'.
Proof.
  intros fs p p' [_ O] H K. apply pr_ok_values. intros fld v V. destruct (in_dec field_dec fld fs) as [I|N]; [now apply K|].
  rewrite (O fld N) in V. eapply pr_ok_values; eassumption.
Qed.

Lemma assigned_ok : forall fld v p p', pr_ok p -> 0 <= v < range fld -> assigned fld v p p' -> pr_ok p'.
Proof.
  intros fld v p p' H B [V O]. apply (only_ok _ _ _ O H). intros g w [<-|[]] W. rewrite V in W. now injection W as <-.
Qed.

Lemma resized_ok : forall k p p', pr_ok p -> resized k p p' -> pr_ok p'.
Proof.
  intros k p p' [] (A1 & A2 & A3 & A4 & A5 & A6 & A7 & A8 & A9 & A10 & A11).
  split; try (rewrite ?A1, ?A2, ?A3, ?A4, ?A5, ?A6, ?A7, ?A8, ?A9; assumption).
  apply Forall_forall. intros v I. apply In_nth_error in I as (n & E).
  assert (N : (n < Z.to_nat k)%nat) by (rewrite <- A10; apply nth_error_Some; congruence).
  rewrite (A11 n N) in E. injection E as <-. destruct (nth_in_or_default n (rextra p) 0) as [I|D].
  - rewrite Forall_forall in ok_extra. now apply ok_extra.
  - rewrite D. unfold u64_ok, two64. lia.
Qed.

Lemma stored_ok : forall fld v p p', pr_ok p -> 0 <= v < range fld -> stored fld v p p' -> pr_ok p'.
Proof.
  intros fld v p p' H B S. destruct fld; try (eapply assigned_ok; eassumption).
  destruct S as (q & R & A). eapply assigned_ok; [eapply resized_ok; eassumption|exact B|exact A].
Qed.

Lemma stored_all_ok : forall fld vs ps ps', stored_all fld vs ps ps' -> Forall (fun v => 0 <= v < range fld) vs ->
  Forall pr_ok ps -> Forall pr_ok ps' /\ List.length ps' = List.length ps.
Proof.
  intros fld vs ps ps' H. induction H as [|v vs p ps p' ps' S H IH]; intros B O; [now split|].
  inversion B; subst. inversion O; subst. destruct IH as [O' L]; auto. split; [constructor; [eapply stored_ok; eassumption|exact O']|].
  cbn. now rewrite L.
Qed.

Lemma dec_value_nonneg : forall ds, Forall (fun c => is_digit c = true) ds -> 0 <= dec_value ds.
Proof.
  intros ds D. rewrite dec_value_number. apply number_nonneg. eapply Forall_impl; [|exact D]. intros c. apply is_digit_iff.
Qed.

Lemma extract_size_range : forall old s v s', 0 <= old < 2 ^ 64 -> extract_size old s = (v, s') -> 0 <= v < 2 ^ 64.
Proof.
  intros old s v s' B E. unfold extract_size in E. destruct (sentry s) as [s0|rest]; [injection E as <- _; exact B|].
  destruct (match rest with [] => (false, rest) | c :: t => if c =? 45 then (true, t) else if c =? 43 then (false, t) else (false, rest) end) as [neg rest'].
  destruct (span is_digit rest') as [ds r2] eqn:S. destruct (no_chars ds); [injection E as <- _; lia|].
  destruct (Z.leb_spec two64 (dec_value ds)); injection E as <- _; [unfold two64; lia|].
  destruct neg; [apply Z.mod_pos_bound; reflexivity|]. split; [|exact H].
  apply (span_spec is_digit (fun c => is_digit c = true) (fun c => iff_refl _)) in S as (_ & D & _). now apply dec_value_nonneg.
Qed.

Lemma extract_double_range : forall rd old s v s', reads_bits rd -> 0 <= old < 2 ^ 64 -> extract_double rd old s = (v, s') -> 0 <= v < 2 ^ 64.
Proof.
  intros rd old s v s' H B E. unfold extract_double in E. destruct (sentry s) as [s0|rest]; [injection E as <- _; exact B|].
  destruct (rd rest) as [[w b] r] eqn:R. injection E as <- _. exact (H _ _ _ _ R).
Qed.

Lemma read_values_range : forall ex n s vs, (forall old s v s', 0 <= old < 2 ^ 64 -> ex old s = (v, s') -> 0 <= v < 2 ^ 64) ->
  read_values ex n s = Ret vs -> Forall (fun v => 0 <= v < 2 ^ 64) vs.
Proof.
  intros ex n s vs X. revert s vs. induction n as [|n IH]; intros s vs E; cbn [read_values] in E; [injection E as <-; constructor|].
  destruct (ex 0 s) as [v s'] eqn:Ex. destruct (ti_eof s'); [discriminate E|]. apply bind_Ret_inv in E as (ws & Ew & E). injection E as <-.
  constructor; [eapply X; [|exact Ex]; lia|]. eapply IH, Ew.
Qed.

Lemma set_field_result : forall rd debug f text fld name g, reads_bits rd -> live f -> Forall pr_ok (f_prs f) -> names fld name ->
  set_field rd debug f text name = Ret g ->
  live g /\ same_meta f g /\ Forall pr_ok (f_prs g) /\ List.length (f_prs g) = List.length (f_prs f).
Proof.
  intros rd debug f text fld name g X Lf O N E. pose proof (set_field_run rd debug f fld name text Lf N) as R. cbv zeta in R.
  destruct (read_values _ _ _) as [vs|e|u|] eqn:Rv in R; try (rewrite R in E; discriminate E).
  destruct R as (prs & R & U & S). rewrite R in E. injection E as <-.
  assert (B : Forall (fun v => 0 <= v < 2 ^ 64) vs).
  { eapply read_values_range; [|exact Rv]. intros old s v s' Bo Ex. destruct (float_flag name).
    - eapply extract_double_range; eassumption.
    - eapply extract_size_range; eassumption. }
  destruct (stored_all_ok _ _ _ _ S) as [O' L]; [|exact O|].
  { apply Forall_map. eapply Forall_impl; [|exact B]. intros v Bv. destruct fld; cbn [narrowed range];
      try exact Bv; apply Z.mod_pos_bound; reflexivity. }
  split; [now apply live_with_prs|]. split; [apply with_prs_same|]. now split.
Qed.

Lemma shifted_ok : forall b x y z prs, Forall pr_ok prs -> Forall pr_ok (map (pr_minus b x y z) prs).
Proof.
  intros b x y z prs H. apply Forall_map. eapply Forall_impl; [|exact H]. intros p []. unfold pr_minus.
  destruct b; split; cbn; auto using d_sub_ok.
Qed.

Lemma with_result : forall f prs, live f -> uniform prs -> Forall pr_ok prs -> List.length prs = List.length (f_prs f) ->
  let g := with_prs f prs in live g /\ same_meta f g /\ Forall pr_ok (f_prs g) /\ List.length (f_prs g) = List.length (f_prs f).
Proof. intros f prs Lf U O L g. split; [now apply live_with_prs|]. split; [apply with_prs_same|]. now split. Qed.

Lemma recenter_result : forall debug b f g, live f -> Forall pr_ok (f_prs f) -> recenter debug b f = Ret g ->
  live g /\ same_meta f g /\ Forall pr_ok (f_prs g) /\ List.length (f_prs g) = List.length (f_prs f).
Proof.
  intros debug b f g Lf O E. unfold recenter in E. rewrite (live_valid debug f Lf) in E. cbn [bind] in E.
  rewrite with_points_ok in E; [|exact Lf|apply minus_uniform, Lf]. injection E as <-.
  apply with_result; [exact Lf|apply minus_uniform, Lf|now apply shifted_ok|apply map_length].
Qed.

Lemma subtract_result : forall debug b f g, live f -> Forall pr_ok (f_prs f) -> subtract_min debug b f = Ret g ->
  live g /\ same_meta f g /\ Forall pr_ok (f_prs g) /\ List.length (f_prs g) = List.length (f_prs f).
Proof.
  intros debug b f g Lf O E. rewrite (subtract_run debug b f Lf) in E. injection E as <-.
  apply with_result; [exact Lf|apply minus_uniform, Lf|now apply shifted_ok|apply map_length].
Qed.

Lemma resize_result : forall debug k f g, live f -> Forall pr_ok (f_prs f) -> 0 <= k < 2 ^ 31 -> resize_extra debug k f = Ret g ->
  live g /\ same_meta f g /\ Forall pr_ok (f_prs g) /\ List.length (f_prs g) = List.length (f_prs f).
Proof.
  intros debug k f g Lf O B E. destruct (C63_resize debug k f Lf B) as (h & E' & Lh & M & R). rewrite E in E'. injection E' as <-.
  split; [exact Lh|]. split; [exact M|]. split; [|symmetry; now apply Forall2_length' in R].
  clear - R O. induction R as [|p p' ps ps' H R IH]; [constructor|]. inversion O; subst. constructor; [eapply resized_ok; eassumption|auto].
Qed.

Lemma mapM_length' : forall {A B} (h : A -> outcome B) l r, mapM h l = Ret r -> List.length r = List.length l.
Proof.
  intros A B h l. induction l as [|a l IH]; intros r E; cbn [mapM] in E; [now injection E as <-|].
  apply bind_Ret_inv in E as (b & _ & E). apply bind_Ret_inv in E as (bs & Eb & E). injection E as <-. cbn. f_equal. auto.
Qed.

Lemma upsample_shape : forall debug l f r g, live l -> live f -> upsample_classifications debug l f r = Ret g ->
  live g /\ same_meta f g /\ Forall2 (fun p p' => only [FC] p p' /\ (p' = p \/ exists q, In q (f_prs l) /\ rc p' = rc q)) (f_prs f) (f_prs g).
Proof.
  intros debug l f r g Ll Lf E. unfold upsample_classifications in E. rewrite !live_valid in E by assumption. cbn [bind] in E.
  apply bind_Ret_inv in E as ([] & _ & E). rewrite (live_copy f Lf) in E. cbn [bind] in E.
  apply bind_Ret_inv in E as (vh & Eh & E). apply bind_Ret_inv in E as (vl & El & E).
  unfold get_voxel_indexes, get_voxel_indexes_ext in Eh, El. apply mapM_length' in Eh, El. rewrite map_length in Eh, El.
  destruct (upsample_loop_ok debug vh l (f_prs l) [] vl f eq_refl El Lf) as (prs & R & Lp & U & P); [unfold zlen; lia|].
  change (zlen []) with 0 in R. rewrite R in E. injection E as <-.
  split; [now apply live_with_prs|]. split; [apply with_prs_same|]. cbn [f_prs with_prs].
  assert (Q : forall v p, let p' := recolor v (combine vl (map rc (f_prs l))) p in only [FC] p p' /\ (p' = p \/ exists q, In q (f_prs l) /\ rc p' = rc q)).
  { intros v p p'. destruct (recolor_last v (combine vl (map rc (f_prs l))) p) as [[_ K]|(a & c & b & Es & _ & K)]; fold p' in K; rewrite K.
    - split; [apply only_refl|now left].
    - assert (C : In c (map rc (f_prs l))) by (eapply in_combine_r with (x := v); rewrite Es; apply in_or_app; right; now left).
      apply in_map_iff in C as (q & <- & Iq). split; [|right; exists q; now split].
      split; [reflexivity|]. intros g G. destruct g; try reflexivity. elim G. now left. }
  assert (G : forall n p p', nth_error (f_prs f) n = Some p -> nth_error prs n = Some p' ->
            only [FC] p p' /\ (p' = p \/ exists q, In q (f_prs l) /\ rc p' = rc q)).
  { intros n p p' Ip Ip'. assert (n < List.length (f_prs f))%nat by (apply nth_error_Some; congruence).
    destruct (znth_in_range vh (Z.of_nat n)) as [v Iv]; [unfold zlen; lia|].
    assert (Jp : znth (f_prs f) (Z.of_nat n) = Some p) by (rewrite znth_nth_error by lia; now rewrite Nat2Z.id).
    assert (Jp' : znth prs (Z.of_nat n) = Some p') by (rewrite znth_nth_error by lia; now rewrite Nat2Z.id).
    rewrite (P _ _ _ Jp Iv) in Jp'. injection Jp' as <-. apply Q. }
  assert (Ln : List.length prs = List.length (f_prs f)) by (unfold zlen in Lp; lia). clear - G Ln. revert prs Ln G.
  generalize (f_prs f). intros fs. induction fs as [|p fs IH]; intros prs Ln G; destruct prs as [|p' prs]; try discriminate Ln; constructor.
  - exact (G O p p' eq_refl eq_refl).
  - apply IH; [now injection Ln|]. intros n a b. exact (G (S n) a b).
Qed.

Lemma upsample_result : forall debug l f r g, live l -> live f -> Forall pr_ok (f_prs l) -> Forall pr_ok (f_prs f) ->
  upsample_classifications debug l f r = Ret g ->
  live g /\ same_meta f g /\ Forall pr_ok (f_prs g) /\ List.length (f_prs g) = List.length (f_prs f).
Proof.
  intros debug l f r g Ll Lf Ol Of E. destruct (upsample_shape debug l f r g Ll Lf E) as (Lg & M & F2).
  split; [exact Lg|]. split; [exact M|]. split; [|symmetry; now apply Forall2_length' in F2].
  rewrite Forall_forall in Ol. clear - F2 Ol Of. induction F2 as [|p p' ps ps' [O K] F2 IH]; [constructor|]. inversion Of; subst.
  constructor; [|now apply IH]. apply (only_ok _ _ _ O); [assumption|]. intros fld v [<-|[]] V. cbn [value range] in *. injection V as <-.
  destruct K as [->|(q & Iq & ->)]; [|destruct (Ol q Iq)]; [destruct H1|]; unfold u32_ok, two32 in *; lia.
Qed.

(** ** What a command makes of a file *)

(** The file which the result is made from: upsample-classifications reads another one. *)
Definition source (z : zlib) (fs : file_system) (args : tool_args) (f s : spoc_file) : Prop :=
  if list_eq_dec Z.eq_dec (cmd_name (ta_command args)) (chars "upsample-classifications")
  then exists bytes, fs (cmd_params (ta_command args)) = Some bytes /\ file_of (read_spoc_file z) bytes s
  else s = f.

Lemma beq_chars : forall a b, beq_bytes a b = true <-> a = b.
Proof. exact beq_bytes_eq. Qed.

Lemma copied : forall (R : spoc_file -> Prop) o g, (forall h, o = Ret h -> live h /\ R h) ->
  (h <- o ;; file_copy h) = Ret g -> live g /\ R g.
Proof.
  intros R o g H E. apply bind_Ret_inv in E as (h & -> & E). destruct (H h eq_refl) as [L K].
  rewrite (live_copy h L) in E. injection E as <-. now split.
Qed.

(** Every command keeps the number of records, the version, the WKT and the compression
    flag of the file it starts from, and values stay within the range of their fields. *)
Theorem C79_result : forall z rd debug fs args f s g, reads_bits rd -> live f -> Forall pr_ok (f_prs f) ->
  source z fs args f s -> live s -> Forall pr_ok (f_prs s) ->
  tool_command z rd debug fs args f = Ret g ->
  live g /\ same_meta s g /\ Forall pr_ok (f_prs g) /\ List.length (f_prs g) = List.length (f_prs s).
Proof.
  intros z rd debug fs args f s g X Lf Of Sf Ls Os E. unfold tool_command in E. 
  eapply (copied (fun g => same_meta s g /\ Forall pr_ok (f_prs g) /\ List.length (f_prs g) = List.length (f_prs s))); [|exact E]. clear g E. cbv beta zeta.
  intros h E. unfold source in Sf.
  assert (U : forall n : string, beq_bytes (cmd_name (ta_command args)) (chars n) = true -> chars n <> chars "upsample-classifications" -> s = f).
  { intros n B N. apply beq_chars in B. destruct (list_eq_dec _ _ _) as [Q|_]; [congruence|exact Sf]. }
  destruct (beq_bytes _ (chars "recenter-xy")) eqn:B1.
  { rewrite (U _ B1) by (intros Q; vm_compute in Q; discriminate Q). exact (recenter_result _ _ _ _ Lf Of E). }
  destruct (beq_bytes _ (chars "recenter-xyz")) eqn:B2.
  { rewrite (U _ B2) by (intros Q; vm_compute in Q; discriminate Q). exact (recenter_result _ _ _ _ Lf Of E). }
  destruct (beq_bytes _ (chars "resize-extra")) eqn:B3.
  { rewrite (U _ B3) by (intros Q; vm_compute in Q; discriminate Q). apply bind_Ret_inv in E as ([n k] & _ & E).
    destruct (Z.ltb_spec n 0); [discriminate E|]. destruct (Z.ltb_spec 255 n); [discriminate E|].
    apply (resize_result debug n f h Lf Of); [lia|exact E]. }
  destruct (beq_bytes _ (chars "set-field")) eqn:B4.
  { rewrite (U _ B4) by (intros Q; vm_compute in Q; discriminate Q). destruct (no_chars _); [discriminate E|].
    apply bind_Ret_inv in E as (text & _ & E). apply bind_Ret_inv in E as ([name rest] & En & E).
    apply consume_name_inv in En as (tail & fld & _ & _ & _ & _ & N). exact (set_field_result rd debug f text fld name h X Lf Of N E). }
  destruct (beq_bytes _ (chars "subtract-min-xy")) eqn:B5.
  { rewrite (U _ B5) by (intros Q; vm_compute in Q; discriminate Q). exact (subtract_result _ _ _ _ Lf Of E). }
  destruct (beq_bytes _ (chars "subtract-min-xyz")) eqn:B6.
  { rewrite (U _ B6) by (intros Q; vm_compute in Q; discriminate Q). exact (subtract_result _ _ _ _ Lf Of E). }
  destruct (beq_bytes _ (chars "upsample-classifications")) eqn:B7; [|discriminate E].
  apply beq_chars in B7. destruct (list_eq_dec _ _ _) as [_|Q]; [|congruence]. destruct Sf as (bytes & Eb & rest & Er).
  destruct (d_leb _ _); [discriminate E|]. unfold open_text in E. rewrite Eb in E. cbn [bind] in E. rewrite Er in E. cbn [bind] in E.
  exact (upsample_result _ _ _ _ _ Lf Ls Of Os E).
Qed.

Lemma storable_live : forall f, storable f -> live f.
Proof. intros f ([A1 A2 _ _ _ A3 _] & _). split; [lia|lia|exact A3]. Qed.

(** So if the records do not have too many extra fields for the format, the result can be
    stored. *)
Theorem C79_storable : forall z rd debug fs args f s g, reads_bits rd -> storable f ->
  source z fs args f s -> storable s -> tool_command z rd debug fs args f = Ret g ->
  (storable g <-> exists k, has_extras k (f_prs g) /\ k <= (if f_compressed g then 255 else 123)).
Proof.
  intros z rd debug fs args f s g X Sf So Ss E.
  destruct (C79_result z rd debug fs args f s g X (storable_live f Sf) (gf_prs f (proj1 Sf)) So (storable_live s Ss) (gf_prs s (proj1 Ss)) E)
    as (Lg & (M1 & M2 & M3 & M4) & Og & L).
  split; [intros (_ & _ & K); exact K|]. intros K. destruct Ss as ([S1 S2 S3 S4 S5 S6 S7] & Sz & _).
  split; [|split; [lia|exact K]]. split; try congruence; try lia; try (rewrite M3; assumption). apply Lg.
Qed.

(** The commands other than resize-extra and set-field do not change the number of extra
    fields, so this is always so. *)
Theorem C79_always_storable : forall z rd debug fs args f s g, storable f -> source z fs args f s -> storable s ->
  In (cmd_name (ta_command args)) [chars "recenter-xy"; chars "recenter-xyz"; chars "subtract-min-xy"; chars "subtract-min-xyz"; chars "upsample-classifications"] ->
  tool_command z rd debug fs args f = Ret g -> storable g.
Proof.
  intros z rd debug fs args f s g Sf So Ss I E.
  assert (X : forall rd', tool_command z rd' debug fs args f = Ret g).
  { intros rd'. rewrite <- E. unfold tool_command. destruct args as [[name params] fn res]. cbn [ta_command cmd_name] in I |- *.
    destruct I as [<-|[<-|[<-|[<-|[<-|[]]]]]]; reflexivity. }
  set (rd0 := fun _ : list Z => (0, true, []) : double * bool * list Z).
  assert (R : reads_bits rd0) by (intros t v b r [= <- _ _]; unfold d_ok, two64; lia).
  apply (C79_storable z rd0 debug fs args f s g R Sf So Ss (X rd0)).
  pose proof (storable_live f Sf) as Lf. pose proof (storable_live s Ss) as Ls.
  destruct (C79_result z rd0 debug fs args f s g R Lf (gf_prs f (proj1 Sf)) So Ls (gf_prs s (proj1 Ss)) (X rd0)) as (Lg & (_ & _ & _ & M4) & _ & _).
  destruct Ss as (_ & _ & k & Hk & Bk). exists k. split; [|now rewrite M4].
  specialize (X rd0). unfold tool_command in X. destruct args as [[name params] fn res]. cbn [ta_command cmd_name cmd_params ta_resolution] in *.
  apply bind_Ret_inv in X as (h & Eh & Ec).
  assert (K : live h /\ has_extras k (f_prs h)).
  { assert (Only : forall fs' h', (live h' /\ Forall2 (only fs') (f_prs s) (f_prs h')) -> live h' /\ has_extras k (f_prs h')).
    { intros fs' h' [L' F2]. split; [exact L'|]. intros p Ip. destruct (Forall2_In_r _ _ _ _ F2 Ip) as (q & Iq & (Lq & _)). rewrite Lq. now apply Hk. }
    unfold source in So. cbn [ta_command cmd_name cmd_params] in So.
    assert (Rc : forall b h', recenter debug b f = Ret h' -> s = f -> live h' /\ has_extras k (f_prs h')).
    { intros b h' Er ->. destruct (C67_recenter debug b f Lf) as (h2 & E2 & L2 & _ & F2 & _). rewrite E2 in Er. injection Er as <-.
      apply (Only (coordinate_fields b)). now split. }
    assert (Sm : forall b h', subtract_min debug b f = Ret h' -> s = f -> live h' /\ has_extras k (f_prs h')).
    { intros b h' Er ->. rewrite (subtract_run debug b f Lf) in Er. injection Er as <-. apply (Only (coordinate_fields b)).
      split; [apply live_with_prs; [exact Lf|apply minus_uniform, Lf]|]. cbn [f_prs with_prs]. apply Forall2_map_self. intros. apply pr_minus_only. }
    destruct I as [<-|[<-|[<-|[<-|[<-|[]]]]]].
    - exact (Rc false h Eh So).
    - exact (Rc true h Eh So).
    - exact (Sm false h Eh So).
    - exact (Sm true h Eh So).
    - destruct (list_eq_dec _ _ _) as [_|Q]; [|congruence]. destruct So as (bytes & Eb & rest & Er).
      change (beq_bytes (chars "upsample-classifications") (chars "recenter-xy")) with false in Eh.
      change (beq_bytes (chars "upsample-classifications") (chars "recenter-xyz")) with false in Eh.
      change (beq_bytes (chars "upsample-classifications") (chars "resize-extra")) with false in Eh.
      change (beq_bytes (chars "upsample-classifications") (chars "set-field")) with false in Eh.
      change (beq_bytes (chars "upsample-classifications") (chars "subtract-min-xy")) with false in Eh.
      change (beq_bytes (chars "upsample-classifications") (chars "subtract-min-xyz")) with false in Eh.
      change (beq_bytes (chars "upsample-classifications") (chars "upsample-classifications")) with true in Eh. cbv iota in Eh.
      destruct (d_leb _ _); [discriminate Eh|]. unfold open_text in Eh. rewrite Eb in Eh. cbn [bind] in Eh. rewrite Er in Eh. cbn [bind] in Eh.
      destruct (upsample_shape debug f s res h Lf Ls Eh) as (Lh & _ & Fh). apply (Only [FC]). split; [exact Lh|].
      clear - Fh. induction Fh as [|? ? ? ? [H _] ? ?]; constructor; assumption. }
  destruct K as [Lh Kh]. rewrite (live_copy h Lh) in Ec. injection Ec as <-. exact Kh.
Qed.

(** ** From file to file *)

(** Given the bytes of a file, a command other than get-field fails and writes nothing, or
    it writes a file that reads back as what the command made of the file. *)
Theorem C79_file_to_file : forall z ZS show rd debug fs args f, zlib_ok z ZS -> storable f ->
  cmd_name (ta_command args) <> [] -> cmd_name (ta_command args) <> chars "get-field" ->
  exists input f1, appends (write_spoc_file z debug f) input /\ kept f f1
  /\ match tool_command z rd debug fs args f1 with
     | Ret g => storable g -> exists output g', appends (tool_main z show rd debug fs args input) output /\ kept g g'
                  /\ read_spoc_file z (i_open output) = Ret (g', i_open [])
     | Throw e => forall os, tool_main z show rd debug fs args input os = (os, Throw e)
     | UB u => forall os, tool_main z show rd debug fs args input os = (os, UB u)
     | Hang => forall os, tool_main z show rd debug fs args input os = (os, Hang)
     end.
Proof.
  intros z ZS show rd debug fs args f Hz S N1 N2.
  destruct (storable_one z ZS debug f Hz S) as (input & f1 & W & B & K & R).
  exists input, f1. split; [now apply emits_appends|]. split; [exact K|].
  assert (R0 : read_spoc_file z (i_open input) = Ret (f1, i_open [])).
  { rewrite <- (app_nil_r input). apply R. constructor. }
  unfold tool_main, from_input. rewrite R0.
  assert (E1 : no_chars (cmd_name (ta_command args)) = false) by (destruct (cmd_name (ta_command args)); [congruence|reflexivity]).
  assert (E2 : beq_bytes (cmd_name (ta_command args)) (chars "get-field") = false).
  { destruct (beq_bytes _ _) eqn:Q; [|reflexivity]. apply beq_chars in Q. congruence. }
  rewrite E1, E2.
  destruct (tool_command z rd debug fs args f1) as [g|e|u|] eqn:E.
  - intros Sg. destruct (storable_one z ZS debug g Hz Sg) as (output & g' & W' & B' & K' & R').
    exists output, g'. split; [|split; [exact K'|]].
    + apply emits_appends. intros s Hs. unfold w_bind, w_lift. rewrite E. now apply W'.
    + rewrite <- (app_nil_r output). apply R'. constructor.
  - intros os. unfold w_bind, w_lift. now rewrite E.
  - intros os. unfold w_bind, w_lift. now rewrite E.
  - intros os. unfold w_bind, w_lift. now rewrite E.
Qed.

(** get-field prints the values of an integer field, one on each line. *)
Theorem C79_get_field : forall z ZS show rd debug fs args f fld name tail vs, zlib_ok z ZS -> storable f ->
  cmd_name (ta_command args) = chars "get-field" -> cmd_params (ta_command args) = name ++ tail ->
  names fld name -> Forall alphanumeric name -> not_first alphanumeric tail -> integer_field fld ->
  Forall2 (fun p v => value fld p = Some v) (f_prs f) vs ->
  exists input ts, appends (write_spoc_file z debug f) input /\ Forall2 decimal vs ts
    /\ appends (tool_main z show rd debug fs args input) (on_lines ts).
Proof.
  intros z ZS show rd debug fs args f fld name tail vs Hz S E1 E2 N A T I V.
  destruct (storable_one z ZS debug f Hz S) as (input & f1 & W & B & K & R).
  assert (R0 : read_spoc_file z (i_open input) = Ret (f1, i_open [])).
  { rewrite <- (app_nil_r input). apply R. constructor. }
  assert (V1 : Forall2 (fun p v => value fld p = Some v) (f_prs f1) vs).
  { unfold kept in K. destruct (f_compressed f); [|now rewrite K]. destruct K as (_ & _ & _ & _ & K). revert K.
    generalize (f_prs f) at 1. intros all K. revert vs V. induction K as [|p p' ps ps' H K IH]; intros vs V; inversion V; subst; constructor; [|now apply IH].
    destruct H as (_ & _ & _ & C1 & C2 & C3 & C4 & C5 & C6 & C7). rewrite <- H2.
    clear - I C1 C2 C3 C4 C5 C6 C7. destruct fld; try (exfalso; apply I; cbn; tauto); cbn [value]; now rewrite ?C1, ?C2, ?C3, ?C4, ?C5, ?C6, ?C7. }
  pose proof (kept_storable f f1 S K) as S1.
  destruct (C64_text show debug f1 fld name vs N I (gf_prs f1 (proj1 S1)) V1) as (ts & D & P).
  exists input, ts. split; [now apply emits_appends|]. split; [exact D|].
  unfold tool_main, from_input. rewrite R0, E1, E2. change (no_chars (chars "get-field")) with false.
  change (beq_bytes (chars "get-field") (chars "get-field")) with true. cbv iota.
  rewrite (consume_name fld name tail N A T). exact P.
Qed.

(** Setting an integer field to what get-field has printed writes the same file again: the
    same bytes as writing what was read. *)
Theorem C79_round_trip : forall z ZS show rd debug fs fn res f fld name, zlib_ok z ZS -> storable f ->
  names fld name -> Forall alphanumeric name -> integer_field fld -> (forall p, In p (f_prs f) -> value fld p <> None) -> fn <> [] ->
  let getting := mk_targs (mk_command (chars "get-field") name) [] d_zero in
  let setting := mk_targs (mk_command (chars "set-field") name) fn res in
  exists input f1 text, appends (write_spoc_file z debug f) input /\ kept f f1
    /\ appends (tool_main z show rd debug fs getting input) text
    /\ (fs fn = Some text -> exists output, appends (tool_main z show rd debug fs setting input) output
          /\ appends (write_spoc_file z debug f1) output).
Proof.
  intros z ZS show rd debug fs fn res f fld name Hz S N A I V NF getting setting.
  destruct (storable_one z ZS debug f Hz S) as (input & f1 & W & B & K & R).
  assert (R0 : read_spoc_file z (i_open input) = Ret (f1, i_open [])).
  { rewrite <- (app_nil_r input). apply R. constructor. }
  pose proof (kept_storable f f1 S K) as S1. pose proof (storable_live f1 S1) as L1.
  assert (V1 : forall p, In p (f_prs f1) -> value fld p <> None).
  { unfold kept in K. destruct (f_compressed f); [|now rewrite K]. destruct K as (_ & _ & _ & _ & K). intros p' Ip'.
    destruct (Forall2_In_r _ _ _ _ K Ip') as (p & Ip & (_ & _ & _ & C1 & C2 & C3 & C4 & C5 & C6 & C7)).
    specialize (V p Ip). destruct fld; cbn [value] in *; try discriminate. now rewrite C7. }
  destruct (C64_round_trip show rd debug f1 fld name L1 N I (gf_prs f1 (proj1 S1)) V1) as (text & P & Q).
  assert (T : not_first alphanumeric []) by (intros c u X; discriminate X).
  pose proof (consume_name fld name [] N A T) as C. rewrite app_nil_r in C.
  exists input, f1, text. split; [now apply emits_appends|]. split; [exact K|]. split.
  - unfold tool_main, from_input, getting. rewrite R0. cbn [ta_command cmd_name cmd_params]. change (no_chars (chars "get-field")) with false.
    change (beq_bytes (chars "get-field") (chars "get-field")) with true. cbv iota. rewrite C. exact P.
  - intros Hfs. destruct (storable_one z ZS debug f1 Hz S1) as (output & g' & W' & _). exists output.
    assert (E : tool_command z rd debug fs setting f1 = Ret f1).
    { unfold tool_command, setting. cbn [ta_command cmd_name cmd_params ta_field_fn].
      change (beq_bytes (chars "set-field") (chars "recenter-xy")) with false.
      change (beq_bytes (chars "set-field") (chars "recenter-xyz")) with false.
      change (beq_bytes (chars "set-field") (chars "resize-extra")) with false.
      change (beq_bytes (chars "set-field") (chars "set-field")) with true. cbv iota zeta.
      assert (NC : no_chars fn = false) by (destruct fn; [congruence|reflexivity]). rewrite NC. unfold open_text. rewrite Hfs. cbn [bind].
      rewrite C. cbn [bind]. rewrite Q. cbn [bind]. now apply live_copy. }
    split; [|now apply emits_appends]. unfold tool_main, from_input. rewrite R0. unfold setting at 1. cbn [ta_command cmd_name].
    change (no_chars (chars "set-field")) with false. cbv iota. unfold setting at 1. cbn [ta_command cmd_name].
    change (beq_bytes (chars "set-field") (chars "get-field")) with false. cbv iota.
    apply emits_appends. intros s Hs. unfold w_bind, w_lift. rewrite E. now apply W'.
Qed.

(** No command: an error, whatever the input.  A command that is none of the eight: an error
    once the input has been read.  Nothing is written. *)
Theorem C79_refused : forall z show rd debug fs args input os,
  (cmd_name (ta_command args) = [] -> exists what, tool_main z show rd debug fs args input os = (os, Throw (runtime_error what)))
  /\ (forall f, file_of (read_spoc_file z) input f -> cmd_name (ta_command args) <> [] ->
      ~ In (cmd_name (ta_command args)) (map chars ["get-field"; "recenter-xy"; "recenter-xyz"; "resize-extra"; "set-field"; "subtract-min-xy";
          "subtract-min-xyz"; "upsample-classifications"]%string) ->
      exists what, tool_main z show rd debug fs args input os = (os, Throw (runtime_error what))).
Proof.
  intros z show rd debug fs args input os. split.
  - intros E. unfold tool_main. rewrite E. eexists. reflexivity.
  - intros f (rest & R) N U. unfold tool_main, from_input, tool_command. rewrite R. cbv zeta.
    assert (E1 : no_chars (cmd_name (ta_command args)) = false) by (destruct (cmd_name (ta_command args)); [congruence|reflexivity]).
    assert (E : forall n, In n ["get-field"; "recenter-xy"; "recenter-xyz"; "resize-extra"; "set-field"; "subtract-min-xy";
          "subtract-min-xyz"; "upsample-classifications"]%string -> beq_bytes (cmd_name (ta_command args)) (chars n) = false).
    { intros n I. destruct (beq_bytes _ _) eqn:Q; [|reflexivity]. apply beq_chars in Q. exfalso. apply U. rewrite Q. now apply in_map. }
    rewrite E1, !E by (cbn; tauto). eexists. reflexivity.
Qed.

(** Finding: while resize-extra refuses more than 255 extra fields, set-field makes any
    number of them. *)
Theorem C79_too_many_extras : forall z rd debug fs fn res f k name text vs c t, live f -> f_prs f <> [] ->
  names (FE k) name -> Forall alphanumeric name -> 255 <= k -> (forall p, In p (f_prs f) -> value (FE k) p = None) ->
  fn <> [] -> fs fn = Some text -> written (c :: t) vs text -> List.length vs = List.length (f_prs f) -> Forall (fun v => v < 2 ^ 64) vs ->
  exists g, tool_command z rd debug fs (mk_targs (mk_command (chars "set-field") name) fn res) f = Ret g /\ has_extras (k + 1) (f_prs g)
    /\ ~ storable g.
Proof.
  intros z rd debug fs fn res f k name text vs c t Lf Ne N A K V NF Hfs Wr Ln B.
  destruct (C65_accepts rd debug f (FE k) name text vs c t Lf N) as (g & E & M & S); auto.
  { unfold integer_field. cbn. intuition discriminate. }
  assert (T : not_first alphanumeric []) by (intros x u X; discriminate X).
  pose proof (consume_name (FE k) name [] N A T) as C. rewrite app_nil_r in C.
  assert (Hx : has_extras (k + 1) (f_prs g)).
  { clear - S V K. induction S as [|v vs p ps p' ps' H S IH]; [intros ? []|]. intros q [<-|I].
    - destruct H as (r & (_ & _ & _ & _ & _ & _ & _ & _ & _ & L & _) & (_ & (L' & _))). rewrite L', L.
      specialize (V p (or_introl eq_refl)). cbn [value] in V. destruct (Z.ltb_spec k 0); [lia|]. apply nth_error_None in V. lia.
    - apply IH; [|exact I]. intros a Ia. apply V. now right. }
  assert (Lg : live g).
  { destruct M as (M1 & M2 & _). destruct Lf as [B1 B2 _]. split; [lia|lia|]. now apply has_extras_uniform with (k + 1). }
  exists g. split; [|split; [exact Hx|]].
  - unfold tool_command. cbn [ta_command cmd_name cmd_params ta_field_fn].
    change (beq_bytes (chars "set-field") (chars "recenter-xy")) with false.
    change (beq_bytes (chars "set-field") (chars "recenter-xyz")) with false.
    change (beq_bytes (chars "set-field") (chars "resize-extra")) with false.
    change (beq_bytes (chars "set-field") (chars "set-field")) with true. cbv iota zeta.
    assert (NC : no_chars fn = false) by (destruct fn; [congruence|reflexivity]). rewrite NC. unfold open_text. rewrite Hfs. cbn [bind].
    rewrite C. cbn [bind]. rewrite E. cbn [bind]. now apply live_copy.
  - intros (_ & _ & k' & Hk & Bk). destruct (f_prs g) as [|p ps] eqn:Eg.
    + inversion S; subst; congruence.
    + pose proof (Hx p (or_introl eq_refl)). pose proof (Hk p (or_introl eq_refl)). destruct (f_compressed g); lia.
Qed.

(** The commands that move the points always succeed. *)
Theorem C79_moves : forall z ZS show rd debug fs fn res params name (b : bool) f, zlib_ok z ZS -> storable f ->
  let args := mk_targs (mk_command name params) fn res in
  forall moved, In (name, moved) [(chars (if b then "recenter-xyz" else "recenter-xy")%string, recenter debug b);
                                  (chars (if b then "subtract-min-xyz" else "subtract-min-xy")%string, subtract_min debug b)] ->
  exists input f1 g output g', appends (write_spoc_file z debug f) input /\ kept f f1 /\ moved f1 = Ret g
    /\ appends (tool_main z show rd debug fs args input) output /\ kept g g' /\ read_spoc_file z (i_open output) = Ret (g', i_open []).
Proof.
  intros z ZS show rd debug fs fn res params name b f Hz S args moved I.
  assert (Nm : In name [chars "recenter-xy"; chars "recenter-xyz"; chars "subtract-min-xy"; chars "subtract-min-xyz"; chars "upsample-classifications"]
     /\ name <> [] /\ name <> chars "get-field" /\ name <> chars "upsample-classifications").
  { destruct I as [[= <- _]|[[= <- _]|[]]]; destruct b; cbn [In]; (split; [tauto|]); repeat split; discriminate. }
  destruct Nm as (N1 & N2 & N3 & N4).
  destruct (C79_file_to_file z ZS show rd debug fs args f Hz S N2 N3) as (input & f1 & W & K & R).
  pose proof (kept_storable f f1 S K) as S1. pose proof (storable_live f1 S1) as L1.
  assert (M : exists g, moved f1 = Ret g /\ live g).
  { destruct I as [[= _ <-]|[[= _ <-]|[]]].
    - destruct (C67_recenter debug b f1 L1) as (g & E & Lg & _). eauto.
    - exists (with_prs f1 (map (pr_minus b (px (minp (get_extent (map pr_pt (f_prs f1))))) (py (minp (get_extent (map pr_pt (f_prs f1)))))
         (pz (minp (get_extent (map pr_pt (f_prs f1)))))) (f_prs f1))).
      split; [apply (subtract_run debug b f1 L1)|]. apply live_with_prs; [exact L1|apply minus_uniform, L1]. }
  destruct M as (g & E & Lg).
  assert (Ec : tool_command z rd debug fs args f1 = Ret g).
  { unfold tool_command, args. cbn [ta_command cmd_name]. destruct I as [[= <- <-]|[[= <- <-]|[]]]; destruct b.
    - change (beq_bytes (chars "recenter-xyz") (chars "recenter-xy")) with false.
      change (beq_bytes (chars "recenter-xyz") (chars "recenter-xyz")) with true. cbv iota zeta. rewrite E. cbn [bind]. now apply live_copy.
    - change (beq_bytes (chars "recenter-xy") (chars "recenter-xy")) with true. cbv iota zeta. rewrite E. cbn [bind]. now apply live_copy.
    - change (beq_bytes (chars "subtract-min-xyz") (chars "recenter-xy")) with false.
      change (beq_bytes (chars "subtract-min-xyz") (chars "recenter-xyz")) with false.
      change (beq_bytes (chars "subtract-min-xyz") (chars "resize-extra")) with false.
      change (beq_bytes (chars "subtract-min-xyz") (chars "set-field")) with false.
      change (beq_bytes (chars "subtract-min-xyz") (chars "subtract-min-xy")) with false.
      change (beq_bytes (chars "subtract-min-xyz") (chars "subtract-min-xyz")) with true. cbv iota zeta. rewrite E. cbn [bind]. now apply live_copy.
    - change (beq_bytes (chars "subtract-min-xy") (chars "recenter-xy")) with false.
      change (beq_bytes (chars "subtract-min-xy") (chars "recenter-xyz")) with false.
      change (beq_bytes (chars "subtract-min-xy") (chars "resize-extra")) with false.
      change (beq_bytes (chars "subtract-min-xy") (chars "set-field")) with false.
      change (beq_bytes (chars "subtract-min-xy") (chars "subtract-min-xy")) with true. cbv iota zeta. rewrite E. cbn [bind]. now apply live_copy. }
  assert (So : source z fs args f1 f1).
  { unfold source, args. cbn [ta_command cmd_name]. destruct (list_eq_dec _ _ _); [congruence|reflexivity]. }
  pose proof (C79_always_storable z rd debug fs args f1 f1 g S1 So S1 N1 Ec) as Sg.
  rewrite Ec in R. destruct (R Sg) as (output & g' & P & K' & Rd). exists input, f1, g, output, g'. repeat (split; [assumption|]). exact Rd.
Qed.

(** ** Examples *)

Lemma tp_storable : storable tp_file.
Proof.
  split; [|split; [cbn; lia|exists 2; split; [intros p [<-|[<-|[]]]; reflexivity|cbn; lia]]].
  split; try reflexivity; try (cbn; lia); [repeat constructor; lia|exact tp_ok|exact (lv_uniform _ tp_live)].
Qed.

Definition word_read : read_double_fn := fun t => let '(v, failed, rest) := bits_read t in (to_u64 v, failed, rest).
Definition bytes_of (f : spoc_file) : list Z := o_bytes (fst (write_spoc_file toy true f o_open)).
Definition run_tool (fs : file_system) (name params : string) (fn : list Z) (f : spoc_file) : ostream * outcome unit :=
  tool_main toy bits_show word_read true fs (mk_targs (mk_command (chars name) (chars params)) fn d_two) (bytes_of f) o_open.

Example C79_example : storable tp_file /\ reads_bits word_read /\ zlib_ok toy toy_stream
  /\ run_tool (fun _ => None) "subtract-min-xyz" "" [] (file_at [at_xz d_three d_one 1; at_xz d_one d_four 2])
     = (mk_ostream (bytes_of (file_at [mk_pr d_two 0 0 1 9 8 7 6 5 [4]; mk_pr 0 0 d_three 2 9 8 7 6 5 [4]])) None false, Ret tt)
  /\ run_tool (fun _ => None) "get-field" "e0" [] tp_file = (mk_ostream (on_lines [chars "5"; chars "18446744073709551615"]) None false, Ret tt)
  /\ run_tool (fun _ => Some (chars "5 18446744073709551615 ")) "set-field" "e0" (chars "t") tp_file = (mk_ostream (bytes_of tp_file) None false, Ret tt)
  /\ run_tool (fun _ => Some (bytes_of high_file)) "upsample-classifications" "h" [] (low_file d_one)
     = (mk_ostream (bytes_of (file_at [at_xz d_one d_one 6; at_xz d_two d_one 6; at_xz d_three d_one 7; at_xz d_four d_one 7; at_xz d_one d_one 6])) None false, Ret tt)
  /\ run_tool (fun _ => None) "set-field" "e0" (chars "t") tp_file = (o_open, Throw (runtime_error "Could not open file for reading"))
  /\ run_tool (fun _ => None) "resize-extra" "256" [] tp_file = (o_open, Throw (runtime_error "The number of extra fields must be < 256"))
  /\ run_tool (fun _ => None) "undo" "" [] tp_file = (o_open, Throw (runtime_error "An unknown command was encountered")).
Proof.
  split; [exact tp_storable|]. split.
  { intros t v b r E. unfold word_read in E. destruct (bits_read t) as [[w c] u]. injection E as <- _ _. apply Z.mod_pos_bound. reflexivity. }
  split; [exact toy_ok|]. repeat split; vm_compute; reflexivity.
Qed.

(** set-field e255 in a file with two extra fields. *)
Example C79_too_many_example : names (FE 255) (chars "e255") /\ Forall alphanumeric (chars "e255")
  /\ (forall p, In p (f_prs tp_file) -> value (FE 255) p = None) /\ written (chars " ") [7; 8] (chars "7 8 ").
Proof.
  split; [|split; [|split; [intros p [<-|[<-|[]]]; reflexivity|apply C65_example]]].
  - change (chars "e255") with (chars "e" ++ [50; 53; 53]). apply names_e; [lia|].
    exists [], [], [50; 53; 53], []. cbn. split; [reflexivity|]. split; [constructor|].
    split; [repeat constructor; unfold digit; lia|]. split; [discriminate|]. split; [intros ? ? X; discriminate X|]. left. split; [now left|lia].
  - change (chars "e255") with [101; 50; 53; 53]. repeat constructor; unfold alphanumeric, digit; lia.
Qed.

Print Assumptions C79_result.
Print Assumptions C79_storable.
Print Assumptions C79_always_storable.
Print Assumptions C79_file_to_file.
Print Assumptions C79_moves.
Print Assumptions C79_get_field.
Print Assumptions C79_round_trip.
Print Assumptions C79_refused.
Print Assumptions C79_too_many_extras.
