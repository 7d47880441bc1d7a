(** C63 - C68: spoc_tool. *)
From Coq Require Import String Reals ZArith List Bool Lia Lra.
From Flocq Require Import Core.
From Verif.Model Require Import Base Double Arith Header PointRecord Point File Utils Par Affine Compression IO Extent Voxel
  AppUtils AppConvert FilterApp TransformApp ToolApp.
From Verif.Spec Require Import Rounding Format Streams ZlibContract Text Fields History Files Apps Geometry Tools.
From Verif.Proofs Require Import BaseFacts DoubleFacts ArithFacts TextFacts FieldFacts FileFacts HistoryFacts FilterFacts HeaderFacts
  PointRecordFacts HeaderCutFacts DiffFacts StoreFacts VoxelFacts ToyZlib ToolFacts.
From Verif.Props Require Import TextProps.
Import ListNotations.
Open Scope Z_scope.
Open Scope outcome_scope.

(** ** C63 resize_extra *)

(** The number of extra fields of every record becomes [k]: the first ones stay, new ones
    are zero. *)
Theorem C63_resize : forall debug k f, live f -> 0 <= k < 2 ^ 31 ->
  exists g, resize_extra debug k f = Ret g /\ live g /\ same_meta f g /\ Forall2 (resized k) (f_prs f) (f_prs g).
Proof.
  intros debug k f Lf K. unfold resize_extra. rewrite (live_valid debug f Lf). cbn [bind]. unfold require.
  destruct (Z.leb_spec 0 k); [|lia]. cbn [negb]. rewrite andb_false_r. cbn [bind]. rewrite (live_copy f Lf). cbn [bind].
  unfold to_u64. rewrite Z.mod_small by (unfold two64; lia).
  unfold after, resize_extra_fields, resize_extra_fields_alloc. rewrite resize_loop_ok by (intros; unfold two63; lia).
  eexists. split; [reflexivity|]. split; [|split; [apply with_prs_same|apply Forall2_map_resized]].
  apply live_with_prs; [exact Lf|]. eapply resized_uniform, Forall2_map_resized.
Qed.

(** More fields and then as many as before: the same file again. *)
Theorem C63_up_and_back : forall debug k n f, live f -> has_extras n (f_prs f) -> 0 <= n <= k -> k < 2 ^ 31 ->
  exists g, resize_extra debug k f = Ret g /\ resize_extra debug n g = Ret f.
Proof.
  intros debug k n f Lf X N K. destruct (C63_resize debug k f Lf) as (g & E & Lg & (M1 & M2 & M3 & M4) & R); [lia|].
  exists g. split; [exact E|]. destruct (C63_resize debug n g Lg) as (h & E' & _ & (M1' & M2' & M3' & M4') & R'); [lia|].
  rewrite E'. f_equal. rewrite <- (file_eta h), <- (file_eta f). rewrite M1', M2', M3', M4', M1, M2, M3, M4. f_equal.
  clear E E' M1 M2 M3 M4 M1' M2' M3' M4' Lf Lg. revert X R'. generalize (f_prs h). induction R as [|p q ps qs Rp R IH]; intros l X R'.
  { now inversion R'. }
  inversion R' as [|? r ? rs Rq R'']; subst. f_equal; [|apply IH; [intros a I; apply X; now right|exact R'']].
  assert (L : Z.of_nat (List.length (rextra p)) = n) by (apply X; now left).
  destruct Rp as (A1 & A2 & A3 & A4 & A5 & A6 & A7 & A8 & A9 & A10 & A11).
  destruct Rq as (B1 & B2 & B3 & B4 & B5 & B6 & B7 & B8 & B9 & B10 & B11).
  assert (EX : rextra r = rextra p).
  { apply nth_ext with (d := 0) (d' := 0); [rewrite B10; lia|]. intros j J. rewrite B10 in J.
    specialize (B11 j J). specialize (A11 j ltac:(lia)). apply nth_error_nth with (d := 0) in B11. apply nth_error_nth with (d := 0) in A11. congruence. }
  destruct p, r. cbn in *. subst. reflexivity.
Qed.

(** The program takes the numbers from 0 to 255 (Finding: from 124 on the file cannot be
    read back unless it is compressed, see C11). *)
Theorem C63_command : forall z rd debug fs fn res params n k f, live f -> stoi params = Ret (n, k) ->
  let args := mk_targs (mk_command (chars "resize-extra") params) fn res in
  (0 <= n <= 255 -> exists g, tool_command z rd debug fs args f = Ret g /\ resize_extra debug n f = Ret g)
  /\ (~ 0 <= n <= 255 -> exists what, tool_command z rd debug fs args f = Throw (runtime_error what)).
Proof.
  intros z rd debug fs fn res params n k f Lf S args. unfold tool_command, args. cbn [ta_command cmd_name cmd_params].
  change (beq_bytes (chars "resize-extra") (chars "recenter-xy")) with false.
  change (beq_bytes (chars "resize-extra") (chars "recenter-xyz")) with false.
  change (beq_bytes (chars "resize-extra") (chars "resize-extra")) with true. cbv iota. rewrite S. cbn [bind]. split; intros B.
  - destruct (Z.ltb_spec n 0); [lia|]. destruct (Z.ltb_spec 255 n); [lia|].
    destruct (C63_resize debug n f Lf) as (g & E & Lg & _); [lia|]. exists g. rewrite E. cbn [bind]. now rewrite (live_copy g Lg).
  - destruct (Z.ltb_spec n 0); [eexists; reflexivity|]. destruct (Z.ltb_spec 255 n); [eexists; reflexivity|lia].
Qed.

(** ** C64 get-field and set-field *)

Section Fields.
Variable show : show_double_fn.
Variable rd : read_double_fn.
Variable debug : bool.

Lemma field_text_integer : forall f name e p v, names f name -> integer_field f -> value f p = Some v ->
  field_text show name (field_index name e) p = Ret (put_uint v ++ [10]).
Proof.
  intros f name e p v N I V. unfold field_text. rewrite (names_label f name N).
  destruct f; try (exfalso; apply I; cbn; tauto); try (cbn in V; injection V as <-; reflexivity).
  rewrite (names_index k name e N). pose proof N as [B _].
  change (vec_get (rextra p) k) with (vec_get (rextra p) k). pose proof (check_extra_cases k p ltac:(lia)) as C. rewrite V in C.
  destruct C as [_ C]. cbn [Z.eqb Pos.eqb label ch_x ch_y ch_z ch_c ch_p ch_i ch_r ch_g ch_b ch_e]. rewrite C. reflexivity.
Qed.

Lemma field_text_coordinate : forall f name e p v, names f name -> ~ integer_field f -> value f p = Some v ->
  field_text show name (field_index name e) p = Ret (show v ++ [10]).
Proof.
  intros f name e p v N I V. unfold field_text. rewrite (names_label f name N).
  destruct f; try (cbn in V; injection V as <-; reflexivity); exfalso; apply I; unfold integer_field; cbn; intros F;
    repeat (destruct F as [F|F]; [discriminate F|]); destruct F.
Qed.

Lemma get_field_loop_emits : forall name j prs ts, Forall2 (fun p t => field_text show name j p = Ret (t ++ [10])) prs ts ->
  emits (get_field_loop show name j prs) (on_lines ts) tt.
Proof.
  intros name j prs ts H. induction H as [|p t ps ts E H IH]; [apply emits_ret|]. cbn [get_field_loop]. unfold on_lines. cbn [map concat].
  eapply emits_lift; [exact E|]. apply emits_seq; [apply emits_put|exact IH].
Qed.

Lemma get_field_check : forall f fld name, names fld name ->
  get_field show debug f name = (fun s => get_field_loop show name (field_index name (get_extra_fields f)) (f_prs f) s).
Proof.
  intros f fld name N. assert (C : check_field_name name = true) by (apply names_accepted; eauto).
  unfold get_field, require. rewrite C. cbn [negb]. rewrite andb_false_r. reflexivity.
Qed.

(** get-field prints one decimal number per record for an integer field ... *)
Theorem C64_text : forall f fld name vs, names fld name -> integer_field fld -> Forall pr_ok (f_prs f) ->
  Forall2 (fun p v => value fld p = Some v) (f_prs f) vs ->
  exists ts, Forall2 decimal vs ts /\ appends (get_field show debug f name) (on_lines ts).
Proof.
  intros f fld name vs N I O V. exists (map put_uint vs). split.
  - clear N. induction V as [|p v ps vs E V IH]; [constructor|]. inversion O; subst. constructor; [|now apply IH].
    apply put_uint_spec. eapply value_range; eauto.
  - apply emits_appends. rewrite (get_field_check f fld name N). apply get_field_loop_emits.
    clear O. induction V as [|p v ps vs E V IH]; [constructor|]. constructor; [|exact IH]. now apply field_text_integer with fld.
Qed.

(** ... and the coordinates as the library prints them. *)
Theorem C64_text_coordinate : forall f fld name vs, names fld name -> ~ integer_field fld ->
  Forall2 (fun p v => value fld p = Some v) (f_prs f) vs ->
  appends (get_field show debug f name) (on_lines (map show vs)).
Proof.
  intros f fld name vs N I V. apply emits_appends. rewrite (get_field_check f fld name N). apply get_field_loop_emits.
  induction V as [|p v ps vs E V IH]; [constructor|]. constructor; [|exact IH]. now apply field_text_coordinate with fld.
Qed.

(** Finding: a missing extra field is read from beyond the end of the vector. *)
Theorem C64_missing_extra : forall f k name p prs os, live f -> f_prs f = p :: prs -> names (FE k) name ->
  value (FE k) p = None -> get_field show debug f name os = (os, UB ub_index).
Proof.
  intros f k name p prs os Lf P N V. rewrite (get_field_check f (FE k) name N). rewrite P. cbn [get_field_loop].
  unfold w_bind, w_lift, field_text. rewrite (names_label _ _ N), (names_index k name _ N).
  cbn [Z.eqb Pos.eqb label ch_x ch_y ch_z ch_c ch_p ch_i ch_r ch_g ch_b ch_e].
  pose proof N as [B _]. rewrite value_extra in V by lia. unfold vec_get. rewrite V. reflexivity.
Qed.

(** ** C65: what set-field accepts *)

Notation eof_error := (runtime_error "Reached end-of-file before reading all field values").

Lemma narrowed_range : forall f v, integer_field f -> 0 <= v < 2 ^ 64 -> narrowed f v = v mod range f.
Proof.
  intros f v I B. destruct f; try (exfalso; apply I; cbn; tauto); try reflexivity. cbn [narrowed range]. now rewrite Z.mod_small.
Qed.

Lemma field_values_range : forall n t vs, field_values n t vs -> Forall (fun v => 0 <= v < 2 ^ 64) vs.
Proof.
  intros n t vs H. induction H as [t|n sp sg ds c t v vs W D Nds C L S H IH|n sp sg ds c t W D C L G|n sp sg c t W C H G].
  - constructor.
  - constructor; [|exact IH]. pose proof (number_nonneg ds D). destruct S as [[_ ->]|[_ ->]]; [lia|]. apply Z.mod_pos_bound. lia.
  - constructor; [lia|]. apply Forall_forall. intros x I. apply repeat_spec in I. lia.
  - apply Forall_forall. intros x I. apply repeat_spec in I. lia.
Qed.

(** Exactly: an integer field is set to the numbers that [field_values] finds in the text,
    reduced modulo the size of the field; if the text ends too early, or directly after
    the last number, nothing is set. *)
Theorem C65_exact : forall f fld name text, live f -> names fld name -> integer_field fld ->
  (forall vs, field_values (List.length (f_prs f)) text vs ->
     exists g, set_field rd debug f text name = Ret g /\ live g /\ same_meta f g
       /\ stored_all fld (map (fun v => v mod range fld) vs) (f_prs f) (f_prs g))
  /\ ((forall vs, ~ field_values (List.length (f_prs f)) text vs) -> set_field rd debug f text name = Throw eof_error).
Proof.
  intros f fld name text Lf N I.
  pose proof (set_field_run rd debug f fld name text Lf N) as R. rewrite (integer_float fld name N I) in R. cbv beta zeta iota in R. split.
  - intros vs V. pose proof (field_values_range _ _ _ V) as B. rewrite (read_values_complete _ _ _ V) in R. destruct R as (prs & E & U & S).
    exists (with_prs f prs). split; [exact E|]. split; [now apply live_with_prs|]. split; [apply with_prs_same|]. cbn [f_prs with_prs].
    rewrite <- (map_ext_in (narrowed fld)); [exact S|]. intros v Iv. apply narrowed_range; [exact I|]. rewrite Forall_forall in B. now apply B.
  - intros V. pose proof (read_values_sound (List.length (f_prs f)) text) as Q.
    destruct (read_values extract_size (List.length (f_prs f)) (ti_open text)) as [vs|e|u|]; [now elim (V vs)| |destruct Q|destruct Q].
    now subst.
Qed.

Lemma written_nonempty : forall rest vs text, written rest vs text -> rest <> [] -> text <> [].
Proof.
  intros rest vs text H R. destruct H as [|v vs sp ds t W D Nds E H F]; [exact R|]. intros Q. apply app_eq_nil in Q as [_ Q].
  apply app_eq_nil in Q as [Q _]. contradiction.
Qed.

Lemma written_values : forall rest vs text n ws, rest <> [] -> written rest vs text -> Forall (fun v => v < 2 ^ 64) vs ->
  field_values n rest ws -> field_values (List.length vs + n) text (vs ++ ws).
Proof.
  intros rest vs text n ws R H. induction H as [|v vs sp ds t W D Nds E H IH F]; intros B V; [exact V|]. inversion B; subst.
  cbn [List.length plus app]. assert (T : exists c u, t = c :: u /\ ~ digit c).
  { destruct t as [|c u]; [|exists c, u; split; [reflexivity|now apply (F c u)]].
    exfalso. now apply (written_nonempty rest vs []) in H. }
  destruct T as (c & u & -> & C). change (sp ++ ds ++ c :: u) with (sp ++ [] ++ ds ++ c :: u).
  apply fv_number; auto. unfold signed. auto.
Qed.

Lemma written_nonneg : forall rest vs text, written rest vs text -> Forall (fun v => 0 <= v) vs.
Proof.
  intros rest vs text W. induction W as [|v vs sp ds t S D Nd E W IH F]; constructor; [|exact IH]. subst. now apply number_nonneg.
Qed.

Lemma map_mod_small : forall m vs, Forall (fun v => 0 <= v) vs -> Forall (fun v => v < m) vs -> map (fun v => v mod m) vs = vs.
Proof.
  intros m vs A B. induction vs as [|v vs IH]; [reflexivity|]. inversion A; inversion B; subst. cbn [map]. rewrite IH by assumption.
  rewrite Z.mod_small by lia. reflexivity.
Qed.

(** Numbers that the field can hold, one per record and followed by something that is no
    digit, are taken as they are. *)
Theorem C65_accepts : forall f fld name text vs c t, live f -> names fld name -> integer_field fld ->
  written (c :: t) vs text -> List.length vs = List.length (f_prs f) -> Forall (fun v => v < range fld) vs ->
  exists g, set_field rd debug f text name = Ret g /\ same_meta f g /\ stored_all fld vs (f_prs f) (f_prs g).
Proof.
  intros f fld name text vs c t Lf N I W L B.
  assert (R : 0 < range fld <= 2 ^ 64) by (destruct fld; cbn [range]; lia).
  destruct (C65_exact f fld name text Lf N I) as [A _]. destruct (A vs) as (g & E & _ & M & S).
  { rewrite <- L. rewrite <- (Nat.add_0_r (List.length vs)), <- (app_nil_r vs). rewrite app_nil_r at 1.
    apply written_values with (c :: t); [discriminate|exact W| |constructor]. eapply Forall_impl; [|exact B]. cbv beta. intros; lia. }
  exists g. split; [exact E|]. split; [exact M|]. rewrite map_mod_small in S; [exact S|now apply written_nonneg in W|exact B].
Qed.

(** Finding: what is not a number is not an error either.  From there on all records get 0. *)
Theorem C65_garbage : forall f fld name text vs sp c t, live f -> names fld name -> integer_field fld ->
  Forall white sp -> ~ digit c -> ~ white c -> c <> 43 -> c <> 45 ->
  written (sp ++ c :: t) vs text -> (List.length vs < List.length (f_prs f))%nat -> Forall (fun v => v < range fld) vs ->
  exists g, set_field rd debug f text name = Ret g
    /\ stored_all fld (vs ++ repeat 0 (List.length (f_prs f) - List.length vs)) (f_prs f) (f_prs g).
Proof.
  intros f fld name text vs sp c t Lf N I W C1 C2 C3 C4 H L B.
  assert (R : 0 < range fld <= 2 ^ 64) by (destruct fld; cbn [range]; lia).
  destruct (List.length (f_prs f) - List.length vs)%nat as [|n] eqn:E; [lia|].
  destruct (C65_exact f fld name text Lf N I) as [A _].
  destruct (A (vs ++ repeat 0 (S n))) as (g & Eg & _ & _ & S).
  { replace (List.length (f_prs f)) with (List.length vs + S n)%nat by lia. apply written_values with (sp ++ c :: t).
    - destruct sp; discriminate.
    - exact H.
    - eapply Forall_impl; [|exact B]. cbv beta. intros; lia.
    - change (sp ++ c :: t) with (sp ++ [] ++ c :: t). apply fv_garbage; auto. now left. }
  exists g. split; [exact Eg|]. rewrite map_mod_small in S; [exact S| |].
  - apply Forall_app. split; [now apply written_nonneg in H|]. apply Forall_forall. intros x Ix. apply repeat_spec in Ix. lia.
  - apply Forall_app. split; [exact B|]. apply Forall_forall. intros x Ix. apply repeat_spec in Ix. lia.
Qed.

Lemma read_values_white : forall n t, Forall white t -> (0 < n)%nat -> read_values extract_size n (ti_open t) = Throw eof_error.
Proof. intros [|n] t W H; [lia|]. cbn [read_values]. rewrite extract_size_white by exact W. reflexivity. Qed.

(** Too few numbers are an error, and so is (Finding) a last number at the very end of the
    text, without the end of a line. *)
Theorem C65_too_few : forall f fld name text vs rest, live f -> names fld name -> integer_field fld ->
  written rest vs text -> Forall (fun v => v < 2 ^ 64) vs -> Forall white rest ->
  (List.length vs < List.length (f_prs f))%nat \/ (vs <> [] /\ List.length vs = List.length (f_prs f) /\ rest = []) ->
  set_field rd debug f text name = Throw eof_error.
Proof.
  intros f fld name text vs rest Lf N I H B W K.
  pose proof (set_field_run rd debug f fld name text Lf N) as R. rewrite (integer_float fld name N I) in R. cbv beta zeta iota in R.
  enough (E : read_values extract_size (List.length (f_prs f)) (ti_open text) = Throw eof_error) by (rewrite E in R; exact R).
  clear R I N Lf. revert K. generalize (List.length (f_prs f)).
  induction H as [|v vs sp ds t S D Nds E H IH F]; intros n K.
  { destruct K as [K|[K _]]; [|congruence]. apply read_values_white; assumption. }
  inversion B as [|? ? Bv Bvs]; subst. destruct n as [|n]; [cbn in K; destruct K as [K|[_ [K _]]]; cbn in K; lia|]. cbn [read_values].
  change (sp ++ ds ++ t) with (sp ++ [] ++ ds ++ t). rewrite extract_size_text; auto.
  2: { now left. }
  2: { destruct ds; [congruence|discriminate]. }
  destruct ds as [|d ds]; [congruence|]. cbn [no_chars]. destruct (Z.leb_spec two64 (number (d :: ds))); [unfold two64 in *; lia|].
  destruct t as [|c u]; [reflexivity|]. cbn [ti_eof no_chars].
  change (mk_ti (c :: u) false false) with (ti_open (c :: u)).
  destruct (Nat.eq_dec (List.length vs) n) as [En|En].
  - destruct K as [K|(_ & _ & ->)]; [cbn in K; lia|]. destruct vs as [|v' vs]; [inversion H|].
    rewrite IH; [reflexivity|exact Bvs|]. right. split; [discriminate|]. auto.
  - rewrite IH; [reflexivity|exact Bvs|]. left. destruct K as [K|(_ & K & _)]; cbn in K; lia.
Qed.

(** ** C64: the round trip *)

(** The lines that get-field prints are numbers with a line end after the last. *)
Lemma on_lines_written : forall vs ts sp v t, Forall2 decimal vs ts -> Forall white sp -> decimal v t ->
  written [10] (v :: vs) (sp ++ t ++ [10] ++ on_lines ts).
Proof.
  intros vs ts sp v t H. revert sp v t.
  induction H as [|w u vs ts E H IH]; intros sp v t W (Nt & Dt & Vt & _).
  - constructor; auto; [constructor|]. intros c x [= <- <-]. unfold digit. lia.
  - constructor; auto.
    + change ([10] ++ on_lines (u :: ts)) with ([10] ++ (u ++ [10]) ++ on_lines ts). rewrite <- app_assoc. apply IH; [|exact E].
      constructor; [|constructor]. unfold white. cbn. auto.
    + intros c x [= <- <-]. unfold digit. lia.
Qed.

Lemma stored_self : forall f p v, value f p = Some v -> stored f v p p.
Proof.
  intros f p v V. destruct f; try (split; [exact V|apply only_refl]).
  assert (0 <= k < Z.of_nat (List.length (rextra p))).
  { cbn [value] in V. destruct (Z.ltb_spec k 0); [discriminate V|]. assert (nth_error (rextra p) (Z.to_nat k) <> None) by congruence.
    apply nth_error_Some in H0. lia. }
  exists p. split; [apply resized_max_same; lia|]. split; [exact V|apply only_refl].
Qed.

Lemma resized_unique : forall k p q r, resized k p q -> resized k p r -> q = r.
Proof.
  intros k p q r (A1 & A2 & A3 & A4 & A5 & A6 & A7 & A8 & A9 & A10 & A11) (B1 & B2 & B3 & B4 & B5 & B6 & B7 & B8 & B9 & B10 & B11).
  assert (E : rextra q = rextra r).
  { apply nth_ext with (d := 0) (d' := 0); [congruence|]. intros j J. rewrite A10 in J. specialize (A11 j J). specialize (B11 j J).
    apply nth_error_nth with (d := 0) in A11. apply nth_error_nth with (d := 0) in B11. congruence. }
  destruct q, r. cbn in *. subst. reflexivity.
Qed.

Lemma stored_unique : forall f v p q r, stored f v p q -> stored f v p r -> q = r.
Proof.
  intros f v p q r A B. destruct f; try (eapply assigned_unique; eassumption).
  destruct A as (a & Ra & A). destruct B as (b & Rb & B). rewrite (resized_unique _ _ _ _ Ra Rb) in A. eapply assigned_unique; eassumption.
Qed.

Lemma stored_all_unique : forall f vs ps qs rs, stored_all f vs ps qs -> stored_all f vs ps rs -> qs = rs.
Proof.
  intros f vs ps qs rs H. revert rs. induction H as [|v vs p ps p' ps' S H IH]; intros rs G; inversion G; subst; [reflexivity|].
  f_equal; [eapply stored_unique; eassumption|auto].
Qed.

(** Setting an integer field to what get-field has printed changes nothing. *)
Theorem C64_round_trip : forall f fld name, live f -> names fld name -> integer_field fld -> Forall pr_ok (f_prs f) ->
  (forall p, In p (f_prs f) -> value fld p <> None) ->
  exists text, appends (get_field show debug f name) text /\ set_field rd debug f text name = Ret f.
Proof.
  intros f fld name Lf N I O V.
  assert (X : exists vs, Forall2 (fun p v => value fld p = Some v) (f_prs f) vs).
  { clear O. induction (f_prs f) as [|p ps IH]; [exists []; constructor|]. destruct IH as [vs H]; [intros q Q; apply V; now right|].
    destruct (value fld p) as [v|] eqn:E; [exists (v :: vs); now constructor|]. now elim (V p (or_introl eq_refl)). }
  destruct X as [vs H]. destruct (C64_text f fld name vs N I O H) as (ts & D & A). exists (on_lines ts). split; [exact A|].
  assert (L : List.length vs = List.length (f_prs f)) by (symmetry; now apply Forall2_length' in H).
  assert (S : stored_all fld vs (f_prs f) (f_prs f)).
  { clear - H. induction H as [|p v ps vs E H IH]; constructor; [now apply stored_self|exact IH]. }
  assert (B : Forall (fun v => v < range fld) vs).
  { clear - H O I. induction H as [|p v ps vs E H IH]; constructor; inversion O; subst; [|now apply IH].
    eapply value_range; eauto. }
  assert (K : exists g, set_field rd debug f (on_lines ts) name = Ret g /\ same_meta f g /\ stored_all fld vs (f_prs f) (f_prs g)).
  { destruct D as [|v t vs ts Dv D].
    - destruct (C65_exact f fld name (on_lines []) Lf N I) as [E _]. destruct (E []) as (g & G & _ & M & Sg); [|eauto].
      rewrite <- L. constructor.
    - apply C65_accepts with 10 []; auto. unfold on_lines. cbn [map concat]. rewrite <- app_assoc.
      apply (on_lines_written vs ts [] v t); auto. }
  destruct K as (g & -> & (M1 & M2 & M3 & M4) & Sg). f_equal. rewrite <- (file_eta g), <- (file_eta f), M1, M2, M3, M4.
  f_equal. eapply stored_all_unique; eassumption.
Qed.

(** The coordinates come back if the library reads what it printed. *)
Lemma read_values_shown : forall vs, Forall (fun v => forall rest, rd (show v ++ 10 :: rest) = (v, false, 10 :: rest)) vs ->
  Forall (fun v => show v <> [] /\ not_first white (show v)) vs ->
  forall sp, Forall white sp -> read_values (extract_double rd) (List.length vs) (ti_open (sp ++ on_lines (map show vs))) = Ret vs.
Proof.
  induction vs as [|v vs IH]; intros R S sp W; [reflexivity|]. inversion R as [|? ? Rv Rvs]; subst. inversion S as [|? ? [Nv Fv] Svs]; subst.
  cbn [List.length read_values]. unfold extract_double at 1, sentry, ti_open. cbn [ti_eof ti_fail ti_rest orb].
  unfold on_lines. cbn [map concat]. rewrite <- app_assoc. rewrite (span_app is_space white sp _ is_space_iff W).
  2: { intros c u E. destruct (show v) as [|d l] eqn:Es; [congruence|]. cbn in E. injection E as -> _. now apply (Fv c l). }
  destruct (show v) as [|d l] eqn:Es; [congruence|]. cbn [no_chars app]. change (d :: l ++ 10 :: concat (map (fun t => t ++ [10]) (map show vs)))
    with ((d :: l) ++ 10 :: on_lines (map show vs)). rewrite Rv. cbn [no_chars ti_eof].
  change (mk_ti (10 :: on_lines (map show vs)) false false) with (ti_open ([10] ++ on_lines (map show vs))).
  rewrite IH; auto. constructor; [|constructor]. unfold white. cbn. auto.
Qed.

Theorem C64_coordinates : forall f fld name vs, live f -> names fld name -> ~ integer_field fld ->
  Forall2 (fun p v => value fld p = Some v) (f_prs f) vs ->
  Forall (fun v => show v <> [] /\ not_first white (show v)
                   /\ forall rest, rd (show v ++ 10 :: rest) = (v, false, 10 :: rest)) vs ->
  exists text, appends (get_field show debug f name) text /\ set_field rd debug f text name = Ret f.
Proof.
  intros f fld name vs Lf N I V S. exists (on_lines (map show vs)). split; [now apply C64_text_coordinate with fld|].
  assert (FL : float_flag name = true).
  { rewrite (names_float fld name N). destruct fld; try reflexivity; exfalso; apply I; unfold integer_field; cbn; intros F;
    repeat (destruct F as [F|F]; [discriminate F|]); destruct F. }
  pose proof (set_field_run rd debug f fld name (on_lines (map show vs)) Lf N) as R. rewrite FL in R. cbv beta zeta iota in R.
  assert (RV : read_values (extract_double rd) (List.length vs) (ti_open ([] ++ on_lines (map show vs))) = Ret vs).
  { apply read_values_shown; [| |constructor]; (eapply Forall_impl; [|exact S]); cbv beta; tauto. }
  cbn [app] in RV. rewrite (Forall2_length' _ _ _ V), RV in R.
  destruct R as (prs & -> & _ & A). f_equal.
  assert (E : prs = f_prs f).
  { eapply stored_all_unique; [exact A|]. clear - V I. induction V as [|p v ps vs E H IH]; [constructor|]. cbn [map]. constructor; [|exact IH].
    replace (narrowed fld v) with v; [now apply stored_self|]. destruct fld; try reflexivity; exfalso; apply I; unfold integer_field; cbn; intros F;
    repeat (destruct F as [F|F]; [discriminate F|]); destruct F. }
  rewrite E. unfold with_prs. apply file_eta.
Qed.

(** set-field changes the named field only, whatever the text is. *)
Theorem C64_only : forall f fld name text g, live f -> names fld name -> set_field rd debug f text name = Ret g ->
  same_meta f g /\ exists vs, stored_all fld vs (f_prs f) (f_prs g).
Proof.
  intros f fld name text g Lf N E. pose proof (set_field_run rd debug f fld name text Lf N) as R. cbv beta zeta in R.
  destruct (read_values _ _ _) as [vs|e|u|]; try congruence. destruct R as (prs & E' & _ & S). rewrite E' in E. injection E as <-.
  split; [apply with_prs_same|]. eauto.
Qed.
End Fields.

(** Finding: get-field prints the coordinates with sixteen significant digits, which do
    not determine a double.  Whatever the reading of numbers does, some file changes when
    a coordinate is set to what get-field has printed. *)
Definition near_a : double := 4616189618054758404.
Definition near_b : double := 4616189618054758405.
Definition one_point (x : double) : spoc_file :=
  mk_file 0 1 [] false [mk_pr x 0 0 0 0 0 0 0 0 []].

Lemma near_vals : d_val near_a = (IZR (2 ^ 52 + 4) / IZR (2 ^ 50))%R /\ d_val near_b = (IZR (2 ^ 52 + 5) / IZR (2 ^ 50))%R.
Proof. split; unfold near_a, near_b, d_val; cbn; unfold F2R; cbn; lra. Qed.

Lemma near_finite : finite near_a /\ finite near_b.
Proof. split; (split; [unfold d_ok, near_a, near_b, two64; lia|reflexivity]). Qed.

Lemma one_point_live : forall x, live (one_point x).
Proof. intros x. constructor; cbn; try lia. intros p q [<-|[]] [<-|[]]. reflexivity. Qed.

Theorem C64_coordinates_lossy : forall show rd debug, sixteen_digits show ->
  exists f text, live f /\ Forall pr_ok (f_prs f) /\ appends (get_field show debug f (chars "x")) text
    /\ set_field rd debug f text (chars "x") <> Ret f.
Proof.
  intros show rd debug H. destruct near_vals as [Va Vb]. destruct near_finite as [Fa Fb].
  assert (E : show near_a = show near_b).
  { apply (H near_a near_b 4000000000000004); auto; rewrite ?Va, ?Vb.
    - split; [apply Rmult_le_reg_r with (IZR (2 ^ 50))|apply Rmult_lt_reg_r with (IZR (2 ^ 50))]; try (apply IZR_lt; reflexivity); unfold Rdiv; rewrite Rmult_assoc, Rinv_l by (apply IZR_neq; discriminate); rewrite Rmult_1_r, <- mult_IZR; first [apply IZR_le|apply IZR_lt]; cbn; lia.
    - split; [apply Rmult_le_reg_r with (IZR (2 ^ 50))|apply Rmult_lt_reg_r with (IZR (2 ^ 50))]; try (apply IZR_lt; reflexivity); unfold Rdiv; rewrite Rmult_assoc, Rinv_l by (apply IZR_neq; discriminate); rewrite Rmult_1_r, <- mult_IZR; first [apply IZR_le|apply IZR_lt]; cbn; lia.
    - apply Rabs_lt. cbn. lra.
    - apply Rabs_lt. cbn. lra. }
  assert (A : forall x, d_ok x -> Forall pr_ok (f_prs (one_point x))).
  { intros x X. constructor; [|constructor]. constructor; cbn; unfold d_ok, u32_ok, u16_ok, two64, two32, two16 in *; try lia. constructor. }
  assert (T : forall x, appends (get_field show debug (one_point x) (chars "x")) (on_lines (map show [x]))).
  { intros x. apply C64_text_coordinate with FX; [reflexivity|intros Q; apply Q; now left|]. constructor; [reflexivity|constructor]. }
  pose proof (T near_a) as Ta. pose proof (T near_b) as Tb. cbn [map] in Ta, Tb. rewrite <- E in Tb.
  set (text := on_lines [show near_a]) in *.
  assert (K : forall x v, set_field rd debug (one_point x) text (chars "x") = Ret (one_point x) ->
            read_values (extract_double rd) 1 (ti_open text) = Ret [v] -> v = x).
  { intros x v S R. pose proof (set_field_run rd debug (one_point x) FX (chars "x") text (one_point_live x) eq_refl) as Q.
    change (float_flag (chars "x")) with true in Q. cbv beta zeta iota in Q. cbn [List.length f_prs one_point] in Q. rewrite R in Q.
    destruct Q as (prs & Q & _ & St). rewrite S in Q. injection Q as <-. cbn [map narrowed] in St. inversion St as [|? ? ? ? ? ? S1 S2]; subst.
    destruct S1 as [S1 _]. cbn in S1. congruence. }
  destruct (read_values (extract_double rd) 1 (ti_open text)) as [vs|e|u|] eqn:R.
  - pose proof (read_values_length _ _ _ _ R) as L. destruct vs as [|v [|? ?]]; try discriminate L.
    destruct (Z.eq_dec v near_a) as [->|N].
    + exists (one_point near_b), text. split; [apply one_point_live|]. split; [apply A, Fb|]. split; [exact Tb|]. intros S.
      specialize (K near_b near_a S eq_refl). discriminate K.
    + exists (one_point near_a), text. split; [apply one_point_live|]. split; [apply A, Fa|]. split; [exact Ta|]. intros S. apply N.
      now apply (K near_a v).
  - exists (one_point near_a), text. split; [apply one_point_live|]. split; [apply A, Fa|]. split; [exact Ta|].
    pose proof (set_field_run rd debug (one_point near_a) FX (chars "x") text (one_point_live near_a) eq_refl) as Q.
    change (float_flag (chars "x")) with true in Q. cbv beta zeta iota in Q. cbn [List.length f_prs one_point] in Q. rewrite R in Q. rewrite Q. discriminate.
  - exists (one_point near_a), text. split; [apply one_point_live|]. split; [apply A, Fa|]. split; [exact Ta|].
    pose proof (set_field_run rd debug (one_point near_a) FX (chars "x") text (one_point_live near_a) eq_refl) as Q.
    change (float_flag (chars "x")) with true in Q. cbv beta zeta iota in Q. cbn [List.length f_prs one_point] in Q. rewrite R in Q. rewrite Q. discriminate.
  - exists (one_point near_a), text. split; [apply one_point_live|]. split; [apply A, Fa|]. split; [exact Ta|].
    pose proof (set_field_run rd debug (one_point near_a) FX (chars "x") text (one_point_live near_a) eq_refl) as Q.
    change (float_flag (chars "x")) with true in Q. cbv beta zeta iota in Q. cbn [List.length f_prs one_point] in Q. rewrite R in Q. rewrite Q. discriminate.
Qed.

(** A printer with that property. *)
Definition toy_show : show_double_fn := fun d => put_uint (ZnearestE (d_val d * 10 ^ 15)).
Example sixteen_digits_possible : sixteen_digits toy_show.
Proof.
  intros a b n _ _ _ _ Ha Hb. unfold toy_show. rewrite (Znearest_imp _ _ n Ha), (Znearest_imp _ _ n Hb). reflexivity.
Qed.

(** ** Examples *)

Definition tp1 : point_record := mk_pr d_one 0 d_one 2 7 9 1 2 3 [5; 6].
Definition tp2 : point_record := mk_pr 0 d_one 0 6 8 65535 4 5 6 [18446744073709551615; 0].
Definition tp_file : spoc_file := mk_file 0 1 (chars "srs") false [tp1; tp2].
Definition no_read : read_double_fn := fun t => (0, true, t).
Definition no_show : show_double_fn := fun _ => [].

Lemma tp_live : live tp_file.
Proof. constructor; cbn; try lia. intros p q [<-|[<-|[]]] [<-|[<-|[]]]; reflexivity. Qed.

Lemma tp_ok : Forall pr_ok (f_prs tp_file).
Proof.
  repeat constructor; cbn; unfold d_ok, d_one, u32_ok, u16_ok, two64, two32, two16; try lia; repeat constructor; unfold u64_ok, two64; lia.
Qed.

Definition tp_with (e1 e2 : list Z) : spoc_file :=
  mk_file 0 1 (chars "srs") false [mk_pr d_one 0 d_one 2 7 9 1 2 3 e1; mk_pr 0 d_one 0 6 8 65535 4 5 6 e2].

Example C63_example : live tp_file /\ has_extras 2 (f_prs tp_file)
  /\ resize_extra true 3 tp_file = Ret (tp_with [5; 6; 0] [18446744073709551615; 0; 0])
  /\ resize_extra true 1 tp_file = Ret (tp_with [5] [18446744073709551615]).
Proof.
  split; [exact tp_live|]. split; [intros p [<-|[<-|[]]]; reflexivity|]. split; reflexivity.
Qed.

Example C63_command_example : stoi (chars "255") = Ret (255, 3) /\ stoi (chars "256") = Ret (256, 3) /\ stoi (chars "-1") = Ret (-1, 2).
Proof. repeat split. Qed.

Lemma names_e : forall k t, 0 <= k < 2 ^ 31 -> reads_as t k -> names (FE k) (chars "e" ++ t).
Proof. intros k t B R. split; [exact B|]. exists t. auto. Qed.

(** get-field i and e0, and back; there is no e2. *)
Example C64_example : names FI (chars "i") /\ names (FE 0) (chars "e0") /\ names (FE 2) (chars "e2")
  /\ integer_field FI /\ integer_field (FE 0) /\ Forall pr_ok (f_prs tp_file)
  /\ Forall2 (fun p v => value FI p = Some v) (f_prs tp_file) [9; 65535]
  /\ Forall2 (fun p v => value (FE 0) p = Some v) (f_prs tp_file) [5; 18446744073709551615]
  /\ value (FE 2) tp1 = None
  /\ get_field no_show true tp_file (chars "i") o_open = (mk_ostream (on_lines [chars "9"; chars "65535"]) None false, Ret tt)
  /\ set_field no_read true tp_file (on_lines [chars "9"; chars "65535"]) (chars "i") = Ret tp_file
  /\ get_field no_show true tp_file (chars "e2") o_open = (o_open, UB ub_index).
Proof.
  assert (E : forall d, 48 <= d <= 57 -> names (FE (d - 48)) (chars "e" ++ [d])).
  { intros d D. apply names_e; [lia|]. exists [], [], [d], []. cbn. split; [reflexivity|]. split; [constructor|].
    split; [repeat constructor; unfold digit; lia|]. split; [discriminate|]. split; [intros ? ? X; discriminate X|]. left. split; [now left|lia]. }
  split; [reflexivity|]. split; [apply (E 48); lia|]. split; [apply (E 50); lia|]. split; [unfold integer_field; cbn; intuition discriminate|].
  split; [unfold integer_field; cbn; intuition discriminate|]. split; [exact tp_ok|]. repeat split; repeat constructor.
Qed.

(** The text "7 70000;" sets the intensities to 7 and 70000 - 65536; "7 x" sets them to 7
    and 0; "7 8" is refused because the text ends with the last number; and a new extra
    field e3 comes with a new e2. *)
Example C65_example :
  let fi i1 i2 := Ret (mk_file 0 1 (chars "srs") false [mk_pr d_one 0 d_one 2 7 i1 1 2 3 [5; 6]; mk_pr 0 d_one 0 6 8 i2 4 5 6 [18446744073709551615; 0]]) in
  set_field no_read true tp_file (chars "7 70000;") (chars "i") = fi 7 4464
  /\ set_field no_read true tp_file (chars "7 x") (chars "i") = fi 7 0
  /\ set_field no_read true tp_file (chars "7 8") (chars "i") = Throw (runtime_error "Reached end-of-file before reading all field values")
  /\ set_field no_read true tp_file (chars "-7 -8 ") (chars "e3") = Ret (tp_with [5; 6; 0; 2 ^ 64 - 7] [18446744073709551615; 0; 0; 2 ^ 64 - 8])
  /\ written (chars " ") [7; 8] (chars "7 8 ").
Proof.
  split; [reflexivity|]. split; [reflexivity|]. split; [reflexivity|]. split; [reflexivity|].
  apply (wr_cons (chars " ") 7 [8] [] (chars "7") (chars " 8 ")); [constructor|repeat constructor; unfold digit; cbn; lia|discriminate|reflexivity| |].
  - apply (wr_cons (chars " ") 8 [] (chars " ") (chars "8") (chars " ")); [repeat constructor; unfold white; cbn; tauto|repeat constructor; unfold digit; cbn; lia|discriminate|reflexivity|constructor|].
    intros c u E. injection E as <- _. unfold digit. lia.
  - intros c u E. injection E as <- _. unfold digit. lia.
Qed.

(** Printing the bits of the coordinates as an integer, and reading them back. *)
Definition bits_show : show_double_fn := put_uint.
Definition bits_read : read_double_fn := fun t => let '(ds, rest) := span is_digit t in (dec_value ds, no_chars ds, rest).
Example C64_coordinates_example : Forall2 (fun p v => value FX p = Some v) (f_prs tp_file) [d_one; 0]
  /\ Forall (fun v => bits_show v <> [] /\ not_first white (bits_show v)
                   /\ forall rest, bits_read (bits_show v ++ 10 :: rest) = (v, false, 10 :: rest)) [d_one; 0].
Proof.
  split; [repeat constructor|]. repeat constructor; try (vm_compute; discriminate); try (intros rest; reflexivity).
  all: intros c u E; vm_compute in E; injection E as <- _; unfold white; cbn; lia.
Qed.

Print Assumptions C63_resize.
Print Assumptions C63_up_and_back.
Print Assumptions C63_command.
Print Assumptions C64_text.
Print Assumptions C64_text_coordinate.
Print Assumptions C64_missing_extra.
Print Assumptions C64_round_trip.
Print Assumptions C64_coordinates.
Print Assumptions C64_only.
Print Assumptions C64_coordinates_lossy.
Print Assumptions C65_exact.
Print Assumptions C65_accepts.
Print Assumptions C65_garbage.
Print Assumptions C65_too_few.
