(** C117: merging in stages gives the same file as merging at once, but for the point ids. *)
From Coq Require Import String ZArith List Bool Lia Permutation.
From Verif.Model Require Import Base Double Header PointRecord Point File Compression IO AppConvert AppUtils MergeApp TileApp GetOpt Commands SrsApp Programs.
From Verif.Spec Require Import Text Streams Files History Apps ZlibContract Format CommandLines Fields.
From Verif.Proofs Require Import BaseFacts HeaderFacts HeaderCutFacts TextFacts CommandFacts OptionFacts FileIOFacts StoreFacts ProgramFacts ToyZlib.
From Verif.Props Require Import FileProps MergeProps SrsProps CommandProps ProgramProps PipeProps ScenarioProps WorkflowProps.
Import ListNotations.
Open Scope Z_scope.

(** The file that holds all records of the files, one file after the other. *)
Definition joined (f : spoc_file) (rest : list spoc_file) : spoc_file :=
  mk_file 0 1 (f_wkt f) (forallb f_compressed (f :: rest)) (flat_map f_prs (f :: rest)).

(** The id that spoc_merge gives to the records of the file number [i]. *)
Definition merge_id (es : list setting) (i : Z) : Z :=
  if final atoi "point-id" es (-1) <? 0 then i mod 2 ^ 32 else final atoi "point-id" es (-1) mod 2 ^ 32.

Definition merged_records (es : list setting) (hs : list spoc_file) : list point_record :=
  flat_map (fun '(i, h) => map (with_id (merge_id es i)) (f_prs h)) (numbered 0 hs).

Lemma same_but_id_sym p q : same_but_id p q -> same_but_id q p.
Proof.
  intros [[L O] C]. split; [split; [congruence|]|].
  - intros g N. symmetry. now apply O.
  - intros sel I. destruct (C sel I) as [E|[A B]]; [now left|right; now split].
Qed.

Lemma Forall2_sym {A} (R : A -> A -> Prop) : (forall x y, R x y -> R y x) -> forall a b, Forall2 R a b -> Forall2 R b a.
Proof. intros H a b F. induction F; constructor; auto. Qed.

Lemma Forall2_length2 {A B} (R : A -> B -> Prop) a b : Forall2 R a b -> List.length a = List.length b.
Proof. induction 1; cbn; congruence. Qed.

(** One run of spoc_merge, on files whose records are those of [base]. *)
Lemma merge_run z ZS debug acc fs ns h rest argv es os f : zlib_ok z ZS -> asks merge_options argv es ns -> all_bytes fs ->
  Forall2 (fun n f => may_read acc n /\ reads z fs n f) ns (h :: rest) -> rest <> [] -> healthy os ->
  storable f -> f_wkt h = f_wkt f -> (f_compressed f = true -> forallb f_compressed (h :: rest) = true) -> Forall2 same_but_id (f_prs f) (flat_map f_prs (h :: rest)) ->
  exists os' out g, spoc_merge z debug acc argv os fs = (os', fs, Ret 0) /\ o_bytes os' = o_bytes os ++ out /\ is_bytes out
    /\ read_spoc_file z (i_open out) = Ret (g, i_open [])
    /\ kept (mk_file 0 1 (f_wkt f) (forallb f_compressed (h :: rest)) (merged_records es (h :: rest))) g.
Proof.
  intros Hz (L & H & V) B R N Ho Sf W Cf Sm.
  assert (X : exists bs, map (readable acc fs) ns = map Some bs /\ Forall is_bytes bs /\ Forall2 (file_of (read_spoc_file z)) bs (h :: rest)).
  { clear - B R. revert R. generalize (h :: rest) as hs0. intros hs0 R. induction R as [|n h0 ns hs [[_ Rn] (bytes & E & F)] R (bs & E2 & B2 & F2)]; [exists []; repeat split; constructor|].
    exists (bytes :: bs). cbn [map]. rewrite E2. unfold readable at 1. rewrite Rn, E. repeat split; constructor; auto. now apply B in E. }
  destruct X as (bs & Eb & Bb & Fb). destruct Sf as ([G1 G2 G3 G4 G5 G6 G7] & Sz & ke & Hk & Bk).
  assert (Hx : forall ps, Forall2 same_but_id (f_prs f) ps -> has_extras ke ps /\ List.length ps = List.length (f_prs f)).
  { intros ps F2. split; [|symmetry; eapply Forall2_length2; exact F2].
    intros q I. destruct (Forall2_In_r _ _ _ _ F2 I) as (p & J & [[Lx _] _]). rewrite Lx. now apply Hk. }
  destruct (Hx _ Sm) as [He Hl].
  destruct (C51_concatenates z ZS (mk_merge_args (toggled "quiet" es false) (final atoi "point-id" es (-1))) bs h rest Hz Bb Fb N) as (g & w & M & Mj & Mn & Wg & C & P & _).
  { intros p q I J. apply He in I, J. lia. }
  change (f_prs g = merged_records es (h :: rest)) in P.
  assert (Pg : Forall2 same_but_id (f_prs f) (f_prs g)).
  { rewrite P. eapply (Forall2_trans _ _ _ same_but_id_trans); [exact Sm|]. exact (merged_same (merge_id es) (h :: rest) 0). }
  destruct (Hx _ Pg) as [Hg Lg].
  assert (Cg : f_compressed g = forallb f_compressed (h :: rest)).
  { apply eq_true_iff_eq. rewrite C. now rewrite forallb_forall. }
  assert (Sg : storable g).
  { split; [split; try assumption|].
    - now rewrite Wg, W.
    - now rewrite Wg, W.
    - apply Forall_forall. intros q I. destruct (Forall2_In_r _ _ _ _ Pg I) as (p & J & Sp).
      apply (same_ok p q Sp); [|rewrite Forall_forall in G5; now apply G5].
      rewrite P in I. apply in_flat_map in I as ([i h'] & _ & I). apply in_map_iff in I as (q' & <- & _). cbn [with_id rp]. unfold u32_ok, merge_id.
      destruct (_ <? 0); apply Z.mod_pos_bound; reflexivity.
    - intros p q I J. apply Hg in I, J. lia.
    - now rewrite Lg.
    - split; [now rewrite Lg|]. exists ke. split; [exact Hg|]. rewrite Cg. destruct (f_compressed f); [now rewrite (Cf eq_refl)|]. destruct (forallb _ _); lia. }
  destruct (storable_one z ZS debug g Hz Sg) as (out & g' & Wr & Bo & K & Rd).
  destruct (emits_appends _ _ Wr os Ho) as (os' & Eo & _ & Bs). exists os', out, g'.
  assert (Gg : g = mk_file 0 1 (f_wkt f) (forallb f_compressed (h :: rest)) (merged_records es (h :: rest))).
  { clear - Mj Mn Wg W Cg P. destruct g as [a1 a2 a3 a4 a5]. cbn [f_major f_minor f_wkt f_compressed f_prs] in Mj, Mn, Wg, Cg, P. rewrite Mj, Mn, Wg, Cg, P, W. reflexivity. }
  rewrite <- Gg. split; [|split; [exact Bs|split; [exact Bo|split; [|exact K]]]].
  - unfold spoc_merge. rewrite (program_runs _ _ _ _ _ _ _ (C84_merge _ _ _ L H)) by assumption || reflexivity.
    unfold to_cout, merge_tool, w_bind, w_lift. rewrite Eb, M, Eo. reflexivity.
  - rewrite <- (app_nil_r out). apply Rd. constructor.
Qed.

Lemma reads_put z acc fs t out ns hs : ~ In t ns -> Forall2 (fun n f => may_read acc n /\ reads z fs n f) ns hs ->
  Forall2 (fun n f => may_read acc n /\ reads z (file_put t out fs) n f) ns hs.
Proof.
  intros N F. induction F as [|n h ns hs [Rn (bytes & E & R)] F IH]; constructor.
  - split; [exact Rn|]. exists bytes. split; [|exact R]. rewrite put_other; [exact E|]. intros ->. apply N. now left.
  - apply IH. intros I. apply N. now right.
Qed.

Lemma kept_exact f f' : kept f f' -> f_major f = 0 -> f_minor f = 1 -> (forall p sel, In p (f_prs f) -> In sel [rx; ry; rz] -> sel p <> 2 ^ 63) -> f' = f.
Proof.
  unfold kept. destruct (f_compressed f) eqn:C; [|auto]. intros (A & B & W & D & K) _ _ Z0.
  assert (G : forall all ps ps', Forall2 (kept_record all) ps ps' -> (forall p, In p ps -> In p all) ->
    (forall p sel, In p ps -> In sel [rx; ry; rz] -> sel p <> 2 ^ 63) -> ps' = ps).
  { clear. intros all ps ps'. induction 1 as [|p p' ps ps' H _ IH]; intros I N; [reflexivity|]. f_equal.
    - destruct H as (X & Y & Z & Ec & P & Ii & R & Gr & B & E).
      assert (Q : forall sel, In sel [rx; ry; rz] -> kept_coord sel all p p' -> sel p' = sel p).
      { intros sel Is [[-> _]|[-> A]]; [reflexivity|]. destruct (A p (I p (or_introl eq_refl))) as [->|E0]; [reflexivity|]. elim (N p sel (or_introl eq_refl) Is E0). }
      apply Q in X; [|cbn; auto]. apply Q in Y; [|cbn; auto]. apply Q in Z; [|cbn; auto]. clear - X Y Z Ec P Ii R Gr B E. destruct p, p'. cbn in *. congruence.
    - apply IH; intros; [apply I; now right|eapply N; [right; eassumption|assumption]]. }
  apply G in K; [|auto|exact Z0]. destruct f as [a1 a2 a3 a4 a5], f' as [b1 b2 b3 b4 b5]. cbn in *. congruence.
Qed.

(** Merging [fs1] and then the result, written to the file [t], with [fs2], compared with
    merging all files at once. *)
Theorem C117_stages : forall z ZS debug acc fs ns1 ns2 t f rest1 rest2 argv1 argv2 argv es1 es2 es os1 os2 os, zlib_ok z ZS -> all_bytes fs ->
  Forall2 (fun n f => may_read acc n /\ reads z fs n f) ns1 (f :: rest1) -> Forall2 (fun n f => may_read acc n /\ reads z fs n f) ns2 rest2 ->
  rest1 <> [] -> rest2 <> [] -> ~ In t ns2 -> may_read acc t -> storable (joined f (rest1 ++ rest2)) ->
  asks merge_options argv1 es1 ns1 -> asks merge_options argv2 es2 (t :: ns2) -> asks merge_options argv es (ns1 ++ ns2) ->
  healthy os1 -> healthy os2 -> healthy os ->
  exists os1' out1 os2' out2 os' out g2 g,
    spoc_merge z debug acc argv1 os1 fs = (os1', fs, Ret 0) /\ o_bytes os1' = o_bytes os1 ++ out1
  /\ spoc_merge z debug acc argv2 os2 (file_put t out1 fs) = (os2', file_put t out1 fs, Ret 0) /\ o_bytes os2' = o_bytes os2 ++ out2
  /\ spoc_merge z debug acc argv os fs = (os', fs, Ret 0) /\ o_bytes os' = o_bytes os ++ out
  /\ read_spoc_file z (i_open out2) = Ret (g2, i_open []) /\ read_spoc_file z (i_open out) = Ret (g, i_open [])
  /\ f_wkt g2 = f_wkt g /\ f_compressed g2 = f_compressed g /\ Forall2 same_but_id (f_prs g) (f_prs g2)
  /\ (final atoi "point-id" es2 (-1) = final atoi "point-id" es (-1) -> 0 <= final atoi "point-id" es (-1) ->
      (forall p sel, In p (f_prs (joined f (rest1 ++ rest2))) -> In sel [rx; ry; rz] -> sel p <> 2 ^ 63) -> g2 = g).
Proof.
  intros z ZS debug acc fs ns1 ns2 t f rest1 rest2 argv1 argv2 argv es1 es2 es os1 os2 os Hz B R1 R2 N1 N2 Nt Rt Sj A1 A2 A Ho1 Ho2 Ho.
  set (all := joined f (rest1 ++ rest2)) in *. set (j1 := joined f rest1).
  assert (Fl : flat_map f_prs (f :: rest1 ++ rest2) = flat_map f_prs (f :: rest1) ++ flat_map f_prs rest2) by (rewrite app_comm_cons; apply flat_map_app).
  assert (Fb : forallb f_compressed (f :: rest1 ++ rest2) = forallb f_compressed (f :: rest1) && forallb f_compressed rest2) by (rewrite app_comm_cons; apply forallb_app).
  assert (S1 : storable j1).
  { destruct Sj as ([G1 G2 G3 G4 G5 G6 G7] & Sz & ke & Hk & Bk). cbn [all joined f_major f_minor f_wkt f_compressed f_prs] in *. rewrite Fl, Fb in *.
    rewrite app_length in *. assert (Hk1 : has_extras ke (flat_map f_prs (f :: rest1))) by (intros p I; apply Hk, in_or_app; now left).
    split; [split; cbn [j1 joined f_major f_minor f_wkt f_compressed f_prs]; try assumption|].
    - now apply Forall_app in G5 as [G5 _].
    - intros p q I J. apply Hk1 in I, J. lia.
    - lia.
    - cbn [j1 joined f_major f_minor f_wkt f_compressed f_prs]. split; [lia|]. exists ke. split; [exact Hk1|]. destruct (forallb f_compressed (f :: rest1)), (forallb f_compressed rest2); cbn in Bk; lia. }
  assert (Rf : forall l, Forall2 same_but_id l l) by (induction l; constructor; [apply same_but_id_refl|assumption]).
  destruct (merge_run z ZS debug acc fs ns1 f rest1 argv1 es1 os1 j1 Hz A1 B R1 N1 Ho1 S1 eq_refl (fun H => H) (Rf _)) as (os1' & out1 & g1 & E1 & O1 & B1 & Rd1 & K1).
  destruct (merge_run z ZS debug acc fs (ns1 ++ ns2) f (rest1 ++ rest2) argv es os all Hz A B) as (os' & out & g & E & O & Bo & Rd & K).
  { rewrite app_comm_cons. now apply Forall2_app. }
  { destruct rest1; [congruence|discriminate]. }
  { exact Ho. } { exact Sj. } { reflexivity. } { auto. } { apply Rf. }
  cbn [j1 joined f_wkt] in K1. destruct (kept_meta _ _ K1) as (W1 & C1 & _). cbn [f_wkt f_compressed] in W1, C1.
  pose proof (kept_same _ _ K1) as P1. cbn [f_prs] in P1.
  assert (Pm : Forall2 same_but_id (flat_map f_prs (f :: rest1)) (f_prs g1)).
  { eapply (Forall2_trans _ _ _ same_but_id_trans); [|exact P1]. exact (merged_same (merge_id es1) (f :: rest1) 0). }
  assert (Fc : forallb f_compressed (g1 :: rest2) = forallb f_compressed (f :: rest1 ++ rest2)) by (rewrite Fb; cbn [forallb] in *; now rewrite C1).
  destruct (merge_run z ZS debug acc (file_put t out1 fs) (t :: ns2) g1 rest2 argv2 es2 os2 all Hz A2) as (os2' & out2 & g2 & E2 & O2 & B2 & Rd2 & K2).
  { intros n b En. destruct (list_eq_dec Z.eq_dec n t) as [->|Nn]; [rewrite put_same in En; now injection En as <-|]. rewrite put_other in En by exact Nn. now apply (B n). }
  { constructor; [|now apply reads_put]. split; [exact Rt|]. exists out1. split; [apply put_same|]. exists (i_open []). exact Rd1. }
  { exact N2. } { exact Ho2. } { exact Sj. } { exact W1. }
  { intros Ca. now rewrite Fc. }
  { cbn [all joined f_prs]. rewrite Fl. change (flat_map f_prs (g1 :: rest2)) with (f_prs g1 ++ flat_map f_prs rest2). apply Forall2_app; [exact Pm|apply Rf]. }
  exists os1', out1, os2', out2, os', out, g2, g. repeat (split; [assumption|]).
  destruct (kept_meta _ _ K) as (W & C & _). destruct (kept_meta _ _ K2) as (W2 & C2 & _). cbn [f_wkt f_compressed] in W, C, W2, C2.
  split; [congruence|]. split; [congruence|]. split.
  - pose proof (kept_same _ _ K) as P. pose proof (kept_same _ _ K2) as P2. cbn [f_prs] in P, P2.
    assert (Q : Forall2 same_but_id (flat_map f_prs (f :: rest1 ++ rest2)) (f_prs g)).
    { eapply (Forall2_trans _ _ _ same_but_id_trans); [|exact P]. exact (merged_same (merge_id es) (f :: rest1 ++ rest2) 0). }
    assert (Q2 : Forall2 same_but_id (flat_map f_prs (f :: rest1 ++ rest2)) (f_prs g2)).
    { eapply (Forall2_trans _ _ _ same_but_id_trans); [|exact P2]. eapply (Forall2_trans _ _ _ same_but_id_trans); [|exact (merged_same (merge_id es2) (g1 :: rest2) 0)].
      rewrite Fl. change (flat_map f_prs (g1 :: rest2)) with (f_prs g1 ++ flat_map f_prs rest2). apply Forall2_app; [exact Pm|apply Rf]. }
    eapply (Forall2_trans _ _ _ same_but_id_trans); [|exact Q2]. apply Forall2_sym; [apply same_but_id_sym|exact Q].
  - intros Ei Pi Nz.
    assert (Id : forall e hs i, final atoi "point-id" e (-1) = final atoi "point-id" es (-1) ->
      flat_map (fun '(i, h) => map (with_id (merge_id e i)) (f_prs h)) (numbered i hs) = map (with_id (merge_id es 0)) (flat_map f_prs hs)).
    { clear - Pi. intros e hs. induction hs as [|h hs IH]; intros i Ee; [reflexivity|]. cbn [numbered flat_map]. rewrite map_app, IH by exact Ee. f_equal.
      f_equal. unfold merge_id. rewrite Ee. destruct (Z.ltb_spec (final atoi "point-id" es (-1)) 0); [lia|reflexivity]. }
    assert (Nw : forall ps e i, (forall p sel, In p ps -> In sel [rx; ry; rz] -> sel p <> 2 ^ 63) -> forall p sel, In p (map (with_id (merge_id e i)) ps) -> In sel [rx; ry; rz] -> sel p <> 2 ^ 63).
    { clear. intros ps e i N p sel I Is. apply in_map_iff in I as (q & <- & I). specialize (N q). destruct Is as [<-|[<-|[<-|[]]]]; cbn [with_id rx ry rz]; apply N; cbn; auto. }
    assert (Nm : forall e hs i, (forall p sel, In p (flat_map f_prs hs) -> In sel [rx; ry; rz] -> sel p <> 2 ^ 63) ->
      forall p sel, In p (flat_map (fun '(i, h) => map (with_id (merge_id e i)) (f_prs h)) (numbered i hs)) -> In sel [rx; ry; rz] -> sel p <> 2 ^ 63).
    { clear - Nw. intros e hs. induction hs as [|h hs IH]; intros i N p sel I Is; [destruct I|]. cbn [numbered flat_map] in *. apply in_app_or in I as [I|I].
      - revert I Is. apply Nw. intros q s0 Iq. apply N. apply in_or_app. now left.
      - revert I Is. apply IH. intros q s0 Iq. apply N. apply in_or_app. now right. }
    cbn [all joined f_prs] in Nz. rewrite Fl in Nz.
    assert (G1 : g1 = mk_file 0 1 (f_wkt f) (forallb f_compressed (f :: rest1)) (merged_records es1 (f :: rest1))).
    { apply kept_exact; [exact K1|reflexivity|reflexivity|]. cbn [f_prs]. apply Nm. intros p sel I. apply Nz. apply in_or_app. now left. }
    assert (Rec : merged_records es2 (g1 :: rest2) = merged_records es (f :: rest1 ++ rest2)).
    { unfold merged_records at 1 2. rewrite !Id by auto. rewrite Fl. change (flat_map f_prs (g1 :: rest2)) with (f_prs g1 ++ flat_map f_prs rest2).
      rewrite !map_app. f_equal. rewrite G1. cbn [f_prs]. unfold merged_records. rewrite flat_map_concat_map, concat_map, map_map.
      generalize (merge_id es 0) as w. clear. intros w. generalize 0 as k. generalize (f :: rest1) as hs. induction hs as [|h hs IH]; intros k; [reflexivity|].
      cbn [numbered map List.concat flat_map]. rewrite map_app. f_equal; [|apply IH]. now rewrite map_map. }
    rewrite Fc, Rec in K2. cbn [all joined f_wkt] in K, K2.
    assert (Nf : forall p sel, In p (f_prs (mk_file 0 1 (f_wkt f) (forallb f_compressed (f :: rest1 ++ rest2)) (merged_records es (f :: rest1 ++ rest2)))) -> In sel [rx; ry; rz] -> sel p <> 2 ^ 63).
    { cbn [f_prs]. apply Nm. rewrite Fl. exact Nz. }
    rewrite (kept_exact _ _ K eq_refl eq_refl Nf). now rewrite (kept_exact _ _ K2 eq_refl eq_refl Nf).
Qed.

(** Without --point-id the two differ: the ids number the inputs of the last run. *)
Example C117_example :
  let once := spoc_merge toy false all_rights (words ["b"; "a"; "b"]%string) at_start p_fs in
  let first := spoc_merge toy false all_rights (words ["b"; "a"]%string) at_start p_fs in
  let fs1 := file_put (chars "t") (o_bytes (stdout_of first)) p_fs in
  let then_ := spoc_merge toy false all_rights (words ["t"; "b"]%string) at_start fs1 in
  let ids run := match read_spoc_file toy (i_open (o_bytes (stdout_of run))) with Ret (g, _) => map rp (f_prs g) | _ => [] end in
  storable (joined (p_file true) ([p_file false] ++ [p_file true]))
  /\ Forall2 (fun n f => may_read all_rights n /\ reads toy p_fs n f) (words ["b"; "a"]%string) [p_file true; p_file false]
  /\ Forall2 (fun n f => may_read all_rights n /\ reads toy p_fs n f) (words ["b"]%string) [p_file true]
  /\ asks merge_options (words ["b"; "a"]%string) [] (words ["b"; "a"]%string)
  /\ asks merge_options (words ["t"; "b"]%string) [] (words ["t"; "b"]%string)
  /\ asks merge_options (words ["b"; "a"; "b"]%string) [] (words ["b"; "a"]%string ++ words ["b"]%string)
  /\ ids once = [0; 0; 1; 1; 2; 2] /\ ids then_ = [0; 0; 0; 0; 1; 1].
Proof.
  cbv zeta. split.
  { destruct (p_storable false) as ([G1 G2 G3 G4 G5 G6 G7] & Sz & ke & Hk & Bk).
    assert (Ia : forall p, In p (f_prs (joined (p_file true) ([p_file false] ++ [p_file true]))) -> In p (f_prs (p_file false))).
    { intros p I. apply in_flat_map in I as (h & [<-|[<-|[<-|[]]]] & I); exact I. }
    split; [split; try assumption|].
    - apply Forall_forall. intros p I. rewrite Forall_forall in G5. auto.
    - intros p q I J. apply G6; auto.
    - split; [vm_compute; reflexivity|]. exists ke. split; [|exact Bk]. intros p I. apply Hk. auto. }
  split; [repeat (constructor; [split; [apply p_rights; discriminate|apply p_reads]|]); constructor|].
  split; [repeat (constructor; [split; [apply p_rights; discriminate|apply p_reads]|]); constructor|].
  split; [apply asks_plain; operands|]. split; [apply asks_plain; operands|]. split; [apply asks_plain; operands|]. split; now vm_compute.
Qed.

Print Assumptions C117_stages.
