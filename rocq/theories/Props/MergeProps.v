(** C51: spoc_merge. *)
From Coq Require Import String ZArith List Bool Lia.
From Verif.Model Require Import Base Double Header PointRecord File Compression IO AppConvert FilterApp Par MergeApp.
From Verif.Spec Require Import Files Apps Streams ZlibContract Format.
From Verif.Proofs Require Import BaseFacts HeaderFacts FileFacts FilterFacts SafetyFacts StoreFacts HeaderCutFacts ToyZlib.
From Verif.Props Require Import FileProps.
Import ListNotations.
Open Scope Z_scope.
Open Scope outcome_scope.

Lemma uniform_ids : forall id prs rest, uniform (rest ++ map (with_id id) prs) <-> uniform (rest ++ prs).
Proof.
  intros id prs rest.
  unfold uniform. split; intros U p q Hp Hq.
  - assert (X : forall p, In p (rest ++ prs) -> exists p', In p' (rest ++ map (with_id id) prs) /\ rextra p' = rextra p).
    { intros r H. apply in_app_or in H as [H|H]; [exists r; split; [apply in_or_app; now left|reflexivity]|].
      exists (with_id id r). split; [apply in_or_app; right; now apply in_map|reflexivity]. }
    destruct (X p Hp) as (p' & P' & <-), (X q Hq) as (q' & Q' & <-). now apply U.
  - assert (X : forall p, In p (rest ++ map (with_id id) prs) -> exists p', In p' (rest ++ prs) /\ rextra p' = rextra p).
    { intros r H. apply in_app_or in H as [H|H]; [exists r; split; [apply in_or_app; now left|reflexivity]|].
      apply in_map_iff in H as (r' & <- & H). exists r'. split; [apply in_or_app; now right|reflexivity]. }
    destruct (X p Hp) as (p' & P' & <-), (X q Hq) as (q' & Q' & <-). now apply U.
Qed.

Lemma append_loop_ok : forall id prs g, uniform (f_prs g ++ prs) ->
  append_loop id prs g = Ret (with_prs g (f_prs g ++ map (with_id id) prs)).
Proof.
  induction prs as [|p t IH]; intros g U; cbn [append_loop map].
  - rewrite app_nil_r. now destruct g.
  - apply (uniform_ids id) in U. cbn [map] in U. rewrite after_push.
    + cbn [bind]. rewrite IH; cbn [f_prs with_prs]; rewrite <- app_assoc; [reflexivity|]. cbn [app].
      assert (U' : uniform ((f_prs g ++ [set_p id p]) ++ map (with_id id) t)) by (rewrite <- app_assoc; exact U).
      apply uniform_ids in U'. now rewrite <- app_assoc in U'.
    + eapply uniform_sub; [|exact U]. intros q Hq. rewrite in_app_iff in *. cbn in *. tauto.
Qed.

Lemma append_loop_bad : forall id prs g, uniform (f_prs g) -> ~ uniform (f_prs g ++ prs) ->
  exists what, append_loop id prs g = Throw (runtime_error what).
Proof.
  induction prs as [|p t IH]; intros g U N; cbn [append_loop].
  - rewrite app_nil_r in N. contradiction.
  - destruct (all_same_size_extra (f_prs g ++ [set_p id p])) eqn:E.
    + apply all_same_size_uniform in E. rewrite after_push by exact E. cbn [bind]. apply IH; cbn [f_prs with_prs]; [exact E|].
      intros U'. apply N. apply (uniform_ids id). cbn [map].
      apply (uniform_ids id) in U'. now rewrite <- app_assoc in U'.
    + apply all_same_size_false in E. unfold after, push_back, m_then, m_throw_if, m_update.
      destruct (f_prs g) as [|q u] eqn:Eg.
      * exfalso. apply E. intros a b [<-|[]] [<-|[]]. reflexivity.
      * destruct (Z.eqb_spec (zlen (rextra (set_p id p))) (zlen (rextra q))) as [X|X].
        -- exfalso. apply E. assert (L : length (rextra (set_p id p)) = length (rextra q)) by (unfold zlen in X; lia).
           assert (Q : forall r, In r ((q :: u) ++ [set_p id p]) -> length (rextra r) = length (rextra q)).
           { intros r H. apply in_app_or in H as [H|[<-|[]]]; [apply U; [exact H|now left]|exact L]. }
           intros a b Ha Hb. now rewrite (Q a Ha), (Q b Hb).
        -- cbn [negb]. eexists. cbn [bind]. reflexivity.
Qed.

(** The id that the records of input [i] get. *)
Definition merge_id (args : merge_args) (i : Z) : Z :=
  if ma_point_id args <? 0 then i mod 2 ^ 32 else ma_point_id args mod 2 ^ 32.

Definition merged_records (args : merge_args) (i : Z) (fs : list spoc_file) : list point_record :=
  flat_map (fun '(i, f) => map (with_id (merge_id args i)) (f_prs f)) (numbered i fs).

Lemma merged_uniform : forall args fs rest i,
  uniform (rest ++ merged_records args i fs) <-> uniform (rest ++ flat_map f_prs fs).
Proof.
  intros args. induction fs as [|f t IH]; intros rest i; cbn; [tauto|].
  change (flat_map _ (numbered (i + 1) t)) with (merged_records args (i + 1) t).
  rewrite !app_assoc, IH. rewrite <- !app_assoc.
  assert (P : forall a b c, uniform (a ++ b ++ c) <-> uniform ((a ++ c) ++ b)).
  { intros a b c. split; intros U; (eapply uniform_sub; [|exact U]); intros p Hp; rewrite !in_app_iff in *; tauto. }
  now rewrite !P, uniform_ids.
Qed.

Lemma to_u32_id : forall args i, to_u32 (if ma_point_id args <? 0 then i else ma_point_id args) = merge_id args i.
Proof. intros. unfold merge_id, to_u32. change two32 with (2 ^ 32). now destruct (_ <? 0). Qed.

Definition bytes_differ (a b : list Z) : bool := if list_eq_dec Z.eq_dec a b then false else true.

Lemma differ_beq : forall a b, negb (beq_bytes a b) = bytes_differ a b.
Proof.
  intros a b. unfold bytes_differ. destruct (list_eq_dec Z.eq_dec a b) as [->|N]; [now rewrite beq_bytes_refl|].
  destruct (beq_bytes a b) eqn:E; [|reflexivity]. apply beq_bytes_eq in E. contradiction.
Qed.

Lemma short_header : forall f, Z.of_nat (length (f_wkt f)) <= 65535 -> exists h, get_header f = Ret h /\ h_wkt h = f_wkt f.
Proof.
  intros f H. unfold get_header, header_ctor. destruct (Z.ltb_spec 65535 (zlen (f_wkt f))); [unfold zlen in *; lia|].
  eexists. split; reflexivity.
Qed.

Lemma merge_loop_ok : forall z args bs fs i g w, 0 <= i ->
  Forall2 (file_of (read_spoc_file z)) bs fs ->
  Forall (fun f => Z.of_nat (length (f_wkt f)) <= 65535) fs -> (0 < i -> Z.of_nat (length (f_wkt g)) <= 65535) ->
  uniform (f_prs g) ->
  let wkt := if i =? 0 then match fs with f :: _ => f_wkt f | [] => f_wkt g end else f_wkt g in
  (uniform (f_prs g ++ flat_map f_prs fs) ->
   merge_loop z args i (map Some bs) g w =
     Ret (mk_file (f_major g) (f_minor g) wkt (f_compressed g && forallb f_compressed fs)
            (f_prs g ++ merged_records args i fs),
          w || (negb (ma_quiet args) && existsb (fun f => bytes_differ (f_wkt f) wkt) fs)))
  /\ (~ uniform (f_prs g ++ flat_map f_prs fs) ->
      exists what, merge_loop z args i (map Some bs) g w = Throw (runtime_error what)).
Proof.
  intros z args bs fs i g w Hi R. revert i g w Hi.
  induction R as [|b f bs fs (rest & Rf) R IH]; intros i g w Hi S Sg Ug; cbv zeta.
  - cbn [map merge_loop flat_map forallb existsb]. unfold merged_records. cbn [numbered flat_map].
    rewrite !app_nil_r, !andb_false_r, orb_false_r, andb_true_r. split; [intros _|contradiction].
    destruct g. now destruct (i =? 0).
  - inversion S as [|? ? Sf S']; subst. cbn [map merge_loop]. rewrite Rf. cbn [bind]. rewrite to_u32_id.
    set (wkt := if i =? 0 then f_wkt f else f_wkt g).
    set (g1 := if i =? 0 then set_wkt (f_wkt f) (if f_compressed f then g else set_compressed false g)
               else if f_compressed f then g else set_compressed false g).
    assert (G1 : g1 = mk_file (f_major g) (f_minor g) wkt (f_compressed g && f_compressed f) (f_prs g)).
    { unfold g1, wkt. destruct g as [ma mi wk co pr], (f_compressed f); cbn; destruct (i =? 0); cbn; now rewrite ?andb_true_r, ?andb_false_r. }
    clearbody g1. subst g1.
    assert (Swkt : Z.of_nat (length wkt) <= 65535).
    { unfold wkt. destruct (Z.eqb_spec i 0); [exact Sf|apply Sg; lia]. }
    set (g1 := mk_file _ _ _ _ _).
    assert (H1 : (if ma_quiet args then Ret false
             else h1 <- get_header f ;; h2 <- get_header g1 ;; Ret (negb (beq_bytes (h_wkt h1) (h_wkt h2))))
             = Ret (negb (ma_quiet args) && bytes_differ (f_wkt f) wkt)).
    { destruct (ma_quiet args); [reflexivity|].
      destruct (short_header f Sf) as (h1 & -> & E1). destruct (short_header g1 Swkt) as (h2 & -> & E2).
      cbn [bind]. rewrite E1, E2, differ_beq. reflexivity. }
    unfold append. rewrite H1. cbn [bind].
    cbn [flat_map]. rewrite app_assoc.
    destruct (all_same_size_extra (f_prs g ++ f_prs f)) eqn:E.
    + apply all_same_size_uniform in E. rewrite (append_loop_ok _ _ g1) by exact E. cbn [bind].
      change (f_prs g1) with (f_prs g).
      assert (E' : uniform (f_prs g ++ map (with_id (merge_id args i)) (f_prs f))) by now apply uniform_ids.
      destruct (IH (i + 1) (with_prs g1 (f_prs g ++ map (with_id (merge_id args i)) (f_prs f)))
                 (w || negb (ma_quiet args) && bytes_differ (f_wkt f) wkt) ltac:(lia) S' (fun _ => Swkt) E') as [IH1 IH2].
      clear IH. cbn [f_prs with_prs] in IH1, IH2.
      assert (N0 : (i + 1 =? 0) = false) by (apply Z.eqb_neq; lia). rewrite N0 in IH1.
      assert (Q : uniform ((f_prs g ++ map (with_id (merge_id args i)) (f_prs f)) ++ flat_map f_prs fs)
                  <-> uniform ((f_prs g ++ f_prs f) ++ flat_map f_prs fs)).
      { assert (P : forall a b c, uniform ((a ++ b) ++ c) <-> uniform ((a ++ c) ++ b)).
        { intros a b' c. split; intros U; (eapply uniform_sub; [|exact U]); intros p Hp; rewrite !in_app_iff in *; tauto. }
        rewrite (P (f_prs g) (map _ _)), (P (f_prs g) (f_prs f)). apply uniform_ids. }
      split; intros U.
      * rewrite IH1 by (now apply Q). f_equal. f_equal.
        -- cbn [f_major f_minor f_wkt f_compressed with_prs g1]. f_equal; [cbn [forallb]; now rewrite andb_assoc|].
           unfold merged_records. cbn [numbered flat_map]. now rewrite <- app_assoc.
        -- cbn [existsb f_wkt with_prs g1]. fold wkt. rewrite andb_orb_distrib_r. now rewrite orb_assoc.
      * apply IH2. now rewrite Q.
    + apply all_same_size_false in E. split; intros U.
      * exfalso. apply E. eapply uniform_sub; [|exact U]. intros p Hp. rewrite !in_app_iff in *. tauto.
      * destruct (append_loop_bad (merge_id args i) (f_prs f) g1 Ug E) as (what & ->). cbn [bind]. eauto.
Qed.

Lemma read_short_wkt : forall z ZS b f, zlib_ok z ZS -> is_bytes b -> file_of (read_spoc_file z) b f ->
  Z.of_nat (length (f_wkt f)) <= 65535.
Proof.
  intros z ZS b f Hz Hb (rest & R). pose proof (read_file_total z ZS Hz (i_open b) Hb) as H. rewrite R in H.
  destruct H as (h & s1 & Hh & _ & _ & -> & _). destruct (read_header_good (i_open b) h s1 Hb Hh) as [[] _]. assumption.
Qed.

Lemma reads_short : forall z ZS bs fs, zlib_ok z ZS -> Forall is_bytes bs -> Forall2 (file_of (read_spoc_file z)) bs fs ->
  Forall (fun f => Z.of_nat (length (f_wkt f)) <= 65535) fs.
Proof.
  intros z ZS bs fs Hz B R. induction R as [|b f bs fs R1 R2 IH]; [constructor|]. inversion B; subst.
  constructor; [eapply read_short_wkt; eassumption|auto].
Qed.

(** Two or more files with equally many extra fields: all the records, in order, with
    the id of their file; compressed if all are; the first WKT.  A warning is printed
    when some WKT differs from the first. *)
Theorem C51_concatenates : forall z ZS args bs f fs, zlib_ok z ZS -> Forall is_bytes bs ->
  Forall2 (file_of (read_spoc_file z)) bs (f :: fs) -> fs <> [] ->
  uniform (flat_map f_prs (f :: fs)) ->
  exists g warned, merge_files z args (map Some bs) = Ret (g, warned)
  /\ f_major g = 0 /\ f_minor g = 1 /\ f_wkt g = f_wkt f
  /\ (f_compressed g = true <-> forall h, In h (f :: fs) -> f_compressed h = true)
  /\ f_prs g = flat_map (fun '(i, h) => map (with_id (if ma_point_id args <? 0 then i mod 2 ^ 32
                                                        else ma_point_id args mod 2 ^ 32)) (f_prs h)) (numbered 0 (f :: fs))
  /\ (warned = true <-> ma_quiet args = false /\ exists h, In h fs /\ f_wkt h <> f_wkt f).
Proof.
  intros z ZS args bs f fs Hz B R N U.
  pose proof (reads_short z ZS bs (f :: fs) Hz B R) as S.
  assert (L : zlen (map Some bs) <? 2 = false).
  { apply Z.ltb_ge. rewrite zlen_map. destruct bs as [|b1 [|b2 bs]].
    - inversion R.
    - inversion R as [|? ? ? ? ? R2]; subst. inversion R2; subst. congruence.
    - rewrite !zlen_cons. pose proof (zlen_nonneg bs). lia. }
  unfold merge_files. rewrite L.
  destruct (merge_loop_ok z args bs (f :: fs) 0 (set_compressed true file_default) false ltac:(lia) R S ltac:(intros; lia)) as [A _].
  { intros p q []. }
  specialize (A U). cbn [Z.eqb f_prs set_compressed file_default app] in A. rewrite A.
  eexists _, _. split; [reflexivity|]. cbn [f_major f_minor f_wkt f_compressed f_prs andb orb].
  split; [reflexivity|]. split; [reflexivity|]. split; [reflexivity|].
  split; [apply forallb_forall|]. split; [reflexivity|].
  rewrite andb_true_iff, negb_true_iff, existsb_exists.
  assert (D : forall a b, bytes_differ a b = true <-> a <> b).
  { intros a b. unfold bytes_differ. destruct (list_eq_dec Z.eq_dec a b); split; congruence. }
  split; intros [Q (h & I & E)]; (split; [exact Q|]); exists h.
  - apply D in E. split; [|exact E]. destruct I as [<-|I]; [congruence|exact I].
  - split; [now right|now apply D].
Qed.

(** Files with different numbers of extra fields are refused, and nothing is written. *)
Theorem C51_mismatch : forall z ZS debug args bs fs os, zlib_ok z ZS -> Forall is_bytes bs ->
  Forall2 (file_of (read_spoc_file z)) bs fs -> ~ uniform (flat_map f_prs fs) ->
  exists what, merge_tool z debug args (map Some bs) os = (os, Throw (runtime_error what)).
Proof.
  intros z ZS debug args bs fs os Hz B R N. unfold merge_tool, w_bind, w_lift, merge_files.
  destruct (_ <? 2); [eexists; reflexivity|].
  pose proof (reads_short z ZS bs fs Hz B R) as S.
  destruct (merge_loop_ok z args bs fs 0 (set_compressed true file_default) false ltac:(lia) R S ltac:(intros; lia)) as [_ A].
  { intros p q []. }
  destruct (A N) as (what & ->). eauto.
Qed.

(** One unreadable input, or fewer than two: nothing is written. *)
Theorem C51_unreadable : forall z ZS debug args inputs os, zlib_ok z ZS ->
  Forall (fun i => forall b, i = Some b -> is_bytes b) inputs ->
  (length inputs < 2)%nat \/ In None inputs \/ (exists b, In (Some b) inputs /\ forall f, ~ file_of (read_spoc_file z) b f) ->
  (exists e, merge_tool z debug args inputs os = (os, Throw e))
  \/ (exists b, In (Some b) inputs /\ (read_spoc_file z (i_open b) = Hang \/ exists u, read_spoc_file z (i_open b) = UB u)
        /\ (merge_tool z debug args inputs os = (os, Hang) \/ exists u, merge_tool z debug args inputs os = (os, UB u))).
Proof.
  intros z ZS debug args inputs os Hz B H. unfold merge_tool, w_bind, w_lift, merge_files.
  destruct (Z.ltb_spec (zlen inputs) 2) as [L|L]; [left; eexists; reflexivity|].
  destruct H as [H|H]; [unfold zlen in L; lia|].
  assert (M : forall inputs i g w, 0 <= i -> uniform (f_prs g) -> (0 < i -> Z.of_nat (length (f_wkt g)) <= 65535) ->
     Forall (fun i => forall b, i = Some b -> is_bytes b) inputs ->
     (In None inputs \/ exists b, In (Some b) inputs /\ forall f, ~ file_of (read_spoc_file z) b f) ->
     (exists e, merge_loop z args i inputs g w = Throw e)
     \/ exists b, In (Some b) inputs /\ ((read_spoc_file z (i_open b) = Hang /\ merge_loop z args i inputs g w = Hang)
          \/ exists u, read_spoc_file z (i_open b) = UB u /\ merge_loop z args i inputs g w = UB u)).
  { clear B H L. induction inputs0 as [|[b|] t IH]; intros i g w Hi U Sg B H.
    - exfalso. destruct H as [[]|(b & [] & _)].
    - cbn [merge_loop]. inversion B as [|? ? Bb Bt]; subst. specialize (Bb b eq_refl).
      destruct (read_spoc_file z (i_open b)) as [[f s]|e|u|] eqn:R; cbn [bind].
      + set (g1 := if i =? 0 then _ else _).
        assert (P1 : f_prs g1 = f_prs g) by (unfold g1; destruct (i =? 0), (f_compressed f); reflexivity).
        assert (Sf : Z.of_nat (length (f_wkt f)) <= 65535) by (eapply read_short_wkt; [exact Hz|exact Bb|exists s; exact R]).
        assert (S1 : Z.of_nat (length (f_wkt g1)) <= 65535).
        { unfold g1. destruct (Z.eqb_spec i 0); [exact Sf|]. destruct (f_compressed f); apply Sg; lia. }
        unfold append.
        assert (H1 : exists w1, (if ma_quiet args then Ret false
             else h1 <- get_header f ;; h2 <- get_header g1 ;; Ret (negb (beq_bytes (h_wkt h1) (h_wkt h2)))) = Ret w1).
        { destruct (ma_quiet args); [eauto|]. destruct (short_header f Sf) as (h1 & -> & _).
          destruct (short_header g1 S1) as (h2 & -> & _). cbn [bind]. eauto. }
        destruct H1 as (w1 & ->). cbn [bind].
        destruct (all_same_size_extra (f_prs g1 ++ f_prs f)) eqn:E.
        * apply all_same_size_uniform in E. rewrite append_loop_ok by exact E. cbn [bind].
          destruct (IH (i + 1) (with_prs g1 (f_prs g1 ++ map (with_id (to_u32 (if ma_point_id args <? 0 then i else ma_point_id args))) (f_prs f)))
                      (w || w1)) as [(e & ->)|(b' & I & D)].
          -- lia.
          -- cbn [f_prs with_prs]. now apply uniform_ids.
          -- intros _. exact S1.
          -- exact Bt.
          -- destruct H as [[H|H]|(b' & [H|H] & F)]; [discriminate H|now left| |right; eauto].
             injection H as <-. exfalso. apply (F f). exists s. exact R.
          -- left. eauto.
          -- right. exists b'. split; [now right|exact D].
        * apply all_same_size_false in E.
          destruct (append_loop_bad (to_u32 (if ma_point_id args <? 0 then i else ma_point_id args)) (f_prs f) g1) as (what & ->).
          -- now rewrite P1.
          -- exact E.
          -- left. cbn [bind]. eauto.
      + left. eauto.
      + right. exists b. split; [now left|]. right. eauto.
      + right. exists b. split; [now left|]. left. auto.
    - left. cbn [merge_loop]. eauto. }
  destruct (M inputs 0 (set_compressed true file_default) false ltac:(lia) ltac:(intros p q []) ltac:(intros; lia) B H)
    as [(e & ->)|(b & I & D)].
  - left. eauto.
  - right. exists b. split; [exact I|]. destruct D as [[D1 D2]|(u & D1 & D2)]; rewrite D2; split; eauto.
Qed.

(** From files to file. *)
Theorem C51_file_to_file : forall z ZS debug args bs f fs g warned, zlib_ok z ZS -> Forall is_bytes bs ->
  Forall2 (file_of (read_spoc_file z)) bs (f :: fs) -> merge_files z args (map Some bs) = Ret (g, warned) ->
  storable g ->
  exists output g', appends (merge_tool z debug args (map Some bs)) output /\ kept g g'
    /\ read_spoc_file z (i_open output) = Ret (g', i_open []).
Proof.
  intros z ZS debug args bs f fs g warned Hz B R E S.
  destruct (storable_one z ZS debug g Hz S) as (output & g' & W & _ & K & Rd).
  exists output, g'. split; [|split; [exact K|]].
  - apply emits_appends. intros s Hs. unfold merge_tool, w_bind, w_lift. rewrite E. now apply W.
  - rewrite <- (app_nil_r output). apply Rd. constructor.
Qed.

(** A finding: each of two files can be read, but what their merge writes cannot: a
    compressed file with 124 extra fields, and an uncompressed one without records.  The
    result is uncompressed, and reading it never ends (C11). *)
Theorem C51_unreadable_result : exists b1 b2 f1 f2 output,
  file_of (read_spoc_file toy) b1 f1 /\ file_of (read_spoc_file toy) b2 f2
  /\ appends (merge_tool toy false (mk_merge_args false (-1)) [Some b1; Some b2]) output
  /\ read_spoc_file toy (i_open output) = Hang.
Proof.
  set (f1 := mk_file 0 1 [] true [pr_many 124]).
  set (f2 := mk_file 0 1 [] false []).
  exists (o_bytes (fst (write_spoc_file toy false f1 (mk_ostream [] None false)))),
         (o_bytes (fst (write_spoc_file toy false f2 (mk_ostream [] None false)))), f1, f2.
  destruct (C11_written_files_hang toy false (mk_file 0 1 [] false [pr_many 124]) 124 (many_good 124 false)) as (bs & W & R).
  - reflexivity.
  - discriminate.
  - apply (many_extras 124).
  - lia.
  - exists bs. split; [eexists; vm_compute; reflexivity|]. split; [eexists; vm_compute; reflexivity|]. split.
    + intros os Hos. unfold merge_tool, w_bind, w_lift.
      assert (M : merge_files toy (mk_merge_args false (-1))
        [Some (o_bytes (fst (write_spoc_file toy false f1 (mk_ostream [] None false))));
         Some (o_bytes (fst (write_spoc_file toy false f2 (mk_ostream [] None false))))]
        = Ret (mk_file 0 1 [] false [pr_many 124], false)) by (vm_compute; reflexivity).
      rewrite M. now apply W.
    + rewrite <- (app_nil_r bs). apply R.
Qed.

Definition m_pr (c : Z) : point_record := mk_pr d_one d_zero d_zero c 9 0 0 0 0 [].
Definition m_f1 : spoc_file := mk_file 0 1 (chars "A") false [m_pr 1; m_pr 2].
Definition m_f2 : spoc_file := mk_file 0 1 (chars "B") false [m_pr 3].
Definition m_written (f : spoc_file) : list Z := o_bytes (fst (write_spoc_file toy false f (mk_ostream [] None false))).

Example C51_example :
  merge_files toy (mk_merge_args false (-1)) [Some (m_written m_f1); Some (m_written m_f2)]
  = Ret (mk_file 0 1 (chars "A") false [with_id 0 (m_pr 1); with_id 0 (m_pr 2); with_id 1 (m_pr 3)], true)
  /\ file_of (read_spoc_file toy) (m_written m_f1) m_f1 /\ file_of (read_spoc_file toy) (m_written m_f2) m_f2
  /\ uniform (flat_map f_prs [m_f1; m_f2]).
Proof.
  split; [vm_compute; reflexivity|]. split; [eexists; vm_compute; reflexivity|]. split; [eexists; vm_compute; reflexivity|].
  intros p q Hp Hq. cbn in Hp, Hq. intuition (subst; reflexivity).
Qed.

Print Assumptions C51_concatenates.
Print Assumptions C51_mismatch.
Print Assumptions C51_unreadable.
Print Assumptions C51_file_to_file.
Print Assumptions C51_unreadable_result.
