(** C69: spoc_srs. *)
From Coq Require Import String ZArith List Bool Lia.
From Verif.Model Require Import Base Double Header PointRecord File Compression IO AppConvert TileApp SrsApp.
From Verif.Spec Require Import Format Streams Files Apps ZlibContract Tools.
From Verif.Proofs Require Import BaseFacts HeaderFacts FileFacts HistoryFacts FileIOFacts FileMoreFacts HeaderCutFacts FilterFacts StoreFacts TransformFacts ToyZlib.
Import ListNotations.
Open Scope Z_scope.
Open Scope outcome_scope.

(** ** Facts *)

(** Reading the header gives the WKT that reading the file gives. *)
Lemma read_file_wkt : forall z s f s', read_spoc_file z s = Ret (f, s') ->
  exists h s1, read_header s = Ret (h, s1) /\ h_wkt h = f_wkt f.
Proof.
  intros z s f s' E. unfold read_spoc_file in E. apply bind_Ret_inv in E as ([h s1] & Eh & E).
  apply bind_Ret_inv in E as ([prs s2] & _ & E). apply bind_Ret_inv in E as (g & Eg & E). injection E as <- _.
  exists h, s1. split; [exact Eh|]. unfold file_ctor_wkt, file_ctor in Eg. destruct (negb _); [discriminate Eg|]. now injection Eg as <-.
Qed.

(** What has been stored once does not change any more. *)
Lemma kept_twice : forall f f1 f2, kept f f1 -> kept f1 f2 -> f2 = f1.
Proof.
  intros f f1 f2 K K2. unfold kept in K. destruct (f_compressed f) eqn:Ec.
  2: { subst f1. unfold kept in K2. now rewrite Ec in K2. }
  destruct K as (M1 & M2 & M3 & M4 & R). unfold kept in K2. rewrite M4, Ec in K2. destruct K2 as (N1 & N2 & N3 & N4 & R2).
  rewrite <- (file_eta f2), <- (file_eta f1). rewrite N1, N2, N3, N4. f_equal.
  assert (Z : forall sel, In sel [rx; ry; rz] -> (forall q, In q (f_prs f1) -> is_zero_double (sel q)) -> forall q, In q (f_prs f1) -> sel q = 0).
  { intros sel Is A q Iq. destruct (Forall2_In_r _ _ _ _ R Iq) as (p & Ip & Kp).
    assert (Kc : kept_coord sel (f_prs f) p q) by (destruct Kp as (X & Y & Zz & _); destruct Is as [<-|[<-|[<-|[]]]]; assumption).
    destruct Kc as [[E N]|[E _]]; [|exact E]. exfalso. apply N. intros p0 Ip0.
    assert (Q : exists q0, In q0 (f_prs f1) /\ kept_record (f_prs f) p0 q0).
    { clear - R Ip0. revert R. generalize (f_prs f) at 1 3. intros all R. induction R as [|a b l l' H R IH]; [destruct Ip0|].
      destruct Ip0 as [<-|I]; [exists b; split; [now left|exact H]|]. destruct (IH I) as (q0 & I0 & H0). exists q0. split; [now right|exact H0]. }
    destruct Q as (q0 & Iq0 & Kq0).
    assert (Kc0 : kept_coord sel (f_prs f) p0 q0) by (destruct Kq0 as (X & Y & Zz & _); destruct Is as [<-|[<-|[<-|[]]]]; assumption).
    destruct Kc0 as [[E0 _]|[_ B0]]; [rewrite <- E0; now apply A|now apply B0]. }
  assert (W : forall l l', incl l (f_prs f1) -> Forall2 (kept_record (f_prs f1)) l l' -> l' = l).
  { intros l l' I F. induction F as [|p p' l l' H F IH]; [reflexivity|]. f_equal; [|apply IH; intros x X; apply I; now right].
    assert (P : In p (f_prs f1)) by (apply I; now left).
    assert (S : forall sel, In sel [rx; ry; rz] -> kept_coord sel (f_prs f1) p p' -> sel p' = sel p).
    { intros sel Is [[E _]|[E A]]; [exact E|]. rewrite E. symmetry. now apply Z. }
    destruct H as (X & Y & Zz & c & i & j & r & g & b & e). apply S in X; [|cbn; auto]. apply S in Y; [|cbn; auto]. apply S in Zz; [|cbn; auto].
    destruct p, p'; cbn in *; subst. reflexivity. }
  apply W; [apply incl_refl|exact R2].
Qed.

Lemma storable_wkt : forall f s, storable f -> is_bytes s -> Z.of_nat (List.length s) <= 65535 -> storable (set_wkt s f).
Proof. intros f s ([A1 A2 A3 A4 A5 A6 A7] & B & C) S L. split; [|split; [exact B|exact C]]. now split. Qed.

Lemma open_input_ok : forall acc fs fn bytes, fs fn = Some bytes -> can_read acc fn = true -> open_input acc fs fn = Ret bytes.
Proof. intros acc fs fn bytes E R. unfold open_input. now rewrite E, R. Qed.

Lemma print_wkt_emits : forall input h s1, read_header (i_open input) = Ret (h, s1) -> emits (print_wkt input) (h_wkt h ++ [10]) tt.
Proof. intros input h s1 E s Hs. unfold print_wkt, from_input. rewrite E. reflexivity. Qed.

Lemma appends_open : forall w bs, appends w bs -> exists os, w (mk_ostream [] None false) = (os, Ret tt) /\ o_bytes os = bs.
Proof. intros w bs A. destruct (A (mk_ostream [] None false)) as (os & E & _ & B); [now split|]. exists os. now split. Qed.

(** ** C69 *)

(** The files that the program is given, and what the library reads from them. *)
Definition holds (z : zlib) (acc : access_rights) (fs : files) (fn : list Z) (f : spoc_file) : Prop :=
  can_read acc fn = true /\ exists bytes, fs fn = Some bytes /\ file_of (read_spoc_file z) bytes f.

(** What the program puts on a healthy standard output; [r] is how it ends. *)
Definition prints (main : ostream -> ostream * files * outcome unit) (text : list Z) (fs : files) (r : outcome unit) : Prop :=
  forall os, healthy os -> exists os', main os = (os', fs, r) /\ healthy os' /\ o_bytes os' = o_bytes os ++ text.

(** Setting: the output file has the new WKT and is otherwise what was read.  The two
    files may be the same. *)
Theorem C69_set : forall z ZS debug acc srs f, zlib_ok z ZS -> storable f -> is_bytes srs -> Z.of_nat (List.length srs) <= 65535 ->
  exists bytes f1, appends (write_spoc_file z debug f) bytes /\ kept f f1
  /\ forall from to stdin fs os, fs from = Some bytes -> can_read acc from = true -> can_write acc to = true ->
     exists output g, srs_main z debug acc (mk_srs_args srs true [from; to]) stdin fs os = (os, file_put to output fs, Ret tt)
       /\ read_spoc_file z (i_open output) = Ret (g, i_open [])
       /\ f_wkt g = srs /\ f_prs g = f_prs f1 /\ f_compressed g = f_compressed f1 /\ f_major g = f_major f1 /\ f_minor g = f_minor f1.
Proof.
  intros z ZS debug acc srs f Hz S B L.
  destruct (storable_one z ZS debug f Hz S) as (bytes & f1 & W & _ & K & R). pose proof (kept_storable f f1 S K) as S1.
  exists bytes, f1. split; [now apply emits_appends|]. split; [exact K|]. intros from to stdin fs os E Rd Wr.
  assert (R0 : read_spoc_file z (i_open bytes) = Ret (f1, i_open [])) by (rewrite <- (app_nil_r bytes); apply R; constructor).
  destruct (storable_one z ZS debug (set_wkt srs f1) Hz (storable_wkt f1 srs S1 B L)) as (output & g & W' & _ & K' & R').
  destruct (appends_open _ _ (emits_appends _ _ W')) as (os' & Eo & Bo).
  exists output, g. unfold srs_main. cbn [sa_fns sa_set]. unfold srs_set. cbn [sa_fns sa_srs]. rewrite (open_input_ok acc fs from bytes E Rd). cbn [bind].
  rewrite R0, Wr. cbn [negb]. rewrite Eo, Bo. split; [reflexivity|]. split; [rewrite <- (app_nil_r output); apply R'; constructor|].
  assert (G : g = set_wkt srs f1).
  { apply (kept_twice (set_wkt srs f)); [|exact K']. unfold kept in K |- *. cbn [set_wkt f_compressed]. destruct (f_compressed f); [|now rewrite K].
    destruct K as (M1 & M2 & M3 & M4 & Rr). unfold kept_file. cbn [set_wkt f_major f_minor f_wkt f_compressed f_prs]. repeat (split; [assumption || reflexivity|]). exact Rr. }
  rewrite G. repeat split.
Qed.

(** Getting: the WKT of each file on a line; the points are not read. *)
Theorem C69_get : forall z debug acc srs fns fl stdin fs, fns <> [] -> Forall2 (holds z acc fs) fns fl ->
  prints (srs_main z debug acc (mk_srs_args srs false fns) stdin fs) (on_lines (map f_wkt fl)) fs (Ret tt).
Proof.
  intros z debug acc srs fns fl stdin fs N H os Ho.
  assert (E : emits (srs_get acc fs fns) (on_lines (map f_wkt fl)) tt).
  { clear N. induction H as [|fn f fns fl (Rd & bytes & Eb & rest & R) H IH].
    - intros s Hs. cbn. now rewrite os_write_nil.
    - cbn [srs_get map]. change (on_lines (f_wkt f :: map f_wkt fl)) with ((f_wkt f ++ [10]) ++ on_lines (map f_wkt fl)).
      destruct (read_file_wkt z _ _ _ R) as (h & s1 & Eh & Ew).
      intros s Hs. unfold w_bind at 1, w_lift. rewrite (open_input_ok acc fs fn bytes Eb Rd).
      rewrite <- Ew. revert s Hs. change (emits (w_seq (print_wkt bytes) (srs_get acc fs fns)) ((h_wkt h ++ [10]) ++ on_lines (map f_wkt fl)) tt).
      apply emits_seq; [eapply print_wkt_emits, Eh|exact IH]. }
  destruct (emits_appends _ _ E os Ho) as (os' & Eo & G & Bo). exists os'. unfold srs_main. cbn [sa_fns sa_set].
  destruct fns as [|fn fns]; [congruence|]. rewrite Eo. auto.
Qed.

(** Getting stops at the first file that cannot be opened, after those before it. *)
Theorem C69_get_stops : forall z debug acc srs fns fl fn more stdin fs, Forall2 (holds z acc fs) fns fl ->
  fs fn = None \/ can_read acc fn = false -> exists what,
  prints (srs_main z debug acc (mk_srs_args srs false (fns ++ fn :: more)) stdin fs) (on_lines (map f_wkt fl)) fs (Throw (runtime_error what)).
Proof.
  intros z debug acc srs fns fl fn more stdin fs H F. exists "Could not open file for reading"%string. intros os Ho.
  assert (E : leaves (srs_get acc fs (fns ++ fn :: more)) (on_lines (map f_wkt fl)) (Throw (runtime_error "Could not open file for reading"))).
  { induction H as [|fn' f fns fl (Rd & bytes & Eb & rest & R) H IH].
    - intros s Hs. cbn [app srs_get]. change (on_lines (map f_wkt [])) with (@nil Z). rewrite os_write_nil by exact Hs.
      unfold w_bind, w_lift, open_input. destruct F as [->| ->]; [reflexivity|]. now destruct (fs fn).
    - cbn [app srs_get map]. change (on_lines (f_wkt f :: map f_wkt fl)) with ((f_wkt f ++ [10]) ++ on_lines (map f_wkt fl)).
      destruct (read_file_wkt z _ _ _ R) as (h & s1 & Eh & Ew).
      intros s Hs. unfold w_bind at 1, w_lift. rewrite (open_input_ok acc fs fn' bytes Eb Rd).
      rewrite <- Ew. revert s Hs. change (leaves (w_seq (print_wkt bytes) (srs_get acc fs (fns ++ fn :: more))) ((h_wkt h ++ [10]) ++ on_lines (map f_wkt fl)) (Throw (runtime_error "Could not open file for reading"))).
      apply leaves_seq; [eapply print_wkt_emits, Eh|exact IH]. }
  destruct (leaves_good _ _ _ os E) as (os' & Eo & G & Bo); [now apply o_good_healthy|]. exists os'. unfold srs_main. cbn [sa_fns sa_set].
  destruct (fns ++ fn :: more) as [|a l] eqn:Ef; [destruct fns; discriminate Ef|]. rewrite Eo. apply o_good_healthy in G. auto.
Qed.

(** Setting and then getting prints the new WKT. *)
Theorem C69_set_get : forall z ZS debug acc srs f, zlib_ok z ZS -> storable f -> is_bytes srs -> Z.of_nat (List.length srs) <= 65535 ->
  exists bytes, appends (write_spoc_file z debug f) bytes
  /\ forall from to stdin fs os, fs from = Some bytes -> can_read acc from = true -> can_read acc to = true -> can_write acc to = true ->
     exists fs', srs_main z debug acc (mk_srs_args srs true [from; to]) stdin fs os = (os, fs', Ret tt)
       /\ prints (srs_main z debug acc (mk_srs_args [] false [to]) stdin fs') (srs ++ [10]) fs' (Ret tt).
Proof.
  intros z ZS debug acc srs f Hz S B L. destruct (C69_set z ZS debug acc srs f Hz S B L) as (bytes & f1 & A & _ & H).
  exists bytes. split; [exact A|]. intros from to stdin fs os E R1 R2 W. destruct (H from to stdin fs os E R1 W) as (output & g & M & Rg & Wg & _).
  exists (file_put to output fs). split; [exact M|].
  pose proof (C69_get z debug acc [] [to] [g] stdin (file_put to output fs)) as P. cbn [map] in P. unfold on_lines in P. cbn [map concat] in P.
  rewrite app_nil_r, Wg in P. apply P; [discriminate|]. constructor; [|constructor]. split; [exact R2|]. exists output. split.
  - unfold file_put. now rewrite beq_bytes_refl.
  - exists (i_open []). exact Rg.
Qed.

(** Setting the WKT that is already there writes what was read. *)
Theorem C69_same : forall z ZS debug acc f, zlib_ok z ZS -> storable f ->
  exists bytes f1 output, appends (write_spoc_file z debug f) bytes /\ kept f f1 /\ appends (write_spoc_file z debug f1) output
  /\ forall from to stdin fs os, fs from = Some bytes -> can_read acc from = true -> can_write acc to = true ->
     srs_main z debug acc (mk_srs_args (f_wkt f) true [from; to]) stdin fs os = (os, file_put to output fs, Ret tt).
Proof.
  intros z ZS debug acc f Hz S.
  destruct (storable_one z ZS debug f Hz S) as (bytes & f1 & W & _ & K & R). pose proof (kept_storable f f1 S K) as S1.
  destruct (storable_one z ZS debug f1 Hz S1) as (output & g & W' & _).
  exists bytes, f1, output. split; [now apply emits_appends|]. split; [exact K|]. split; [now apply emits_appends|]. intros from to stdin fs os E Rd Wr.
  assert (R0 : read_spoc_file z (i_open bytes) = Ret (f1, i_open [])) by (rewrite <- (app_nil_r bytes); apply R; constructor).
  unfold srs_main. cbn [sa_fns sa_set]. unfold srs_set. cbn [sa_fns sa_srs]. rewrite (open_input_ok acc fs from bytes E Rd). cbn [bind]. rewrite R0, Wr. cbn [negb].
  assert (G : set_wkt (f_wkt f) f1 = f1).
  { assert (Ew : f_wkt f1 = f_wkt f) by (unfold kept in K; destruct (f_compressed f); [apply K|now rewrite K]).
    rewrite <- Ew. unfold set_wkt. apply file_eta. }
  rewrite G. destruct (appends_open _ _ (emits_appends _ _ W')) as (os' & Eo & Bo). now rewrite Eo, Bo.
Qed.

(** From standard input to standard output. *)
Theorem C69_stdin : forall z ZS debug acc srs f fs, zlib_ok z ZS -> storable f -> is_bytes srs -> Z.of_nat (List.length srs) <= 65535 ->
  exists bytes f1 output g, appends (write_spoc_file z debug f) bytes /\ kept f f1
  /\ prints (srs_main z debug acc (mk_srs_args srs true []) bytes fs) output fs (Ret tt)
  /\ prints (srs_main z debug acc (mk_srs_args srs false []) bytes fs) (f_wkt f ++ [10]) fs (Ret tt)
  /\ read_spoc_file z (i_open output) = Ret (g, i_open [])
  /\ f_wkt g = srs /\ f_prs g = f_prs f1 /\ f_compressed g = f_compressed f1 /\ f_major g = f_major f1 /\ f_minor g = f_minor f1.
Proof.
  intros z ZS debug acc srs f fs Hz S B L.
  destruct (storable_one z ZS debug f Hz S) as (bytes & f1 & W & _ & K & R). pose proof (kept_storable f f1 S K) as S1.
  assert (R0 : read_spoc_file z (i_open bytes) = Ret (f1, i_open [])) by (rewrite <- (app_nil_r bytes); apply R; constructor).
  destruct (storable_one z ZS debug (set_wkt srs f1) Hz (storable_wkt f1 srs S1 B L)) as (output & g & W' & _ & K' & R').
  exists bytes, f1, output, g. split; [now apply emits_appends|]. split; [exact K|]. split; [|split; [|split]].
  - intros os Ho. destruct (emits_appends _ _ W' os Ho) as (os' & E & G & Bo). exists os'. unfold srs_main, srs_stdin. cbn [sa_fns sa_set sa_srs].
    unfold from_input, w_bind, w_lift. rewrite R0, E. auto.
  - destruct (read_file_wkt z _ _ _ R0) as (h & s1 & Eh & Ew).
    assert (Ef : f_wkt f1 = f_wkt f) by (unfold kept in K; destruct (f_compressed f); [apply K|now rewrite K]). rewrite <- Ef, <- Ew.
    intros os Ho. destruct (emits_appends _ _ (print_wkt_emits _ _ _ Eh) os Ho) as (os' & E & G & Bo). exists os'.
    unfold srs_main, srs_stdin. cbn [sa_fns sa_set sa_srs]. rewrite E. auto.
  - rewrite <- (app_nil_r output). apply R'. constructor.
  - assert (G : g = set_wkt srs f1).
    { apply (kept_twice (set_wkt srs f)); [|exact K']. unfold kept in K |- *. cbn [set_wkt f_compressed]. destruct (f_compressed f); [|now rewrite K].
      destruct K as (M1 & M2 & M3 & M4 & Rr). unfold kept_file. cbn [set_wkt f_major f_minor f_wkt f_compressed f_prs]. repeat (split; [assumption || reflexivity|]). exact Rr. }
    rewrite G. repeat split.
Qed.

Lemma too_long : forall z debug srs f os, 65535 < Z.of_nat (List.length srs) ->
  write_spoc_file z debug (set_wkt srs f) os = (os, Throw (runtime_error "The OGC WKT length may not exceed 65535")).
Proof.
  intros z debug srs f os L. unfold write_spoc_file, w_bind, w_lift, get_header, header_ctor. cbn [set_wkt f_wkt].
  unfold zlen. destruct (Z.ltb_spec 65535 (Z.of_nat (List.length srs))); [reflexivity|lia].
Qed.

(** A WKT that does not fit is refused.  Finding: the output file has been emptied by then,
    and with the name of the input file the points are lost. *)
Theorem C69_too_long : forall z debug acc srs f from to stdin fs os, holds z acc fs from f -> can_write acc to = true ->
  65535 < Z.of_nat (List.length srs) -> exists fs' what,
  srs_main z debug acc (mk_srs_args srs true [from; to]) stdin fs os = (os, fs', Throw (runtime_error what))
  /\ fs' to = Some [] /\ forall fn, fn <> to -> fs' fn = fs fn.
Proof.
  intros z debug acc srs f from to stdin fs os (Rd & bytes & Eb & rest & R) W L.
  unfold srs_main. cbn [sa_fns sa_set]. unfold srs_set. cbn [sa_fns sa_srs]. rewrite (open_input_ok acc fs from bytes Eb Rd). cbn [bind].
  rewrite R, W. cbn [negb]. rewrite too_long by exact L. cbn [o_bytes]. exists (file_put to [] fs). eexists. split; [reflexivity|]. unfold file_put. split.
  - now rewrite beq_bytes_refl.
  - intros fn N. destruct (beq_bytes fn to) eqn:E; [|reflexivity]. apply beq_bytes_eq in E. congruence.
Qed.

(** Wrong number of files, an input that cannot be opened or read, an output that cannot be
    written: nothing changes. *)
Theorem C69_untouched : forall z debug acc srs fns stdin fs os, fns <> [] ->
  (List.length fns <> 2%nat
   \/ (exists from to, fns = [from; to] /\ (fs from = None \/ can_read acc from = false \/ can_write acc to = false
        \/ exists bytes, fs from = Some bytes /\ forall f s, read_spoc_file z (i_open bytes) <> Ret (f, s)))) ->
  exists r, srs_main z debug acc (mk_srs_args srs true fns) stdin fs os = (os, fs, r) /\ r <> Ret tt.
Proof.
  intros z debug acc srs fns stdin fs os N H. unfold srs_main. cbn [sa_fns sa_set]. destruct fns as [|a l]; [congruence|]. unfold srs_set. cbn [sa_fns sa_srs].
  destruct H as [H|(from & to & E & H)].
  { destruct l as [|b [|c l]]; cbn in H; try (now elim H); eexists; (split; [reflexivity|discriminate]). }
  injection E as -> ->. unfold open_input. destruct (fs from) as [bytes|] eqn:Ef; [|eexists; split; [reflexivity|discriminate]].
  destruct (can_read acc from) eqn:Er; [|eexists; split; [reflexivity|discriminate]]. cbn [bind].
  destruct (read_spoc_file z (i_open bytes)) as [[f s]|e|u|] eqn:R; try (eexists; split; [reflexivity|discriminate]).
  destruct (can_write acc to) eqn:Ew; [|eexists; split; [reflexivity|discriminate]]. exfalso.
  destruct H as [H|[H|[H|(b & Eb & H)]]]; try discriminate H. injection Eb as <-. now apply (H f s).
Qed.

(** On standard input a WKT that does not fit is refused with nothing written. *)
Theorem C69_stdin_too_long : forall z debug acc srs f stdin fs os, file_of (read_spoc_file z) stdin f ->
  65535 < Z.of_nat (List.length srs) -> exists what,
  srs_main z debug acc (mk_srs_args srs true []) stdin fs os = (os, fs, Throw (runtime_error what)).
Proof.
  intros z debug acc srs f stdin fs os (rest & R) L. unfold srs_main, srs_stdin, from_input, w_bind, w_lift. cbn [sa_fns sa_set sa_srs].
  rewrite R, too_long by exact L. eauto.
Qed.

(** Getting the WKT needs nothing beyond the header: whatever follows it, or nothing. *)
Theorem C69_header_only : forall z debug acc srs h head t fs, good_header h -> appends (write_header h) head ->
  prints (srs_main z debug acc (mk_srs_args srs false []) (head ++ t) fs) (h_wkt h ++ [10]) fs (Ret tt).
Proof.
  intros z debug acc srs h head t fs G A.
  assert (E : head = header_bytes h).
  { destruct (appends_open _ _ A) as (o1 & E1 & <-).
    destruct (appends_open _ _ (emits_appends _ _ (write_header_emits h (gh_sig h G)))) as (o2 & E2 & <-). congruence. }
  subst head. pose proof (read_header_round_trip h t G) as R.
  intros os Ho. destruct (emits_appends _ _ (print_wkt_emits _ _ _ R) os Ho) as (os' & Eo & Go & Bo). exists os'.
  unfold srs_main, srs_stdin. cbn [sa_fns sa_set sa_srs]. rewrite Eo. auto.
Qed.

(** ** Examples *)

Definition sp_file (c : bool) : spoc_file := mk_file 0 1 (chars "old") c [mk_pr 0 (2 ^ 63) 7 2 7 9 1 2 3 [5; 6]].

Lemma sp_storable : forall c, storable (sp_file c).
Proof.
  intros c. split; [|split; [cbn; lia|exists 2; split; [intros p [<-|[]]; reflexivity|destruct c; cbn; lia]]].
  split; try reflexivity; try (cbn; lia).
  - repeat constructor; lia.
  - repeat constructor; cbn; unfold d_ok, u32_ok, u16_ok, u64_ok, two64, two32, two16; lia.
  - intros p q [<-|[]] [<-|[]]. reflexivity.
Qed.

Definition all_rights : access_rights := mk_access (fun _ => true) (fun _ => true).
Definition sp_bytes (f : spoc_file) : list Z := o_bytes (fst (write_spoc_file toy true f (mk_ostream [] None false))).
Definition sp_fs : files := file_put (chars "a") (sp_bytes (sp_file false)) (file_put (chars "b") (sp_bytes (sp_file true)) (fun _ => None)).
Definition srs_run (set : bool) (srs : string) (fns : list string) : ostream * files * outcome unit :=
  srs_main toy true all_rights (mk_srs_args (chars srs) set (map chars fns)) [] sp_fs (mk_ostream [] None false).

Example C69_example : zlib_ok toy toy_stream /\ storable (sp_file true) /\ storable (sp_file false) /\ is_bytes (chars "new")
  /\ (let '(os, fs, r) := srs_run true "new" ["a"; "b"]%string in
      r = Ret tt /\ o_bytes os = [] /\ fs (chars "b") = Some (sp_bytes (set_wkt (chars "new") (sp_file false))) /\ fs (chars "a") = sp_fs (chars "a"))
  (* in place; the compressed file has lost the sign of its zero *)
  /\ (let '(os, fs, r) := srs_run true "new" ["b"; "b"]%string in
      r = Ret tt /\ fs (chars "b") = Some (sp_bytes (mk_file 0 1 (chars "new") true [mk_pr 0 0 7 2 7 9 1 2 3 [5; 6]])))
  /\ (let '(os, fs, r) := srs_run false "" ["a"; "b"]%string in r = Ret tt /\ o_bytes os = on_lines [chars "old"; chars "old"])
  /\ (let '(os, fs, r) := srs_run false "" ["a"; "c"; "b"]%string in r = Throw (runtime_error "Could not open file for reading") /\ o_bytes os = on_lines [chars "old"])
  /\ holds toy all_rights sp_fs (chars "a") (sp_file false)
  /\ Z.of_nat (List.length (List.repeat 65 (Z.to_nat 65536))) = 65536.
Proof.
  split; [exact toy_ok|]. split; [apply sp_storable|]. split; [apply sp_storable|].
  split; [repeat constructor; lia|]. split; [vm_compute; auto|]. split; [vm_compute; auto|]. split; [vm_compute; auto|]. split; [vm_compute; auto|].
  split; [|rewrite repeat_length; lia].
  split; [reflexivity|]. eexists. split; [reflexivity|]. eexists. vm_compute. reflexivity.
Qed.

Print Assumptions C69_set.
Print Assumptions C69_get.
Print Assumptions C69_get_stops.
Print Assumptions C69_set_get.
Print Assumptions C69_same.
Print Assumptions C69_stdin.
Print Assumptions C69_too_long.
Print Assumptions C69_stdin_too_long.
Print Assumptions C69_untouched.
Print Assumptions C69_header_only.
