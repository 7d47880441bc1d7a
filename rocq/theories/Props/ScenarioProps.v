(** What whole programs do to the files on disk, and several programs in a row. *)
From Coq Require Import String ZArith List Bool Lia Permutation.
From Verif.Model Require Import Base Double Arith Header PointRecord Point File Subsampling Compression IO Affine AppConvert AppUtils FilterApp
  MergeApp TileApp TransformApp DiffApp ToolApp SrsApp Asprs Json InfoApp GetOpt Commands Programs.
From Verif.Spec Require Import Text Streams Files History Apps ZlibContract Format CommandLines Tools Sampling Fields Diffs.
From Verif.Proofs Require Import BaseFacts HeaderFacts HeaderCutFacts TextFacts CommandFacts OptionFacts FileIOFacts FilterFacts StoreFacts ProgramFacts ToyZlib.
From Verif.Props Require Import FileProps FilterProps MergeProps TileProps TransformProps DiffProps ToolProps ToolProgramProps SrsProps CommandProps
  ProgramProps PipeProps.
Import ListNotations.
Open Scope Z_scope.

(** A command line without mistakes that does not ask for the help or the version *)
Definition asks (t : list entry) (argv : list (list Z)) (es : list setting) (ops : list (list Z)) : Prop :=
  command_line t argv es ops /\ given "help" es = false /\ given "version" es = false.

(** [f] was written to the file [n]. *)
Definition stored (z : zlib) (debug : bool) (fs : files) (n : list Z) (f : spoc_file) : Prop :=
  exists bytes, fs n = Some bytes /\ appends (write_spoc_file z debug f) bytes.

(** [n] can be read, or written *)
Definition may_read (acc : access_rights) (n : list Z) : Prop := n <> [] /\ can_read acc n = true.
Definition may_write (acc : access_rights) (n : list Z) : Prop := n <> [] /\ can_write acc n = true.

Lemma appends_once w a b : appends w a -> appends w b -> a = b.
Proof.
  intros A B. destruct (A o_open) as (o1 & E1 & _ & H1); [now split|]. destruct (B o_open) as (o2 & E2 & _ & H2); [now split|].
  rewrite E1 in E2. injection E2 as <-. cbn in H1, H2. congruence.
Qed.

Lemma stored_bytes z debug fs n f bytes : appends (write_spoc_file z debug f) bytes -> stored z debug fs n f -> fs n = Some bytes.
Proof. intros A (b & E & B). now rewrite (appends_once _ _ _ A B). Qed.

Lemma put_same n b fs : file_put n b fs n = Some b.
Proof. unfold file_put. now rewrite beq_bytes_refl. Qed.
Lemma put_other n b fs m : m <> n -> file_put n b fs m = fs m.
Proof.
  intros N. unfold file_put. destruct (beq_bytes n m) eqn:E; [apply beq_bytes_eq in E; congruence|]. 
  destruct (beq_bytes m n) eqn:E2; [apply beq_bytes_eq in E2; congruence|reflexivity].
Qed.

(** ** The programs that write one file *)

(** When the tool, given the bytes of the input, writes [out] *)
Lemma convert_run acc i o work w input os fs bytes out : may_read acc i -> may_write acc o -> fs i = Some bytes ->
  work bytes = Ret w -> appends w out -> convert acc (mk_io i o) work input os fs = (os, file_put o out fs, Ret 0).
Proof.
  intros [Ni Ri] [No Wo] E W A. unfold convert. cbn [io_input io_output]. rewrite (input_file acc i input fs bytes Ni E Ri). cbn [bind].
  rewrite W. unfold output_stream. destruct o as [|x o]; [now elim No|]. rewrite Wo. cbn [negb].
  destruct (A o_open) as (os' & -> & _ & B); [now split|]. now rewrite B.
Qed.

Lemma convert_throws acc i o work e input os fs bytes : may_read acc i -> fs i = Some bytes ->
  work bytes = Throw e -> convert acc (mk_io i o) work input os fs = (os, fs, Throw e).
Proof.
  intros [Ni Ri] E W. unfold convert. cbn [io_input io_output]. rewrite (input_file acc i input fs bytes Ni E Ri). cbn [bind]. now rewrite W.
Qed.

Lemma from_input_appends {A} (r : outcome (A * istream)) w out : appends (from_input r w) out -> exists f s, r = Ret (f, s) /\ appends (w f) out.
Proof.
  intros H. destruct r as [[f s]|e|u|].
  - exists f, s. split; [reflexivity|exact H].
  - destruct (H o_open) as (o & E & _); [now split|]. discriminate E.
  - destruct (H o_open) as (o & E & _); [now split|]. discriminate E.
  - destruct (H o_open) as (o & E & _); [now split|]. discriminate E.
Qed.

Lemma compress_run z debug acc argv es a b input os fs bytes out : asks convert_options argv es [a; b] -> may_read acc a -> may_write acc b ->
  fs a = Some bytes -> appends (compress_tool z debug bytes) out ->
  spoc_compress z debug acc argv input os fs = (os, file_put b out fs, Ret 0).
Proof.
  intros (L & H & V) Ra Wb E A. unfold compress_tool in A. apply from_input_appends in A as (f & s & R & A).
  unfold spoc_compress. rewrite (program_runs _ _ _ _ _ _ _ (C84_convert _ _ _ L H)) by assumption || reflexivity.
  assert (W : compress_work z debug bytes = Ret _) by (unfold compress_work; rewrite R; reflexivity).
  now rewrite (convert_run _ _ _ _ _ input os fs _ _ Ra Wb E W A).
Qed.

Lemma decompress_run z debug acc argv es a b input os fs bytes out : asks convert_options argv es [a; b] -> may_read acc a -> may_write acc b ->
  fs a = Some bytes -> appends (decompress_tool z debug bytes) out ->
  spoc_decompress z debug acc argv input os fs = (os, file_put b out fs, Ret 0).
Proof.
  intros (L & H & V) Ra Wb E A. unfold decompress_tool in A. apply from_input_appends in A as (f & s & R & A).
  unfold spoc_decompress. rewrite (program_runs _ _ _ _ _ _ _ (C84_convert _ _ _ L H)) by assumption || reflexivity.
  assert (W : decompress_work z debug bytes = Ret _) by (unfold decompress_work; rewrite R; reflexivity).
  now rewrite (convert_run _ _ _ _ _ input os fs _ _ Ra Wb E W A).
Qed.

(** ** C88: spoc_compress and then spoc_decompress *)

(** The program spoc_decompress undoes the program spoc_compress: the third file is, byte
    for byte, the first, unless a column of an extra field loses a sign (see C20).  No
    other file changes. *)
Theorem C88_compress_decompress z ZS debug acc f k fs a b c argv1 argv2 es1 es2 in1 in2 os1 os2 : zlib_ok z ZS -> good_file f ->
  f_compressed f = false -> has_extras k (f_prs f) -> k <= 123 -> 8 * Z.of_nat (List.length (f_prs f)) + 32 < 2 ^ 31 ->
  stored z debug fs a f -> may_read acc a -> may_write acc b -> may_read acc b -> may_write acc c ->
  asks convert_options argv1 es1 [a; b] -> asks convert_options argv2 es2 [b; c] ->
  exists fs1 fs2 f', 
    spoc_compress z debug acc argv1 in1 os1 fs = (os1, fs1, Ret 0) /\
    spoc_decompress z debug acc argv2 in2 os2 fs1 = (os2, fs2, Ret 0) /\
    stored z debug fs1 b (set_compressed true f) /\
    stored z debug fs2 c f' /\ kept_file f f' /\
    (~ loses_sign (f_prs f) -> fs2 c = fs a) /\
    forall n, n <> b -> n <> c -> fs2 n = fs n.
Proof.
  intros Hz G C X K S St Ra Wb Rb Wc L1 L2.
  destruct (C20_tools_inverse z ZS debug f k Hz G C X K S) as (ub & cb & f' & ub' & A1 & Kf & A2 & A3 & A4 & A5 & A6 & A7).
  pose proof (stored_bytes _ _ _ _ _ _ A1 St) as Ea.
  exists (file_put b cb fs), (file_put c ub' (file_put b cb fs)), f'.
  split; [now apply compress_run with es1 a ub|].
  split; [apply decompress_run with es2 b cb; auto; apply put_same|].
  split; [exists cb; split; [apply put_same|exact A4]|].
  split; [exists ub'; split; [apply put_same|exact A2]|].
  split; [exact Kf|]. split.
  - intros N. rewrite put_same, Ea. f_equal. now apply A7.
  - intros n N1 N2. now rewrite !put_other.
Qed.

(** ** C89: one program after another *)

(** The file [n] is read as [f]. *)
Definition reads (z : zlib) (fs : files) (n : list Z) (f : spoc_file) : Prop :=
  exists bytes, fs n = Some bytes /\ file_of (read_spoc_file z) bytes f.

(** What was written is read as what C12 and C13 promise. *)
Theorem C89_stored z ZS debug fs n f : zlib_ok z ZS -> storable f -> stored z debug fs n f -> exists f', reads z fs n f' /\ kept f f' /\ storable f'.
Proof.
  intros Hz S St. destruct (storable_one z ZS debug f Hz S) as (bytes & f1 & W & B & K & R).
  pose proof (stored_bytes _ _ _ _ _ _ (emits_appends _ _ W) St) as E. exists f1. split; [|split; [exact K|now apply kept_storable with f]].
  exists bytes. split; [exact E|]. exists (i_open []). rewrite <- (app_nil_r bytes). apply R. constructor.
Qed.

Lemma written_reads z ZS debug g : zlib_ok z ZS -> storable g ->
  exists out g', appends (write_spoc_file z debug g) out /\ kept g g' /\ forall n fs, reads z (file_put n out fs) n g'.
Proof.
  intros Hz S. destruct (storable_one z ZS debug g Hz S) as (out & g' & W & _ & K & R). exists out, g'. split; [now apply emits_appends|].
  split; [exact K|]. intros n fs. exists out. split; [apply put_same|]. exists (i_open []). rewrite <- (app_nil_r out). apply R. constructor.
Qed.

Lemma storable_live f : storable f -> live f.
Proof. intros ([Q1 Q2 _ _ _ Q3 _] & _). split; [lia|lia|exact Q3]. Qed.

(** spoc_filter writes what the filter makes of the file; when the filter fails nothing
    changes. *)
Theorem C89_filter z ZS sh stod atof debug acc f fs a b argv es input os : zlib_ok z ZS -> permutes sh -> storable f ->
  reads z fs a f -> may_read acc a -> may_write acc b -> asks filter_options argv es [a; b] ->
  let args := mk_filter_args (map atoi (arguments "keep-class" es)) (final (fun s => to_u64 (atol s)) "random-seed" es 0)
       (map atoi (arguments "remove-class" es)) (given "unique-xyz" es) (final atof "subsample" es d_zero)
       (final (fun s => s) "remove-coords" es []) in
  match filter_process sh stod args f with
  | Ret g => exists fs' g', spoc_filter z sh stod atof debug acc argv input os fs = (os, fs', Ret 0)
               /\ reads z fs' b g' /\ kept g g' /\ storable g' /\ forall n, n <> b -> fs' n = fs n
  | Throw _ => spoc_filter z sh stod atof debug acc argv input os fs = (os, fs, Ret (-1))
  | UB u => spoc_filter z sh stod atof debug acc argv input os fs = (os, fs, UB u)
  | Hang => spoc_filter z sh stod atof debug acc argv input os fs = (os, fs, Hang)
  end.
Proof.
  intros Hz P S (bytes & Ea & s & R0) Ra Wb (L & H & V) args. unfold spoc_filter.
  rewrite (program_runs _ _ _ _ _ _ _ (C84_filter atof _ _ _ L H)) by assumption || reflexivity. fold args.
  destruct (filter_process sh stod args f) as [g|e|u|] eqn:E.
  - assert (Sg : storable g).
    { destruct (C78_only_selects sh stod args f g P (storable_live f S) E) as ((M1 & M2 & M3 & M4) & (rest & Pm) & _).
      assert (G : with_prs f (f_prs g) = g) by (clear - M1 M2 M3 M4; destruct g, f; cbn in *; unfold with_prs; cbn; congruence).
      rewrite <- G. apply storable_pick; [exact S| |].
      - intros p I. eapply Permutation_in; [exact Pm|]. apply in_or_app. now left.
      - apply Permutation_length in Pm. rewrite app_length in Pm. lia. }
    destruct (written_reads z ZS debug g Hz Sg) as (out & g' & A & Kg & Rg). exists (file_put b out fs), g'.
    assert (Wk : filter_work z sh stod debug args bytes = Ret _) by (unfold filter_work; rewrite R0; cbn [bind]; rewrite E; reflexivity).
    rewrite (convert_run _ _ _ _ _ input os fs _ _ Ra Wb Ea Wk A).
    split; [reflexivity|]. split; [apply Rg|]. split; [exact Kg|]. split; [now apply kept_storable with g|]. intros n N. now apply put_other.
  - assert (Wk : filter_work z sh stod debug args bytes = Throw e) by (unfold filter_work; rewrite R0; cbn [bind]; rewrite E; reflexivity).
    now rewrite (convert_throws _ _ _ _ _ input os fs _ Ra Ea Wk).
  - destruct Ra as [Na Ra]. unfold convert. cbn [io_input]. rewrite (input_file acc a input fs bytes Na Ea Ra). cbn [bind].
    unfold filter_work. rewrite R0. cbn [bind]. now rewrite E.
  - destruct Ra as [Na Ra]. unfold convert. cbn [io_input]. rewrite (input_file acc a input fs bytes Na Ea Ra). cbn [bind].
    unfold filter_work. rewrite R0. cbn [bind]. now rewrite E.
Qed.

(** --keep-class and --remove-class with the same number: one file gets the records of
    this class, the other one gets the rest, both in their order. *)
Theorem C89_classes z ZS sh stod atof debug acc f fs a b c t n argv1 argv2 in1 in2 os1 os2 : zlib_ok z ZS -> permutes sh -> storable f ->
  reads z fs a f -> may_read acc a -> may_write acc b -> may_write acc c -> a <> b ->
  reads_as t n -> 0 <= n < 2 ^ 31 ->
  asks filter_options argv1 [("keep-class"%string, Some t)] [a; b] ->
  asks filter_options argv2 [("remove-class"%string, Some t)] [a; c] ->
  exists fs1 fs2 k r,
    spoc_filter z sh stod atof debug acc argv1 in1 os1 fs = (os1, fs1, Ret 0) /\
    spoc_filter z sh stod atof debug acc argv2 in2 os2 fs1 = (os2, fs2, Ret 0) /\
    reads z fs1 b k /\ kept (with_prs f (filter (fun p => rc p =? n) (f_prs f))) k /\
    reads z fs2 c r /\ kept (with_prs f (filter (fun p => negb (rc p =? n)) (f_prs f))) r.
Proof.
  intros Hz P S Ra Ma Wb Wc N T Hn L1 L2.
  assert (A : atoi t = n) by (destruct (C84_numbers t n T) as (X & _); apply X; unfold two31; lia).
  destruct (C49_class_filters f [n] (storable_live f S)) as (k & r & Ek & Er & (M1 & M2 & M3 & M4) & (M5 & M6 & M7 & M8) & Fk & Fr).
  assert (Q : forall p, In p (f_prs f) -> member (to_i32 (rc p)) [n] = (rc p =? n)).
  { intros p I. destruct S as (G & _). pose proof (gf_prs f G) as O. rewrite Forall_forall in O. specialize (O p I).
    assert (B : 0 <= rc p < two32) by apply O. unfold member, to_i32, two31, two32 in *. rewrite Z.mod_small by lia.
    destruct (in_dec Z.eq_dec _ [n]) as [X|X]; [destruct X as [X|[]]|]; destruct (Z.eqb_spec (rc p) n) as [E|E]; try reflexivity.
    - destruct (Z.ltb_spec (rc p) 2147483648); lia.
    - elim X. left. destruct (Z.ltb_spec (rc p) 2147483648); lia. }
  assert (Gk : k = with_prs f (filter (fun p => rc p =? n) (f_prs f))).
  { rewrite (filter_ext_in _ _ _ Q) in Fk. clear - M1 M2 M3 M4 Fk. destruct k, f; cbn in *. unfold with_prs. cbn. congruence. }
  assert (Gr : r = with_prs f (filter (fun p => negb (rc p =? n)) (f_prs f))).
  { rewrite (filter_ext_in (fun p => negb (member (to_i32 (rc p)) [n])) (fun p => negb (rc p =? n))) in Fr by (intros p I; now rewrite Q).
    clear - M5 M6 M7 M8 Fr. destruct r, f; cbn in *. unfold with_prs. cbn. congruence. }
  assert (Lk : live k) by (split; rewrite ?M1, ?M2; try apply (storable_live f S); intros p q Ip Iq; apply (lv_uniform f (storable_live f S)); rewrite Fk in *; now apply filter_In in Ip, Iq).
  assert (Lr : live r) by (split; rewrite ?M5, ?M6; try apply (storable_live f S); intros p q Ip Iq; apply (lv_uniform f (storable_live f S)); rewrite Fr in *; now apply filter_In in Ip, Iq).
  assert (FP1 : filter_process sh stod (mk_filter_args [n] 0 [] false d_zero []) f = Ret k).
  { unfold filter_process, assign_if. cbn [fa_keep fa_remove fa_unique fa_subsample fa_coords nonempty]. rewrite Ek. cbn [bind]. rewrite ?live_copy by exact Lk. reflexivity. }
  assert (FP2 : filter_process sh stod (mk_filter_args [] 0 [n] false d_zero []) f = Ret r).
  { unfold filter_process, assign_if. cbn [fa_keep fa_remove fa_unique fa_subsample fa_coords nonempty bind]. rewrite Er. cbn [bind]. rewrite ?live_copy by exact Lr. reflexivity. }
  pose proof (C89_filter z ZS sh stod atof debug acc f fs a b argv1 _ in1 os1 Hz P S Ra Ma Wb L1) as F1. cbv zeta in F1.
  change (mk_filter_args _ _ _ _ _ _) with (mk_filter_args [atoi t] 0 [] false d_zero []) in F1. rewrite A, FP1 in F1.
  destruct F1 as (fs1 & k' & E1 & R1 & K1 & _ & O1).
  assert (Ra1 : reads z fs1 a f) by (destruct Ra as (bytes & Eb & R); exists bytes; split; [now rewrite O1|exact R]).
  pose proof (C89_filter z ZS sh stod atof debug acc f fs1 a c argv2 _ in2 os2 Hz P S Ra1 Ma Wc L2) as F2. cbv zeta in F2.
  change (mk_filter_args _ _ _ _ _ _) with (mk_filter_args [] 0 [atoi t] false d_zero []) in F2. rewrite A, FP2 in F2.
  destruct F2 as (fs2 & r' & E2 & R2 & K2 & _ & O2).
  exists fs1, fs2, k', r'. rewrite <- Gk, <- Gr. repeat (split; [assumption|]). assumption.
Qed.

(** The exit status of spoc_diff is 0 exactly when the parts that are compared are the
    same, and -1 otherwise. *)
Theorem C89_diff z ZS debug acc f g fs a b argv es os : zlib_ok z ZS -> storable f -> storable g ->
  stored z debug fs a f -> stored z debug fs b g -> may_read acc a -> may_read acc b ->
  asks diff_options argv es [a; b] -> given "field" es = false -> given "reverse" es = false ->
  exists r, spoc_diff z acc argv os fs = (os, fs, Ret r) /\ (r = 0 \/ r = -1) /\
    (r = 0 <-> (given "data-only" es = false -> same_header f g)
             /\ (given "data-only" es = true \/ given "header-only" es = false -> same_records (f_prs f) (f_prs g))).
Proof.
  intros Hz Sf Sg St1 St2 [_ Ra] [_ Rb] (L & H & V) NF NR.
  destruct (C61_files z ZS debug f g (given "header-only" es) (given "data-only" es) Hz Sf Sg) as (ba & bb & r & A & B & D & Hr & Iff).
  pose proof (stored_bytes _ _ _ _ _ _ A St1) as Ea. pose proof (stored_bytes _ _ _ _ _ _ B St2) as Eb.
  exists r. split; [|split; [exact Hr|exact Iff]].
  unfold spoc_diff. pose proof (C84_diff _ _ _ L H) as G. cbv iota in G. rewrite (program_runs _ _ _ _ _ _ _ G) by assumption || reflexivity.
  rewrite NR. replace (arguments "field" es) with (@nil (list Z)).
  2: { clear - NF. induction es as [|[n v] es IH]; [reflexivity|]. cbn in NF. unfold arguments. cbn. 
       destruct (String.eqb n "field"); [discriminate NF|]. now apply IH. }
  rewrite (open_input_ok acc fs a ba Ea Ra), (open_input_ok acc fs b bb Eb Rb). cbn [bind List.concat map].
  unfold diff_tool in D. destruct (diff_run z _ ba bb) as [x|e|u|]; cbn [exit_status]; try discriminate D; [now injection D as ->|now injection D as <-].
Qed.

(** spoc_srs with an SRS and without: what was set is what is printed. *)
Theorem C89_srs z ZS debug acc f fs a b argv1 argv2 es1 es2 in1 in2 os1 os2 : zlib_ok z ZS -> storable f ->
  stored z debug fs a f -> may_read acc a -> may_read acc b -> may_write acc b ->
  asks srs_options argv1 es1 [a; b] -> given "srs" es1 = true -> asks srs_options argv2 es2 [b] -> given "srs" es2 = false ->
  let srs := final (fun s => s) "srs" es1 [] in
  is_bytes srs -> Z.of_nat (List.length srs) <= 65535 -> healthy os2 ->
  exists fs1 os3, spoc_srs z debug acc argv1 in1 os1 fs = (os1, fs1, Ret 0)
    /\ spoc_srs z debug acc argv2 in2 os2 fs1 = (os3, fs1, Ret 0)
    /\ o_bytes os3 = o_bytes os2 ++ srs ++ [10] /\ forall n, n <> b -> fs1 n = fs n.
Proof.
  intros Hz S St Ra Rb Wb (L1 & H1 & V1) G1 (L2 & H2 & V2) G2 srs B Ln Ho.
  destruct Ra as [_ Ra], Rb as [_ Rb], Wb as [_ Wb].
  destruct (C69_set z ZS debug acc srs f Hz S B Ln) as (bytes & f1 & A & _ & H).
  pose proof (stored_bytes _ _ _ _ _ _ A St) as Ea.
  destruct (H a b in1 fs os1 Ea Ra Wb) as (out & g & M & Rg & Wg & _).
  destruct (C69_get z debug acc [] [b] [g] in2 (file_put b out fs) ltac:(discriminate)) with (os := os2) as (os3 & E3 & _ & B3); [|exact Ho|].
  { constructor; [|constructor]. split; [exact Rb|]. exists out. split; [apply put_same|]. now exists (i_open []). }
  exists (file_put b out fs), os3.
  unfold spoc_srs. rewrite (program_runs _ _ _ _ _ _ _ (C84_srs _ _ _ L1 H1)) by assumption || reflexivity.
  rewrite (program_runs _ _ _ _ _ _ _ (C84_srs _ _ _ L2 H2)) by assumption || reflexivity. rewrite G1, G2. fold srs. rewrite M.
  replace (final (fun s : list Z => s) "srs" es2 []) with (@nil Z).
  2: { unfold final. replace (arguments "srs" es2) with (@nil (list Z)); [reflexivity|].
       clear - G2. induction es2 as [|[n v] es IH]; [reflexivity|]. cbn in G2. unfold arguments. cbn. 
       destruct (String.eqb n "srs"); [discriminate G2|]. now apply IH. }
  rewrite E3. split; [reflexivity|]. split; [reflexivity|]. split; [|intros n N; now apply put_other].
  rewrite B3. cbn [map]. rewrite Wg. unfold on_lines. cbn. now rewrite app_nil_r.
Qed.

(** spoc_merge: the files are put one after another, with new point ids. *)
Theorem C89_merge z ZS debug acc fs fns f rest argv es os : zlib_ok z ZS -> asks merge_options argv es fns -> all_bytes fs ->
  Forall2 (fun n f => may_read acc n /\ reads z fs n f) fns (f :: rest) -> rest <> [] ->
  uniform (flat_map f_prs (f :: rest)) -> healthy os ->
  let id := final atoi "point-id" es (-1) in
  exists g, f_major g = 0 /\ f_minor g = 1 /\ f_wkt g = f_wkt f /\ (f_compressed g = true <-> forall h, In h (f :: rest) -> f_compressed h = true)
  /\ f_prs g = flat_map (fun '(i, h) => map (with_id (if id <? 0 then i mod 2 ^ 32 else id mod 2 ^ 32)) (f_prs h)) (numbered 0 (f :: rest))
  /\ (storable g -> exists os' out g', spoc_merge z debug acc argv os fs = (os', fs, Ret 0) /\ o_bytes os' = o_bytes os ++ out
        /\ read_spoc_file z (i_open out) = Ret (g', i_open []) /\ kept g g').
Proof.
  intros Hz (L & H & V) B R N U Ho id.
  assert (X : exists bs, map (readable acc fs) fns = map Some bs /\ Forall is_bytes bs /\ Forall2 (file_of (read_spoc_file z)) bs (f :: rest)).
  { clear - B R. induction R as [|n h ns hs [[_ Rn] (bytes & E & F)] R (bs & E2 & B2 & F2)]; [exists []; repeat split; constructor|].
    exists (bytes :: bs). cbn [map]. rewrite E2. unfold readable at 1. rewrite Rn, E. repeat split; constructor; auto. now apply B in E. }
  destruct X as (bs & Eb & Bb & Fb).
  destruct (C51_concatenates z ZS (mk_merge_args (toggled "quiet" es false) id) bs f rest Hz Bb Fb N U) as (g & w & M & Mj & Mn & W & C & P & _).
  exists g. split; [exact Mj|]. split; [exact Mn|]. split; [exact W|]. split; [exact C|]. split; [exact P|]. intros S.
  destruct (C51_file_to_file z ZS debug _ bs f rest g w Hz Bb Fb M S) as (out & g' & A & K & Rd).
  destruct (A os Ho) as (os' & Eo & _ & Bo). exists os', out, g'.
  split; [|split; [exact Bo|split; [exact Rd|exact K]]].
  unfold spoc_merge. rewrite (program_runs _ _ _ _ _ _ _ (C84_merge _ _ _ L H)) by assumption || reflexivity.
  unfold to_cout. fold id. rewrite Eb, Eo. reflexivity.
Qed.

(** spoc_tool --get-field prints a field; spoc_tool --set-field with this text changes
    nothing: the second file is what is written for the first. *)
Theorem C89_fields z ZS show rd atof debug acc f fs a b t fld name argv1 argv2 in1 in2 os1 os2 : zlib_ok z ZS -> storable f ->
  reads z fs a f -> may_read acc a -> may_read acc t -> may_write acc b -> healthy os1 ->
  names fld name -> Forall alphanumeric name -> integer_field fld -> (forall p, In p (f_prs f) -> value fld p <> None) ->
  asks tool_options argv1 [("get-field"%string, Some name)] [a] ->
  asks tool_options argv2 [("set-field"%string, Some name); ("field-filename"%string, Some t)] [a; b] ->
  exists os' text, spoc_tool z show rd atof debug acc argv1 in1 os1 fs = (os', fs, Ret 0) /\ o_bytes os' = o_bytes os1 ++ text
  /\ (forall fs', fs' a = fs a -> fs' t = Some text -> exists fs2,
        spoc_tool z show rd atof debug acc argv2 in2 os2 fs' = (os2, fs2, Ret 0) /\ stored z debug fs2 b f /\ forall n, n <> b -> fs2 n = fs' n).
Proof.
  intros Hz S (bytes & Ea & s & R0) Ra Rt Wb Ho Nm An If Vf (L1 & H1 & V1) (L2 & H2 & V2).
  pose proof S as (Gf & _).
  destruct (C64_round_trip show rd debug f fld name (storable_live f S) Nm If (gf_prs f Gf) Vf) as (text & A & SF).
  destruct (A os1 Ho) as (os' & Eo & _ & Bo). exists os', text.
  assert (Cn : consume_field_name name = Ret (name, [])).
  { pose proof (FieldFacts.consume_name fld name [] Nm An) as X. rewrite app_nil_r in X. now apply X. }
  split; [|split; [exact Bo|]].
  - unfold spoc_tool. pose proof (tool_line atof _ _ _ L1 H1) as G.
    change (one_command _) with (Some (mk_command (chars "get-field") name)) in G. cbv iota in G. cbn [with_names input_and_output] in G.
    rewrite (program_runs _ _ _ _ _ _ _ G) by assumption || reflexivity. unfold tool_body. cbn [ta_command cmd_name cmd_params io_input].
    change (no_chars (chars "get-field")) with false. change (beq_bytes (chars "get-field") (chars "get-field")) with true. cbv iota.
    destruct Ra as [Na Ra]. unfold to_cout, w_bind, w_lift. rewrite (input_file acc a in1 fs bytes Na Ea Ra). cbn [bind]. rewrite R0, Cn, Eo. reflexivity.
  - intros fs' Ea' Et. rewrite Ea in Ea'. destruct (written_reads z ZS debug f Hz S) as (out & f' & Aw & _ & _).
    unfold spoc_tool. pose proof (tool_line atof _ _ _ L2 H2) as G.
    change (one_command _) with (Some (mk_command (chars "set-field") name)) in G. cbv iota in G. cbn [with_names input_and_output] in G.
    rewrite (program_runs _ _ _ _ _ _ _ G) by assumption || reflexivity. unfold tool_body. cbn [ta_command cmd_name cmd_params].
    change (no_chars (chars "set-field")) with false. change (beq_bytes (chars "set-field") (chars "get-field")) with false. cbv iota.
    match goal with |- context [convert acc _ (tool_work z rd debug (readable acc fs') ?x)] => set (args := x) end.
    assert (Cmd : tool_command z rd debug (readable acc fs') args f = Ret f).
    { unfold tool_command, args. cbn [ta_command cmd_name cmd_params ta_field_fn].
      change (final (fun s0 : list Z => s0) "field-filename" _ []) with t.
      repeat match goal with |- context [beq_bytes (chars ?x) (chars ?y)] =>
        let v := eval vm_compute in (beq_bytes (chars x) (chars y)) in change (beq_bytes (chars x) (chars y)) with v; cbv iota end.
      destruct Rt as [Nt Rt]. replace (no_chars t) with false by (destruct t; [now elim Nt|reflexivity]).
      unfold open_text, readable. rewrite Rt, Et. cbn [bind]. rewrite Cn. cbn [bind]. rewrite SF. cbn [bind]. now apply live_copy, storable_live. }
    assert (Wk : tool_work z rd debug (readable acc fs') args bytes = Ret _) by (unfold tool_work; rewrite R0; cbn [bind]; rewrite Cmd; reflexivity).
    rewrite (convert_run _ _ _ _ _ in2 os2 fs' _ _ Ra Wb Ea' Wk Aw). exists (file_put b out fs'). split; [reflexivity|].
    split; [exists out; split; [apply put_same|exact Aw]|]. intros n N. now apply put_other.
Qed.

(** ** C90: spoc_transform and its output file *)

Lemma transform_runs stod t noise acc argv es ops a os fs input io : asks transform_options argv es ops ->
  chosen noise_options es = [] -> input_and_output ops = Some (io_input io, io_output io) ->
  a = mk_transform_args (map (fun '(n, v) => mk_command (chars n) v) (chosen transform_commands es)) (final (fun s => to_u64 (atol s)) "random-seed" es 0) ->
  spoc_transform stod t noise acc argv input os fs =
  let '(os, fs, r) := transform_body stod t noise acc a io input os fs in (os, fs, exit_status r).
Proof.
  intros (L & H & V) N I ->. unfold spoc_transform. pose proof (C84_transform _ _ _ L H) as G.
  replace (existsb (fun s : setting => existsb (String.eqb (fst s)) noise_options) es) with false in G.
  2: { clear - N. induction es as [|s es IH]; [reflexivity|]. cbn [existsb]. unfold chosen in N. cbn [flat_map] in N.
       destruct (existsb (String.eqb (fst s)) noise_options); [discriminate N|]. now apply IH. }
  unfold with_names in G. rewrite I in G. destruct io as [i o]. cbn [io_input io_output] in G.
  now rewrite (program_runs _ _ _ _ _ _ _ G).
Qed.

(** The output file is the input file with the commands applied to each record. *)
Theorem C90_transform z stod t noise debug acc f k fs a b argv es prs' input os :
  (forall s v n, stod s = Some (v, n) -> d_ok v) -> good_file f -> f_compressed f = false ->
  has_extras k (f_prs f) -> k <= 255 -> stored z debug fs a f -> may_read acc a -> may_write acc b -> a <> b ->
  asks transform_options argv es [a; b] -> chosen noise_options es = [] ->
  let cs := map (fun '(n, v) => mk_command (chars n) v) (chosen transform_commands es) in
  let seed := final (fun s => to_u64 (atol s)) "random-seed" es 0 in
  cs <> [] -> understood stod t noise seed (get_extra_fields f) cs ->
  Forall2 (fun kp p' => applies stod t noise seed (get_extra_fields f) cs (fst kp) (snd kp) p') (numbered 0 (f_prs f)) prs' ->
  exists fs', spoc_transform stod t noise acc argv input os fs = (os, fs', Ret 0) /\ stored z debug fs' b (with_prs f prs')
    /\ forall n, n <> b -> fs' n = fs n.
Proof.
  intros Sok G C X K St [Na Ra] [Nb Wb] N L NN cs seed Nc U A.
  destruct (C56_file stod t noise seed Sok z debug f k cs prs' G C X K Nc U A) as (bytes & out & A1 & A2 & A3 & _).
  pose proof (stored_bytes _ _ _ _ _ _ A1 St) as Ea.
  exists (file_put b out fs). split; [|split; [exists out; split; [apply put_same|exact A3]|intros n Nn; now apply put_other]].
  rewrite (transform_runs stod t noise acc argv es [a; b] (mk_transform_args cs seed) os fs input (mk_io a b) L NN eq_refl eq_refl).
  unfold transform_body. cbn [xa_commands xa_seed io_input io_output]. unfold transform_tool in A2. destruct cs as [|c0 cs]; [congruence|].
  rewrite (input_file acc a input fs bytes Na Ea Ra).
  destruct (beq_bytes a b) eqn:B; [apply beq_bytes_eq in B; congruence|]. rewrite andb_false_r.
  unfold output_stream. destruct b as [|x b]; [now elim Nb|]. rewrite Wb. cbn [negb].
  destruct (A2 o_open) as (o & -> & _ & Bo); [now split|]. now rewrite Bo.
Qed.

(** Finding: with the same name for the input and the output, which works with the other
    programs (C87), all records and the WKT are lost: the output is opened before the input
    is read, and an empty input is read as an empty file.  The exit status is 0. *)
Theorem C90_in_place z stod t noise debug acc fs a bytes argv es input os : fs a = Some bytes -> may_read acc a -> may_write acc a ->
  asks transform_options argv es [a; a] -> chosen noise_options es = [] ->
  let cs := map (fun '(n, v) => mk_command (chars n) v) (chosen transform_commands es) in
  let seed := final (fun s => to_u64 (atol s)) "random-seed" es 0 in
  cs <> [] ->
  stored z debug (files_of (spoc_transform stod t noise acc argv input os fs)) a (mk_file 0 1 [] false []) /\
  (understood stod t noise seed 0 cs -> status_of (spoc_transform stod t noise acc argv input os fs) = Ret 0).
Proof.
  intros Ea [Na Ra] [_ Wa] L NN cs seed Nc.
  rewrite (transform_runs stod t noise acc argv es [a; a] (mk_transform_args cs seed) os fs input (mk_io a a) L NN eq_refl eq_refl).
  rewrite exit_files, exit_twice.
  unfold transform_body. cbn [xa_commands xa_seed io_input io_output]. destruct cs as [|c0 cs]; [congruence|].
  rewrite (input_file acc a input fs bytes Na Ea Ra), beq_bytes_refl.
  destruct a as [|x a]; [now elim Na|]. cbn [nonempty andb]. unfold output_stream. rewrite Wa. cbn [negb].
  unfold transform_apply, w_bind at 1 3, w_lift at 1 3. unfold read_header_uncompressed.
  destruct (read_header (i_open [])) as [[h s]| | |] eqn:Eh; try (vm_compute in Eh; discriminate Eh). cbn [bind].
  assert (H0 : h_compressed h = 0 /\ h_total h = 0 /\ h_extra h = 0 /\ get_header (mk_file 0 1 [] false []) = Ret h /\ h_sig h = SPOC).
  { vm_compute in Eh. injection Eh as <- <-. repeat split. }
  destruct H0 as (-> & Ht & He & Gh & Sg). cbn [Z.eqb negb].
  assert (Wh : forall k : writer unit, w_seq (write_header h) k o_open = k (os_write (header_bytes h) o_open)).
  { intros k. unfold w_seq, w_bind. rewrite (write_header_emits h Sg o_open) by (intros r E; discriminate E). reflexivity. }
  rewrite !Wh. unfold w_bind, w_lift. rewrite Ht, He. cbn [Z.to_nat transform_points].
  assert (St : forall fs, stored z debug (file_put (x :: a) (o_bytes (os_write (header_bytes h) o_open)) fs) (x :: a) (mk_file 0 1 [] false [])).
  { intros fs0. eexists. split; [apply put_same|]. cbn [os_write o_open o_bad o_room o_bytes app].
    rewrite <- (app_nil_r (header_bytes h)). apply emits_appends. apply (write_file_uncompressed_emits z debug (mk_file 0 1 [] false []) h); [intros p q []|reflexivity|exact Gh]. }
  destruct (mapM _ (c0 :: cs)) as [ops| | |] eqn:Em.
  - split; [apply St|reflexivity].
  - split; [apply St|]. intros U. destruct (understood_ops stod t noise seed 0 (c0 :: cs) U) as (ops & Eo & _). congruence.
  - split; [apply St|]. intros U. destruct (understood_ops stod t noise seed 0 (c0 :: cs) U) as (ops & Eo & _). congruence.
  - split; [apply St|]. intros U. destruct (understood_ops stod t noise seed 0 (c0 :: cs) U) as (ops & Eo & _). congruence.
Qed.

(** Finding: a compressed input is refused only after the output file was emptied. *)
Theorem C90_compressed z stod t noise acc f fs a b argv es input os : reads z fs a f -> f_compressed f = true -> may_read acc a -> may_write acc b -> a <> b ->
  asks transform_options argv es [a; b] -> chosen noise_options es = [] -> chosen transform_commands es <> [] ->
  exists fs', spoc_transform stod t noise acc argv input os fs = (os, fs', Ret (-1)) /\ fs' b = Some [] /\ forall n, n <> b -> fs' n = fs n.
Proof.
  intros (bytes & Ea & s & R) C [Na Ra] [Nb Wb] N L NN Nc. exists (file_put b [] fs).
  split; [|split; [apply put_same|intros n Nn; now apply put_other]].
  rewrite (transform_runs stod t noise acc argv es [a; b] _ os fs input (mk_io a b) L NN eq_refl eq_refl).
  unfold transform_body. cbn [xa_commands xa_seed io_input io_output].
  destruct (chosen transform_commands es) as [|[n v] cs]; [congruence|]. cbn [map].
  rewrite (input_file acc a input fs bytes Na Ea Ra).
  destruct (beq_bytes a b) eqn:B; [apply beq_bytes_eq in B; congruence|]. rewrite andb_false_r.
  unfold output_stream. destruct b as [|x b]; [now elim Nb|]. rewrite Wb. cbn [negb].
  unfold transform_apply, w_bind at 1, w_lift at 1. unfold read_header_uncompressed.
  unfold read_spoc_file in R. apply bind_Ret_inv in R as ([h s1] & Eh & R). rewrite Eh. cbn [bind].
  apply bind_Ret_inv in R as ([prs s2] & Ep & R). apply bind_Ret_inv in R as (f0 & Ef & [= -> _]).
  assert (Cf : f_compressed f = negb (h_compressed h =? 0)).
  { clear - Ef. unfold file_ctor_wkt, file_ctor in Ef. destruct (negb (all_same_size_extra prs)); [discriminate Ef|].
    now injection Ef as <-. }
  rewrite <- Cf, C. reflexivity.
Qed.

(** ** Examples *)

(** The disk of the examples: "a" is not compressed, "b" is *)
Lemma p_written c : appends (write_spoc_file toy false (p_file c)) (sp_bytes (p_file c)).
Proof.
  destruct (storable_one toy toy_stream false (p_file c) toy_ok (p_storable c)) as (bytes & f & W & _). apply emits_appends in W.
  destruct (W o_open) as (os & E & _ & B); [now split|].
  replace (sp_bytes (p_file c)) with bytes; [exact W|]. cbn in B. rewrite <- B.
  transitivity (o_bytes (fst (write_spoc_file toy false (p_file c) o_open))); [now rewrite E|]. destruct c; now vm_compute.
Qed.

Lemma p_stored : stored toy false p_fs (chars "a") (p_file false) /\ stored toy false p_fs (chars "b") (p_file true).
Proof. split; eexists; (split; [|apply p_written]); now vm_compute. Qed.

Lemma p_reads : reads toy p_fs (chars "a") (p_file false) /\ reads toy p_fs (chars "b") (p_file true).
Proof. split; eexists; (split; [vm_compute; reflexivity|]); exists (i_open []); now vm_compute. Qed.

Lemma p_rights s : s <> EmptyString -> may_read all_rights (chars s) /\ may_write all_rights (chars s).
Proof. intros N. split; (split; [|reflexivity]); destruct s; now try discriminate. Qed.

Lemma asks_plain t l : Forall operand (words l) -> asks t (words l) [] (words l).
Proof. intros H. split; [now apply plain_line|now split]. Qed.

Lemma asks_option t n l v ops : In (mk_entry n l true) t -> ~ In equals (chars n) -> n <> "help"%string -> n <> "version"%string ->
  Forall operand (words ops) -> asks t ((dash :: dash :: chars n ++ equals :: chars v) :: words ops) [(n, Some (chars v))] (words ops).
Proof.
  intros I E H V O. split; [now apply option_line with l|]. apply String.eqb_neq in H, V. unfold given. cbn [existsb fst]. now rewrite H, V.
Qed.

Ltac option_asked n l v ops := refine (asks_option _ n l v ops _ _ _ _ _); [cbn; tauto|cbn; intuition discriminate|discriminate|discriminate|operands].

Example C88_example :
  let fs1 := files_of (spoc_compress toy false all_rights (words ["a"; "c"]%string) [] at_start p_fs) in
  let fs2 := files_of (spoc_decompress toy false all_rights (words ["c"; "d"]%string) [] at_start fs1) in
  good_file (p_file false) /\ has_extras 2 (f_prs (p_file false)) /\ stored toy false p_fs (chars "a") (p_file false)
  /\ asks convert_options (words ["a"; "c"]%string) [] (words ["a"; "c"]%string)
  /\ asks convert_options (words ["c"; "d"]%string) [] (words ["c"; "d"]%string)
  /\ fs1 (chars "c") = p_fs (chars "b") /\ fs2 (chars "d") = p_fs (chars "a") /\ fs2 (chars "a") = p_fs (chars "a").
Proof.
  cbv zeta. split; [apply p_storable|]. split; [intros p [<-|[<-|[]]]; reflexivity|]. split; [apply p_stored|].
  split; [apply asks_plain; operands|]. split; [apply asks_plain; operands|]. split; [now vm_compute|]. split; now vm_compute.
Qed.

(** --keep-class=3 and --remove-class=3 *)
Example C89_filter_example sh stod atof :
  let fs1 := files_of (spoc_filter toy sh stod atof false all_rights (words ["--keep-class=3"; "b"; "c"]%string) [] at_start p_fs) in
  let fs2 := files_of (spoc_filter toy sh stod atof false all_rights (words ["--remove-class=3"; "b"; "d"]%string) [] at_start fs1) in
  storable (p_file true) /\ reads toy p_fs (chars "b") (p_file true)
  /\ asks filter_options (words ["--keep-class=3"; "b"; "c"]%string) [("keep-class"%string, Some (chars "3"))] (words ["b"; "c"]%string)
  /\ asks filter_options (words ["--remove-class=3"; "b"; "d"]%string) [("remove-class"%string, Some (chars "3"))] (words ["b"; "d"]%string)
  /\ reads_as (chars "3") 3
  /\ option_map (fun f => map rc (f_prs f)) (seen fs2 "c") = Some [3] /\ option_map (fun f => map rc (f_prs f)) (seen fs2 "d") = Some [2]
  /\ option_map f_compressed (seen fs2 "d") = Some true.
Proof.
  cbv zeta. split; [apply p_storable|]. split; [apply p_reads|].
  split; [option_asked "keep-class"%string "k"%string "3"%string ["b"; "c"]%string|]. split; [option_asked "remove-class"%string "r"%string "3"%string ["b"; "d"]%string|]. split.
  { exists [], [], [51], []. split; [reflexivity|]. split; [constructor|]. split; [constructor; [unfold digit; lia|constructor]|].
    split; [discriminate|]. split; [intros c u E; discriminate E|]. left. split; [now left|reflexivity]. }
  split; [now vm_compute|]. split; now vm_compute.
Qed.

(** "a" and "b" differ by compression only. *)
Example C89_diff_example :
  asks diff_options (words ["a"; "b"]%string) [] (words ["a"; "b"]%string)
  /\ status_of (spoc_diff toy all_rights (words ["a"; "b"]%string) at_start p_fs) = Ret (-1)
  /\ status_of (spoc_diff toy all_rights (words ["-d"; "a"; "b"]%string) at_start p_fs) = Ret 0
  /\ status_of (spoc_diff toy all_rights (words ["a"; "a"]%string) at_start p_fs) = Ret 0.
Proof. split; [apply asks_plain; operands|]. split; [now vm_compute|]. split; now vm_compute. Qed.

Example C89_srs_example :
  let fs1 := files_of (spoc_srs toy false all_rights (words ["--srs=new"; "b"; "c"]%string) [] at_start p_fs) in
  asks srs_options (words ["--srs=new"; "b"; "c"]%string) [("srs"%string, Some (chars "new"))] (words ["b"; "c"]%string)
  /\ asks srs_options (words ["c"]%string) [] (words ["c"]%string)
  /\ o_bytes (stdout_of (spoc_srs toy false all_rights (words ["c"]%string) [] at_start fs1)) = chars "new" ++ [10].
Proof. cbv zeta. split; [option_asked "srs"%string "s"%string "new"%string ["b"; "c"]%string|]. split; [apply asks_plain; operands|now vm_compute]. Qed.

Example C89_merge_example :
  let run := spoc_merge toy false all_rights (words ["b"; "a"; "b"]%string) at_start p_fs in
  asks merge_options (words ["b"; "a"; "b"]%string) [] (words ["b"; "a"; "b"]%string)
  /\ Forall2 (fun n f => may_read all_rights n /\ reads toy p_fs n f) (words ["b"; "a"; "b"]%string) [p_file true; p_file false; p_file true]
  /\ status_of run = Ret 0
  /\ match read_spoc_file toy (i_open (o_bytes (stdout_of run))) with
     | Ret (g, _) => f_compressed g = false /\ map rp (f_prs g) = [0; 0; 1; 1; 2; 2]
     | _ => False
     end.
Proof.
  cbv zeta. split; [apply asks_plain; operands|]. split.
  - repeat (constructor; [split; [apply p_rights; discriminate|apply p_reads]|]). constructor.
  - split; now vm_compute.
Qed.

(** The first extra field, written as text and read back *)
Example C89_fields_example show rd atof :
  let out := o_bytes (stdout_of (spoc_tool toy show rd atof false all_rights (words ["--get-field=e0"; "a"]%string) [] at_start p_fs)) in
  let fs := file_put (chars "t") out p_fs in
  asks tool_options (words ["--get-field=e0"; "a"]%string) [("get-field"%string, Some (chars "e0"))] (words ["a"]%string)
  /\ out = chars "5" ++ [10] ++ chars "5" ++ [10]
  /\ status_of (spoc_tool toy show rd atof false all_rights (words ["--set-field=e0"; "--field-filename=t"; "a"; "c"]%string) [] at_start fs) = Ret 0
  /\ files_of (spoc_tool toy show rd atof false all_rights (words ["--set-field=e0"; "--field-filename=t"; "a"; "c"]%string) [] at_start fs) (chars "c")
     = p_fs (chars "a").
Proof. cbv zeta. split; [option_asked "get-field"%string "g"%string "e0"%string ["a"]%string|]. split; [now vm_compute|]. split; now vm_compute. Qed.

(** Twice the x coordinate in another file; in place the records are lost. *)
Example C90_example :
  let run l fs := spoc_transform tx_stod tx_trig tx_noise all_rights (words l) [] at_start fs in
  asks transform_options (words ["--scale-x=2"; "a"; "c"]%string) [("scale-x"%string, Some (chars "2"))] (words ["a"; "c"]%string)
  /\ asks transform_options (words ["--scale-x=2"; "a"; "a"]%string) [("scale-x"%string, Some (chars "2"))] (words ["a"; "a"]%string)
  /\ status_of (run ["--scale-x=2"; "a"; "c"]%string p_fs) = Ret 0
  /\ option_map (fun f => map rx (f_prs f)) (seen (files_of (run ["--scale-x=2"; "a"; "c"]%string p_fs)) "c") = Some [4611686018427387904; 14]
  /\ status_of (run ["--scale-x=2"; "a"; "a"]%string p_fs) = Ret 0
  /\ seen (files_of (run ["--scale-x=2"; "a"; "a"]%string p_fs)) "a" = Some (mk_file 0 1 [] false [])
  /\ status_of (run ["--scale-x=2"; "b"; "c"]%string p_fs) = Ret (-1).
Proof.
  cbv zeta. split; [option_asked "scale-x"%string ""%string "2"%string ["a"; "c"]%string|]. split; [option_asked "scale-x"%string ""%string "2"%string ["a"; "a"]%string|]. split; [now vm_compute|]. split; [now vm_compute|].
  split; [now vm_compute|]. split; now vm_compute.
Qed.

Print Assumptions C88_compress_decompress.
Print Assumptions C89_stored.
Print Assumptions C89_filter.
Print Assumptions C89_classes.
Print Assumptions C89_diff.
Print Assumptions C89_srs.
Print Assumptions C89_merge.
Print Assumptions C89_fields.
Print Assumptions C90_transform.
Print Assumptions C90_in_place.
Print Assumptions C90_compressed.
