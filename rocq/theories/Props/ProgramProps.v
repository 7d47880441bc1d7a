(** The programs from the command line to the exit status and the files. *)
From Coq Require Import String ZArith List Bool Lia.
From Verif.Model Require Import Base Double Arith Header PointRecord Point File Subsampling Compression IO Affine AppConvert AppUtils FilterApp
  MergeApp TileApp TransformApp DiffApp ToolApp SrsApp Asprs Json InfoApp GetOpt Commands Programs.
From Verif.Spec Require Import Text Streams Files History Apps ZlibContract Format CommandLines Tools Sampling Fields.
From Verif.Proofs Require Import BaseFacts TextFacts CommandFacts OptionFacts FileIOFacts FilterFacts StoreFacts ProgramFacts ToyZlib.
From Verif.Props Require Import FileProps FilterProps MergeProps TileProps TransformProps DiffProps ToolProps ToolProgramProps SrsProps CommandProps.
Import ListNotations.
Open Scope Z_scope.

(** What can be seen after a run *)
Definition stdout_of (e : effect Z) : ostream := fst (fst e).
Definition files_of (e : effect Z) : files := snd (fst e).
Definition status_of (e : effect Z) : outcome Z := snd e.

(** A program, given what can be read from standard input *)
Definition app : Type := list (list Z) -> list Z -> ostream -> files -> effect Z.

(** ** How [main] works *)

Lemma program_inv {A} (get : list (list Z) -> outcome (common * A)) body argv os fs :
  (program get body argv os fs = (os, fs, Ret (-1)) /\ exists e, get argv = Throw e) \/
  (exists u, program get body argv os fs = (os, fs, UB u) /\ get argv = UB u) \/
  (program get body argv os fs = (os, fs, Hang) /\ get argv = Hang) \/
  (exists c a, get argv = Ret (c, a) /\ c_version c = true /\ program get body argv os fs = (os_write version_text os, fs, Ret 0)) \/
  (exists c a, get argv = Ret (c, a) /\ c_version c = false /\ c_help c = true /\ program get body argv os fs = (os, fs, Ret 0)) \/
  (exists c a, get argv = Ret (c, a) /\ c_version c = false /\ c_help c = false /\
     program get body argv os fs = let '(os, fs, r) := body a os fs in (os, fs, exit_status r)).
Proof.
  unfold program. destruct (get argv) as [[c a]|e|u|].
  - destruct (c_version c) eqn:V; [right; right; right; left; exists c, a; auto|].
    destruct (c_help c) eqn:H; [do 4 right; left; exists c, a; auto|]. do 5 right. exists c, a. auto.
  - left. eauto.
  - right; left. eauto.
  - right; right; left. auto.
Qed.

(** The command line of a run that goes on *)
Lemma names_inv {A} es (a : A) ops c a' io : with_names es a ops = Ret (c, (a', io)) ->
  c_version c = given "version" es /\ a' = a /\ input_and_output ops = Some (io_input io, io_output io).
Proof.
  unfold with_names. destruct (input_and_output ops) as [[i o]|]; [|discriminate]. intros [= <- <- <-]. auto.
Qed.

Lemma io_two ops i o : input_and_output ops = Some (i, o) -> o <> [] -> ops = [i; o].
Proof. destruct ops as [|x [|y [|w l]]]; cbn; congruence. Qed.

(** What a program that goes on was told *)
Definition told {A} (t : list entry) (get : list (list Z) -> outcome (common * A)) (means : list setting -> list (list Z) -> A -> Prop) : Prop :=
  forall argv c a, get argv = Ret (c, a) -> c_help c = false ->
  exists es ops, command_line t argv es ops /\ given "help" es = false /\ c_version c = given "version" es /\ means es ops a.

Lemma convert_told : told convert_options convert_get_args (fun es ops '(_, io) => input_and_output ops = Some (io_input io, io_output io)).
Proof.
  intros argv c [a io] E H. destruct (args_inv _ _ _ _ _ _ _ convert_tables eq_refl _ _ _ E H) as (es & ops & L & G).
  rewrite (C84_convert _ _ _ L G) in E. apply names_inv in E as (V & _ & N). exists es, ops. auto.
Qed.

Lemma filter_told atof : told filter_options (filter_get_args atof) (fun es ops '(_, io) => input_and_output ops = Some (io_input io, io_output io)).
Proof.
  intros argv c [a io] E H. destruct (args_inv _ _ _ _ _ _ _ filter_tables eq_refl _ _ _ E H) as (es & ops & L & G).
  rewrite (C84_filter _ _ _ _ L G) in E. apply names_inv in E as (V & _ & N). exists es, ops. auto.
Qed.

Lemma transform_told : told transform_options transform_get_args (fun es ops '(_, io) => input_and_output ops = Some (io_input io, io_output io)).
Proof.
  intros argv c [a io] E H. destruct (args_inv _ _ [] _ _ _ _ transform_tables eq_refl _ _ _ E H) as (es & ops & L & G).
  rewrite (C84_transform _ _ _ L G) in E. destruct (existsb _ es); [discriminate E|].
  apply names_inv in E as (V & _ & N). exists es, ops. auto.
Qed.

(** The command that the options of spoc_tool ask for *)
Definition one_command (es : list setting) : option command :=
  match chosen (map e_name tool_commands) es with
  | [] => Some (mk_command [] [])
  | [(n, v)] => Some (mk_command (chars n) v)
  | _ => None
  end.

Lemma one_get_field es c : one_command es = Some c -> (cmd_name c = chars "get-field" <-> given "get-field" es = true).
Proof.
  unfold one_command.
  assert (K : given "get-field" es = existsb (fun x : string * list Z => String.eqb (fst x) "get-field") (chosen (map e_name tool_commands) es)).
  { clear. induction es as [|[n o] es IH]; [reflexivity|]. rewrite chosen_cons, existsb_app, <- IH. unfold given at 1. cbn [existsb fst snd].
    change (existsb (fun e : setting => String.eqb (fst e) "get-field") es) with (given "get-field" es). f_equal.
    destruct (String.eqb_spec n "get-field") as [->|N]; [reflexivity|]. destruct (existsb (String.eqb n) _); [|reflexivity].
    cbn. apply String.eqb_neq in N. now rewrite N. }
  assert (C : Forall (fun x : string * list Z => In (fst x) (map e_name tool_commands)) (chosen (map e_name tool_commands) es)).
  { clear. apply Forall_forall. intros x I. unfold chosen in I. apply in_flat_map in I as (s & _ & I).
    destruct (existsb (String.eqb (fst s)) _) eqn:X; [|destruct I]. destruct I as [<-|[]]. apply existsb_exists in X as (y & Iy & Ey).
    apply String.eqb_eq in Ey. cbn [fst]. now rewrite Ey. }
  rewrite K. destruct (chosen (map e_name tool_commands) es) as [|[n v] [|]]; [| |discriminate].
  - intros [= <-]. cbn. split; discriminate.
  - intros [= <-]. cbn [existsb fst cmd_name]. inversion_clear C as [|? ? C1 _]. cbn [fst] in C1.
    repeat (destruct C1 as [<-|C1]; [split; intros X; solve [reflexivity | discriminate X | vm_compute in X; discriminate X]|]). destruct C1.
Qed.

Lemma tool_line atof argv es ops : command_line tool_options argv es ops -> given "help" es = false ->
  match one_command es with
  | Some c => tool_get_args atof argv = with_names es (mk_targs c (final (fun s => s) "field-filename" es []) (final atof "resolution" es d_zero)) ops
  | None => exists e, tool_get_args atof argv = Throw e
  end.
Proof.
  intros L H. pose proof (C84_tool atof _ _ _ L H) as T. cbv zeta in T. unfold one_command.
  destruct (chosen _ es) as [|[n v] [|]]; eauto.
Qed.

Lemma tool_told atof : told tool_options (tool_get_args atof) (fun es ops '(a, io) =>
  input_and_output ops = Some (io_input io, io_output io) /\ (cmd_name (ta_command a) = chars "get-field" <-> given "get-field" es = true)).
Proof.
  intros argv c [a io] E H. destruct (args_inv _ _ _ _ _ _ _ tool_tables eq_refl _ _ _ E H) as (es & ops & L & G).
  pose proof (tool_line atof _ _ _ L G) as T. destruct (one_command es) as [x|] eqn:O; [|destruct T as (e & T); congruence].
  rewrite T in E. apply names_inv in E as (V & -> & N). exists es, ops. repeat (split; [assumption|]). now apply one_get_field.
Qed.

Lemma tile_told atof : told tile_options (tile_get_args atof) (fun es ops _ => True).
Proof.
  intros argv c a E H. destruct (args_inv _ _ _ _ _ _ _ tile_tables eq_refl _ _ _ E H) as (es & ops & L & G).
  exists es, ops. repeat (split; [assumption|]). split; [|exact I]. rewrite (C84_tile _ _ _ _ L G) in E.
  destruct ops as [|[|x i] [|o l]]; try discriminate E; now injection E as <- _.
Qed.

Lemma srs_told : told srs_options srs_get_args (fun es ops a => sa_fns a = ops /\ sa_set a = given "srs" es /\ sa_srs a = final (fun s => s) "srs" es []).
Proof.
  intros argv c a E H. destruct (args_inv _ _ _ _ _ _ _ srs_tables eq_refl _ _ _ E H) as (es & ops & L & G).
  rewrite (C84_srs _ _ _ L G) in E. injection E as <- <-. exists es, ops. repeat split; auto.
Qed.

(** ** C85: which files are changed *)

(** Only the file that is named as the output can change. *)
Definition changes_only (t : list entry) (may : list setting -> Prop) (p : app) : Prop :=
  forall argv input os fs n, files_of (p argv input os fs) n <> fs n ->
  exists es i, command_line t argv es [i; n] /\ given "help" es = false /\ given "version" es = false /\ may es.

(** No file can change. *)
Definition changes_nothing (p : app) : Prop := forall argv input os fs, files_of (p argv input os fs) = fs.

Lemma file_put_changes name bytes fs n : file_put name bytes fs n <> fs n -> n = name.
Proof. unfold file_put. destruct (beq_bytes n name) eqn:E; [|congruence]. intros _. now apply beq_bytes_eq. Qed.

Lemma output_changes acc o w os fs n : files_of (output_stream acc o w os fs) n <> fs n -> o = n /\ o <> [].
Proof.
  unfold output_stream. destruct o as [|x o]; [destruct (w os); cbn; congruence|].
  destruct (negb _); [cbn; congruence|]. destruct (w o_open) as [s r]. cbn -[file_put]. intros H.
  apply file_put_changes in H. now split.
Qed.

Lemma convert_changes acc io work input os fs n : files_of (convert acc io work input os fs) n <> fs n -> io_output io = n /\ n <> [].
Proof.
  unfold convert. destruct (bind _ _) as [w| | |]; try (cbn; congruence). intros H. apply output_changes in H as (<- & N). auto.
Qed.

Lemma transform_changes stod t noise acc a io input os fs n :
  files_of (transform_body stod t noise acc a io input os fs) n <> fs n -> io_output io = n /\ n <> [].
Proof.
  unfold transform_body. destruct (xa_commands a); [cbn; congruence|]. destruct (input_stream _ _ _ _); try (cbn; congruence).
  intros H. apply output_changes in H as (<- & N). auto.
Qed.

Lemma tool_changes z show rd debug acc a io input os fs n :
  files_of (tool_body z show rd debug acc a io input os fs) n <> fs n ->
  io_output io = n /\ n <> [] /\ cmd_name (ta_command a) <> chars "get-field".
Proof.
  unfold tool_body. destruct (no_chars _); [cbn; congruence|].
  destruct (beq_bytes (cmd_name (ta_command a)) (chars "get-field")) eqn:B.
  - unfold to_cout. destruct (w_bind _ _ os). cbn. congruence.
  - intros H. apply convert_changes in H as (E & N). repeat split; auto. intros Q. apply beq_bytes_eq in Q. congruence.
Qed.

Lemma changes_ok {A} t means may (get : list (list Z) -> outcome (common * A)) body argv os fs n :
  told t get means -> files_of (program get body argv os fs) n <> fs n ->
  (forall es ops a, means es ops a -> files_of (body a os fs) n <> fs n -> (exists i, ops = [i; n]) /\ (may es : Prop)) ->
  exists es i, command_line t argv es [i; n] /\ given "help" es = false /\ given "version" es = false /\ may es.
Proof.
  intros T H B.
  destruct (program_inv get body argv os fs) as [[E _]|[(u & E & _)|[[E _]|[(c & a & _ & _ & E)|[(c & a & _ & _ & _ & E)|(c & a & G & V & NH & E)]]]]];
    rewrite E in H; try (exfalso; now apply H).
  destruct (T _ _ _ G NH) as (es & ops & L & Hh & Hv & Hm). specialize (B es ops a Hm).
  destruct (body a os fs) as [[os' fs'] r]. destruct (B H) as ((i & ->) & M). exists es, i. rewrite <- Hv. auto.
Qed.

Theorem C85_only_output z debug acc :
  changes_only convert_options anything (spoc_compress z debug acc) /\
  changes_only convert_options anything (spoc_decompress z debug acc) /\
  (forall sh stod atof, changes_only filter_options anything (spoc_filter z sh stod atof debug acc)) /\
  (forall stod t noise, changes_only transform_options anything (spoc_transform stod t noise acc)) /\
  (forall show rd atof, changes_only tool_options (fun es => given "get-field" es = false) (spoc_tool z show rd atof debug acc)) /\
  changes_only srs_options (fun es => given "srs" es = true) (spoc_srs z debug acc).
Proof.
  repeat split.
  - intros argv input os fs n H. eapply changes_ok; [exact convert_told | exact H|].
    intros es ops [a io] M K. apply convert_changes in K as (<- & N). split; [|exact I]. exists (io_input io). now apply io_two.
  - intros argv input os fs n H. eapply changes_ok; [exact convert_told | exact H|].
    intros es ops [a io] M K. apply convert_changes in K as (<- & N). split; [|exact I]. exists (io_input io). now apply io_two.
  - intros sh stod atof argv input os fs n H. eapply changes_ok; [exact (filter_told atof) | exact H|].
    intros es ops [a io] M K. apply convert_changes in K as (<- & N). split; [|exact I]. exists (io_input io). now apply io_two.
  - intros stod t noise argv input os fs n H. eapply changes_ok; [exact transform_told | exact H|].
    intros es ops [a io] M K. apply transform_changes in K as (<- & N). split; [|exact I]. exists (io_input io). now apply io_two.
  - intros show rd atof argv input os fs n H. eapply changes_ok; [exact (tool_told atof) | exact H|].
    intros es ops [a io] [M1 M2] K. apply tool_changes in K as (<- & N & NG). split; [exists (io_input io); now apply io_two|].
    destruct (given "get-field" es); [|reflexivity]. exfalso. apply NG. now apply M2.
  - intros argv input os fs n H. eapply changes_ok; [exact srs_told | exact H|].
    intros es ops a (M1 & M2 & M3) K. unfold srs_main in K. rewrite M1, M2 in K. destruct ops as [|x ops].
    { destruct (srs_stdin z debug a input os). exfalso. now apply K. }
    destruct (given "srs" es); [|destruct (srs_get acc fs (x :: ops) os); exfalso; now apply K].
    split; [|reflexivity]. unfold srs_set in K. rewrite M1 in K. destruct ops as [|y [|w ops]]; try (exfalso; now apply K).
    destruct (bind _ _) as [[f s]| | |]; try (exfalso; now apply K). destruct (negb _); [exfalso; now apply K|].
    destruct (write_spoc_file _ _ _ _) as [o r]. cbn in K. apply file_put_changes in K as ->. eauto.
Qed.

Theorem C85_nothing z debug acc :
  changes_nothing (fun argv _ => spoc_diff z acc argv) /\
  changes_nothing (fun argv _ => spoc_merge z debug acc argv) /\
  (forall prt, changes_nothing (spoc_info z prt acc)).
Proof.
  assert (P : forall A (get : list (list Z) -> outcome (common * A)) body argv os fs,
    (forall a, files_of (body a os fs) = fs) -> files_of (program get body argv os fs) = fs).
  { intros A get body argv os fs B.
    destruct (program_inv get body argv os fs) as [[E _]|[(u & E & _)|[[E _]|[(c & a & _ & _ & E)|[(c & a & _ & _ & _ & E)|(c & a & G & V & NH & E)]]]]];
      rewrite E; try reflexivity. specialize (B a). now destruct (body a os fs) as [[os' fs'] r]. }
  repeat split.
  - intros argv input os fs. apply P. intros [a [fn1 fn2]]. reflexivity.
  - intros argv input os fs. apply P. intros [a fns]. unfold to_cout. now destruct (merge_tool _ _ _ _ os).
  - intros prt argv input os fs. apply P. intros a. unfold to_cout. now destruct (info_main _ _ _ _ _ _ os).
Qed.

(** spoc_tile only writes files that are called like tiles: the prefix (or the stem of the
    input's name), a number with zeros in front, and the extension of the input's name.
    C84_file_name says what stem and extension are. *)
Definition tile_file (es : list setting) (ops : list (list Z)) (n : list Z) : Prop :=
  exists before zeros number text ext,
    n = before ++ zeros ++ text ++ ext /\ 0 <= number /\ decimal number text /\
    Forall (fun c => c = 48) zeros /\ (zeros = [] \/ Z.of_nat (List.length (zeros ++ text)) = final atoi "digits" es 3) /\
    let prefix := final (fun s => s) "prefix" es [] in
    match ops with
    | [] | [[]] => prefix <> [] /\ before = prefix /\ (ext = chars ".spoc" \/ ext = chars ".zpoc")
    | [fn] => ext = snd (stem_extension fn) /\ before = match prefix with [] => fst (stem_extension fn) | _ => prefix end
    | _ => False
    end.

Lemma atoi_range s : to_i32 (to_u32 (atoi s)) = atoi s.
Proof.
  unfold atoi. set (w := to_u32 (atol s)).
  assert (B : 0 <= w < two32) by (apply Z.mod_pos_bound; reflexivity). clearbody w. unfold to_u32, two32 in *.
  assert (E : to_i32 w mod 4294967296 = w).
  { unfold to_i32, two32, two31. rewrite (Z.mod_small w) by lia. destruct (Z.ltb_spec w 2147483648); [now apply Z.mod_small|].
    replace (w - 4294967296) with (w + (-1) * 4294967296) by lia. rewrite Z.mod_add by lia. now apply Z.mod_small. }
  now rewrite E.
Qed.

Lemma last_map {A B} (f : A -> B) l d : last (map f l) (f d) = f (last l d).
Proof. induction l as [|a [|b l] IH]; [reflexivity|reflexivity|]. exact IH. Qed.

Lemma digits_value es : to_i32 (final (fun s => to_u32 (atoi s)) "digits" es 3) = final atoi "digits" es 3.
Proof.
  unfold final. rewrite <- (map_map atoi to_u32). change 3 with (to_u32 3) at 1. rewrite last_map.
  destruct (arguments "digits" es) as [|a l]; [reflexivity|].
  destruct (@exists_last _ (a :: l) ltac:(discriminate)) as (l' & x & ->). rewrite map_app. cbn [map]. rewrite last_last. apply atoi_range.
Qed.

Lemma write_tiles_changes z debug acc args f m keys fs n : fst (write_tiles z debug acc args f m keys fs) n <> fs n ->
  exists k c, In k keys /\ n = tile_name args c k.
Proof.
  revert fs. induction keys as [|k t IH]; intros fs H; cbn [write_tiles] in H; [now elim H|].
  destruct (bind _ _) as [tile| | |]; try (now elim H). destruct (negb (ta_force args) && _); [now elim H|].
  destruct (negb _); [now elim H|]. destruct (write_spoc_file z debug tile _) as [os r].
  set (fs' := file_put (tile_name args (f_compressed tile) k) (o_bytes os) fs) in *.
  assert (D : fs' n <> fs n -> exists k' c, In k' (k :: t) /\ n = tile_name args c k').
  { intros X. apply file_put_changes in X. exists k, (f_compressed tile). split; [now left|exact X]. }
  destruct r; try (now apply D).
  destruct (list_eq_dec Z.eq_dec n (tile_name args (f_compressed tile) k)) as [E|N].
  - exists k, (f_compressed tile). split; [now left|exact E].
  - destruct (IH fs') as (k' & c & I & E).
    + intros X. apply H. rewrite X. unfold fs', file_put. destruct (beq_bytes n _) eqn:B; [|reflexivity]. apply beq_bytes_eq in B. contradiction.
    + exists k', c. split; [now right|exact E].
Qed.

Lemma tile_named es ops fc ti sz sx sy a cc k :
  let args := mk_tile_args fc ti (final (fun s => to_u32 (atoi s)) "digits" es 3) sz sx sy (final (fun s => s) "prefix" es []) in
  match ops with
  | [] | [[]] => a = args None
  | [fn] => a = args (Some (stem_extension fn))
  | _ => False
  end -> input_named a -> 0 <= k -> tile_file es ops (tile_name a cc k).
Proof.
  intros args G IN K. unfold tile_name, put_padded.
  exists (tile_prefix a), (zrepeat 48 (to_i32 (ta_digits a) - zlen (put_uint k))), k, (put_uint k),
    (match ta_fn a with Some (_, ext) => ext | None => if cc then chars ".zpoc" else chars ".spoc" end).
  split; [now rewrite <- app_assoc|]. split; [exact K|]. split; [now apply put_uint_spec|].
  split; [unfold zrepeat; apply Forall_forall; intros x; apply repeat_spec|].
  assert (Dg : to_i32 (ta_digits a) = final atoi "digits" es 3).
  { rewrite <- digits_value. destruct ops as [|[|x i] [|o l]]; try (now destruct G); rewrite G; reflexivity. }
  split.
  { rewrite Dg. destruct (Z_le_gt_dec (final atoi "digits" es 3) (zlen (put_uint k))) as [Le|Gt].
    - left. unfold zrepeat. now replace (Z.to_nat (_ - _)) with 0%nat by lia.
    - right. fold (zlen (zrepeat 48 (final atoi "digits" es 3 - zlen (put_uint k)) ++ put_uint k)). rewrite zlen_app, zlen_zrepeat. lia. }
  cbv zeta. destruct ops as [|[|x i] [|o l]]; try (now destruct G); rewrite G in *; cbn [ta_fn ta_prefix tile_prefix] in *.
  + unfold tile_prefix, input_named in *. cbn [ta_fn ta_prefix] in *.
    destruct IN as [IN|IN]; [now elim IN|]. split; [exact IN|]. destruct (final (fun s => s) "prefix" es []); [now elim IN|]. destruct cc; auto.
  + unfold tile_prefix, input_named in *. cbn [ta_fn ta_prefix] in *.
    destruct IN as [IN|IN]; [now elim IN|]. split; [exact IN|]. destruct (final (fun s => s) "prefix" es []); [now elim IN|]. destruct cc; auto.
  + unfold tile_prefix. cbn [ta_fn ta_prefix]. destruct (stem_extension (x :: i)) as [st ex]. split; [reflexivity|].
    destruct (final (fun s => s) "prefix" es []); reflexivity.
Qed.

Theorem C85_tiles z atof debug acc argv input os fs n : files_of (spoc_tile z atof debug acc argv input os fs) n <> fs n ->
  exists es ops, command_line tile_options argv es ops /\ given "help" es = false /\ given "version" es = false /\
    tile_file es ops n /\
    (given "force" es = false -> fs n = None \/ can_read acc n = false).
Proof.
  intros H. unfold spoc_tile in H.
  destruct (program_inv (tile_get_args atof) (fun '(a, fn) os fs =>
    match input_stream acc fn input fs with
    | Ret bytes => let '(fs, r) := tile_tool z debug acc a bytes fs in (os, fs, return_0 r)
    | Throw e => (os, fs, Throw e)
    | UB u => (os, fs, UB u)
    | Hang => (os, fs, Hang)
    end) argv os fs) as [[E _]|[(u & E & _)|[[E _]|[(c & a & _ & _ & E)|[(c & a & _ & _ & _ & E)|(c & [a fn] & G & V & NH & E)]]]]];
    rewrite E in H; try (exfalso; now apply H).
  destruct (args_inv _ _ _ _ _ _ _ tile_tables eq_refl _ _ _ G NH) as (es & ops & L & Gh).
  exists es, ops. split; [exact L|]. split; [exact Gh|]. rewrite (C84_tile _ _ _ _ L Gh) in G.
  assert (Gv : given "version" es = false) by (destruct ops as [|[|x i] [|o l]]; try discriminate G; now injection G as <- _).
  split; [exact Gv|].
  destruct (input_stream acc fn input fs) as [bytes| | |]; try (exfalso; now apply H).
  destruct (tile_tool z debug acc a bytes fs) as [fs' r] eqn:T. cbn in H.
  assert (W : fst (tile_tool z debug acc a bytes fs) n <> fs n) by now rewrite T. clear T H E.
  split.
  - assert (N : input_named a /\ exists k c, 0 <= k /\ n = tile_name a c k).
    { unfold tile_tool in W.
      destruct (match ta_fn a, ta_prefix a with None, [] => true | _, _ => false end) eqn:IN; [now elim W|].
      split; [unfold input_named; destruct (ta_fn a); [left; discriminate|]; destruct (ta_prefix a); [discriminate IN|right; discriminate]|].
      destruct (read_spoc_file z (i_open bytes)) as [[f s]| | |]; try (now elim W). cbn [bind] in W.
      destruct (tile_numbers a f) as [idx| | |] eqn:TN; try (now elim W). cbn [bind] in W.
      apply write_tiles_changes in W as (k & cc & I & ->). exists k, cc. split; [|reflexivity].
      change (In k (TileFacts.tile_keys idx)) in I. apply (proj1 (TileFacts.tile_keys_In _ _)) in I. apply numbers_facts in TN as (_ & TN).
      rewrite Forall_forall in TN. now apply TN in I. }
    destruct N as (IN & k & cc & K & ->). eapply tile_named; [|exact IN|exact K].
    destruct ops as [|[|x i] [|o l]]; try discriminate G; injection G as _ <- _; reflexivity.
  - intros F. destruct (fs n) as [b|] eqn:Eb; [|now left]. right. destruct (can_read acc n) eqn:R; [|reflexivity]. exfalso. apply W.
    apply (C55_existing_kept z debug acc a bytes fs n b); auto.
    destruct ops as [|[|x i] [|o l]]; try discriminate G; injection G as _ <- _; exact F.
Qed.

(** With an output file nothing goes to standard output. *)
Definition silent (t : list entry) (may : list setting -> Prop) (p : app) : Prop :=
  forall argv input os fs es i o, command_line t argv es [i; o] -> o <> [] ->
  given "help" es = false -> given "version" es = false -> may es -> stdout_of (p argv input os fs) = os.

Lemma output_silent acc o w os fs : o <> [] -> stdout_of (output_stream acc o w os fs) = os.
Proof.
  intros N. unfold output_stream. destruct o; [now elim N|]. destruct (negb _); [reflexivity|]. now destruct (w o_open).
Qed.

Lemma convert_silent acc io work input os fs : io_output io <> [] -> stdout_of (convert acc io work input os fs) = os.
Proof.
  intros N. unfold convert. destruct (bind _ _); try reflexivity. now apply output_silent.
Qed.

Lemma silent_ok {A} (get : list (list Z) -> outcome (common * A)) body argv os fs :
  (forall c a, get argv = Ret (c, a) -> c_version c = false /\ (c_help c = false -> stdout_of (body a os fs) = os)) ->
  stdout_of (program get body argv os fs) = os.
Proof.
  intros B.
  destruct (program_inv get body argv os fs) as [[-> _]|[(u & -> & _)|[[-> _]|[(c & a & G & V & E)|[(c & a & _ & _ & _ & ->)|(c & a & G & V & H & ->)]]]]]; try reflexivity.
  - apply B in G. destruct G. congruence.
  - apply B in G as [_ G]. specialize (G H). now destruct (body a os fs) as [[os' fs'] r].
Qed.

Theorem C85_silent z debug acc :
  silent convert_options anything (spoc_compress z debug acc) /\
  silent convert_options anything (spoc_decompress z debug acc) /\
  (forall sh stod atof, silent filter_options anything (spoc_filter z sh stod atof debug acc)) /\
  (forall stod t noise, silent transform_options anything (spoc_transform stod t noise acc)) /\
  (forall show rd atof, silent tool_options (fun es => given "get-field" es = false) (spoc_tool z show rd atof debug acc)) /\
  silent srs_options (fun es => given "srs" es = true) (spoc_srs z debug acc).
Proof.
  repeat split.
  - intros argv input os fs es i o L N H V _. apply silent_ok. rewrite (C84_convert _ _ _ L H).
    intros c [a io] [= <- <- <-]. split; [exact V|]. intros _. now apply convert_silent.
  - intros argv input os fs es i o L N H V _. apply silent_ok. rewrite (C84_convert _ _ _ L H).
    intros c [a io] [= <- <- <-]. split; [exact V|]. intros _. now apply convert_silent.
  - intros sh stod atof argv input os fs es i o L N H V _. apply silent_ok. rewrite (C84_filter _ _ _ _ L H).
    intros c [a io] [= <- <- <-]. split; [exact V|]. intros _. now apply convert_silent.
  - intros stod t noise argv input os fs es i o L N H V _. apply silent_ok. rewrite (C84_transform _ _ _ L H).
    destruct (existsb _ es); [discriminate|]. intros c [a io] [= <- <- <-]. split; [exact V|]. intros _.
    unfold transform_body. destruct (xa_commands _); [reflexivity|]. destruct (input_stream _ _ _ _); try reflexivity. now apply output_silent.
  - intros show rd atof argv input os fs es i o L N H V M. apply silent_ok. intros c [a io] G. split.
    { rewrite (C84_tool _ _ _ _ L H) in G. cbv zeta in G.
      destruct (chosen _ es) as [|[n v] [|]]; try discriminate G; injection G as <- _ _; exact V. }
    intros Hc. destruct (tool_told atof _ _ _ G Hc) as (es' & ops' & L' & _ & _ & N' & T').
    destruct (C83_unambiguous tool_options argv es [i; o] es' ops') as [-> <-]; auto; [cbn; tauto|].
    cbn in N'. injection N' as Ei Eo.
    unfold tool_body. destruct (no_chars _); [reflexivity|]. destruct (beq_bytes _ (chars "get-field")) eqn:B.
    + apply beq_bytes_eq, T' in B. congruence.
    + apply convert_silent. congruence.
  - intros argv input os fs es i o L N H V M. apply silent_ok. rewrite (C84_srs _ _ _ L H).
    intros c a [= <- <-]. split; [exact V|]. intros _. unfold srs_main. cbn [sa_fns sa_set]. rewrite M. now destruct (srs_set _ _ _ _ fs).
Qed.

(** ** C86: a failure changes nothing *)

Definition all_bytes (fs : files) : Prop := forall n b, fs n = Some b -> is_bytes b.

(** When the exit status is not 0, neither standard output nor any file has changed. *)
Definition clean_failure (bad : outcome Z -> list (list Z) -> Prop) (p : app) : Prop :=
  forall argv input os fs, is_bytes input -> all_bytes fs -> healthy os ->
  bad (status_of (p argv input os fs)) argv ->
  stdout_of (p argv input os fs) = os /\ files_of (p argv input os fs) = fs.

Definition not_zero (r : outcome Z) (argv : list (list Z)) : Prop := r <> Ret 0.

Lemma healthy_wf os : healthy os -> o_wf os.
Proof. intros [R _] r E. congruence. Qed.

Lemma output_failure acc o w bs os fs : emits w bs tt -> o_wf os -> status_of (output_stream acc o w os fs) <> Ret 0 ->
  stdout_of (output_stream acc o w os fs) = os /\ files_of (output_stream acc o w os fs) = fs.
Proof.
  intros W O. unfold output_stream. destruct o as [|x o].
  - rewrite (W os O). cbn. congruence.
  - destruct (negb _); [now split|]. rewrite (W o_open) by (intros r E; discriminate E). cbn. congruence.
Qed.

Lemma input_bytes acc fn input fs bytes : is_bytes input -> all_bytes fs -> input_stream acc fn input fs = Ret bytes -> is_bytes bytes.
Proof.
  intros I F E. unfold input_stream, open_input in E. destruct fn as [|x fn]; [now injection E as <-|].
  destruct (fs (x :: fn)) eqn:Ef; [|discriminate E]. destruct (can_read _ _); [|discriminate E]. injection E as <-. now apply F in Ef.
Qed.

Lemma convert_failure acc io work input os fs :
  (forall bytes w, is_bytes bytes -> work bytes = Ret w -> exists bs, emits w bs tt) ->
  is_bytes input -> all_bytes fs -> o_wf os -> status_of (convert acc io work input os fs) <> Ret 0 ->
  stdout_of (convert acc io work input os fs) = os /\ files_of (convert acc io work input os fs) = fs.
Proof.
  intros W I F O. unfold convert. destruct (input_stream _ _ _ _) as [bytes| | |] eqn:E; try (intros _; now split). cbn [bind].
  apply (input_bytes _ _ _ _ _ I F) in E. destruct (work bytes) as [w| | |] eqn:Ew; try (intros _; now split).
  destruct (W bytes w E Ew) as (bs & B). now apply output_failure with bs.
Qed.

Lemma program_failure {A} (get : list (list Z) -> outcome (common * A)) body argv os fs :
  (forall a, (exists c, get argv = Ret (c, a) /\ c_help c = false) -> exit_status (status_of (body a os fs)) = status_of (program get body argv os fs) ->
     stdout_of (body a os fs) = os /\ files_of (body a os fs) = fs) ->
  status_of (program get body argv os fs) <> Ret 0 ->
  stdout_of (program get body argv os fs) = os /\ files_of (program get body argv os fs) = fs.
Proof.
  intros B S.
  destruct (program_inv get body argv os fs) as [[E _]|[(u & E & _)|[[E _]|[(c & a & _ & _ & E)|[(c & a & _ & _ & _ & E)|(c & a & G & V & NH & E)]]]]];
    rewrite E in S |- *; try now split.
  specialize (B a (ex_intro _ c (conj G NH))). rewrite E in B. destruct (body a os fs) as [[os' fs'] r]. now apply B.
Qed.

Lemma exit_zero r : r <> Ret 0 -> exit_status r <> Ret 0.
Proof. destruct r; cbn; congruence. Qed.
Lemma exit_zero_inv r : exit_status r <> Ret 0 -> r <> Ret 0.
Proof. destruct r; cbn; congruence. Qed.

Section Failure.
Variables (z : zlib) (ZS : list Z -> list Z -> Prop) (Hz : zlib_ok z ZS) (debug : bool).

Lemma compress_writes bytes w : is_bytes bytes -> compress_work z debug bytes = Ret w -> exists bs, emits w bs tt.
Proof.
  intros B E. unfold compress_work in E. apply bind_Ret_inv in E as ([f s] & E & [= <-]).
  apply (read_uncompressed_same z) in E. apply (read_writable z ZS Hz) in E as (U & W & _); [|exact B].
  apply (write_compressed_total z ZS Hz); [exact U | exact W | reflexivity].
Qed.

Lemma decompress_writes bytes w : is_bytes bytes -> decompress_work z debug bytes = Ret w -> exists bs, emits w bs tt.
Proof.
  intros B E. unfold decompress_work in E. apply bind_Ret_inv in E as ([f s] & E & [= <-]).
  apply (read_compressed_same z) in E. apply (read_writable z ZS Hz) in E as (U & W & _); [|exact B].
  apply write_uncompressed_total; [exact U | exact W | reflexivity].
Qed.

Lemma filter_writes sh stod a bytes w : permutes sh -> is_bytes bytes -> filter_work z sh stod debug a bytes = Ret w -> exists bs, emits w bs tt.
Proof.
  intros P B E. unfold filter_work in E. apply bind_Ret_inv in E as ([f s] & E & E2). apply bind_Ret_inv in E2 as (g & Eg & [= <-]).
  apply (read_writable z ZS Hz) in E as (U & W & M1 & M2 & _); [|exact B].
  destruct (C78_only_selects sh stod a f g P) as ((_ & _ & Mw & _) & (rest & Pm) & _); [split; [lia|lia|exact U] | exact Eg|].
  apply (write_total z ZS Hz); [|now rewrite Mw].
  intros p q Hp Hq. apply U; eapply Permutation.Permutation_in; try exact Pm; apply in_or_app; now left.
Qed.

Lemma tool_writes rd fs a bytes w : reads_bits rd -> all_bytes fs -> is_bytes bytes -> tool_work z rd debug fs a bytes = Ret w -> exists bs, emits w bs tt.
Proof.
  intros R F B E. unfold tool_work in E. apply bind_Ret_inv in E as ([f s] & E & E2). apply bind_Ret_inv in E2 as (g & Eg & [= <-]).
  apply (read_writable z ZS Hz) in E as (U & W & M1 & M2 & P); [|exact B].
  assert (Lf : live f) by (split; [lia|lia|exact U]).
  assert (S : exists s, source z fs a f s /\ live s /\ Forall pr_ok (f_prs s) /\ zlen (f_wkt s) <= 65535).
  { unfold source. destruct (list_eq_dec _ _ _) as [Q|Q]; [|exists f; auto].
    unfold tool_command in Eg. rewrite Q in Eg.
    repeat match type of Eg with context [if beq_bytes (chars ?x) (chars ?y) then _ else _] =>
      let v := eval vm_compute in (beq_bytes (chars x) (chars y)) in change (beq_bytes (chars x) (chars y)) with v in Eg; cbv iota in Eg end.
    apply bind_Ret_inv in Eg as (h & Eg & _). destruct (d_leb _ _); [discriminate Eg|].
    apply bind_Ret_inv in Eg as (b & Eb & Eg). apply bind_Ret_inv in Eg as ([s2 r2] & Es & Eg).
    unfold open_text in Eb. destruct (fs (cmd_params (ta_command a))) as [b'|] eqn:Ef; [|discriminate Eb]. injection Eb as ->.
    pose proof Es as Es'. apply (read_writable z ZS Hz) in Es' as (U2 & W2 & M3 & M4 & P2); [|now apply F in Ef].
    exists s2. split; [exists b; split; [reflexivity|]; now exists r2|]. split; [split; [lia|lia|exact U2]|]. auto. }
  destruct S as (s2 & So & Ls & Ps & Ws).
  destruct (C79_result z rd debug fs a f s2 g R Lf P So Ls Ps Eg) as (Lg & (_ & _ & Mw & _) & _).
  apply (write_total z ZS Hz); [apply Lg | now rewrite Mw].
Qed.

Lemma readable_bytes acc fs : all_bytes fs -> all_bytes (readable acc fs).
Proof. intros F n b E. unfold readable in E. destruct (can_read acc n); [|discriminate E]. now apply F in E. Qed.

(** get-field fails before anything is printed *)
Lemma get_field_fails show f l os s e : (exists fld, names fld l) -> get_field show debug f l os = (s, Throw e) -> False.
Proof.
  intros (fld & N) E. rewrite (ToolProps.get_field_check show debug f fld l N) in E.
  generalize dependent (field_index l (get_extra_fields f)). intros j. generalize (f_prs f). intros prs. revert os.
  induction prs as [|p prs IH]; intros os E; [discriminate E|]. cbn [get_field_loop] in E. unfold w_bind, w_lift in E.
  assert (T : forall x, field_text show l j p <> Throw x).
  { intros x. unfold field_text. repeat match goal with |- (if ?b then _ else _) <> _ => destruct b; [discriminate|] end.
    destruct (_ =? ch_e); [|discriminate]. unfold vec_get. destruct (znth _ _); discriminate. }
  destruct (field_text show l j p) as [bs|x|u|]; try discriminate E; [|now elim (T x)].
  unfold w_seq, w_bind, w_put in E. now apply IH in E.
Qed.

Lemma tool_body_failure show rd acc a io input os fs : reads_bits rd -> is_bytes input -> all_bytes fs -> o_wf os ->
  exit_status (status_of (tool_body z show rd debug acc a io input os fs)) <> Ret 0 ->
  (cmd_name (ta_command a) = chars "get-field" -> exit_status (status_of (tool_body z show rd debug acc a io input os fs)) = Ret (-1)) ->
  stdout_of (tool_body z show rd debug acc a io input os fs) = os /\ files_of (tool_body z show rd debug acc a io input os fs) = fs.
Proof.
  intros R I F O. unfold tool_body. destruct (no_chars _); [now split|].
  destruct (beq_bytes (cmd_name (ta_command a)) (chars "get-field")) eqn:BG.
  - apply beq_bytes_eq in BG. intros _ S. specialize (S BG). revert S. unfold to_cout, w_bind, w_lift.
    destruct (bind (input_stream _ _ _ _) _) as [[f s]| | |]; try (now split).
    destruct (consume_field_name _) as [[l rest]| | |] eqn:C; try (now split).
    destruct (get_field show debug f l os) as [os' r] eqn:GF. destruct r as [[]|e|u|]; try discriminate.
    exfalso. eapply get_field_fails; [|exact GF]. apply FieldFacts.consume_name_inv in C as (? & fld & _ & _ & _ & _ & N). eauto.
  - intros S _. apply convert_failure; auto; [|now apply exit_zero_inv]. intros bytes w. apply tool_writes; auto using readable_bytes.
Qed.

Theorem C86_clean acc :
  clean_failure not_zero (spoc_compress z debug acc) /\
  clean_failure not_zero (spoc_decompress z debug acc) /\
  (forall sh stod atof, permutes sh -> clean_failure not_zero (spoc_filter z sh stod atof debug acc)) /\
  (forall show rd atof, reads_bits rd -> clean_failure (fun r argv => r = Ret (-1)
     \/ r <> Ret 0 /\ forall es ops, command_line tool_options argv es ops -> given "get-field" es = false) (spoc_tool z show rd atof debug acc)).
Proof.
  repeat split; intros.
  1,2: apply program_failure; [|assumption]; intros [a io] _ S; apply convert_failure; eauto using healthy_wf, compress_writes;
    apply exit_zero_inv; rewrite S; assumption.
  1,2: apply program_failure; [|assumption]; intros [a io] _ S; apply convert_failure; eauto using healthy_wf, decompress_writes;
    apply exit_zero_inv; rewrite S; assumption.
  1,2: apply program_failure; [|assumption]; intros [a io] _ S; apply convert_failure; eauto using healthy_wf, filter_writes;
    apply exit_zero_inv; rewrite S; assumption.
  1,2: apply program_failure; [|destruct H3 as [X|[X _]]; intros Y; unfold spoc_tool in X; rewrite Y in X; [discriminate X|now elim X]].
  1,2: intros [a io] (c & G & Hc) S; apply tool_body_failure; auto using healthy_wf.
  1,3: rewrite S; destruct H3 as [X|[X _]]; intros Y; unfold spoc_tool in X; rewrite Y in X; [discriminate X|now elim X].
  1,2: intros Q; rewrite S; destruct H3 as [X|[_ K]]; [exact X|];
    destruct (tool_told atof _ _ _ G Hc) as (es & ops & L & _ & _ & _ & T); apply T in Q; specialize (K _ _ L); congruence.
Qed.

End Failure.

(** ** C91: how programs end *)

(** The exit status is 0 or -1, unless the behaviour is undefined or there is no end *)
Definition ends (p : app) : Prop := forall argv input os fs r, status_of (p argv input os fs) = r ->
  r = Ret 0 \/ r = Ret (-1) \/ (exists u, r = UB u) \/ r = Hang.

Lemma ends_ok {A} (get : list (list Z) -> outcome (common * A)) body argv os fs :
  (forall a, exists r : outcome unit, status_of (body a os fs) = return_0 r) ->
  forall r, status_of (program get body argv os fs) = r -> r = Ret 0 \/ r = Ret (-1) \/ (exists u, r = UB u) \/ r = Hang.
Proof.
  intros B r <-.
  destruct (program_inv get body argv os fs) as [[-> _]|[(u & -> & _)|[[-> _]|[(c & a & _ & _ & ->)|[(c & a & _ & _ & _ & ->)|(c & a & _ & _ & _ & ->)]]]]]; cbn; eauto.
  destruct (B a) as (r & E). destruct (body a os fs) as [[os' fs'] x]. cbn in *. rewrite E. destruct r; cbn; eauto.
Qed.

Lemma output_ends acc o w os fs : exists r, status_of (output_stream acc o w os fs) = return_0 r.
Proof.
  unfold output_stream. destruct o; [destruct (w os); now eexists|]. destruct (negb _); [now eexists (Throw _)|]. destruct (w o_open). now eexists.
Qed.

Lemma convert_ends acc io work input os fs : exists r, status_of (convert acc io work input os fs) = return_0 r.
Proof.
  unfold convert. destruct (bind _ _); [apply output_ends|now eexists (Throw _)|now eexists (UB _)|now exists Hang].
Qed.

Theorem C91_status z debug acc :
  ends (spoc_compress z debug acc) /\
  ends (spoc_decompress z debug acc) /\
  (forall sh stod atof, ends (spoc_filter z sh stod atof debug acc)) /\
  (forall stod t noise, ends (spoc_transform stod t noise acc)) /\
  (forall show rd atof, ends (spoc_tool z show rd atof debug acc)) /\
  ends (spoc_srs z debug acc) /\
  (forall atof, ends (spoc_tile z atof debug acc)) /\
  ends (fun argv _ => spoc_merge z debug acc argv) /\
  (forall prt, ends (spoc_info z prt acc)).
Proof.
  repeat apply conj; intros; intros argv input os fs; apply ends_ok.
  - intros [a io]. apply convert_ends.
  - intros [a io]. apply convert_ends.
  - intros [a io]. apply convert_ends.
  - intros [a io]. unfold transform_body. destruct (xa_commands a); [now eexists (Throw _)|].
    destruct (input_stream _ _ _ _); [apply output_ends|now eexists (Throw _)|now eexists (UB _)|now exists Hang].
  - intros [a io]. unfold tool_body. destruct (no_chars _); [now eexists (Throw _)|]. destruct (beq_bytes _ _); [|apply convert_ends].
    unfold to_cout. match goal with |- context [let '(_, _) := ?w in _] => destruct w end. now eexists.
  - intros a. destruct (srs_main _ _ _ _ _ _ _) as [[os' fs'] r]. now eexists.
  - intros [a fn]. destruct (input_stream _ _ _ _) as [bytes| | |]; [|now eexists (Throw _)|now eexists (UB _)|now exists Hang].
    destruct (tile_tool _ _ _ _ _ _). now eexists.
  - intros [a fns]. unfold to_cout. destruct (merge_tool _ _ _ _ _). now eexists.
  - intros a. unfold to_cout. destruct (info_main _ _ _ _ _ _ _). now eexists.
Qed.

(** -e: the version is printed and nothing else is done. *)
Definition version_line : list Z := chars "Version 0.1" ++ [10].
Definition versions (t : list entry) (enough : list setting -> list (list Z) -> Prop) (p : app) : Prop :=
  forall argv input os fs es ops, command_line t argv es ops -> given "help" es = false -> given "version" es = true -> enough es ops ->
  p argv input os fs = (os_write version_line os, fs, Ret 0).

Lemma version_ok {A} (get : list (list Z) -> outcome (common * A)) body argv os fs c a : get argv = Ret (c, a) -> c_version c = true ->
  program get body argv os fs = (os_write version_line os, fs, Ret 0).
Proof. intros E V. unfold program. rewrite E, V. reflexivity. Qed.

Definition up_to (n : nat) (es : list setting) (ops : list (list Z)) : Prop := (List.length ops <= n)%nat.

Lemma names_version {A} (get : list (list Z) -> outcome (common * (A * io_names))) body argv os fs es (a : A) ops :
  get argv = with_names es a ops -> given "version" es = true -> up_to 2 es ops ->
  program get body argv os fs = (os_write version_line os, fs, Ret 0).
Proof.
  intros E V U. destruct ops as [|i [|o [|? ?]]]; cbn in E; try (eapply version_ok; [exact E|exact V]). unfold up_to in U. cbn in U. lia.
Qed.

Theorem C91_version z debug acc :
  versions convert_options (up_to 2) (spoc_compress z debug acc) /\
  versions convert_options (up_to 2) (spoc_decompress z debug acc) /\
  (forall sh stod atof, versions filter_options (up_to 2) (spoc_filter z sh stod atof debug acc)) /\
  (forall stod t noise, versions transform_options (fun es ops => up_to 2 es ops /\ chosen noise_options es = []) (spoc_transform stod t noise acc)) /\
  (forall show rd atof, versions tool_options (fun es ops => up_to 2 es ops /\ one_command es <> None) (spoc_tool z show rd atof debug acc)) /\
  versions diff_options (fun _ ops => List.length ops = 2%nat) (fun argv _ => spoc_diff z acc argv) /\
  (forall atof, versions tile_options (up_to 1) (spoc_tile z atof debug acc)) /\
  versions srs_options (fun _ _ => True) (spoc_srs z debug acc) /\
  versions merge_options (fun _ _ => True) (fun argv _ => spoc_merge z debug acc argv) /\
  (forall prt, versions info_options (fun _ _ => True) (spoc_info z prt acc)).
Proof.
  repeat apply conj; intros; intros argv input os fs es ops L H V N.
  - eapply names_version; [exact (C84_convert _ _ _ L H)|exact V|exact N].
  - eapply names_version; [exact (C84_convert _ _ _ L H)|exact V|exact N].
  - eapply names_version; [exact (C84_filter atof _ _ _ L H)|exact V|exact N].
  - destruct N as [N N2]. pose proof (C84_transform _ _ _ L H) as T.
    replace (existsb (fun s : setting => existsb (String.eqb (fst s)) noise_options) es) with false in T.
    2: { clear - N2. induction es as [|s es IH]; [reflexivity|]. cbn [existsb]. unfold chosen in N2. cbn [flat_map] in N2.
         destruct (existsb (String.eqb (fst s)) noise_options); [discriminate N2|]. now apply IH. }
    eapply names_version; [exact T|exact V|exact N].
  - destruct N as [N N2]. pose proof (tool_line atof _ _ _ L H) as T. destruct (one_command es) as [x|]; [|now elim N2].
    eapply names_version; [exact T|exact V|exact N].
  - destruct ops as [|a [|b [|? ?]]]; try discriminate N. eapply version_ok; [rewrite (C84_diff _ _ _ L H); reflexivity|exact V].
  - pose proof (C84_tile atof _ _ _ L H) as T. cbv zeta in T. destruct ops as [|a [|? ?]]; [| |unfold up_to in N; cbn in N; lia].
    + eapply version_ok; [exact T|exact V].
    + destruct a; (eapply version_ok; [exact T|exact V]).
  - eapply version_ok; [rewrite (C84_srs _ _ _ L H); reflexivity|exact V].
  - eapply version_ok; [rewrite (C84_merge _ _ _ L H); reflexivity|exact V].
  - eapply version_ok; [rewrite (C84_info _ _ _ L H); reflexivity|exact V].
Qed.

(** -h: nothing is done. *)
Definition helped (t : list entry) (ok : list setting -> Prop) (p : app) : Prop :=
  forall argv input os fs es1 o es2 ops, command_line t argv (es1 ++ ("help"%string, o) :: es2) ops ->
  given "help" es1 = false -> given "version" es1 = false -> ok es1 -> p argv input os fs = (os, fs, Ret 0).

(** A command line with mistakes: nothing is done.  (Help or the version that were asked
    for before the mistake may be shown.) *)
Definition refused (t : list entry) (p : app) : Prop :=
  forall argv input os fs, (forall es ops, ~ command_line t argv es ops) ->
  files_of (p argv input os fs) = fs /\ (stdout_of (p argv input os fs) = os \/ stdout_of (p argv input os fs) = os_write version_line os)
  /\ (status_of (p argv input os fs) = Ret 0 \/ status_of (p argv input os fs) = Ret (-1)).

Lemma helped_ok {A} t ok (get : list (list Z) -> outcome (common * A)) body argv os fs es1 o es2 ops : helps t ok get ->
  command_line t argv (es1 ++ ("help"%string, o) :: es2) ops -> given "help" es1 = false -> given "version" es1 = false -> ok es1 ->
  program get body argv os fs = (os, fs, Ret 0).
Proof. intros H L G V K. destruct (H argv es1 o es2 ops L G K) as (b & E). unfold program. rewrite E. cbn. now rewrite V. Qed.

Lemma refused_ok {A} t (get : list (list Z) -> outcome (common * A)) body argv os fs : accepts_only t get -> (forall es ops, ~ command_line t argv es ops) ->
  files_of (program get body argv os fs) = fs
  /\ (stdout_of (program get body argv os fs) = os \/ stdout_of (program get body argv os fs) = os_write version_line os)
  /\ (status_of (program get body argv os fs) = Ret 0 \/ status_of (program get body argv os fs) = Ret (-1)).
Proof.
  intros R N. unfold program. destruct (R argv) as [(e & ->)|(c & b & -> & [H|(es & ops & L)])]; [cbn; auto| |now elim (N es ops)].
  rewrite H. destruct (c_version c); cbn; auto.
Qed.

Theorem C91_help z debug acc :
  helped convert_options anything (spoc_compress z debug acc) /\
  helped convert_options anything (spoc_decompress z debug acc) /\
  (forall sh stod atof, helped filter_options anything (spoc_filter z sh stod atof debug acc)) /\
  (forall stod t noise, helped transform_options (fun es => chosen noise_options es = []) (spoc_transform stod t noise acc)) /\
  (forall show rd atof, helped tool_options (fun es => (List.length (chosen (map e_name tool_commands) es) <= 1)%nat) (spoc_tool z show rd atof debug acc)) /\
  helped diff_options anything (fun argv _ => spoc_diff z acc argv) /\
  (forall atof, helped tile_options anything (spoc_tile z atof debug acc)) /\
  helped srs_options anything (spoc_srs z debug acc) /\
  helped merge_options anything (fun argv _ => spoc_merge z debug acc argv) /\
  (forall prt, helped info_options anything (spoc_info z prt acc)).
Proof.
  destruct C83_help as (H1 & H2 & H3 & H4 & H5 & H6 & H7 & H8 & H9).
  repeat apply conj; intros; intros argv input os fs es1 o es2 ops L G V K; eapply helped_ok; eauto.
Qed.

Theorem C91_mistakes z debug acc :
  refused convert_options (spoc_compress z debug acc) /\
  refused convert_options (spoc_decompress z debug acc) /\
  (forall sh stod atof, refused filter_options (spoc_filter z sh stod atof debug acc)) /\
  (forall stod t noise, refused transform_options (spoc_transform stod t noise acc)) /\
  (forall show rd atof, refused tool_options (spoc_tool z show rd atof debug acc)) /\
  refused diff_options (fun argv _ => spoc_diff z acc argv) /\
  (forall atof, refused tile_options (spoc_tile z atof debug acc)) /\
  refused srs_options (spoc_srs z debug acc) /\
  refused merge_options (fun argv _ => spoc_merge z debug acc argv) /\
  (forall prt, refused info_options (spoc_info z prt acc)).
Proof.
  destruct C83_accepts as (H1 & H2 & H3 & H4 & H5 & H6 & H7 & H8 & H9).
  repeat apply conj; intros; intros argv input os fs N; eapply refused_ok; eauto.
Qed.

(** ** Examples *)

(** Two command lines: names only, and one option with an argument after "=" *)
Lemma plain_line t ops : Forall operand ops -> command_line t ops [] ops.
Proof. induction ops as [|a ops IH]; intros H; inversion_clear H; constructor; auto. Qed.

Lemma option_line t n l v ops : In (mk_entry n l true) t -> ~ In equals (chars n) -> Forall operand ops ->
  command_line t ((dash :: dash :: chars n ++ equals :: v) :: ops) [(n, Some v)] ops.
Proof.
  intros I E O. apply (Line_option t [dash :: dash :: chars n ++ equals :: v] [(n, Some v)] ops [] ops); [|now apply plain_line].
  apply (Use_long_equals t (chars n) (mk_entry n l true) v); [exact E|split; [exact I|now left]|reflexivity].
Qed.

Lemma names_operands l : Forall (fun s => match s with EmptyString => True | String c _ => c <> Ascii.ascii_of_nat 45 end) l -> Forall operand (words l).
Proof.
  induction 1 as [|s l H _ IH]; [constructor|]. constructor; [|exact IH]. destruct s as [|c s]; [right; discriminate|]. right. cbn.
  intros t X. apply H. destruct c as [[] [] [] [] [] [] [] []]; cbn in X; try discriminate X; reflexivity.
Qed.

Ltac operands := apply names_operands; repeat constructor; discriminate.

(** A disk with the uncompressed file "a" and the compressed file "b", and nothing else *)
Definition p_file (c : bool) : spoc_file := mk_file 0 1 (chars "old") c
  [mk_pr d_one (2 ^ 63) 7 2 7 9 1 2 3 [5; 6]; mk_pr 7 d_one d_one 3 8 0 1 2 3 [5; 0]].

Lemma p_storable : forall c, storable (p_file c).
Proof.
  intros c. split; [|split; [cbn; lia|exists 2; split; [intros p [<-|[<-|[]]]; reflexivity|destruct c; cbn; lia]]].
  split; try reflexivity; try (cbn; lia).
  - repeat constructor; lia.
  - repeat constructor; vm_compute; try split; congruence.
  - intros p q [<-|[<-|[]]] [<-|[<-|[]]]; reflexivity.
Qed.

Definition p_fs : files := file_put (chars "a") (sp_bytes (p_file false)) (file_put (chars "b") (sp_bytes (p_file true)) (fun _ => None)).
Definition at_start : ostream := o_open.
Definition seen (fs : files) (n : string) : option spoc_file :=
  match fs (chars n) with
  | None => None
  | Some bytes => match read_spoc_file toy (i_open bytes) with Ret (f, _) => Some f | _ => None end
  end.

Example C85_example : let run := spoc_compress toy false all_rights (words ["a"; "c"]%string) [] at_start p_fs in
  stdout_of run = at_start /\ status_of run = Ret 0 /\ files_of run (chars "c") <> p_fs (chars "c")
  /\ seen (files_of run) "c" = Some (p_file true) /\ command_line convert_options (words ["a"; "c"]%string) [] (words ["a"; "c"]%string).
Proof.
  cbv zeta. split; [now vm_compute|]. split; [now vm_compute|]. split; [now vm_compute|]. split; [now vm_compute|].
  apply plain_line. operands.
Qed.

(** A file that is missing, and a disk on which the input is damaged: -1, and the output is not touched *)
Example C86_example :
  let bad := file_put (chars "d") (chars "LASF" ++ sp_bytes (p_file false)) p_fs in
  status_of (spoc_compress toy false all_rights (words ["x"; "b"]%string) [] at_start p_fs) = Ret (-1)
  /\ status_of (spoc_compress toy false all_rights (words ["d"; "b"]%string) [] at_start bad) = Ret (-1)
  /\ files_of (spoc_compress toy false all_rights (words ["d"; "b"]%string) [] at_start bad) (chars "b") = bad (chars "b").
Proof. cbv zeta. split; [now vm_compute|]. split; now vm_compute. Qed.

Lemma first_given n es : given n es = true -> exists es1 o es2, es = es1 ++ (n, o) :: es2 /\ given n es1 = false.
Proof.
  induction es as [|[m o] es IH]; [discriminate|]. unfold given. cbn [existsb fst].
  destruct (String.eqb_spec m n) as [->|N]; [intros _; now exists [], o, es|].
  intros H. destruct (IH H) as (es1 & o' & es2 & -> & G). exists ((m, o) :: es1), o', es2. split; [reflexivity|].
  unfold given. cbn [existsb fst]. apply String.eqb_neq in N. now rewrite N.
Qed.

Example C91_example :
  spoc_decompress toy false all_rights (words ["-e"; "a"; "c"]%string) [] at_start p_fs = (os_write version_line at_start, p_fs, Ret 0)
  /\ spoc_decompress toy false all_rights (words ["a"; "c"; "-h"; "-x"]%string) [] at_start p_fs = (at_start, p_fs, Ret 0)
  /\ spoc_decompress toy false all_rights (words ["a"; "c"; "-x"]%string) [] at_start p_fs = (at_start, p_fs, Ret (-1))
  /\ forall es ops, ~ command_line convert_options (words ["a"; "c"; "-x"]%string) es ops.
Proof.
  split; [reflexivity|]. split; [reflexivity|]. split; [reflexivity|]. intros es ops L.
  destruct (given "help" es) eqn:H.
  - apply first_given in H as (es1 & o & es2 & -> & H). destruct C83_help as (C & _). destruct (C _ _ _ _ _ L H I) as (b & E). discriminate E.
  - pose proof (C84_convert _ _ _ L H) as E. destruct ops as [|? [|? [|? ?]]]; vm_compute in E; discriminate E.
Qed.

Print Assumptions C85_only_output.
Print Assumptions C85_nothing.
Print Assumptions C85_tiles.
Print Assumptions C85_silent.
Print Assumptions C86_clean.
Print Assumptions C91_status.
Print Assumptions C91_version.
Print Assumptions C91_help.
Print Assumptions C91_mistakes.
