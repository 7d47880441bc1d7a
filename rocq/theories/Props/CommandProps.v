(** Command lines: which are accepted, and what they mean. *)
From Coq Require Import String ZArith List Bool Lia.
From Verif.Model Require Import Base Double Arith AppUtils FilterApp MergeApp TileApp TransformApp DiffApp ToolApp SrsApp InfoApp GetOpt Commands.
From Verif.Spec Require Import Text CommandLines.
From Verif.Proofs Require Import BaseFacts TextFacts CommandFacts OptionFacts.
From Verif.Props Require Import TextProps.
Import ListNotations.
Open Scope Z_scope.

(** ** C83: which command lines are accepted *)

(** A program with the options [t] goes on only if its command line is in the grammar or
    asks for help; it never crashes on a command line. *)
Definition accepts_only {B} (t : list entry) (get : list (list Z) -> outcome (common * B)) : Prop :=
  forall argv,
    (exists e, get argv = Throw e) \/
    (exists c b, get argv = Ret (c, b) /\ (c_help c = true \/ exists es ops, command_line t argv es ops)).

(** Options and operands may come in any order. *)
Definition order_free {B} (t : list entry) (get : list (list Z) -> outcome (common * B)) : Prop :=
  forall ws es a argv, option_use t ws es -> operand a -> get (ws ++ a :: argv) = get (a :: ws ++ argv).

Lemma accepts_ok {A B} t longs shorts case_of (start : A) (operands : A -> list (list Z) -> outcome B) none :
  implements t (common_longs ++ longs) (common_shorts ++ shorts) (val_of (common_longs ++ longs)) ->
  quiet_case case_of -> (forall a ops, (exists b, operands a ops = Ret b) \/ (exists e, operands a ops = Throw e)) ->
  accepts_only t (get_args longs shorts case_of start operands none).
Proof.
  intros M Q QO argv. destruct (args_total longs shorts case_of start operands none argv Q QO) as [((c & b) & E)|(e & E)]; [|left; eauto].
  right. exists c, b. split; [exact E|]. destruct (args_malformed _ _ _ _ _ _ _ M _ _ _ E) as [H|H]; auto.
Qed.

Lemma order_ok {A B} t longs shorts case_of (start : A) (operands : A -> list (list Z) -> outcome B) none :
  implements t (common_longs ++ longs) (common_shorts ++ shorts) (val_of (common_longs ++ longs)) ->
  order_free t (get_args longs shorts case_of start operands none).
Proof.
  intros M ws es a argv U O. unfold get_args. apply (use_v _ _ _ _ _ _ M) in U. apply classify_operand in O.
  rewrite (getopt_use _ _ _ _ (a :: argv) (im_good _ _ _ _ M) U). cbn [getopt]. rewrite O.
  rewrite (getopt_use _ _ _ _ argv (im_good _ _ _ _ M) U).
  destruct (getopt (common_longs ++ longs) (common_shorts ++ shorts) argv). reflexivity.
Qed.

Ltac quiet := let f := fresh in let H := fresh in
  intros ? ? f ? H; unfold filter_case, transform_case, diff_case, tool_case, tile_case, merge_case, srs_case, info_case, set_command, push_command, assign in H;
  repeat match type of H with (if ?b then _ else _) = _ => destruct b end;
  try discriminate H; injection H as <-; try (left; eexists; reflexivity);
  match goal with |- context [if ?b then _ else _] => destruct b end; eauto.

Lemma io_quiet {A} (a : A) ops : (exists b, input_output a ops = Ret b) \/ (exists e, input_output a ops = Throw e).
Proof. destruct ops as [|i [|o [|x l]]]; cbn; eauto. Qed.

Theorem C83_accepts :
  accepts_only convert_options convert_get_args /\
  (forall atof, accepts_only filter_options (filter_get_args atof)) /\
  accepts_only transform_options transform_get_args /\
  accepts_only diff_options diff_get_args /\
  (forall atof, accepts_only tool_options (tool_get_args atof)) /\
  (forall atof, accepts_only tile_options (tile_get_args atof)) /\
  accepts_only merge_options merge_get_args /\
  accepts_only srs_options srs_get_args /\
  accepts_only info_options info_get_args.
Proof.
  repeat split; intros.
  - apply accepts_ok; [exact convert_tables | easy | apply io_quiet].
  - apply accepts_ok; [exact filter_tables | quiet | apply io_quiet].
  - apply accepts_ok; [exact transform_tables | quiet | apply io_quiet].
  - apply accepts_ok; [exact diff_tables | quiet | intros a [|i [|o [|x l]]]; cbn; eauto].
  - apply accepts_ok; [exact tool_tables | quiet | apply io_quiet].
  - apply accepts_ok; [exact tile_tables | quiet | intros a [|i [|o l]]; cbn; eauto].
  - apply accepts_ok; [exact merge_tables | quiet | eauto].
  - apply accepts_ok; [exact srs_tables | quiet | eauto].
  - apply accepts_ok; [exact info_tables | quiet | eauto].
Qed.

Theorem C83_order :
  order_free convert_options convert_get_args /\
  (forall atof, order_free filter_options (filter_get_args atof)) /\
  order_free transform_options transform_get_args /\
  order_free diff_options diff_get_args /\
  (forall atof, order_free tool_options (tool_get_args atof)) /\
  (forall atof, order_free tile_options (tile_get_args atof)) /\
  order_free merge_options merge_get_args /\
  order_free srs_options srs_get_args /\
  order_free info_options info_get_args.
Proof.
  repeat split; intros.
  - apply order_ok. exact convert_tables.
  - apply order_ok. exact filter_tables.
  - apply order_ok. exact transform_tables.
  - apply order_ok. exact diff_tables.
  - apply order_ok. exact tool_tables.
  - apply order_ok. exact tile_tables.
  - apply order_ok. exact merge_tables.
  - apply order_ok. exact srs_tables.
  - apply order_ok. exact info_tables.
Qed.

(** A command line has one meaning: the grammar is not ambiguous. *)
Lemma sev_inj t longs shorts val es es' : implements t longs shorts val -> Forall (declared t) es -> Forall (declared t) es' ->
  map (sev val) es = map (sev val) es' -> es = es'.
Proof.
  intros M D. revert es'. induction D as [|[n o] es (e & I & N & _) D IH]; intros [|[n' o'] es'] D' E; try discriminate E; [reflexivity|].
  inversion_clear D' as [|? ? (e' & I' & N' & _) D'']. injection E as V -> E. cbn in N, N', V. subst n n'.
  rewrite (im_val _ _ _ _ M _ _ I I' V), (IH es' D'' E). reflexivity.
Qed.

Theorem C83_unambiguous t argv es ops es' ops' :
  In t [convert_options; filter_options; transform_options; diff_options; tool_options; tile_options; merge_options; srs_options; info_options] ->
  command_line t argv es ops -> command_line t argv es' ops' -> es = es' /\ ops = ops'.
Proof.
  assert (K : forall longs shorts val, implements t longs shorts val ->
    command_line t argv es ops -> command_line t argv es' ops' -> es = es' /\ ops = ops').
  { intros longs shorts val M L L'. assert (G := getopt_line _ _ _ _ _ _ _ M L). rewrite (getopt_line _ _ _ _ _ _ _ M L') in G.
    injection G as E ->. split; [|reflexivity].
    apply (sev_inj _ _ _ _ _ _ M); [now apply line_declared in L | now apply line_declared in L' | now symmetry]. }
  intros [<-|[<-|[<-|[<-|[<-|[<-|[<-|[<-|[<-|[]]]]]]]]]].
  - exact (K _ _ _ convert_tables).
  - exact (K _ _ _ filter_tables).
  - exact (K _ _ _ transform_tables).
  - exact (K _ _ _ diff_tables).
  - exact (K _ _ _ tool_tables).
  - exact (K _ _ _ tile_tables).
  - exact (K _ _ _ merge_tables).
  - exact (K _ _ _ srs_tables).
  - exact (K _ _ _ info_tables).
Qed.

(** ** C84: what the options mean *)

Definition status (es : list setting) : common := mk_common false (given "verbose" es) (given "version" es).

(** Programs with an input and an output *)
Definition with_names {A} (es : list setting) (a : A) (ops : list (list Z)) : outcome (common * (A * io_names)) :=
  match input_and_output ops with
  | Some (i, o) => Ret (status es, (a, mk_io i o))
  | None => Throw (runtime_error "Too many arguments on command line")
  end.

Lemma with_names_ok {A} es (a : A) ops : bind (input_output a ops) (fun b => Ret (status es, b)) = with_names es a ops.
Proof. destruct ops as [|i [|o [|x l]]]; reflexivity. Qed.

Theorem C84_convert argv es ops : command_line convert_options argv es ops -> given "help" es = false ->
  convert_get_args argv = with_names es tt ops.
Proof.
  intros L H. unfold convert_get_args. rewrite (args_line _ _ _ _ _ _ _ convert_tables _ _ _ L).
  cbv beta. rewrite app_nil_r, (convert_settings es (line_declared _ _ _ _ L) H). cbn -[with_names given]. apply with_names_ok.
Qed.

Theorem C84_filter atof argv es ops : command_line filter_options argv es ops -> given "help" es = false ->
  filter_get_args atof argv = with_names es
    (mk_filter_args (map atoi (arguments "keep-class" es)) (final (fun s => to_u64 (atol s)) "random-seed" es 0)
       (map atoi (arguments "remove-class" es)) (given "unique-xyz" es) (final atof "subsample" es d_zero)
       (final (fun s => s) "remove-coords" es [])) ops.
Proof.
  intros L H. unfold filter_get_args. rewrite (args_line _ _ _ _ _ _ _ filter_tables _ _ _ L).
  rewrite (filter_settings atof es (line_declared _ _ _ _ L) H).
  cbn -[with_names given arguments final map atoi atol d_zero to_u64]. apply with_names_ok.
Qed.

Theorem C84_transform argv es ops : command_line transform_options argv es ops -> given "help" es = false ->
  transform_get_args argv =
  if existsb (fun s : setting => existsb (String.eqb (fst s)) noise_options) es then Throw (runtime_error "Invalid option")
  else with_names es
    (mk_transform_args (map (fun '(n, v) => mk_command (chars n) v) (chosen transform_commands es))
       (final (fun s => to_u64 (atol s)) "random-seed" es 0)) ops.
Proof.
  intros L H. unfold transform_get_args. rewrite (args_line _ _ [] _ _ _ _ transform_tables _ _ _ L).
  rewrite (transform_settings es (line_declared _ _ _ _ L) H).
  assert (E : existsb (fun s : setting => existsb (String.eqb (fst s)) noise_options) es = nonempty (chosen noise_options es)).
  { clear. induction es as [|s es IH]; [reflexivity|]. rewrite chosen_cons. cbn [existsb]. destruct (existsb (String.eqb (fst s)) noise_options); [reflexivity|].
    exact IH. }
  rewrite E. destruct (chosen noise_options es); [|reflexivity].
  cbn -[with_names given arguments final map atoi atol to_u64 chosen chars transform_commands].
  erewrite map_ext; [apply with_names_ok|]. intros [n v]. reflexivity.
Qed.

Lemma char_signed : forall s, map to_char s = map signed_char s.
Proof.
  intros s. apply map_ext. intros b. unfold to_char, signed_char. destruct (Z.ltb_spec b 128), (Z.ltb_spec 127 b); lia.
Qed.

Theorem C84_diff argv es ops : command_line diff_options argv es ops -> given "help" es = false ->
  diff_get_args argv =
  match ops with
  | [fn1; fn2] =>
    Ret (status es,
      (mk_diff_args (given "header-only" es) (given "data-only" es) (map signed_char (List.concat (arguments "field" es))) (given "reverse" es),
       (fn1, fn2)))
  | [] => Throw (runtime_error "No input filename 1 was specified")
  | [_] => Throw (runtime_error "No input filename 2 was specified")
  | _ => Throw (runtime_error "Too many arguments on command line")
  end.
Proof.
  intros L H. unfold diff_get_args. rewrite (args_line _ _ _ _ _ _ _ diff_tables _ _ _ L).
  rewrite (diff_settings es (line_declared _ _ _ _ L) H). rewrite <- char_signed.
  destruct ops as [|i [|o [|x l]]]; reflexivity.
Qed.

Theorem C84_tool atof argv es ops : command_line tool_options argv es ops -> given "help" es = false ->
  let args x := mk_targs x (final (fun s => s) "field-filename" es []) (final atof "resolution" es d_zero) in
  tool_get_args atof argv =
  match chosen (map e_name tool_commands) es with
  | [] => with_names es (args (mk_command [] [])) ops
  | [(n, v)] => with_names es (args (mk_command (chars n) v)) ops
  | _ => Throw (runtime_error "You can only specify one command at a time")
  end.
Proof.
  intros L H. cbv zeta. unfold tool_get_args. rewrite (args_line _ _ _ _ _ _ _ tool_tables _ _ _ L).
  rewrite (tool_settings atof es (line_declared _ _ _ _ L) H). fold command_names.
  destruct (chosen command_names es) as [|[n v] [|[n' v'] l]]; [| |reflexivity].
  - cbn -[with_names given final d_zero]. apply with_names_ok.
  - cbn -[with_names given final d_zero chars]. apply with_names_ok.
Qed.

Theorem C84_tile atof argv es ops : command_line tile_options argv es ops -> given "help" es = false ->
  let args fn := mk_tile_args (given "force" es) (final (fun s => to_u32 (atoi s)) "tiles" es 2)
         (final (fun s => to_u32 (atoi s)) "digits" es 3) (final atof "tile-size" es d_minus_one)
         (final atof "tile-size-x" es d_minus_one) (final atof "tile-size-y" es d_minus_one)
         (final (fun s => s) "prefix" es []) fn in
  tile_get_args atof argv =
  match ops with
  | [] | [[]] => Ret (status es, (args None, []))
  | [fn] => Ret (status es, (args (Some (stem_extension fn)), fn))
  | _ => Throw (runtime_error "Too many arguments on command line")
  end.
Proof.
  intros L H. cbv zeta. unfold tile_get_args. rewrite (args_line _ _ _ _ _ _ _ tile_tables _ _ _ L).
  rewrite (tile_settings atof es (line_declared _ _ _ _ L) H).
  destruct ops as [|[|x i] [|o l]]; reflexivity.
Qed.

Theorem C84_merge argv es ops : command_line merge_options argv es ops -> given "help" es = false ->
  merge_get_args argv = Ret (status es, (mk_merge_args (toggled "quiet" es false) (final atoi "point-id" es (-1)), ops)).
Proof.
  intros L H. unfold merge_get_args. rewrite (args_line _ _ _ _ _ _ _ merge_tables _ _ _ L).
  rewrite (merge_settings es (line_declared _ _ _ _ L) H). reflexivity.
Qed.

Theorem C84_srs argv es ops : command_line srs_options argv es ops -> given "help" es = false ->
  srs_get_args argv = Ret (status es, mk_srs_args (final (fun s => s) "srs" es []) (given "srs" es) ops).
Proof.
  intros L H. unfold srs_get_args. rewrite (args_line _ _ _ _ _ _ _ srs_tables _ _ _ L).
  rewrite (srs_settings es (line_declared _ _ _ _ L) H). reflexivity.
Qed.

Theorem C84_info argv es ops : command_line info_options argv es ops -> given "help" es = false ->
  info_get_args argv =
  Ret (status es,
    mk_info_args (toggled "json" es false) (toggled "header-info" es true) (toggled "summary-info" es true)
      (toggled "classification-info" es true) (toggled "metric-info" es true) (toggled "compact" es true) (toggled "quartiles" es false) ops).
Proof.
  intros L H. unfold info_get_args. rewrite (args_line _ _ _ _ _ _ _ info_tables _ _ _ L).
  rewrite (info_settings es (line_declared _ _ _ _ L) H). reflexivity.
Qed.

(** ** Help *)

(** After -h the rest is not looked at, not even the operands; what was set before counts. *)
Definition helps {B} (t : list entry) (ok : list setting -> Prop) (get : list (list Z) -> outcome (common * B)) : Prop :=
  forall argv es1 o es2 ops, command_line t argv (es1 ++ ("help"%string, o) :: es2) ops -> given "help" es1 = false -> ok es1 ->
  exists b, get argv = Ret (mk_common true (given "verbose" es1) (given "version" es1), b).

Lemma helps_ok {A B} t (ok : list setting -> Prop) longs shorts case_of (start : A) (operands : A -> list (list Z) -> outcome B) none :
  implements t (common_longs ++ longs) (common_shorts ++ shorts) (val_of (common_longs ++ longs)) ->
  val_of (common_longs ++ longs) "help" = ch_h ->
  (forall es, Forall (declared t) es -> given "help" es = false -> ok es ->
     exists a, get_options case_of (map (sev (val_of (common_longs ++ longs))) es) no_common start = Ret (status es, a)) ->
  helps t ok (get_args longs shorts case_of start operands none).
Proof.
  intros M V S argv es1 o es2 ops L H K.
  destruct (S es1 (proj1 (proj1 (Forall_app _ _ _) (line_declared _ _ _ _ L))) H K) as (a & E).
  exists (none a). exact (args_help _ _ _ _ _ _ _ M _ _ _ _ _ _ _ L V H E).
Qed.

Definition anything (es : list setting) : Prop := True.

Theorem C83_help :
  helps convert_options anything convert_get_args /\
  (forall atof, helps filter_options anything (filter_get_args atof)) /\
  helps transform_options (fun es => chosen noise_options es = []) transform_get_args /\
  helps diff_options anything diff_get_args /\
  (forall atof, helps tool_options (fun es => (length (chosen (map e_name tool_commands) es) <= 1)%nat) (tool_get_args atof)) /\
  (forall atof, helps tile_options anything (tile_get_args atof)) /\
  helps merge_options anything merge_get_args /\
  helps srs_options anything srs_get_args /\
  helps info_options anything info_get_args.
Proof.
  repeat split; intros.
  - apply helps_ok; [exact convert_tables | reflexivity |]. intros es D H _. rewrite app_nil_r, (convert_settings es D H). eauto.
  - apply helps_ok; [exact filter_tables | reflexivity |]. intros es D H _. rewrite (filter_settings atof es D H). eauto.
  - apply helps_ok; [exact transform_tables | reflexivity |]. intros es D H K. rewrite (transform_settings es D H), K. eauto.
  - apply helps_ok; [exact diff_tables | reflexivity |]. intros es D H _. rewrite (diff_settings es D H). eauto.
  - apply helps_ok; [exact tool_tables | reflexivity |]. intros es D H K. rewrite (tool_settings atof es D H).
    change (map e_name tool_commands) with command_names in K.
    destruct (chosen command_names es) as [|x [|y l]]; cbn in K; [cbn; eauto| |lia]. cbn. eauto.
  - apply helps_ok; [exact tile_tables | reflexivity |]. intros es D H _. rewrite (tile_settings atof es D H). eauto.
  - apply helps_ok; [exact merge_tables | reflexivity |]. intros es D H _. rewrite (merge_settings es D H). eauto.
  - apply helps_ok; [exact srs_tables | reflexivity |]. intros es D H _. rewrite (srs_settings es D H). eauto.
  - apply helps_ok; [exact info_tables | reflexivity |]. intros es D H _. rewrite (info_settings es D H). eauto.
Qed.

(** ** Numbers *)

(** A number on the command line is read as such; one that does not fit is not refused but
    changed. *)
Theorem C84_numbers t n : reads_as t n ->
  (- two31 <= n < two31 -> atoi t = n) /\
  (- two63 <= n < two63 -> - two31 <= atoi t < two31 /\ (atoi t - n) mod two32 = 0 /\ to_u64 (atol t) = n mod two64) /\
  (two63 <= n -> atoi t = -1) /\ (n < - two63 -> atoi t = 0).
Proof.
  intros R. apply strtol_reads_as in R as (k & R). unfold atoi, atol. rewrite R.
  assert (W : forall m, - two31 <= to_i32 (to_u32 m) < two31 /\ (to_i32 (to_u32 m) - m) mod two32 = 0).
  { intros m. unfold to_i32, to_u32, two31, two32. assert (0 <= m mod 4294967296 < 4294967296) by (apply Z.mod_pos_bound; lia).
    assert (m = 4294967296 * (m / 4294967296) + m mod 4294967296) by (apply Z.div_mod; lia).
    rewrite Z.mod_mod by lia. destruct (Z.ltb_spec (m mod 4294967296) 2147483648); (split; [lia|]).
    - replace (m mod 4294967296 - m) with ((- (m / 4294967296)) * 4294967296) by lia. apply Z.mod_mul. lia.
    - replace (m mod 4294967296 - 4294967296 - m) with ((- (m / 4294967296) - 1) * 4294967296) by lia. apply Z.mod_mul. lia. }
  repeat split.
  - intros B. destruct (Z.ltb_spec n (- two63)); [unfold two31, two63 in *; lia|]. destruct (Z.leb_spec two63 n); [unfold two31, two63 in *; lia|].
    destruct (W n) as (B' & E). apply Z.mod_divide in E; [|unfold two32; lia]. destruct E as (q & E). unfold two31, two32 in *. lia.
  - destruct (Z.ltb_spec n (- two63)); [unfold two31, two63 in *; lia|]. destruct (Z.leb_spec two63 n); [unfold two31, two63 in *; lia|]. apply W.
  - destruct (Z.ltb_spec n (- two63)); [unfold two31, two63 in *; lia|]. destruct (Z.leb_spec two63 n); [unfold two31, two63 in *; lia|]. apply W.
  - destruct (Z.ltb_spec n (- two63)); [unfold two31, two63 in *; lia|]. destruct (Z.leb_spec two63 n); [unfold two31, two63 in *; lia|]. apply W.
  - destruct (Z.ltb_spec n (- two63)); [unfold two31, two63 in *; lia|]. destruct (Z.leb_spec two63 n); [unfold two31, two63 in *; lia|]. reflexivity.
  - intros B. destruct (Z.ltb_spec n (- two63)); [unfold two31, two63 in *; lia|]. destruct (Z.leb_spec two63 n); [|unfold two31, two63 in *; lia]. reflexivity.
  - intros B. destruct (Z.ltb_spec n (- two63)); [|unfold two31, two63 in *; lia]. reflexivity.
Qed.

(** Other texts are 0. *)
Theorem C84_no_number t : (forall n, ~ reads_as t n) -> atoi t = 0 /\ atol t = 0.
Proof.
  intros N. unfold atoi, atol. destruct (strtol t) as [[n k]|] eqn:E; [|split; reflexivity]. exfalso.
  apply (N n), strtol_reads_as. eauto.
Qed.

(** The keep-class option with a number that is too large: 4294967298 keeps class 2. *)
Example C84_numbers_example : reads_as (chars "4294967298") 4294967298 /\ atoi (chars "4294967298") = 2
  /\ reads_as (chars " -7x") (-7) /\ atoi (chars " -7x") = -7 /\ atoi (chars "ground") = 0.
Proof.
  split; [|split; [reflexivity|split; [|split; reflexivity]]].
  - exists [], [], [52; 50; 57; 52; 57; 54; 55; 50; 57; 56], []. split; [reflexivity|]. split; [constructor|].
    split; [repeat (constructor; [unfold digit; lia|]); constructor|]. split; [discriminate|].
    split; [intros c u E; discriminate E|]. left. split; [now left | reflexivity].
  - exists [32], [45], [55], [120]. split; [reflexivity|]. split; [constructor; [unfold white; cbn; lia | constructor]|].
    split; [constructor; [unfold digit; lia | constructor]|]. split; [discriminate|].
    split; [intros c u [= <- <-]; unfold digit; lia|]. right. split; reflexivity.
Qed.

(** ** The file name of spoc_tile *)

(** What is between the last slash and the end is split before its last dot, unless this
    dot is in front. *)
Theorem C84_file_name fn : let '(stem, ext) := stem_extension fn in
  (exists dir, fn = dir ++ stem ++ ext /\ (dir = [] \/ exists d, dir = d ++ [47])) /\
  ~ In 47 (stem ++ ext) /\
  (ext = [] \/ stem <> [] /\ exists e, ext = 46 :: e /\ ~ In 46 e).
Proof.
  assert (F : forall fn, (exists dir, fn = dir ++ file_name fn /\ (dir = [] \/ exists d, dir = d ++ [47])) /\ ~ In 47 (file_name fn)).
  { clear. induction fn as [|c t ((dir & E & D) & N)]; [split; [exists []; auto|easy]|]. cbn [file_name].
    destruct (Z.eqb_spec c 47) as [->|NC].
    - split; [|exact N]. exists (47 :: dir). split; [now rewrite E at 1|]. right. destruct D as [->|(d & ->)]; [now exists []|now exists (47 :: d)].
    - destruct (existsb (Z.eqb 47) t) eqn:X.
      + split; [|exact N]. exists (c :: dir). split; [now rewrite E at 1|]. destruct D as [->|(d & ->)]; [|right; now exists (c :: d)].
        exfalso. apply existsb_exists in X as (y & I & Y). apply Z.eqb_eq in Y as <-. apply N. now rewrite E in I.
      + split; [exists []; auto|]. intros [I|I]; [now apply NC|]. assert (existsb (Z.eqb 47) t = true); [|congruence].
        apply existsb_exists. exists 47. now split. }
  assert (G : forall s, match last_dot s with
    | Some (a, b) => s = a ++ b /\ a <> [] /\ exists e, b = 46 :: e /\ ~ In 46 e
    | None => ~ In 46 (tl s) end).
  { clear. induction s as [|c t IH]; [easy|]. cbn [last_dot]. destruct (last_dot t) as [[a b]|].
    - destruct IH as (-> & _ & E). repeat split; [discriminate|exact E].
    - destruct t as [|d t]; [easy|]. cbn [tl] in *. destruct (Z.eqb_spec d 46) as [->|ND].
      + repeat split; [discriminate|]. now exists t.
      + intros [I|I]; [now apply ND|now apply IH]. }
  unfold stem_extension. destruct (F fn) as ((dir & E & D) & N).
  destruct (beq_bytes (file_name fn) (chars "..")) eqn:B.
  - rewrite app_nil_r. split; [exists dir; auto|]. auto.
  - specialize (G (file_name fn)). destruct (last_dot (file_name fn)) as [[a b]|].
    + destruct G as (E' & NA & EX). split; [exists dir; rewrite <- E'; auto|]. rewrite <- E'. auto.
    + rewrite app_nil_r. split; [exists dir; auto|]. auto.
Qed.

Example C84_file_name_example :
  stem_extension (chars "/data/a.b/cloud.v2.spoc") = (chars "cloud.v2", chars ".spoc") /\
  stem_extension (chars ".spoc") = (chars ".spoc", []) /\ stem_extension (chars "a/..") = (chars "..", []) /\
  stem_extension (chars "a.b/cloud") = (chars "cloud", []).
Proof. repeat split. Qed.

(** ** Examples *)

Definition words (l : list string) : list (list Z) := map chars l.

(** Letters together, an abbreviation, an argument after "=" and as the next word, an operand
    that begins with a dash. *)
Example C83_example : command_line filter_options
  (words ["-uk2"; "in.spoc"; "--keep=-3"; "--subsample"; "-0.5"; "--"; "-out"])%string
  [("unique-xyz", None); ("keep-class", Some (chars "2")); ("keep-class", Some (chars "-3")); ("subsample", Some (chars "-0.5"))]%string
  (words ["in.spoc"; "-out"])%string.
Proof.
  apply (Line_option _ [chars "-uk2"] [("unique-xyz", None); ("keep-class", Some (chars "2"))]%string).
  { apply (Use_attached _ (chars "u") [("unique-xyz"%string, None)] 107 (mk_entry "keep-class" "k" true) (chars "2")).
    - constructor; [|constructor]. exists (mk_entry "unique-xyz" "u" false). repeat split. cbn. tauto.
    - split; [cbn; tauto | reflexivity].
    - reflexivity.
    - discriminate. }
  apply Line_operand; [right; discriminate|].
  apply (Line_option _ [chars "--keep=-3"] [("keep-class", Some (chars "-3"))]%string).
  { apply (Use_long_equals _ (chars "keep") (mk_entry "keep-class" "k" true) (chars "-3")).
    - cbn. intuition discriminate.
    - split; [cbn; tauto|]. right. split; [exists (chars "-class"); reflexivity|].
      intros e' I (t & E). repeat (destruct I as [<-|I]; [try discriminate E; try reflexivity|]). destruct I.
    - reflexivity. }
  apply (Line_option _ [chars "--subsample"; chars "-0.5"] [("subsample", Some (chars "-0.5"))]%string).
  { apply (Use_long_next _ (chars "subsample") (mk_entry "subsample" "s" true) (chars "-0.5")).
    - cbn. intuition discriminate.
    - discriminate.
    - split; [cbn; tauto|]. now left.
    - reflexivity. }
  apply Line_dashes.
Qed.

(** What it means *)
Example C84_example atof :
  filter_get_args atof (words ["-uk2"; "in.spoc"; "--keep=-3"; "--subsample"; "-0.5"; "--"; "-out"])%string
  = Ret (mk_common false false false,
      (mk_filter_args [2; -3] 0 [] true (atof (chars "-0.5")) [], mk_io (chars "in.spoc") (chars "-out"))).
Proof. rewrite (C84_filter atof _ _ _ C83_example eq_refl). reflexivity. Qed.

(** The order of the commands of spoc_transform is kept. *)
Example C84_transform_example :
  transform_get_args (words ["--add-x=1"; "--scale-x"; "2"; "a"; "--add-x"; "3"; "b"; "--random"; "9"])%string
  = Ret (mk_common false false false,
      (mk_transform_args [mk_command (chars "add-x") (chars "1"); mk_command (chars "scale-x") (chars "2"); mk_command (chars "add-x") (chars "3")] 9,
       mk_io (chars "a") (chars "b"))).
Proof. reflexivity. Qed.

(** The help of spoc_transform shows the noise options and -a, but none of them is accepted. *)
Example C84_noise_example :
  transform_get_args (words ["--gaussian-noise=1"; "a"; "b"])%string = Throw (runtime_error "Invalid option") /\
  transform_get_args (words ["-a"; "9"; "--add-x=1"; "a"; "b"])%string = Throw (runtime_error "Invalid option").
Proof. split; reflexivity. Qed.

(** Two commands, or a command with an argument that it does not have, are refused. *)
Example C84_tool_example atof :
  tool_get_args atof (words ["--recenter-xy"; "-gx"; "a"])%string = Throw (runtime_error "You can only specify one command at a time") /\
  tool_get_args atof (words ["--recenter-xy=1"; "a"])%string = Throw (runtime_error "Invalid option") /\
  tool_get_args atof (words ["--recenter"; "a"])%string = Throw (runtime_error "Invalid option") /\
  tool_get_args atof (words ["--resi"; "3"; "a"])%string
  = Ret (mk_common false false false, (mk_targs (mk_command (chars "resize-extra") (chars "3")) [] d_zero, mk_io (chars "a") [])).
Proof. repeat split; reflexivity. Qed.

(** An even number of -j is none; -h ends the command line. *)
Example C84_info_example :
  info_get_args (words ["-jj"; "-s"; "a"; "b"])%string
  = Ret (mk_common false false false, mk_info_args false true false true true true false (words ["a"; "b"]%string)) /\
  diff_get_args (words ["-rh"; "--nonsense"])%string
  = Ret (mk_common true false false, (mk_diff_args false false [] true, ([], []))).
Proof. split; reflexivity. Qed.

(** Options before and after operands *)
Example C83_order_example : option_use merge_options (words ["-p"; "7"])%string [("point-id"%string, Some (chars "7"))] /\ operand (chars "a").
Proof.
  split; [|right; discriminate].
  apply (Use_next _ [] [] 112 (mk_entry "point-id" "p" true)); [constructor | split; [cbn; tauto | reflexivity] | reflexivity].
Qed.

Print Assumptions C83_accepts.
Print Assumptions C83_order.
Print Assumptions C83_unambiguous.
Print Assumptions C83_help.
Print Assumptions C84_convert.
Print Assumptions C84_filter.
Print Assumptions C84_transform.
Print Assumptions C84_diff.
Print Assumptions C84_tool.
Print Assumptions C84_tile.
Print Assumptions C84_merge.
Print Assumptions C84_srs.
Print Assumptions C84_info.
Print Assumptions C84_numbers.
Print Assumptions C84_no_number.
Print Assumptions C84_file_name.
