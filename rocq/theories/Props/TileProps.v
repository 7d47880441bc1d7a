(** C52-C55: spoc_tile. *)
From Coq Require Import String Reals ZArith List Bool Lia Lra Permutation Sorted.
From Flocq Require Import Core Mult_error.
From Verif.Model Require Import Base Double Arith Header PointRecord Point Extent File Compression IO AppConvert AppUtils FilterApp TileApp.
From Verif.Spec Require Import Files Apps Streams ZlibContract Format Rounding Geometry Tiles.
From Verif.Proofs Require Import BaseFacts DoubleFacts ArithFacts VoxelFacts ErrorFacts ScaleFacts FileFacts FilterFacts StoreFacts
  ToyZlib TileFacts TileSizeFacts.
From Verif.Props Require Import GeometryProps VoxelProps.
Import ListNotations.
Open Scope Z_scope.
Open Scope outcome_scope.

Lemma indexes_facts : forall pts e sx sy idx, get_tile_indexes pts e sx sy = Ret idx ->
  length idx = length pts /\ Forall (fun k => 0 <= k < 2 ^ 64) idx.
Proof.
  intros pts e sx sy idx H. unfold get_tile_indexes in H. destruct (tile_stride e sx) as [stride|?|?|]; try discriminate H.
  cbn [bind] in H. apply mapM_Ret_inv in H. split.
  - symmetry. clear - H. induction H; cbn; [reflexivity|now f_equal].
  - clear - H. induction H as [|p k pts idx E H IH]; constructor; [|exact IH]. unfold tile_index in E.
    destruct (tile_cell (px p) _ sx) as [x|?|?|]; try discriminate E. cbn [bind] in E.
    destruct (tile_cell (py p) _ sy) as [y|?|?|]; try discriminate E. cbn [bind] in E. injection E as <-.
    unfold to_u64. change (2 ^ 64) with two64. apply Z.mod_pos_bound. reflexivity.
Qed.

Lemma numbers_facts : forall args f idx, tile_numbers args f = Ret idx ->
  length idx = length (f_prs f) /\ Forall (fun k => 0 <= k < 2 ^ 64) idx.
Proof.
  intros args f idx H. unfold tile_numbers in H. destruct (_ && _); [discriminate H|]. destruct (_ && _); [discriminate H|].
  destruct (tile_sizes args _) as [sx sy]. apply indexes_facts in H. now rewrite map_length in H.
Qed.

Definition input_named (args : tile_args) : Prop := ta_fn args <> None \/ ta_prefix args <> [].

Lemma tile_tool_run : forall z debug acc args input f fs, file_of (read_spoc_file z) input f -> input_named args ->
  forall idx, tile_numbers args f = Ret idx ->
  tile_tool z debug acc args input fs = write_tiles z debug acc args f (get_tile_map idx) (tile_keys idx) fs.
Proof.
  intros z debug acc args input f fs (rest & R) N idx E. unfold tile_tool.
  assert (C : match ta_fn args, ta_prefix args with None, [] => true | _, _ => false end = false).
  { destruct N as [N|N]; destruct (ta_fn args); try reflexivity; [congruence|]. destruct (ta_prefix args); [congruence|reflexivity]. }
  rewrite C, R. cbn [bind]. rewrite E. reflexivity.
Qed.

Lemma tile_tool_inv : forall z debug acc args input f fs fs', file_of (read_spoc_file z) input f ->
  tile_tool z debug acc args input fs = (fs', Ret tt) ->
  input_named args /\ exists idx, tile_numbers args f = Ret idx.
Proof.
  intros z debug acc args input f fs fs' (rest & R) E. unfold tile_tool in E. split.
  - unfold input_named. destruct (ta_fn args); [left; discriminate|]. destruct (ta_prefix args); [discriminate E|right; discriminate].
  - destruct (match ta_fn args, ta_prefix args with None, [] => true | _, _ => false end); [discriminate E|].
    rewrite R in E. cbn [bind] in E. destruct (tile_numbers args f) as [idx|?|?|]; try discriminate E. eauto.
Qed.

Lemma storable_meta : forall f idx k, storable f -> same_meta f (tile_of f idx k).
Proof.
  intros f idx k ([A B _ _ _ _ _] & _). unfold same_meta, tile_of. cbn. now rewrite A, B.
Qed.

(** ** C52 *)

(** After a run without an error: the tiles have different numbers, each tile is in its
    file, has the metadata of the input, is not empty and holds, in order, the records
    of one number; together the tiles hold every record once.  No other file changes. *)
Theorem C52_partition : forall z ZS debug acc args input f fs fs', zlib_ok z ZS -> storable f ->
  file_of (read_spoc_file z) input f -> tile_tool z debug acc args input fs = (fs', Ret tt) ->
  exists numbers tiles, tile_numbers args f = Ret numbers
  /\ StronglySorted Z.lt (map fst tiles)
  /\ Permutation (flat_map (fun kt => f_prs (snd kt)) tiles) (f_prs f)
  /\ (forall k t, In (k, t) tiles -> same_meta f t /\ f_prs t = numbered_with k numbers (f_prs f) /\ f_prs t <> []
        /\ exists bytes t', fs' (tile_name args (f_compressed f) k) = Some bytes /\ is_bytes bytes /\ kept t t'
           /\ read_spoc_file z (i_open bytes) = Ret (t', i_open []))
  /\ (forall name, (forall k t, In (k, t) tiles -> name <> tile_name args (f_compressed f) k) -> fs' name = fs name).
Proof.
  intros z ZS debug acc args input f fs fs' Hz S F E.
  destruct (tile_tool_inv _ _ _ _ _ _ _ _ F E) as (N & idx & I). rewrite (tile_tool_run z debug acc args input f fs F N idx I) in E.
  destruct (numbers_facts args f idx I) as [L R].
  assert (P : Forall (fun k => 0 <= k) idx) by (eapply Forall_impl; [|exact R]; intros a [A _]; exact A).
  assert (U : uniform (f_prs f)) by apply S.
  pose proof (tile_keys_sorted idx) as Srt. pose proof (sorted_nodup_lt _ Srt) as ND.
  assert (K : forall k, In k (tile_keys idx) -> In k idx) by (intros k; apply tile_keys_In).
  exists idx, (map (fun k => (k, tile_of f idx k)) (tile_keys idx)).
  split; [exact I|]. rewrite map_map. cbn [fst]. rewrite map_id. split; [exact Srt|]. split.
  { rewrite flat_map_concat_map, map_map. cbn [snd tile_of f_prs]. rewrite <- flat_map_concat_map.
    apply tiles_partition; [exact L|exact ND|]. intros k. apply tile_keys_In. }
  split.
  - intros k t H. apply in_map_iff in H as (k' & H & Ik). injection H as <- <-.
    split; [now apply storable_meta|]. split; [reflexivity|]. split; [apply numbered_with_nonempty; auto|].
    destruct (write_tiles_ok z ZS debug acc args f idx Hz S L P (tile_keys idx) fs ND K) as (fs1 & E1 & A).
    { eapply write_tiles_inv; eassumption. }
    rewrite E in E1. injection E1 as <-. now apply A.
  - intros name H. pose proof (write_tiles_only z debug acc args f idx (tile_keys idx) fs name U L) as O.
    rewrite E in O. cbn [fst] in O. apply O. intros k Ik. split; [now apply K|].
    apply (H k (tile_of f idx k)). apply in_map_iff. eauto.
Qed.

(** When it succeeds: the tile numbers can be computed, the tile files can be opened for
    writing, and without --force none of them is an existing readable file. *)
Theorem C52_succeeds : forall z ZS debug acc args input f fs numbers, zlib_ok z ZS -> storable f ->
  file_of (read_spoc_file z) input f -> input_named args -> tile_numbers args f = Ret numbers ->
  ((exists fs', tile_tool z debug acc args input fs = (fs', Ret tt))
   <-> forall k, In k numbers -> can_write acc (tile_name args (f_compressed f) k) = true
         /\ (ta_force args = true \/ fs (tile_name args (f_compressed f) k) = None
             \/ can_read acc (tile_name args (f_compressed f) k) = false)).
Proof.
  intros z ZS debug acc args input f fs idx Hz S F N I. rewrite (tile_tool_run z debug acc args input f fs F N idx I).
  destruct (numbers_facts args f idx I) as [L R].
  assert (P : Forall (fun k => 0 <= k) idx) by (eapply Forall_impl; [|exact R]; intros a [A _]; exact A).
  assert (U : uniform (f_prs f)) by apply S.
  pose proof (sorted_nodup_lt _ (tile_keys_sorted idx)) as ND.
  assert (K : forall k, In k (tile_keys idx) -> In k idx) by (intros k; apply tile_keys_In).
  split.
  - intros (fs' & E) k Ik. eapply write_tiles_inv; eauto. now apply tile_keys_In.
  - intros H. destruct (write_tiles_ok z ZS debug acc args f idx Hz S L P (tile_keys idx) fs ND K) as (fs' & E & _); eauto.
Qed.

(** A finding: --tile-size on a file without records is undefined behaviour. *)
Theorem C52_empty_undefined : forall args wkt comp, finite (ta_size args) -> (0 < d_val (ta_size args))%R ->
  d_gtb (ta_size_x args) d_zero = false -> d_gtb (ta_size_y args) d_zero = false ->
  tile_numbers args (mk_file 0 1 wkt comp []) = UB ub_float_to_int.
Proof.
  intros args wkt comp Fs Ps Hx Hy. unfold tile_numbers, tile_sizes. rewrite Hx, Hy, !andb_false_r.
  rewrite (proj2 (gtb_zero _ Fs) Ps). cbn [f_prs map]. unfold get_tile_indexes, tile_stride. cbv zeta.
  rewrite (proj2 (gtb_zero _ Fs) Ps).
  set (a := d_add (d_div (d_sub (px (maxp (get_extent []))) (px (minp (get_extent [])))) (ta_size args)) d_one).
  assert (H : d_is_finite a = false).
  { destruct (d_is_finite a) eqn:E; [|reflexivity]. exfalso. unfold a in E.
    apply d_add_finite_inv in E; [|apply d_div_ok|apply one_finite]. destruct E as [E _].
    apply d_div_finite_inv in E; [|apply d_sub_ok|apply Fs]. destruct E as [E _]. vm_compute in E. discriminate E. }
  unfold d_to_size. destruct (d_cast_cases 0 (two64 - 1) a) as [(n & C)| ->]; [|reflexivity].
  apply d_cast_ret in C. destruct C as [C _]. congruence.
Qed.

(** ** C53 *)

Lemma in_extent : forall pts p ax, Forall pt_finite pts -> In p pts -> In ax axes ->
  finite (ax p) /\ finite (ax (minp (get_extent pts))) /\ finite (ax (maxp (get_extent pts)))
  /\ (d_val (ax (minp (get_extent pts))) <= d_val (ax p) <= d_val (ax (maxp (get_extent pts))))%R.
Proof.
  intros pts p ax F I A. destruct (extent_finite pts F) as [Fm FM].
  assert (Fp : pt_finite p) by (rewrite Forall_forall in F; now apply F).
  pose proof (axis_finite ax p A Fp) as [O1 F1]. pose proof (axis_finite ax _ A Fm) as [O2 F2].
  pose proof (axis_finite ax _ A FM) as [O3 F3].
  destruct (C32_extent_contains pts p ax F I A) as [B1 B2].
  apply d_leb_val in B1; auto. apply d_leb_val in B2; auto.
  split; [now split|]. split; [now split|]. split; [now split|]. now split.
Qed.

Lemma same_number : forall stride x y x' y', 0 <= x < stride -> 0 <= x' < stride ->
  (y * stride + x = y' * stride + x' <-> x = x' /\ y = y').
Proof. intros. split; [|intros [-> ->]; reflexivity]. intros E. assert (y = y') by nia. subst. lia. Qed.

(** The tile numbers of finite points, when there are not too many tiles: each is
    computed, and two points get the same number exactly when they lie in the same
    column and in the same row. *)
Theorem C53_cells : forall pts sx sy, Forall pt_finite pts -> pts <> [] -> finite sx -> finite sy ->
  let e := get_extent pts in
  let nx := cell (px (maxp e)) (px (minp e)) sx in
  let ny := cell (py (maxp e)) (py (minp e)) sy in
  (forall ax, In ax [px; py] -> fits (d_val (ax (maxp e)) - d_val (ax (minp e)))) ->
  nx < 2 ^ 53 - 1 -> (ny + 1) * (nx + 2) <= 2 ^ 64 ->
  exists numbers, get_tile_indexes pts e sx sy = Ret numbers
  /\ forall i j p q a b, nth_error pts i = Some p -> nth_error pts j = Some q ->
       nth_error numbers i = Some a -> nth_error numbers j = Some b ->
       (a = b <-> cell (px p) (px (minp e)) sx = cell (px q) (px (minp e)) sx
                  /\ cell (py p) (py (minp e)) sy = cell (py q) (py (minp e)) sy).
Proof.
  intros pts sx sy F N Fsx Fsy e nx ny Ft Bx By.
  assert (Ix : In px axes) by (cbn; tauto). assert (Iy : In py axes) by (cbn; tauto).
  assert (Ex : exists p, In p pts) by (destruct pts as [|p t]; [congruence|exists p; now left]).
  destruct Ex as (p0 & I0).
  destruct (in_extent pts p0 px F I0 Ix) as (_ & Fmx & FMx & Lx).
  destruct (in_extent pts p0 py F I0 Iy) as (_ & Fmy & FMy & Ly). fold e in Fmx, FMx, Fmy, FMy, Lx, Ly.
  assert (Nx : 0 <= nx) by (apply (cell_mono (px p0) (px (maxp e)) (px (minp e)) sx) in Lx; unfold nx; lia).
  assert (Ny : 0 <= ny) by (apply (cell_mono (py p0) (py (maxp e)) (py (minp e)) sy) in Ly; unfold ny; lia).
  destruct (stride_ret e sx Fmx FMx Fsx) as (stride & Es & Bs); [lra|apply Ft; cbn; tauto|exact Bx|].
  fold nx in Bs.
  set (g := fun p => cell (py p) (py (minp e)) sy * stride + cell (px p) (px (minp e)) sx).
  assert (G : forall p, In p pts -> tile_index e sx sy stride p = Ret (g p)
     /\ 0 <= cell (px p) (px (minp e)) sx < stride).
  { intros p Ip. destruct (in_extent pts p px F Ip Ix) as (Fpx & _ & _ & Lpx).
    destruct (in_extent pts p py F Ip Iy) as (Fpy & _ & _ & Lpy). fold e in Lpx, Lpy.
    pose proof (cell_mono _ _ _ sx Lpx) as Cx. pose proof (cell_mono _ _ _ sy Lpy) as Cy. fold nx in Cx. fold ny in Cy.
    assert (Ftx : fits (d_val (px p) - d_val (px (minp e)))) by (eapply fits_le_diff; [exact Lpx|apply Ft; cbn; tauto]).
    assert (Fty : fits (d_val (py p) - d_val (py (minp e)))) by (eapply fits_le_diff; [exact Lpy|apply Ft; cbn; tauto]).
    assert (Ny' : ny < 2 ^ 64) by nia.
    destruct (tile_cell_ret (px p) (px (minp e)) sx Fpx Fmx Fsx (proj1 Lpx) Ftx ltac:(lia)) as [Tx _].
    destruct (tile_cell_ret (py p) (py (minp e)) sy Fpy Fmy Fsy (proj1 Lpy) Fty ltac:(lia)) as [Ty _].
    unfold tile_index. rewrite Tx, Ty. cbn [bind]. split; [|lia]. f_equal. unfold to_u64, g.
    apply Z.mod_small. change two64 with (2 ^ 64). nia. }
  exists (map g pts). split.
  { unfold get_tile_indexes. rewrite Es. cbn [bind]. apply mapM_Ret. intros p Ip. now apply G. }
  intros i j p q a b Hp Hq Ha Hb.
  rewrite (map_nth_error g _ _ Hp) in Ha. rewrite (map_nth_error g _ _ Hq) in Hb. injection Ha as <-. injection Hb as <-.
  apply nth_error_In in Hp. apply nth_error_In in Hq. unfold g. apply same_number; now apply G.
Qed.

Lemma gtb_zero_not : forall s, finite s -> (d_val s <= 0)%R -> d_gtb s d_zero = false.
Proof. intros s F H. destruct (d_gtb s d_zero) eqn:E; [|reflexivity]. apply gtb_zero in E; [lra|exact F]. Qed.

Lemma sides_sizes : forall args e sx sy, finite (ta_size args) -> finite (ta_size_x args) -> finite (ta_size_y args) ->
  sides args sx sy -> finite sx /\ finite sy /\ tile_sizes args e = (sx, sy)
  /\ d_gtb (ta_size args) d_zero && d_gtb (ta_size_x args) d_zero = false
  /\ d_gtb (ta_size args) d_zero && d_gtb (ta_size_y args) d_zero = false.
Proof.
  intros args e sx sy F Fx Fy [P Nx Ny|N P]; unfold tile_sizes.
  - rewrite (gtb_zero_not _ Fx Nx), (gtb_zero_not _ Fy Ny), (proj2 (gtb_zero _ F) P). now rewrite andb_false_r.
  - rewrite (gtb_zero_not _ F N). split; [exact Fx|]. split; [exact Fy|]. split; [|now split].
    assert (d_gtb (ta_size_x args) d_zero || d_gtb (ta_size_y args) d_zero = true) as ->; [|reflexivity].
    apply orb_true_iff. destruct P as [P|P]; [left|right]; now apply gtb_zero.
Qed.

(** The program: with the sizes that the options ask for, records get the same tile exactly
    when they lie in the same column of width [sx] and the same row of height [sy]. *)
Theorem C53_program : forall args f sx sy,
  finite (ta_size args) -> finite (ta_size_x args) -> finite (ta_size_y args) -> sides args sx sy ->
  Forall (fun p => pt_finite (pr_pt p)) (f_prs f) -> f_prs f <> [] ->
  let e := get_extent (map pr_pt (f_prs f)) in
  let column p := cell (rx p) (px (minp e)) sx in
  let row p := cell (ry p) (py (minp e)) sy in
  let nx := cell (px (maxp e)) (px (minp e)) sx in
  let ny := cell (py (maxp e)) (py (minp e)) sy in
  (forall ax, In ax [px; py] -> fits (d_val (ax (maxp e)) - d_val (ax (minp e)))) ->
  nx < 2 ^ 53 - 1 -> (ny + 1) * (nx + 2) <= 2 ^ 64 ->
  exists numbers, tile_numbers args f = Ret numbers
  /\ forall i j p q a b, nth_error (f_prs f) i = Some p -> nth_error (f_prs f) j = Some q ->
       nth_error numbers i = Some a -> nth_error numbers j = Some b ->
       (a = b <-> column p = column q /\ row p = row q).
Proof.
  intros args f sx sy F Fx Fy S Hf N e column row nx ny Ft Bx By.
  destruct (sides_sizes args e sx sy F Fx Fy S) as (Fsx & Fsy & E & G1 & G2).
  destruct (C53_cells (map pr_pt (f_prs f)) sx sy) as (numbers & En & Q); auto.
  - now apply Forall_map.
  - intros M. apply map_eq_nil in M. contradiction.
  - exists numbers. unfold tile_numbers. rewrite G1, G2. fold e. rewrite E. split; [exact En|].
    intros i j p q a b Hp Hq. apply (map_nth_error pr_pt) in Hp. apply (map_nth_error pr_pt) in Hq.
    intros Ha Hb. exact (Q i j _ _ a b Hp Hq Ha Hb).
Qed.

(** A size for both axes excludes a size for one. *)
Theorem C53_exclusive : forall args f, finite (ta_size args) -> finite (ta_size_x args) -> finite (ta_size_y args) ->
  (0 < d_val (ta_size args))%R -> (0 < d_val (ta_size_x args) \/ 0 < d_val (ta_size_y args))%R ->
  exists what, tile_numbers args f = Throw (runtime_error what).
Proof.
  intros args f F Fx Fy P D. unfold tile_numbers. rewrite (proj2 (gtb_zero _ F) P). cbn [andb].
  destruct (d_gtb (ta_size_x args) d_zero) eqn:Gx; [eauto|]. destruct D as [D|D]; [apply (gtb_zero _ Fx) in D; congruence|].
  rewrite (proj2 (gtb_zero _ Fy) D). eauto.
Qed.

(** ** C54 *)

Lemma distinct_tiles : forall pts sx sy numbers n, Forall pt_finite pts -> pts <> [] -> finite sx -> finite sy ->
  let e := get_extent pts in 0 < n -> n * (n + 1) <= 2 ^ 64 -> n <= 2 ^ 53 - 1 ->
  (forall ax, In ax [px; py] -> fits (d_val (ax (maxp e)) - d_val (ax (minp e)))) ->
  cell (px (maxp e)) (px (minp e)) sx < n -> cell (py (maxp e)) (py (minp e)) sy < n ->
  get_tile_indexes pts e sx sy = Ret numbers ->
  Z.of_nat (length (nodup Z.eq_dec numbers)) <= n * n.
Proof.
  intros pts sx sy numbers n F N Fsx Fsy e Hn Hb Hb' Ft Cx Cy E.
  assert (Ix : In px axes) by (cbn; tauto). assert (Iy : In py axes) by (cbn; tauto).
  assert (Ex : exists p, In p pts) by (destruct pts as [|p t]; [congruence|exists p; now left]).
  destruct Ex as (p0 & I0).
  assert (Ny0 : 0 <= cell (py (maxp e)) (py (minp e)) sy).
  { destruct (in_extent pts p0 py F I0 Iy) as (_ & _ & _ & Ly). fold e in Ly. apply (cell_mono _ _ _ sy) in Ly. lia. }
  assert (Nx0 : 0 <= cell (px (maxp e)) (px (minp e)) sx).
  { destruct (in_extent pts p0 px F I0 Ix) as (_ & _ & _ & Lx). fold e in Lx. apply (cell_mono _ _ _ sx) in Lx. lia. }
  destruct (C53_cells pts sx sy F N Fsx Fsy Ft) as (nums & E' & Q); fold e; [lia|nia|].
  fold e in E', Q. rewrite E in E'. injection E' as <-.
  destruct (indexes_facts _ _ _ _ _ E) as [L _].
  (* a representative cell for each tile number *)
  set (cl := fun p => (Z.to_nat (cell (px p) (px (minp e)) sx), Z.to_nat (cell (py p) (py (minp e)) sy))).
  assert (R : forall k, In k numbers -> exists i p, nth_error numbers i = Some k /\ nth_error pts i = Some p).
  { intros k Ik. apply In_nth_error in Ik as (i & Hi). exists i. destruct (nth_error pts i) as [p|] eqn:Hp; [eauto|].
    exfalso. apply nth_error_None in Hp. assert (nth_error numbers i <> None) by congruence. apply nth_error_Some in H. lia. }
  assert (W : forall l, NoDup l -> incl l numbers -> exists cells, length cells = length l /\ NoDup cells
     /\ (forall c, In c cells -> exists k i p, In k l /\ nth_error numbers i = Some k /\ nth_error pts i = Some p /\ c = cl p)).
  { induction l as [|k l IH]; intros ND Inc.
    - exists []. split; [reflexivity|]. split; [constructor|]. intros c [].
    - inversion ND as [|? ? Nk ND']; subst. destruct IH as (cells & Lc & Dc & Hc); [assumption|intros x X; apply Inc; now right|].
      destruct (R k (Inc k (or_introl eq_refl))) as (i & p & Hi & Hp).
      exists (cl p :: cells). split; [cbn; now rewrite Lc|]. split.
      + constructor; [|assumption]. intros I. apply Hc in I as (k' & i' & p' & Ik' & Hi' & Hp' & Ec).
        assert (k = k'); [|subst; contradiction]. apply (Q i i' p p' k k' Hp Hp' Hi Hi').
        unfold cl in Ec. injection Ec as E1 E2.
        apply nth_error_In in Hp. apply nth_error_In in Hp'.
        destruct (in_extent pts p px F Hp Ix) as (_ & _ & _ & A1). destruct (in_extent pts p py F Hp Iy) as (_ & _ & _ & A2).
        destruct (in_extent pts p' px F Hp' Ix) as (_ & _ & _ & A3). destruct (in_extent pts p' py F Hp' Iy) as (_ & _ & _ & A4).
        fold e in A1, A2, A3, A4.
        apply (cell_mono _ _ _ sx) in A1. apply (cell_mono _ _ _ sy) in A2.
        apply (cell_mono _ _ _ sx) in A3. apply (cell_mono _ _ _ sy) in A4. lia.
      + intros c [<-|I]; [exists k, i, p; split; [now left|auto]|].
        apply Hc in I as (k' & i' & p' & Ik' & X). exists k', i', p'. split; [now right|exact X]. }
  destruct (W (nodup Z.eq_dec numbers) (NoDup_nodup _ _)) as (cells & Lc & Dc & Hc).
  { intros k Ik. now apply nodup_In in Ik. }
  rewrite <- Lc.
  assert (Inc : incl cells (list_prod (seq 0 (Z.to_nat n)) (seq 0 (Z.to_nat n)))).
  { intros c I. apply Hc in I as (k & i & p & _ & _ & Hp & ->). apply nth_error_In in Hp. unfold cl.
    destruct (in_extent pts p px F Hp Ix) as (_ & _ & _ & A1). destruct (in_extent pts p py F Hp Iy) as (_ & _ & _ & A2).
    fold e in A1, A2. apply (cell_mono _ _ _ sx) in A1. apply (cell_mono _ _ _ sy) in A2.
    apply in_prod; apply in_seq; lia. }
  pose proof (NoDup_incl_length Dc Inc) as H. rewrite prod_length, !seq_length in H. nia.
Qed.

Lemma tiles_default : forall args f, d_gtb (ta_size args) d_zero = false ->
  d_gtb (ta_size_x args) d_zero = false -> d_gtb (ta_size_y args) d_zero = false ->
  let pts := map pr_pt (f_prs f) in let s := get_tile_size (get_extent pts) (ta_tiles args) in
  tile_numbers args f = get_tile_indexes pts (get_extent pts) s s.
Proof.
  intros args f H Hx Hy. unfold tile_numbers, tile_sizes. rewrite H, Hx, Hy. reflexivity.
Qed.

Lemma default_sides : forall pts n b, Forall pt_finite pts -> pts <> [] -> 1 <= n < 2 ^ 32 -> b <= 999 ->
  let e := get_extent pts in
  (forall ax, In ax [px; py] -> (d_val (ax (maxp e)) - d_val (ax (minp e)) <= bpow radix2 b)%R) ->
  (forall ax, In ax [px; py] -> finite (ax (minp e)) /\ finite (ax (maxp e)) /\ (d_val (ax (minp e)) <= d_val (ax (maxp e)))%R
     /\ (0 <= d_val (ax (maxp e)) - d_val (ax (minp e)) <= bpow radix2 b)%R
     /\ fits (d_val (ax (maxp e)) - d_val (ax (minp e)))
     /\ (0 < rnd (rnd (d_val (ax (maxp e)) - d_val (ax (minp e))) + bpow radix2 (-23))
        * (1 - 2 * eps) <= d_val (get_tile_size e n) * IZR n)%R)
  /\ finite (get_tile_size e n) /\ (0 < d_val (get_tile_size e n))%R.
Proof.
  intros pts n b F N Hn Hb e B. destruct (extent_finite pts F) as [Fm FM]. fold e in Fm, FM.
  assert (Ex : exists p, In p pts) by (destruct pts as [|p t]; [congruence|exists p; now left]).
  destruct Ex as (p0 & I0).
  assert (A : forall ax, In ax [px; py] -> In ax axes) by (intros ax [<-|[<-|[]]]; cbn; tauto).
  assert (B' : forall ax, In ax [px; py] -> (0 <= d_val (ax (maxp e)) - d_val (ax (minp e)) <= bpow radix2 b)%R).
  { intros ax I. split; [|now apply B]. destruct (in_extent pts p0 ax F I0 (A ax I)) as (_ & _ & _ & L). fold e in L. lra. }
  assert (B9 : (bpow radix2 b <= bpow radix2 999)%R) by (apply bpow_le; lia).
  destruct (tile_size_val e n Fm FM Hn) as [Fs Vs].
  { intros ax I. specialize (B' ax I). lra. }
  split; [|split; [exact Fs|]].
  - intros ax I. destruct (in_extent pts p0 ax F I0 (A ax I)) as (_ & F1 & F2 & L). fold e in F1, F2, L.
    split; [exact F1|]. split; [exact F2|]. split; [lra|]. split; [now apply B'|]. split; [|now apply Vs].
    apply fits_bpow with 999; [|lia]. specialize (B' ax I). rewrite Rabs_pos_eq by lra. lra.
  - destruct (Vs px ltac:(cbn; tauto)) as [V1 V2]. assert (1 <= IZR n)%R by (apply IZR_le; lia). nra.
Qed.

(** With --tiles=n, an extent of at most 2^26 = 67108864 units gives at most n columns
    and n rows, so at most n * n tiles. *)
Theorem C54_small : forall args f, let n := ta_tiles args in
  let pts := map pr_pt (f_prs f) in let e := get_extent pts in let s := get_tile_size e n in
  d_gtb (ta_size args) d_zero = false -> d_gtb (ta_size_x args) d_zero = false -> d_gtb (ta_size_y args) d_zero = false ->
  Forall pt_finite pts -> pts <> [] -> 1 <= n < 2 ^ 32 ->
  (forall ax, In ax [px; py] -> (d_val (ax (maxp e)) - d_val (ax (minp e)) <= bpow radix2 26)%R) ->
  (forall p ax, In p pts -> In ax [px; py] -> 0 <= cell (ax p) (ax (minp e)) s < n)
  /\ exists numbers, tile_numbers args f = Ret numbers
     /\ Z.of_nat (length (nodup Z.eq_dec numbers)) <= n * n.
Proof.
  intros args f n pts e s H Hx Hy F N Hn B.
  destruct (default_sides pts n 26 F N Hn ltac:(lia) B) as (D & Fs & Ps). fold e in D, Fs, Ps. fold s in D, Fs, Ps.
  assert (A : forall ax, In ax [px; py] -> In ax axes) by (intros ax [<-|[<-|[]]]; cbn; tauto).
  assert (C : forall ax, In ax [px; py] -> cell (ax (maxp e)) (ax (minp e)) s < n).
  { intros ax I. destruct (D ax I) as (F1 & F2 & L & B1 & _ & V).
    apply (cell_bound_small (ax (maxp e)) (ax (maxp e)) (ax (minp e)) s n F2 F2 F1 Fs); [lra|exact Hn|exact B1|exact V]. }
  split.
  - intros p ax Ip I. destruct (in_extent pts p ax F Ip (A ax I)) as (_ & _ & _ & L). fold e in L.
    apply (cell_mono _ _ _ s) in L. specialize (C ax I). lia.
  - assert (Ft : forall ax, In ax [px; py] -> fits (d_val (ax (maxp e)) - d_val (ax (minp e)))).
    { intros ax I. now destruct (D ax I) as (_ & _ & _ & _ & X & _). }
    assert (Cx := C px ltac:(cbn; tauto)). assert (Cy := C py ltac:(cbn; tauto)).
    assert (K : 0 <= cell (py (maxp e)) (py (minp e)) s /\ 0 <= cell (px (maxp e)) (px (minp e)) s).
    { split; [destruct (D py ltac:(cbn; tauto)) as (_ & _ & L & _); apply (cell_mono (py (maxp e)) (py (maxp e)))
             |destruct (D px ltac:(cbn; tauto)) as (_ & _ & L & _); apply (cell_mono (px (maxp e)) (px (maxp e)))]; lra. }
    destruct (C53_cells pts s s F N Fs Fs Ft) as (numbers & E & _); fold e; [lia|nia|].
    exists numbers. split; [rewrite tiles_default by assumption; exact E|].
    apply (distinct_tiles pts s s numbers n F N Fs Fs); fold e; try assumption; nia.
Qed.

(** Without that bound, at most one column and one row too many. *)
Theorem C54_large : forall args f, let n := ta_tiles args in
  let pts := map pr_pt (f_prs f) in let e := get_extent pts in let s := get_tile_size e n in
  d_gtb (ta_size args) d_zero = false -> d_gtb (ta_size_x args) d_zero = false -> d_gtb (ta_size_y args) d_zero = false ->
  Forall pt_finite pts -> pts <> [] -> 1 <= n < 2 ^ 32 - 1 ->
  (forall ax, In ax [px; py] -> (d_val (ax (maxp e)) - d_val (ax (minp e)) <= bpow radix2 999)%R) ->
  (forall p ax, In p pts -> In ax [px; py] -> 0 <= cell (ax p) (ax (minp e)) s <= n)
  /\ exists numbers, tile_numbers args f = Ret numbers
     /\ Z.of_nat (length (nodup Z.eq_dec numbers)) <= (n + 1) * (n + 1).
Proof.
  intros args f n pts e s H Hx Hy F N Hn B.
  destruct (default_sides pts n 999 F N ltac:(lia) ltac:(lia) B) as (D & Fs & Ps). fold e in D, Fs, Ps. fold s in D, Fs, Ps.
  assert (A : forall ax, In ax [px; py] -> In ax axes) by (intros ax [<-|[<-|[]]]; cbn; tauto).
  assert (C : forall ax, In ax [px; py] -> cell (ax (maxp e)) (ax (minp e)) s <= n).
  { intros ax I. destruct (D ax I) as (F1 & F2 & L & B1 & _ & V).
    apply (cell_bound (ax (maxp e)) (ax (maxp e)) (ax (minp e)) s n F2 F2 F1 Fs); [lra|lia|exact B1|exact V]. }
  split.
  - intros p ax Ip I. destruct (in_extent pts p ax F Ip (A ax I)) as (_ & _ & _ & L). fold e in L.
    apply (cell_mono _ _ _ s) in L. specialize (C ax I). lia.
  - assert (Ft : forall ax, In ax [px; py] -> fits (d_val (ax (maxp e)) - d_val (ax (minp e)))).
    { intros ax I. now destruct (D ax I) as (_ & _ & _ & _ & X & _). }
    assert (Cx := C px ltac:(cbn; tauto)). assert (Cy := C py ltac:(cbn; tauto)).
    assert (K : 0 <= cell (py (maxp e)) (py (minp e)) s /\ 0 <= cell (px (maxp e)) (px (minp e)) s).
    { split; [destruct (D py ltac:(cbn; tauto)) as (_ & _ & L & _); apply (cell_mono (py (maxp e)) (py (maxp e)))
             |destruct (D px ltac:(cbn; tauto)) as (_ & _ & L & _); apply (cell_mono (px (maxp e)) (px (maxp e)))]; lra. }
    destruct (C53_cells pts s s F N Fs Fs Ft) as (numbers & E & _); fold e; [lia|change (2 ^ 64) with (2 ^ 32 * 2 ^ 32); apply Z.mul_le_mono_nonneg; lia|].
    exists numbers. split; [rewrite tiles_default by assumption; exact E|].
    apply (distinct_tiles pts s s numbers (n + 1) F N Fs Fs); fold e; try assumption; try lia.
    change (2 ^ 64) with (2 ^ 32 * 2 ^ 32). apply Z.mul_le_mono_nonneg; lia.
Qed.

Lemma fexp64_monotone : Monotone_exp fexp64.
Proof. apply (FLT_exp_monotone (-1074) 53). Qed.

Lemma ulp_bpow_21 : ulp radix2 fexp64 (bpow radix2 31) = bpow radix2 (-21).
Proof. rewrite ulp_bpow. reflexivity. Qed.

(** A finding: from 2^31 units on, the epsilon that should keep the maximum inside the
    last tile is lost in rounding: there is a tile too many whenever n is a power of two. *)
Theorem C54_one_too_many : forall e k, pt_finite (minp e) -> pt_finite (maxp e) -> 0 <= k < 32 ->
  let dx := (d_val (px (maxp e)) - d_val (px (minp e)))%R in let dy := (d_val (py (maxp e)) - d_val (py (minp e)))%R in
  (bpow radix2 31 <= dx <= bpow radix2 999)%R -> (0 <= dy <= dx)%R ->
  cell (px (maxp e)) (px (minp e)) (get_tile_size e (2 ^ k)) = 2 ^ k.
Proof.
  intros e k Fm FM Hk dx dy Bx By.
  assert (Fax : forall ax, In ax axes -> finite (ax (minp e)) /\ finite (ax (maxp e))).
  { intros ax I. split; now apply axis_finite. }
  destruct (Fax px ltac:(cbn; tauto)) as [Fmx FMx]. destruct (Fax py ltac:(cbn; tauto)) as [Fmy FMy].
  pose proof (bpow_gt_0 radix2 31) as B31.
  destruct (side_val _ _ FMx Fmx ltac:(fold dx; lra)) as (Fx & Vx & X0 & X1 & _). fold dx in Vx, X0, X1.
  destruct (side_val _ _ FMy Fmy ltac:(fold dy; lra)) as (Fy & Vy & Y0 & Y1 & _). fold dy in Vy, Y0, Y1.
  set (D := rnd dx) in *.
  assert (D31 : (bpow radix2 31 <= D)%R) by (unfold D; rewrite <- (rnd_bpow 31) by lia; apply rnd_le; apply Bx).
  assert (Ab : rnd (D + bpow radix2 (-23)) = D).
  { pose proof (bpow_gt_0 radix2 (-23)) as E0.
    apply Rle_antisym.
    - unfold rnd. apply round_N_le_midp; [apply fexp64_valid|apply rnd_format|].
      rewrite succ_eq_pos by lra.
      assert (U : (bpow radix2 (-21) <= ulp radix2 fexp64 D)%R).
      { rewrite <- (ulp_bpow_21). apply ulp_le; [apply fexp64_valid|apply fexp64_monotone|]. rewrite !Rabs_pos_eq by lra. exact D31. }
      assert (Q : bpow radix2 (-21) = (4 * bpow radix2 (-23))%R).
      { change (-21) with (2 + -23). rewrite bpow_plus. f_equal. }
      lra.
    - assert (X : rnd D = D) by (unfold D; apply rnd_rnd). rewrite <- X at 1. apply rnd_le. lra. }
  rewrite Ab in *.
  set (a := d_add (d_sub (px (maxp e)) (px (minp e))) float_epsilon) in *.
  set (b := d_add (d_sub (py (maxp e)) (py (minp e))) float_epsilon) in *.
  assert (Lb : (d_val b <= D)%R).
  { rewrite Vy, <- Ab. apply rnd_le. apply Rplus_le_compat_r. unfold D. apply rnd_le. apply By. }
  assert (S : exists d, get_tile_size e (2 ^ k) = d_div d (d_of_z (2 ^ k)) /\ finite d /\ d_val d = D).
  { unfold get_tile_size. cbv zeta. fold a b. destruct (d_gtb a b) eqn:G.
    - exists a. split; [reflexivity|]. now split.
    - exists b. split; [reflexivity|]. split; [exact Fy|].
      assert (G' : ~ (d_val b < d_val a)%R).
      { intros H. apply (d_ltb_val b a) in H; [|apply Fy|apply Fx|apply Fy|apply Fx]. unfold d_gtb in G. congruence. }
      rewrite Vx in G'. lra. }
  destruct S as (d & -> & [Od Fd] & Vd).
  assert (Bk : 2 ^ k <= 2 ^ 31) by (apply Z.pow_le_mono_r; lia).
  assert (Pk : 0 < 2 ^ k) by (apply Z.pow_pos_nonneg; lia).
  destruct (d_of_z_exact (2 ^ k) ltac:(lia)) as [Fn Vn].
  assert (Kb : IZR (2 ^ k) = bpow radix2 k) by (change (2 ^ k) with (Zpower radix2 k); apply IZR_Zpower; lia).
  rewrite Kb in Vn. pose proof (bpow_gt_0 radix2 k) as Pb.
  assert (Ex : (D / bpow radix2 k = D * bpow radix2 (- k))%R) by (rewrite bpow_opp; reflexivity).
  assert (FmtD : generic_format radix2 fexp64 D) by apply rnd_format.
  assert (Fmt : generic_format radix2 fexp64 (D * bpow radix2 (- k))).
  { assert (M : 31 < mag radix2 D) by (apply mag_gt_bpow; rewrite Rabs_pos_eq by lra; exact D31).
    apply (mult_bpow_exact_FLT radix2 (-1074) 53 D (- k)); [exact FmtD|]. lia. }
  assert (Re : rnd (D / bpow radix2 k) = (D / bpow radix2 k)%R).
  { rewrite Ex. unfold rnd. apply round_generic; [apply valid_rnd_N|exact Fmt]. }
  destruct (d_div_val d (d_of_z (2 ^ k)) Od (d_of_z_ok _) Fd) as [V1 V2]; [rewrite Vn; lra|].
  rewrite Vn, Vd in V1, V2.
  assert (Dk : (0 < D / bpow radix2 k <= D)%R).
  { assert (1 <= bpow radix2 k)%R by (change 1%R with (bpow radix2 0); apply bpow_le; lia).
    split; [apply Rmult_lt_0_compat; [lra|]; now apply Rinv_0_lt_compat|].
    apply Rmult_le_reg_r with (bpow radix2 k); [lra|]. unfold Rdiv. rewrite Rmult_assoc, Rinv_l by lra.
    apply Rmult_le_compat_l; lra. }
  assert (Ft : fits (D / bpow radix2 k)) by (apply fits_small; lra).
  specialize (V2 Ft). rewrite Re in V2.
  unfold cell. destruct (Rlt_dec 0 _) as [L|L]; [|exfalso; apply L; rewrite V2; lra].
  fold dx. fold D. rewrite V2.
  replace (D / (D / bpow radix2 k))%R with (bpow radix2 k) by (field; lra).
  rewrite rnd_bpow by lia. rewrite <- Kb. apply Ztrunc_IZR.
Qed.

(** ** C55 *)

(** Different tiles have different names. *)
Theorem C55_distinct_names : forall args compressed a b, 0 <= a -> 0 <= b ->
  tile_name args compressed a = tile_name args compressed b -> a = b.
Proof. exact tile_name_inj. Qed.

(** Without --force a file that exists and can be read is not modified, whatever the
    input is and whatever goes wrong. *)
Theorem C55_existing_kept : forall z debug acc args input fs name bytes, ta_force args = false ->
  fs name = Some bytes -> can_read acc name = true ->
  fst (tile_tool z debug acc args input fs) name = Some bytes.
Proof.
  intros z debug acc args input fs name bytes Hf E R. unfold tile_tool.
  match goal with |- context [fst (match ?x with _ => _ end)] => destruct x as [[f idx]|e|u|] end; try exact E. now apply write_tiles_safe.
Qed.

(** No file disappears. *)
Theorem C55_none_removed : forall z debug acc args input fs name, fs name <> None ->
  fst (tile_tool z debug acc args input fs) name <> None.
Proof.
  intros z debug acc args input fs name E. unfold tile_tool.
  match goal with |- context [fst (match ?x with _ => _ end)] => destruct x as [[f idx]|e|u|] end; try exact E.
  generalize (sort_keys (map fst (get_tile_map idx))). intros keys. revert fs E.
  induction keys as [|k t IH]; intros fs E; cbn [write_tiles]; [exact E|].
  destruct (v <- tile_at k (get_tile_map idx) ;; make_tile f v) as [tile|e|u|]; try exact E.
  destruct (negb (ta_force args) && _); [exact E|]. destruct (negb _); [exact E|].
  destruct (write_spoc_file z debug tile _) as [os r].
  assert (E' : file_put (tile_name args (f_compressed tile) k) (o_bytes os) fs name <> None).
  { unfold file_put. destruct (beq_bytes _ _); [discriminate|exact E]. }
  destruct r as [?|?|?|]; try exact E'. now apply IH.
Qed.

(** A finding: existence is tested by opening for reading, so without --force an existing
    file that cannot be read but can be written is overwritten. *)
Theorem C55_unreadable_overwritten : forall z ZS debug acc args input f fs numbers k, zlib_ok z ZS -> storable f ->
  file_of (read_spoc_file z) input f -> input_named args -> tile_numbers args f = Ret numbers -> In k numbers ->
  (forall name, can_write acc name = true) -> (forall name, can_read acc name = false) ->
  exists fs' bytes t, tile_tool z debug acc args input fs = (fs', Ret tt)
  /\ fs' (tile_name args (f_compressed f) k) = Some bytes
  /\ kept (mk_file 0 1 (f_wkt f) (f_compressed f) (numbered_with k numbers (f_prs f))) t
  /\ read_spoc_file z (i_open bytes) = Ret (t, i_open []).
Proof.
  intros z ZS debug acc args input f fs idx k Hz S F N I Ik W R.
  destruct (proj2 (C52_succeeds z ZS debug acc args input f fs idx Hz S F N I)) as (fs' & E); [auto|].
  destruct (C52_partition z ZS debug acc args input f fs fs' Hz S F E) as (idx' & tiles & I' & _ & P & T & _).
  rewrite I in I'. injection I' as <-.
  rewrite (tile_tool_run z debug acc args input f fs F N idx I) in E.
  destruct (numbers_facts args f idx I) as [L Rg].
  assert (P0 : Forall (fun k => 0 <= k) idx) by (eapply Forall_impl; [|exact Rg]; intros a [A _]; exact A).
  destruct (write_tiles_ok z ZS debug acc args f idx Hz S L P0 (tile_keys idx) fs) as (fs1 & E1 & A).
  - apply sorted_nodup_lt, tile_keys_sorted.
  - intros j. apply tile_keys_In.
  - auto.
  - rewrite E in E1. injection E1 as <-. destruct (A k) as (bytes & t & A1 & _ & A2 & A3); [now apply tile_keys_In|].
    exists fs', bytes, t. rewrite (tile_tool_run z debug acc args input f fs F N idx I). auto.
Qed.

(** ** Examples *)

Definition t_pr (x y : double) (c : Z) : point_record := mk_pr x y d_zero c 0 0 0 0 0 [].
Definition d_four : double := 4616189618054758400.
Definition d_ten : double := 4621819117588971520.
Definition t_file : spoc_file := mk_file 0 1 (chars "W") false [t_pr d_zero d_zero 1; t_pr d_ten d_four 2; t_pr d_one d_one 3].
Definition t_args : tile_args := mk_tile_args false 2 3 d_zero d_zero d_zero [] (Some (chars "in", chars ".spoc")).
Definition t_none : files := fun _ => None.
Definition t_all : access_rights := mk_access (fun _ => true) (fun _ => true).
Definition t_bytes (f : spoc_file) : list Z := o_bytes (fst (write_spoc_file toy false f (mk_ostream [] None false))).

Example C52_example : tile_numbers t_args t_file = Ret [0; 1; 0]
  /\ file_of (read_spoc_file toy) (t_bytes t_file) t_file
  /\ tile_name t_args false 1 = chars "in001.spoc"
  /\ (let fs' := fst (tile_tool toy false t_all t_args (t_bytes t_file) t_none) in
      fs' (chars "in000.spoc") = Some (t_bytes (mk_file 0 1 (chars "W") false [t_pr d_zero d_zero 1; t_pr d_one d_one 3]))
      /\ fs' (chars "in001.spoc") = Some (t_bytes (mk_file 0 1 (chars "W") false [t_pr d_ten d_four 2]))
      /\ fs' (chars "in002.spoc") = None)
  /\ snd (tile_tool toy false t_all t_args (t_bytes t_file) t_none) = Ret tt.
Proof.
  split; [vm_compute; reflexivity|]. split; [eexists; vm_compute; reflexivity|]. split; [vm_compute; reflexivity|].
  split; [repeat split; vm_compute; reflexivity|vm_compute; reflexivity].
Qed.

(** Columns of width 4 and rows of height 1: the three records of the file lie in three tiles,
    and with rows left undivided in two. *)
Definition t_sides (sx sy : double) : tile_args := mk_tile_args false 0 3 d_zero sx sy [] (Some (chars "in", chars ".spoc")).

Example C53_example : let e := get_extent (map pr_pt (f_prs t_file)) in
  sides (t_sides d_four d_one) d_four d_one /\ sides (t_sides d_four d_zero) d_four d_zero
  /\ Forall (fun p => pt_finite (pr_pt p)) (f_prs t_file) /\ f_prs t_file <> []
  /\ (forall ax, In ax [px; py] -> fits (d_val (ax (maxp e)) - d_val (ax (minp e))))
  /\ tile_numbers (t_sides d_four d_one) t_file = Ret [0; 14; 3]
  /\ tile_numbers (t_sides d_four d_zero) t_file = Ret [0; 2; 0]
  /\ tile_numbers (mk_tile_args false 0 3 d_one d_zero d_four [] None) t_file = Throw (runtime_error "You can't specify both 'tile-size' and 'tile-size-y'").
Proof.
  assert (V0 : d_val d_zero = 0%R) by reflexivity.
  assert (V1 : d_val d_one = 1%R) by (unfold d_val; vm_compute; lra).
  assert (V4 : d_val d_four = 4%R) by (unfold d_val; vm_compute; lra).
  assert (V10 : d_val d_ten = 10%R) by (unfold d_val; vm_compute; lra).
  cbv zeta.
  split; [apply (sides_each (t_sides d_four d_one)); cbn [ta_size ta_size_x ta_size_y t_sides]; rewrite ?V0, ?V1, ?V4; lra|].
  split; [apply (sides_each (t_sides d_four d_zero)); cbn [ta_size ta_size_x ta_size_y t_sides]; rewrite ?V0, ?V1, ?V4; lra|].
  split; [repeat constructor; cbn; unfold d_ok, d_zero, d_one, d_ten, d_four, two64; try lia|].
  split; [discriminate|]. split.
  { replace (maxp (get_extent (map pr_pt (f_prs t_file)))) with (mk_pt d_ten d_four d_zero) by (vm_compute; reflexivity).
    replace (minp (get_extent (map pr_pt (f_prs t_file)))) with (mk_pt d_zero d_zero d_zero) by (vm_compute; reflexivity).
    intros ax [<-|[<-|[]]]; cbn [px py]; rewrite V0, ?V10, ?V4, Rminus_0_r; [rewrite <- V10|rewrite <- V4]; unfold fits; rewrite rnd_val; (rewrite V10 || rewrite V4);
      rewrite Rabs_right by lra; (eapply Rlt_le_trans; [|apply (bpow_le radix2 10); lia]; cbn; lra). }
  repeat split; vm_compute; reflexivity.
Qed.

(** The hypotheses of C54_small hold for this file. *)
Example C54_small_example : let pts := map pr_pt (f_prs t_file) in let e := get_extent pts in
  Forall pt_finite pts /\ pts <> []
  /\ (forall ax, In ax [px; py] -> (d_val (ax (maxp e)) - d_val (ax (minp e)) <= bpow radix2 26)%R)
  /\ d_gtb (ta_size t_args) d_zero = false.
Proof.
  cbv zeta. split.
  { repeat constructor; cbn; unfold d_ok, d_zero, d_one, d_ten, d_four, two64; try lia. }
  split; [discriminate|]. split; [|reflexivity].
  replace (maxp (get_extent (map pr_pt (f_prs t_file)))) with (mk_pt d_ten d_four d_zero) by (vm_compute; reflexivity).
  replace (minp (get_extent (map pr_pt (f_prs t_file)))) with (mk_pt d_zero d_zero d_zero) by (vm_compute; reflexivity).
  assert (V0 : d_val d_zero = 0%R) by reflexivity.
  assert (V1 : d_val d_ten = 10%R) by (unfold d_val; vm_compute; lra).
  assert (V2 : d_val d_four = 4%R) by (unfold d_val; vm_compute; lra).
  assert (B : bpow radix2 26 = 67108864%R) by (cbn; lra).
  intros ax [<-|[<-|[]]]; cbn [px py]; rewrite V0, ?V1, ?V2, B; lra.
Qed.

(** Two records 2^31 apart, one tile asked for: two tiles. *)
Definition d_2p31 : double := 4746794007248502784.
Example C54_example : tile_numbers (mk_tile_args false 1 3 d_zero d_zero d_zero [] (Some (chars "in", chars ".spoc")))
    (mk_file 0 1 [] false [t_pr d_zero d_zero 1; t_pr d_2p31 d_zero 2]) = Ret [0; 1].
Proof. vm_compute. reflexivity. Qed.

Example C55_example :
  let fs : files := fun n => if beq_bytes n (chars "in001.spoc") then Some [7] else None in
  let '(fs', r) := tile_tool toy false t_all t_args (t_bytes t_file) fs in
  fs' (chars "in001.spoc") = Some [7] /\ exists what, r = Throw (runtime_error what).
Proof. vm_compute. split; [reflexivity|eexists; reflexivity]. Qed.

Print Assumptions C52_partition.
Print Assumptions C52_succeeds.
Print Assumptions C52_empty_undefined.
Print Assumptions C53_cells.
Print Assumptions C53_program.
Print Assumptions C53_exclusive.
Print Assumptions C54_small.
Print Assumptions C54_large.
Print Assumptions C54_one_too_many.
Print Assumptions C55_distinct_names.
Print Assumptions C55_existing_kept.
Print Assumptions C55_none_removed.
Print Assumptions C55_unreadable_overwritten.
