(** C104: the records of a tile lie within the tile's size. *)
From Coq Require Import String Reals ZArith List Bool Lia Lra Psatz Permutation Sorted.
From Flocq Require Import Core.
From Verif.Model Require Import Base Double Arith Header PointRecord Point Extent Voxel File Compression IO AppConvert AppUtils FilterApp TileApp.
From Verif.Spec Require Import Files Apps Streams ZlibContract Format Rounding Geometry Tiles.
From Verif.Proofs Require Import BaseFacts DoubleFacts ArithFacts VoxelFacts ErrorFacts ScaleFacts FileFacts FilterFacts StoreFacts
  ToyZlib TileFacts TileSizeFacts.
From Verif.Props Require Import GeometryProps VoxelProps TileProps VoxelSizeProps.
Import ListNotations.
Open Scope Z_scope.
Open Scope outcome_scope.

(** Two coordinates in one cell *)
Lemma cell_same : forall p q m s, (0 < d_val s)%R -> (d_val m <= d_val p)%R -> (d_val m <= d_val q)%R ->
  (d_val p - d_val m <= 1073741824 * d_val s)%R -> (d_val q - d_val m <= 1073741824 * d_val s)%R ->
  cell p m s = cell q m s -> (Rabs (d_val p - d_val q) < (1 + / 1048576) * d_val s)%R.
Proof.
  intros p q m s Ps Lp Lq Bp Bq E. unfold cell in E. destruct (Rlt_dec 0 (d_val s)) as [_|C]; [|contradiction].
  pose proof (quotient_error p m (d_val s) Lp Ps Bp) as Q1. pose proof (quotient_error q m (d_val s) Lq Ps Bq) as Q2.
  assert (T : (Rabs (rnd (rnd (d_val p - d_val m) / d_val s) - rnd (rnd (d_val q - d_val m) / d_val s)) < 1)%R).
  { apply trunc_same; [| |exact E]; apply rnd_pos; (apply div_nonneg; [apply rnd_pos; lra|exact Ps]). }
  set (A := rnd (rnd (d_val p - d_val m) / d_val s)) in *. set (B := rnd (rnd (d_val q - d_val m) / d_val s)) in *.
  apply Rabs_le_inv in Q1. apply Rabs_le_inv in Q2. apply Rabs_def2 in T.
  assert (U : forall u, (u = u / d_val s * d_val s)%R) by (intros u; field; lra).
  pose proof (U (d_val p - d_val m)%R) as U1. pose proof (U (d_val q - d_val m)%R) as U2.
  set (a := ((d_val p - d_val m) / d_val s)%R) in *. set (b := ((d_val q - d_val m) / d_val s)%R) in *.
  apply Rabs_def1; nra.
Qed.

(** Not too many cells *)
Lemma cell_few : forall p m s, (d_val m <= d_val p)%R ->
  ((0 < d_val s)%R -> (d_val p - d_val m <= 1073741824 * d_val s)%R) -> 0 <= cell p m s <= 1073741825.
Proof.
  intros p m s L B. unfold cell. destruct (Rlt_dec 0 (d_val s)) as [P|]; [|lia]. specialize (B P).
  pose proof (quotient_error p m (d_val s) L P B) as Q. apply Rabs_le_inv in Q.
  assert (A0 : (0 <= rnd (rnd (d_val p - d_val m) / d_val s))%R).
  { apply rnd_pos. apply div_nonneg; [apply rnd_pos; lra|exact P]. }
  set (A := rnd (rnd (d_val p - d_val m) / d_val s)) in *.
  assert (T : ((d_val p - d_val m) / d_val s <= 1073741824)%R).
  { apply Rmult_le_reg_r with (d_val s); [exact P|]. unfold Rdiv. rewrite Rmult_assoc, Rinv_l by lra. lra. }
  split; [now apply Ztrunc_nonneg|].
  assert (Ztrunc A < 1073741826); [|lia]. apply Ztrunc_lt_bound; [exact A0|]. lra.
Qed.

(** Tiles of given sizes: records with the same number differ by less than the width of the
    columns in x and less than the height of the rows in y, up to a relative error of 2^-20. *)
Theorem C104_sizes : forall args f sx sy,
  finite (ta_size args) -> finite (ta_size_x args) -> finite (ta_size_y args) -> sides args sx sy ->
  Forall (fun p => pt_finite (pr_pt p)) (f_prs f) -> f_prs f <> [] ->
  let e := get_extent (map pr_pt (f_prs f)) in
  (forall ax, In ax [px; py] -> fits (d_val (ax (maxp e)) - d_val (ax (minp e)))) ->
  (0 < d_val sx -> d_val (px (maxp e)) - d_val (px (minp e)) <= 1073741824 * d_val sx)%R ->
  (0 < d_val sy -> d_val (py (maxp e)) - d_val (py (minp e)) <= 1073741824 * d_val sy)%R ->
  exists numbers, tile_numbers args f = Ret numbers
  /\ forall i j p q k, nth_error (f_prs f) i = Some p -> nth_error (f_prs f) j = Some q ->
       nth_error numbers i = Some k -> nth_error numbers j = Some k ->
       (0 < d_val sx -> Rabs (d_val (rx p) - d_val (rx q)) < (1 + / 1048576) * d_val sx)%R
       /\ (0 < d_val sy -> Rabs (d_val (ry p) - d_val (ry q)) < (1 + / 1048576) * d_val sy)%R.
Proof.
  intros args f sx sy F Fx Fy S Hf N e Ft Bx By.
  assert (Hf' : Forall pt_finite (map pr_pt (f_prs f))) by (now apply Forall_map).
  assert (G : forall p ax, In p (f_prs f) -> In ax axes ->
    (d_val (ax (minp e)) <= d_val (ax (pr_pt p)) <= d_val (ax (maxp e)))%R).
  { intros p ax Ip Ia. apply (in_extent _ _ ax Hf' (in_map pr_pt _ _ Ip) Ia). }
  assert (Ix : In px axes) by (left; reflexivity). assert (Iy : In py axes) by (right; left; reflexivity).
  assert (O : exists p, In p (f_prs f)) by (destruct (f_prs f) as [|p t]; [congruence|exists p; now left]).
  destruct O as [p0 I0].
  pose proof (cell_few (px (maxp e)) (px (minp e)) sx) as Cx. pose proof (cell_few (py (maxp e)) (py (minp e)) sy) as Cy.
  specialize (Cx ltac:(specialize (G p0 px I0 Ix); lra) Bx). specialize (Cy ltac:(specialize (G p0 py I0 Iy); lra) By).
  destruct (C53_program args f sx sy F Fx Fy S Hf N) as (numbers & E & Q); [exact Ft|fold e; lia|fold e; nia|].
  fold e in Q. exists numbers. split; [exact E|]. intros i j p q k Hp Hq Ha Hb.
  destruct (proj1 (Q i j p q k k Hp Hq Ha Hb) eq_refl) as [Ex Ey].
  apply nth_error_In in Hp. apply nth_error_In in Hq.
  split; intros P.
  - specialize (Bx P). pose proof (G p px Hp Ix) as A. pose proof (G q px Hq Ix) as B.
    eapply (cell_same _ _ (px (minp e))); [exact P|apply A|apply B| | |exact Ex].
    + destruct A as [_ A]. cbn [pr_pt px] in A. lra.
    + destruct B as [_ B]. cbn [pr_pt px] in B. lra.
  - specialize (By P). pose proof (G p py Hp Iy) as A. pose proof (G q py Hq Iy) as B.
    eapply (cell_same _ _ (py (minp e))); [exact P|apply A|apply B| | |exact Ey].
    + destruct A as [_ A]. cbn [pr_pt py] in A. lra.
    + destruct B as [_ B]. cbn [pr_pt py] in B. lra.
Qed.

(** Rounding upwards of numbers that are not very small *)
Lemma rnd_up : forall x, (bpow radix2 (-60) <= x)%R -> (rnd x <= x * (1 + 2 * eps))%R.
Proof.
  intros x L. pose proof (bpow_gt_0 radix2 (-60)). destruct (rnd_bounds x ltac:(lra)) as [_ U].
  assert (T : (tiny <= x * eps)%R); [|lra].
  eapply Rle_trans; [apply (tiny_le (-113)); lia|]. change (-113) with (-60 + -53). rewrite bpow_plus.
  apply Rmult_le_compat_r; [apply bpow_ge_0|exact L].
Qed.

(** The default tile size: not larger than its share of the longer side *)
Lemma tile_size_upper : forall e n len, pt_finite (minp e) -> pt_finite (maxp e) -> 1 <= n < 2 ^ 32 ->
  (forall ax, In ax [px; py] -> (0 <= d_val (ax (maxp e)) - d_val (ax (minp e)) <= len)%R) -> (len <= bpow radix2 999)%R ->
  (d_val (get_tile_size e n) * IZR n <= (len + bpow radix2 (-23)) * (1 + 8 * eps))%R.
Proof.
  intros e n len Fm FM Hn B Lb.
  assert (K : exists ax, In ax [px; py] /\ get_tile_size e n = d_div (d_add (d_sub (ax (maxp e)) (ax (minp e))) float_epsilon) (d_of_z n)).
  { unfold get_tile_size. cbv zeta. destruct (d_gtb _ _); [exists px|exists py]; (split; [cbn; tauto|reflexivity]). }
  destruct K as (ax & Ia & ->). specialize (B ax Ia).
  assert (A : finite (ax (minp e)) /\ finite (ax (maxp e))).
  { assert (I : In ax axes) by (destruct Ia as [<-|[<-|[]]]; cbn; tauto). split; now apply axis_finite. }
  destruct A as [A1 A2]. destruct (side_val _ _ A2 A1 ltac:(lra)) as ([Od Fd] & V & D0 & D1 & D2 & _).
  set (d := d_add _ float_epsilon) in *. clearbody d.
  destruct (rnd_diff_bounds (ax (maxp e)) (ax (minp e))) as (x & Hx & Ex). apply Rabs_le_inv in Hx.
  set (u := (d_val (ax (maxp e)) - d_val (ax (minp e)))%R) in *.
  destruct (d_of_z_exact n ltac:(lia)) as [Fn Vn].
  assert (N1 : (1 <= IZR n)%R) by (apply IZR_le; lia). assert (N2 : (IZR n <= 4294967296)%R) by (apply IZR_le; lia).
  assert (Ebp : bpow radix2 (-23) = (/ 8388608)%R) by (cbn; lra).
  assert (E60 : bpow radix2 (-60) = (/ 1152921504606846976)%R) by (cbn; lra).
  pose proof eps_val as Ev.
  assert (U1 : (d_val d <= (u * (1 + x) + bpow radix2 (-23)) * (1 + 2 * eps))%R).
  { rewrite V, Ex. apply rnd_up. rewrite <- Ex, E60, Ebp. lra. }
  assert (Q : (/ 72057594037927936 <= d_val d / IZR n)%R).
  { apply Rmult_le_reg_r with (IZR n); [lra|]. unfold Rdiv. rewrite Rmult_assoc, Rinv_l by lra. rewrite Rmult_1_r.
    rewrite <- V in D2. rewrite Ebp, Ev in D2. lra. }
  assert (Qb : (d_val d / IZR n <= bpow radix2 1000)%R).
  { rewrite <- V in D1. eapply Rle_trans; [|exact D1]. apply Rmult_le_reg_r with (IZR n); [lra|]. unfold Rdiv.
    rewrite Rmult_assoc, Rinv_l by lra. apply Rmult_le_compat_l; [|lra]. rewrite <- V in D2. rewrite Ebp, Ev in D2. lra. }
  destruct (d_div_val d (d_of_z n) Od (d_of_z_ok n) Fd) as [_ V2]; [rewrite Vn; lra|].
  rewrite Vn in V2. assert (Fq : fits (d_val d / IZR n)) by (apply fits_small; lra). rewrite (V2 Fq).
  assert (U2 : (rnd (d_val d / IZR n) <= d_val d / IZR n * (1 + 2 * eps))%R) by (apply rnd_up; rewrite E60; lra).
  apply (Rmult_le_compat_r (IZR n)) in U2; [|lra].
  replace (d_val d / IZR n * (1 + 2 * eps) * IZR n)%R with (d_val d * (1 + 2 * eps))%R in U2 by (field; lra).
  eapply Rle_trans; [exact U2|]. clear - U1 B Hx Ev Ebp.
  assert (P : (u * (1 + x) + bpow radix2 (-23) <= (len + bpow radix2 (-23)) * (1 + eps))%R) by (rewrite Ebp, Ev in *; nra).
  set (w := (len + bpow radix2 (-23))%R) in *. assert (W : (0 <= w)%R) by (unfold w; rewrite Ebp; lra).
  assert (d_val d <= w * (1 + eps) * (1 + 2 * eps))%R by (rewrite Ev in *; nra).
  rewrite Ev in *. nra.
Qed.

(** --tiles n: records with the same number differ, in x and in y, by less than the n-th part
    of the longer side of the cloud (to which 2^-23 is added), up to a relative error of 2^-19. *)
Theorem C104_tiles : forall args f len, let n := ta_tiles args in
  let e := get_extent (map pr_pt (f_prs f)) in
  d_gtb (ta_size args) d_zero = false -> d_gtb (ta_size_x args) d_zero = false -> d_gtb (ta_size_y args) d_zero = false ->
  Forall (fun p => pt_finite (pr_pt p)) (f_prs f) -> f_prs f <> [] -> 1 <= n <= 2 ^ 29 ->
  (forall ax, In ax [px; py] -> (d_val (ax (maxp e)) - d_val (ax (minp e)) <= len)%R) -> (len <= bpow radix2 999)%R ->
  exists numbers, tile_numbers args f = Ret numbers
  /\ forall i j p q k, nth_error (f_prs f) i = Some p -> nth_error (f_prs f) j = Some q ->
       nth_error numbers i = Some k -> nth_error numbers j = Some k ->
       forall ax, In ax [px; py] ->
       (Rabs (d_val (ax (pr_pt p)) - d_val (ax (pr_pt q))) < (1 + / 524288) * ((len + bpow radix2 (-23)) / IZR n))%R.
Proof.
  intros args f len n e H Hx Hy Hf N Hn B Lb.
  assert (Hf' : Forall pt_finite (map pr_pt (f_prs f))) by (now apply Forall_map).
  assert (N' : map pr_pt (f_prs f) <> []) by (intros M; apply map_eq_nil in M; contradiction).
  assert (B9 : forall ax, In ax [px; py] -> (d_val (ax (maxp e)) - d_val (ax (minp e)) <= bpow radix2 999)%R).
  { intros ax I. specialize (B ax I). lra. }
  destruct (default_sides _ n 999 Hf' N' ltac:(lia) ltac:(lia) B9) as (D & Fs & Ps). fold e in D, Fs, Ps.
  destruct (extent_finite _ Hf') as [Fm FM]. fold e in Fm, FM.
  assert (B' : forall ax, In ax [px; py] -> (0 <= d_val (ax (maxp e)) - d_val (ax (minp e)) <= len)%R).
  { intros ax I. destruct (D ax I) as (_ & _ & L & _). specialize (B ax I). lra. }
  pose proof (tile_size_upper e n len Fm FM ltac:(lia) B' Lb) as Up.
  pose proof (tiles_default args f H Hx Hy) as Td. cbv zeta in Td. fold n e in Td.
  set (s := get_tile_size e n) in *. clearbody s.
  assert (N1 : (1 <= IZR n)%R) by (apply IZR_le; lia).
  assert (N2 : (IZR n <= 536870912)%R) by (apply IZR_le; lia).
  pose proof eps_val as Ev.
  assert (Sp : forall ax, In ax [px; py] -> (d_val (ax (maxp e)) - d_val (ax (minp e)) <= 1073741824 * d_val s)%R).
  { intros ax I. destruct (D ax I) as (A1 & A2 & L & B1 & _ & _ & V).
    destruct (side_val _ _ A2 A1 B1) as (_ & _ & _ & _ & _ & D5).
    destruct (rnd_diff_bounds (ax (maxp e)) (ax (minp e))) as (x & Rx & Ex). apply Rabs_le_inv in Rx.
    rewrite Ex in D5. rewrite <- Ex in D5 at 2.
    set (u := (d_val (ax (maxp e)) - d_val (ax (minp e)))%R) in *.
    set (D' := rnd (rnd u + bpow radix2 (-23))) in *. clearbody D' u.
    assert (u * (1 + x) * (1 - 2 * eps) <= 536870912 * d_val s)%R by (rewrite Ev in *; nra).
    rewrite Ev in *. nra. }
  assert (G : forall p ax, In p (f_prs f) -> In ax [px; py] ->
    (d_val (ax (minp e)) <= d_val (ax (pr_pt p)) <= d_val (ax (maxp e)))%R).
  { intros p ax Ip Ia. apply (in_extent _ _ ax Hf' (in_map pr_pt _ _ Ip)). destruct Ia as [<-|[<-|[]]]; cbn; tauto. }
  assert (C : forall ax, In ax [px; py] -> 0 <= cell (ax (maxp e)) (ax (minp e)) s <= 1073741825).
  { intros ax I. apply cell_few; [apply (D ax I)|]. intros _. now apply Sp. }
  assert (Cx := C px ltac:(cbn; tauto)). assert (Cy := C py ltac:(cbn; tauto)).
  destruct (C53_cells _ s s Hf' N' Fs Fs) as (numbers & E & Q); fold e; [|lia|nia|].
  { intros ax I. apply (D ax I). }
  exists numbers. split; [now rewrite Td|]. intros i j p q k Hp Hq Ha Hb ax I.
  destruct (proj1 (Q i j _ _ k k (map_nth_error pr_pt _ _ Hp) (map_nth_error pr_pt _ _ Hq) Ha Hb) eq_refl) as [Qx Qy].
  assert (Ea : cell (ax (pr_pt p)) (ax (minp e)) s = cell (ax (pr_pt q)) (ax (minp e)) s).
  { destruct I as [<-|[<-|[]]]; assumption. }
  apply nth_error_In in Hp. apply nth_error_In in Hq.
  pose proof (G p ax Hp I) as A1. pose proof (G q ax Hq I) as A2. specialize (Sp ax I).
  assert (R : (Rabs (d_val (ax (pr_pt p)) - d_val (ax (pr_pt q))) < (1 + / 1048576) * d_val s)%R).
  { apply (cell_same _ _ (ax (minp e))); [exact Ps|apply A1|apply A2|lra|lra|exact Ea]. }
  eapply Rlt_le_trans; [exact R|].
  assert (W : (0 <= len + bpow radix2 (-23))%R).
  { specialize (B' px ltac:(cbn; tauto)). pose proof (bpow_gt_0 radix2 (-23)). lra. }
  set (w := (len + bpow radix2 (-23))%R) in *.
  apply Rmult_le_reg_r with (IZR n); [lra|].
  replace ((1 + / 524288) * (w / IZR n) * IZR n)%R with ((1 + / 524288) * w)%R by (field; lra).
  rewrite Ev in Up. nra.
Qed.

Lemma numbered_with_nth : forall k numbers prs p, In p (numbered_with k numbers prs) ->
  exists i, nth_error prs i = Some p /\ nth_error numbers i = Some k.
Proof.
  intros k numbers prs p H. unfold numbered_with in H. apply in_map_iff in H as ([n p'] & <- & H).
  apply filter_In in H as [H E]. cbn [fst snd] in *. apply Z.eqb_eq in E. subst n.
  revert prs H. induction numbers as [|a numbers IH]; intros [|b prs] H; cbn in H; try contradiction.
  destruct H as [[= -> ->]|H]; [exists 0%nat; now split|].
  destruct (IH prs H) as (i & A & B). exists (S i). now split.
Qed.

(** The files that the program writes: together they hold the records of its input, and two
    records in one file are as near to each other as the sizes say. *)
Theorem C104_files : forall z ZS debug acc args input f fs fs' sx sy, zlib_ok z ZS -> storable f ->
  file_of (read_spoc_file z) input f -> tile_tool z debug acc args input fs = (fs', Ret tt) ->
  finite (ta_size args) -> finite (ta_size_x args) -> finite (ta_size_y args) -> sides args sx sy ->
  Forall (fun p => pt_finite (pr_pt p)) (f_prs f) -> f_prs f <> [] ->
  let e := get_extent (map pr_pt (f_prs f)) in
  (forall ax, In ax [px; py] -> fits (d_val (ax (maxp e)) - d_val (ax (minp e)))) ->
  (0 < d_val sx -> d_val (px (maxp e)) - d_val (px (minp e)) <= 1073741824 * d_val sx)%R ->
  (0 < d_val sy -> d_val (py (maxp e)) - d_val (py (minp e)) <= 1073741824 * d_val sy)%R ->
  exists tiles : list spoc_file, Permutation (flat_map f_prs tiles) (f_prs f)
  /\ forall t, In t tiles ->
       (exists name bytes t', fs' name = Some bytes /\ read_spoc_file z (i_open bytes) = Ret (t', i_open []) /\ kept t t')
       /\ forall p q, In p (f_prs t) -> In q (f_prs t) ->
            (0 < d_val sx -> Rabs (d_val (rx p) - d_val (rx q)) < (1 + / 1048576) * d_val sx)%R
            /\ (0 < d_val sy -> Rabs (d_val (ry p) - d_val (ry q)) < (1 + / 1048576) * d_val sy)%R.
Proof.
  intros z ZS debug acc args input f fs fs' sx sy Hz S Fo R F Fx Fy Sd Hf N e Ft Bx By.
  destruct (C52_partition z ZS debug acc args input f fs fs' Hz S Fo R) as (numbers & tiles & En & _ & P & T & _).
  destruct (C104_sizes args f sx sy F Fx Fy Sd Hf N Ft Bx By) as (numbers' & En' & Q).
  rewrite En in En'. injection En' as <-.
  exists (map snd tiles). split.
  { rewrite flat_map_concat_map, map_map, <- flat_map_concat_map. exact P. }
  intros t It. apply in_map_iff in It as ([k t0] & Et & It). cbn [snd] in Et. subst t0.
  destruct (T k t It) as (_ & Pt & _ & bytes & t' & Hb & _ & K & Rd). split; [exists (tile_name args (f_compressed f) k); eauto|].
  rewrite Pt. intros p q Ip Iq. apply numbered_with_nth in Ip as (i & A1 & A2). apply numbered_with_nth in Iq as (j & B1 & B2).
  exact (Q i j p q k A1 B1 A2 B2).
Qed.

Lemma t_storable : storable t_file.
Proof.
  split; [|split; [cbn; lia|exists 0; split; [intros p I; cbn in I; intuition (subst; reflexivity)|cbn; lia]]].
  split; try reflexivity; try (cbn; lia).
  - repeat constructor; lia.
  - repeat constructor; vm_compute; try split; congruence.
  - intros p q I J. cbn in I, J. intuition (subst; reflexivity).
Qed.

(** The file of three records in columns of width 4 and rows of height 1, by sizes and by number *)
Example C104_example : let e := get_extent (map pr_pt (f_prs t_file)) in
  storable t_file /\ file_of (read_spoc_file toy) (t_bytes t_file) t_file
  /\ snd (tile_tool toy false t_all (t_sides d_four d_one) (t_bytes t_file) t_none) = Ret tt
  /\ finite (ta_size (t_sides d_four d_one)) /\ finite (ta_size_x (t_sides d_four d_one)) /\ finite (ta_size_y (t_sides d_four d_one))
  /\ sides (t_sides d_four d_one) d_four d_one
  /\ Forall (fun p => pt_finite (pr_pt p)) (f_prs t_file) /\ f_prs t_file <> []
  /\ (forall ax, In ax [px; py] -> fits (d_val (ax (maxp e)) - d_val (ax (minp e))))
  /\ (d_val (px (maxp e)) - d_val (px (minp e)) <= 1073741824 * d_val d_four)%R
  /\ (d_val (py (maxp e)) - d_val (py (minp e)) <= 1073741824 * d_val d_one)%R
  /\ (forall ax, In ax [px; py] -> (d_val (ax (maxp e)) - d_val (ax (minp e)) <= 10)%R) /\ (10 <= bpow radix2 999)%R
  /\ ta_tiles t_args = 2 /\ tile_numbers t_args t_file = Ret [0; 1; 0].
Proof.
  destruct C53_example as (S1 & _ & Pf & Ne & Ft & _). cbv zeta.
  assert (V0 : d_val d_zero = 0%R) by reflexivity.
  assert (V1 : d_val d_one = 1%R) by (unfold d_val; vm_compute; lra).
  assert (V4 : d_val d_four = 4%R) by (unfold d_val; vm_compute; lra).
  assert (V10 : d_val d_ten = 10%R) by (unfold d_val; vm_compute; lra).
  split; [exact t_storable|].
  split; [eexists; vm_compute; reflexivity|]. split; [vm_compute; reflexivity|].
  split; [apply zero_finite|]. split; [split; [unfold d_ok, d_four, two64; cbn; lia|reflexivity]|].
  split; [apply one_finite|]. split; [exact S1|]. split; [exact Pf|]. split; [exact Ne|]. split; [exact Ft|].
  replace (maxp (get_extent (map pr_pt (f_prs t_file)))) with (mk_pt d_ten d_four d_zero) by (vm_compute; reflexivity).
  replace (minp (get_extent (map pr_pt (f_prs t_file)))) with (mk_pt d_zero d_zero d_zero) by (vm_compute; reflexivity).
  cbn [px py]. rewrite V0, V1, V4, V10. split; [lra|]. split; [lra|].
  split; [intros ax [<-|[<-|[]]]; cbn [px py]; rewrite V0, ?V4, ?V10; lra|].
  split; [eapply Rle_trans; [|apply (bpow_le radix2 4); lia]; cbn; lra|].
  split; [reflexivity|vm_compute; reflexivity].
Qed.

Print Assumptions C104_sizes.
Print Assumptions C104_tiles.
Print Assumptions C104_files.
