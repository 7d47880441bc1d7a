(** C106-C107: the generators of test data and the comparison of doubles in spoc/test_utils.h. *)
From Coq Require Import String Reals ZArith List Bool Lia Lra Psatz.
From Flocq Require Import Core Mult_error IEEE754.BinarySingleNaN IEEE754.Binary IEEE754.Bits.
From Verif.Model Require Import Base Double Arith Header PointRecord Point File Compression IO TestUtils.
From Verif.Spec Require Import Files Streams ZlibContract Rounding Geometry Testing.
From Verif.Proofs Require Import BaseFacts DoubleFacts ArithFacts VoxelFacts ErrorFacts FileFacts ToyZlib TileSizeFacts.
From Verif.Props Require Import FileProps.
Import ListNotations.
Open Scope Z_scope.

Lemma times_all {S A} (P : A -> Prop) (g : S -> A * S) : (forall s, P (fst (g s))) ->
  forall n s, Forall P (fst (times n g s)) /\ length (fst (times n g s)) = n.
Proof.
  intros H n. induction n as [|n IH]; intros s; cbn [times fst]; [split; [constructor|reflexivity]|].
  specialize (H s). destruct (g s) as [a s1]. specialize (IH s1). destruct (times n g s1) as [l s2]. cbn [fst] in *.
  destruct IH as [F L]. split; [constructor; assumption|]. cbn [length]. now rewrite L.
Qed.

Lemma d_minus_one_val : finite d_minus_one /\ d_val d_minus_one = (-1)%R.
Proof.
  split; [split; [unfold d_ok, d_minus_one, d_one, two63, two64; lia|reflexivity]|].
  unfold d_val. vm_compute. lra.
Qed.

Lemma fits_int : forall z, Z.abs z <= 2 ^ 53 -> fits (IZR z).
Proof.
  intros z H. apply fits_bpow with 53; [|lia]. rewrite <- abs_IZR.
  apply IZR_le in H. eapply Rle_trans; [exact H|]. cbn. lra.
Qed.

Lemma unit_draw : forall r s, rng_ok r -> between (-1) 1 (fst (rng_real r d_minus_one d_one s)).
Proof.
  intros r s H. destruct d_minus_one_val as [Fm Vm]. destruct one_finite as [F1 V1].
  destruct (rng_real_range r H d_minus_one d_one s Fm F1) as [F B]; rewrite ?Vm, ?V1 in *; [lra| |now split].
  replace (1 - -1)%R with (IZR 2) by lra. apply fits_int. lia.
Qed.

Lemma zero_draw : forall r s, rng_ok r -> between 0 1 (fst (rng_real r d_zero d_one s)).
Proof.
  intros r s H. destruct one_finite as [F1 V1]. assert (V0 : d_val d_zero = 0%R) by apply d_val_zero.
  destruct (rng_real_range r H d_zero d_one s zero_finite F1) as [F B]; rewrite ?V0, ?V1 in *; [lra| |now split].
  replace (1 - 0)%R with (IZR 1) by lra. apply fits_int. lia.
Qed.

Lemma field_draw : forall r s, rng_ok r -> 0 <= fst (rng_int r 0 (2 ^ 15) s) <= 32768.
Proof. intros r s H. apply (rng_int_range r H 0 (2 ^ 15) s). lia. Qed.

(** ** C106 *)

Lemma random_record_ok : forall r k rgb s, rng_ok r -> 0 <= k -> test_record k rgb (fst (random_record r k rgb s)).
Proof.
  intros r k rgb s H Hk. unfold random_record.
  Ltac draw_real r H := match goal with |- context [rng_real r d_minus_one d_one ?s] =>
    let B := fresh "B" in pose proof (unit_draw r s H) as B; destruct (rng_real r d_minus_one d_one s) as [? ?]; cbn [fst] in B end.
  Ltac draw_int r H := match goal with |- context [rng_int r 0 (2 ^ 15) ?s] =>
    lazymatch s with (_ _) => fail | _ => idtac end;
    let B := fresh "B" in pose proof (field_draw r s H) as B; destruct (rng_int r 0 (2 ^ 15) s) as [? ?]; cbn [fst] in B end.
  do 3 draw_real r H. do 3 draw_int r H.
  assert (U16 : forall v, 0 <= v <= 32768 -> to_u16 v = v) by (intros v Hv; unfold to_u16, two16; apply Z.mod_small; lia).
  assert (U32 : forall v, 0 <= v <= 32768 -> to_u32 v = v) by (intros v Hv; unfold to_u32, two32; apply Z.mod_small; lia).
  assert (U64 : forall v, 0 <= v <= 32768 -> to_u64 v = v) by (intros v Hv; unfold to_u64, two64; apply Z.mod_small; lia).
  set (colors := if rgb then _ else _).
  assert (C : exists a b c s', colors = ((a, b, c), s') /\ 0 <= a <= 32768 /\ 0 <= b <= 32768 /\ 0 <= c <= 32768
    /\ (rgb = false -> a = 0 /\ b = 0 /\ c = 0)).
  { unfold colors. destruct rgb; [|repeat eexists; lia]. do 3 draw_int r H. repeat eexists; try lia; discriminate. }
  destruct C as (a & b & c & s' & -> & Ha & Hb & Hc & G).
  destruct (times_all (fun v => 0 <= v <= 32768) (rng_int r 0 (2 ^ 15)) (fun s => field_draw r s H) (Z.to_nat k) s') as [F L].
  destruct (times _ _ s') as [extra s'']. cbn [fst] in *.
  rewrite !U16, !U32 by assumption.
  assert (E : map to_u64 extra = extra).
  { clear - F U64. induction F as [|v l Hv F IH]; cbn; [reflexivity|]. now rewrite IH, U64. }
  rewrite E. split; cbn [rx ry rz rc rp ri rr rg rb rextra]; auto.
  - repeat (apply Forall_cons; [assumption|]). exact F.
  - rewrite L. lia.
Qed.

(** The records: as many as asked for, each with the extra fields asked for, coordinates between
    -1 and 1, other fields between 0 and 32768, and colors only when asked for. *)
Theorem C106_records : forall r n k rgb seed, rng_ok r -> 0 <= n -> 0 <= k ->
  let prs := generate_random_point_records r n k rgb seed in
  Z.of_nat (length prs) = n /\ Forall (test_record k rgb) prs.
Proof.
  intros r n k rgb seed H Hn Hk prs. unfold prs, generate_random_point_records.
  destruct (times_all (test_record k rgb) (random_record r k rgb) (fun s => random_record_ok r k rgb s H Hk) (Z.to_nat n) (rng_seed r seed)) as [F L].
  split; [rewrite L; lia|exact F].
Qed.

Lemma test_record_ok : forall k rgb p, test_record k rgb p -> pr_ok p.
Proof.
  intros k rgb p T. destruct T as [[[X _] _] [[Y _] _] [[Z_ _] _] F _ _]. apply Forall_app in F as [F G].
  rewrite !Forall_cons_iff in F. destruct F as (F1 & F2 & F3 & F4 & F5 & F6 & _).
  split; unfold u32_ok, u16_ok, two32, two16; try assumption; try lia.
  eapply Forall_impl; [|exact G]. intros v Hv. unfold u64_ok, two64. cbn beta in Hv. lia.
Qed.

(** The file: it is always made, can be written, and is read as it was. *)
Theorem C106_file : forall z ZS debug r n k (compressed rgb : bool) seed, zlib_ok z ZS -> rng_ok r -> 0 <= n -> 0 <= k ->
  8 * n + 32 < 2 ^ 31 -> k <= (if compressed then 255 else 123) ->
  exists f bs f', generate_random_spoc_file r n k compressed rgb seed = Ret f
  /\ f_wkt f = chars "WKT" /\ f_compressed f = compressed
  /\ f_prs f = generate_random_point_records r n k rgb seed
  /\ appends (write_spoc_file z debug f) bs
  /\ read_spoc_file z (i_open bs) = Ret (f', i_open []) /\ kept f f'.
Proof.
  intros z ZS debug r n k compressed rgb seed Hz H Hn Hk B K.
  destruct (C106_records r n k rgb seed H Hn Hk) as [L F].
  unfold generate_random_spoc_file, file_ctor_wkt, file_ctor.
  set (prs := generate_random_point_records r n k rgb seed) in *. clearbody prs.
  assert (E : has_extras k prs) by (intros p I; rewrite Forall_forall in F; apply (F p I)).
  assert (U : uniform prs) by (intros p q Ip Iq; apply Nat2Z.inj; now rewrite (E p Ip), (E q Iq)).
  rewrite (proj2 (all_same_size_uniform prs) U). cbn [negb]. change (to_u8 MAJOR_VERSION) with 0. change (to_u8 MINOR_VERSION) with 1.
  set (f := mk_file 0 1 (chars "WKT") compressed prs).
  assert (G : good_file f).
  { split; try reflexivity.
    - repeat constructor; cbn; lia.
    - cbn; lia.
    - eapply Forall_impl; [|exact F]. intros p. apply test_record_ok.
    - exact U.
    - cbn [f_prs f]. lia. }
  exists f. destruct compressed eqn:Ec.
  - destruct (C13_compressed_round_trip z ZS debug f k Hz G eq_refl E K) as (bs & f' & W & _ & Kf & R); [cbn [f_prs f]; lia|].
    specialize (R []). rewrite app_nil_r in R. destruct R as [R _]. exists bs, f'. do 4 (split; [reflexivity|]). split; [exact W|]. split; [exact R|exact Kf].
  - destruct (C10_uncompressed_round_trip z debug f k G eq_refl E K) as (bs & W & _ & R).
    specialize (R [] (Forall_nil _)). rewrite app_nil_r in R. destruct R as [R _]. exists bs, f. do 4 (split; [reflexivity|]). split; [exact W|]. split; [exact R|reflexivity].
Qed.

(** Coordinates between 0 and [e], or between [e] and 0 *)
Lemma scaled_between : forall u e, between 0 1 u -> finite e ->
  between (Rmin 0 (d_val e)) (Rmax 0 (d_val e)) (d_mul u e).
Proof.
  intros u e [[Ou Fu] [L U]] [Oe Fe].
  assert (B : (Rmin 0 (d_val e) <= d_val u * d_val e <= Rmax 0 (d_val e))%R).
  { unfold Rmin, Rmax. destruct (Rle_dec 0 (d_val e)); nra. }
  assert (Ft : fits (d_val u * d_val e)).
  { apply fits_le with (d_val e); [|apply fits_val]. rewrite Rabs_mult, (Rabs_pos_eq (d_val u)) by exact L.
    pose proof (Rabs_pos (d_val e)). nra. }
  destruct (d_mul_val u e Ou Oe Fu Fe) as [F V]. split; [split; [apply d_mul_ok|now apply F]|].
  rewrite (V Ft). destruct B as [B1 B2]. apply rnd_le in B1. apply rnd_le in B2.
  assert (M : rnd (Rmin 0 (d_val e)) = Rmin 0 (d_val e) /\ rnd (Rmax 0 (d_val e)) = Rmax 0 (d_val e)).
  { unfold Rmin, Rmax. destruct (Rle_dec 0 (d_val e)); split; apply rnd_0 || apply rnd_val. }
  destruct M as [M1 M2]. rewrite M1 in B1. rewrite M2 in B2. split; assumption.
Qed.

(** The noisy cloud lies in the box between the origin and the extents. *)
Theorem C106_cloud : forall r n ex ey ez seed, rng_ok r -> 0 <= n -> finite ex -> finite ey -> finite ez ->
  let pts := get_noisy_point_cloud r n ex ey ez seed in
  Z.of_nat (length pts) = n
  /\ Forall (fun p => between (Rmin 0 (d_val ex)) (Rmax 0 (d_val ex)) (px p)
       /\ between (Rmin 0 (d_val ey)) (Rmax 0 (d_val ey)) (py p)
       /\ between (Rmin 0 (d_val ez)) (Rmax 0 (d_val ez)) (pz p)) pts.
Proof.
  intros r n ex ey ez seed H Hn Fx Fy Fz pts. unfold pts, get_noisy_point_cloud.
  match goal with |- _ /\ Forall ?P _ => destruct (times_all P (noisy_point r ex ey ez)) with (n := Z.to_nat n) (s := rng_seed r seed) as [F L] end.
  - intros s. unfold noisy_point.
    repeat match goal with |- context [rng_real r d_zero d_one ?s] => 
      lazymatch s with (_ _) => fail | _ => idtac end;
      let B := fresh "B" in pose proof (zero_draw r s H) as B; destruct (rng_real r d_zero d_one s) as [? ?]; cbn [fst] in B end.
    cbn [fst px py pz]. split; [|split]; now apply scaled_between.
  - split; [rewrite L; lia|exact F].
Qed.

Lemma d_ldexp_between : forall x e, between (-1) 1 x -> -1074 <= e <= 1023 ->
  between (- bpow radix2 e) (bpow radix2 e) (d_ldexp x e).
Proof.
  intros x e [[Ox Fx] B] He. pose proof (bpow_gt_0 radix2 e) as P.
  assert (A : (Rabs (d_val x * bpow radix2 e) <= bpow radix2 e)%R).
  { rewrite Rabs_mult, (Rabs_pos_eq (bpow radix2 e)) by lra. assert (Rabs (d_val x) <= 1)%R by (apply Rabs_le; lra). nra. }
  assert (Ft : fits (d_val x * bpow radix2 e)) by (apply fits_bpow with e; [exact A|lia]).
  pose proof (Binary.Bldexp_correct 53 1024 eq_refl eq_refl mode_NE (b64_of_bits x) e) as H. cbn [round_mode] in H.
  fold (d_val x) in H. change (round radix2 (SpecFloat.fexp 53 1024) ZnearestE (d_val x * bpow radix2 e)) with (rnd (d_val x * bpow radix2 e)) in H.
  rewrite (Rlt_bool_true _ _ Ft) in H. destruct H as (H1 & H2 & _).
  rewrite d_is_finite_B in Fx by exact Ox. rewrite Fx in H2.
  split; [split; [apply bits_ok|unfold d_ldexp; now rewrite finite_bits]|].
  unfold d_ldexp. rewrite val_bits, H1. apply Rabs_le_inv. apply rnd_le_bpow; [lia|exact A].
Qed.

(** Random points at varying scales: finite, and not beyond the largest power of two. *)
Theorem C106_points : forall r order n lo hi, rng_ok r -> 0 <= n -> -1074 <= lo <= hi -> hi <= 1023 ->
  let pts := generate_points r order n lo hi in
  Z.of_nat (length pts) = n
  /\ Forall (fun p => forall ax, In ax axes -> between (- bpow radix2 hi) (bpow radix2 hi) (ax p)) pts.
Proof.
  intros r order n lo hi H Hn Hl Hh pts.
  assert (S1 : forall o s, between (- bpow radix2 hi) (bpow radix2 hi) (fst (scaled r lo hi o s))).
  { intros o s. assert (K : forall x e, between (-1) 1 x -> lo <= e <= hi -> between (- bpow radix2 hi) (bpow radix2 hi) (d_ldexp x e)).
    { intros x e Bx He. destruct (d_ldexp_between x e Bx ltac:(lia)) as [F B]. split; [exact F|].
      pose proof (bpow_le radix2 e hi ltac:(lia)). lra. }
    unfold scaled. destruct o.
    - pose proof (rng_int_range r H lo hi s ltac:(lia)) as I. destruct (rng_int r lo hi s) as [e s1]. cbn [fst] in I.
      pose proof (unit_draw r s1 H) as B. destruct (rng_real r d_minus_one d_one s1) as [x s2]. now apply K.
    - pose proof (unit_draw r s H) as B. destruct (rng_real r d_minus_one d_one s) as [x s1]. cbn [fst] in B.
      pose proof (rng_int_range r H lo hi s1 ltac:(lia)) as I. destruct (rng_int r lo hi s1) as [e s2]. now apply K. }
  unfold pts, generate_points.
  match goal with |- _ /\ Forall ?P _ => destruct (times_all P (scaled_point r lo hi order)) with (n := Z.to_nat n) (s := rng_default r) as [F L] end.
  - intros s. unfold scaled_point.
    pose proof (S1 (order 0) s) as B1. destruct (scaled r lo hi (order 0) s) as [x s1].
    pose proof (S1 (order 1) s1) as B2. destruct (scaled r lo hi (order 1) s1) as [y s2].
    pose proof (S1 (order 2) s2) as B3. destruct (scaled r lo hi (order 2) s2) as [z s3].
    cbn [fst] in *. intros ax [<-|[<-|[<-|[]]]]; assumption.
  - split; [rewrite L; lia|exact F].
Qed.

(** Temporary names: lower case letters after the directory and a slash. *)
Theorem C106_tmp : forall r dir now n, rng_ok r -> 0 <= n ->
  exists name, generate_tmp_filename r dir now n = path_append dir name
  /\ Z.of_nat (length name) = n /\ Forall (fun c => 97 <= c <= 122) name
  /\ (forall d, dir = d ++ [47] -> path_append dir name = d ++ [47] ++ name)
  /\ (forall d c, dir = d ++ [c] -> c <> 47 -> path_append dir name = dir ++ [47] ++ name).
Proof.
  intros r dir now n H Hn. eexists. split; [reflexivity|].
  destruct (times_all (fun v => 0 <= v <= 25) (rng_int r 0 25)) with (n := Z.to_nat n) (s := rng_seed r now) as [F L].
  { intros s. apply rng_int_range; [exact H|lia]. }
  set (l := fst (times (Z.to_nat n) (rng_int r 0 25) (rng_seed r now))) in *. clearbody l.
  split; [rewrite map_length, L; lia|]. split.
  { apply Forall_map. eapply Forall_impl; [|exact F]. cbn beta. lia. }
  split; intros d; [intros ->|intros c -> Nc]; unfold path_append; rewrite rev_app_distr; cbn [rev app].
  - cbn. now rewrite <- app_assoc.
  - now rewrite (proj2 (Z.eqb_neq c 47) Nc).
Qed.

(** ** C107 *)

Lemma twice_val : forall d, finite d -> (d_is_finite (d_add d d) = true <-> fits (2 * d_val d))
  /\ (fits (2 * d_val d) -> d_val (d_add d d) = (2 * d_val d)%R).
Proof.
  intros d [O F]. destruct (d_add_val d d O O F F) as [A B].
  replace (d_val d + d_val d)%R with (2 * d_val d)%R in A, B by ring. split; [exact A|].
  intros Ft. rewrite (B Ft). unfold rnd. apply round_generic; [apply valid_rnd_N|].
  replace (2 * d_val d)%R with (d_val d * bpow radix2 1)%R by (cbn; ring).
  change (generic_format radix2 (FLT_exp (-1074) 53) (d_val d * bpow radix2 1)).
  apply mult_bpow_pos_exact_FLT; [apply (d_val_format d)|lia].
Qed.

Lemma half_up : forall x, (0 <= x)%R -> let n := (Ztrunc (2 * x) + 1) / 2 in (x - / 2 < IZR n <= x + / 2)%R /\ 0 <= n.
Proof.
  intros x P. rewrite Ztrunc_floor by lra. cbv zeta. set (n := (Zfloor (2 * x) + 1) / 2). pose proof (Zfloor_lb (2 * x)) as A. pose proof (Zfloor_ub (2 * x)) as B.
  assert (N : 0 <= Zfloor (2 * x)) by (apply Zfloor_lub; lra).
  set (t := Zfloor (2 * x)) in *. clearbody t.
  assert (D : 2 * n = t \/ 2 * n = t + 1).
  { pose proof (Z.div_mod (t + 1) 2 ltac:(lia)) as E. pose proof (Z.mod_pos_bound (t + 1) 2 ltac:(lia)). fold n in E. lia. }
  split; [|lia].
  assert (E : (2 * IZR n = IZR (2 * n))%R) by (rewrite mult_IZR; ring).
  destruct D as [D|D]; rewrite D in E; rewrite ?plus_IZR in E; lra.
Qed.

(** The integer nearest to a real, halves away from zero *)
Definition away (x : R) : Z := Z.sgn (Ztrunc (2 * x)) * ((Z.abs (Ztrunc (2 * x)) + 1) / 2).

Lemma away_pos : forall x, (0 <= x)%R -> (x - / 2 < IZR (away x) <= x + / 2)%R /\ 0 <= away x.
Proof.
  intros x P. unfold away. pose proof (half_up x P) as H. cbv zeta in H.
  assert (N : 0 <= Ztrunc (2 * x)) by (apply Ztrunc_nonneg; lra).
  destruct (Z.eq_dec (Ztrunc (2 * x)) 0) as [E|E].
  - rewrite E in *. exact H.
  - rewrite Z.sgn_pos, Z.abs_eq, Z.mul_1_l by lia. exact H.
Qed.

Lemma away_opp : forall x, away (- x) = - away x.
Proof.
  intros x. unfold away. replace (2 * - x)%R with (- (2 * x))%R by ring. rewrite Ztrunc_opp, Z.sgn_opp, Z.abs_opp. lia.
Qed.

Lemma away_near : forall x, (Rabs (IZR (away x) - x) <= / 2)%R.
Proof.
  intros x. destruct (Rle_lt_dec 0 x) as [P|P].
  - destruct (away_pos x P) as [A _]. apply Rabs_le. lra.
  - destruct (away_pos (- x) ltac:(lra)) as [A _]. rewrite away_opp, opp_IZR in A. apply Rabs_le. lra.
Qed.

Lemma away_int : forall x lo hi, (IZR lo <= x <= IZR hi)%R -> lo <= away x <= hi.
Proof.
  intros x lo hi B. pose proof (away_near x) as N. apply Rabs_le_inv in N.
  split.
  - assert (IZR lo < IZR (away x + 1))%R; [rewrite plus_IZR; lra|]. apply lt_IZR in H. lia.
  - assert (IZR (away x) < IZR (hi + 1))%R; [rewrite plus_IZR; lra|]. apply lt_IZR in H. lia.
Qed.

Lemma d_round_int_ret : forall d n, finite d -> d_round_int d = Ret n <->
  fits (2 * d_val d) /\ n = away (d_val d) /\ - 2 ^ 31 <= n <= 2 ^ 31 - 1.
Proof.
  intros d n F. destruct (twice_val d F) as [A B]. unfold d_round_int. cbv zeta. rewrite d_trunc_val.
  destruct (d_is_finite (d_add d d)) eqn:E.
  - pose proof (proj1 A eq_refl) as Ft. rewrite (B Ft). fold (away (d_val d)). cbn [andb].
    change (- two31) with (- 2 ^ 31). change (two31 - 1) with (2 ^ 31 - 1). generalize (away (d_val d)) as m. intros m.
    destruct (Z.leb_spec (- 2 ^ 31) m) as [L1|L1]; [destruct (Z.leb_spec m (2 ^ 31 - 1)) as [L2|L2]|]; cbn [andb].
    + split; [intros Q; assert (n = m) by congruence; subst; auto|intros (_ & -> & _); reflexivity].
    + split; [discriminate|]. intros (_ & -> & R). lia.
    + split; [discriminate|]. intros (_ & -> & R). lia.
  - cbn [andb]. split; [discriminate|]. intros (Ft & _). apply A in Ft. discriminate.
Qed.

Lemma d_round_int_cases : forall d, (exists n, d_round_int d = Ret n) \/ d_round_int d = UB ub_float_to_int.
Proof.
  intros d. unfold d_round_int. cbv zeta. generalize (d_is_finite (d_add d d)) as c. generalize (d_trunc (d_add d d)) as t. intros t c.
  destruct (c && _ && _); [left; eexists; reflexivity|right; reflexivity].
Qed.

Lemma d_round_int_finite : forall d n, d_ok d -> d_round_int d = Ret n -> d_is_finite d = true.
Proof.
  intros d n O E. destruct (d_is_finite (d_add d d)) eqn:C.
  - apply d_add_finite_inv in C; [apply C|exact O|exact O].
  - unfold d_round_int in E. cbv zeta in E. rewrite C in E. cbn [andb] in E. discriminate E.
Qed.

Lemma fits_twice : forall x, (Rabs x <= bpow radix2 1000)%R -> fits (2 * x).
Proof.
  intros x H. apply fits_bpow with 1001; [|lia]. rewrite Rabs_mult, (Rabs_pos_eq 2) by lra.
  replace (bpow radix2 1001) with (2 * bpow radix2 1000)%R; [lra|].
  change 1001 with (1 + 1000). rewrite bpow_plus. reflexivity.
Qed.

Lemma product : forall a pow10 p, powers_of_ten pow10 -> 0 <= p <= 22 -> finite a ->
  (Rabs (d_val a * IZR (10 ^ p)) <= bpow radix2 1000)%R ->
  finite (d_mul a (pow10 p)) /\ d_val (d_mul a (pow10 p)) = rnd (d_val a * IZR (10 ^ p)).
Proof.
  intros a pow10 p H Hp [O F] B. destruct (H p Hp) as [[Op Fp] Vp].
  destruct (d_mul_val a (pow10 p) O Op F Fp) as [A1 A2]. rewrite Vp in A1, A2.
  assert (Ft : fits (d_val a * IZR (10 ^ p))) by (apply fits_bpow with 1000; [exact B|lia]).
  split; [split; [apply d_mul_ok|now apply A1]|now apply A2].
Qed.

Lemma int_bpow : forall z, Z.abs z <= 2 ^ 53 -> (Rabs (IZR z) <= bpow radix2 1000)%R.
Proof.
  intros z H. rewrite <- abs_IZR. apply IZR_le in H. eapply Rle_trans; [exact H|].
  eapply Rle_trans; [|apply (bpow_le radix2 53); lia]. cbn. lra.
Qed.

(** The comparison is defined for numbers that, times 10^p, lie within the range of [int]; *)
Theorem C107_defined : forall pow10 a b p, powers_of_ten pow10 -> 0 <= p <= 22 -> finite a -> finite b ->
  (Rabs (d_val a) * IZR (10 ^ p) <= 2147483647)%R -> (Rabs (d_val b) * IZR (10 ^ p) <= 2147483647)%R ->
  exists r, about_equal pow10 a b p = Ret r.
Proof.
  intros pow10 a b p H Hp Fa Fb Ba Bb.
  assert (P : (0 < IZR (10 ^ p))%R) by (apply IZR_lt; lia).
  assert (K : forall x, finite x -> (Rabs (d_val x) * IZR (10 ^ p) <= 2147483647)%R ->
    exists n, d_round_int (d_mul x (pow10 p)) = Ret n).
  { intros x Fx Bx.
    assert (A : (Rabs (d_val x * IZR (10 ^ p)) <= IZR 2147483647)%R) by (rewrite Rabs_mult, (Rabs_pos_eq (IZR (10 ^ p))) by lra; exact Bx).
    pose proof (int_bpow 2147483647 ltac:(lia)) as Ib. rewrite Rabs_pos_eq in Ib by lra.
    destruct (product x pow10 p H Hp Fx ltac:(lra)) as [F V]. eexists. apply d_round_int_ret; [exact F|].
    apply Rabs_le_inv in A. rewrite <- opp_IZR in A. destruct A as [A1 A2]. apply rnd_le in A1. apply rnd_le in A2.
    rewrite rnd_int in A1, A2 by lia. rewrite <- V in A1, A2.
    split; [|split; [reflexivity|]].
    - apply fits_twice. apply Rabs_le. rewrite opp_IZR in A1. lra.
    - pose proof (away_int _ _ _ (conj A1 A2)). lia. }
  destruct (K a Fa Ba) as (n & En). destruct (K b Fb Bb) as (m & Em).
  unfold about_equal. rewrite En, Em. eexists. reflexivity.
Qed.

(** and undefined for larger ones, whatever the other number is. *)
Theorem C107_undefined : forall pow10 a b p, powers_of_ten pow10 -> 0 <= p <= 22 -> finite a ->
  (2147483648 <= d_val a * IZR (10 ^ p) \/ d_val a * IZR (10 ^ p) <= -2147483649)%R ->
  about_equal pow10 a b p = UB ub_float_to_int.
Proof.
  intros pow10 a b p H Hp Fa B. unfold about_equal.
  assert (U : d_round_int (d_mul a (pow10 p)) = UB ub_float_to_int); [|now rewrite U].
  destruct (d_round_int_cases (d_mul a (pow10 p))) as [[n E]|E]; [exfalso|exact E].
  pose proof (d_round_int_finite _ n (d_mul_ok _ _) E) as F2.
  destruct (H p Hp) as [[Op Fp] Vp]. destruct Fa as [Oa Fa].
  destruct (d_mul_val a (pow10 p) Oa Op Fa Fp) as [A1 A2]. rewrite Vp in A1, A2. specialize (A2 (proj1 A1 F2)).
  assert (Fm : finite (d_mul a (pow10 p))) by (split; [apply d_mul_ok|exact F2]).
  apply d_round_int_ret in E; [|exact Fm]. destruct E as (_ & En & R).
  pose proof (away_near (d_val (d_mul a (pow10 p)))) as N. rewrite <- En, A2 in N. apply Rabs_le_inv in N.
  destruct B as [B|B]; apply rnd_le in B; rewrite rnd_int in B by lia.
  - assert (IZR n <= 2147483647)%R by (apply IZR_le; lia). lra.
  - assert (-2147483648 <= IZR n)%R by (apply IZR_le; lia). lra.
Qed.

(** Numbers that compare equal differ by at most 10^-p, up to a relative error of 2^-20. *)
Theorem C107_near : forall pow10 a b p, powers_of_ten pow10 -> 0 <= p <= 22 -> finite a -> finite b ->
  about_equal pow10 a b p = Ret true -> (Rabs (d_val a - d_val b) <= (1 + / 1048576) / IZR (10 ^ p))%R.
Proof.
  intros pow10 a b p H Hp Fa Fb E. assert (P : (0 < IZR (10 ^ p))%R) by (apply IZR_lt; lia).
  unfold about_equal in E.
  destruct (d_round_int (d_mul a (pow10 p))) as [n| | |] eqn:En; try discriminate. cbn [bind] in E.
  destruct (d_round_int (d_mul b (pow10 p))) as [m| | |] eqn:Em; try discriminate. cbn [bind] in E.
  injection E as E. apply Z.eqb_eq in E. subst m.
  assert (K : forall x, finite x -> d_round_int (d_mul x (pow10 p)) = Ret n ->
    (Rabs (IZR n - d_val x * IZR (10 ^ p)) <= / 2 + / 2097152)%R).
  { intros x [Ox Fx] Ex.
    pose proof (d_round_int_finite _ n (d_mul_ok _ _) Ex) as F2.
    destruct (H p Hp) as [[Op Fp] Vp]. destruct (d_mul_val x (pow10 p) Ox Op Fx Fp) as [A1 A2]. rewrite Vp in A1, A2. specialize (A2 (proj1 A1 F2)).
    assert (Fm : finite (d_mul x (pow10 p))) by (split; [apply d_mul_ok|exact F2]).
    apply d_round_int_ret in Ex; [|exact Fm]. destruct Ex as (_ & -> & R).
    pose proof (away_near (d_val (d_mul x (pow10 p)))) as N. rewrite A2 in *.
    assert (R' : (-2147483648 <= IZR (away (rnd (d_val x * IZR (10 ^ p)))) <= 2147483647)%R) by (split; apply IZR_le; lia).
    destruct (rnd_err (d_val x * IZR (10 ^ p))) as (e & t & He & Ht & Er).
    set (w := (d_val x * IZR (10 ^ p))%R) in *. set (q := rnd w) in *. clearbody q w.
    apply Rabs_le_inv in N. apply Rabs_le_inv in He. apply Rabs_le_inv in Ht. rewrite eps_val in He.
    assert (T : (tiny <= / 16777216)%R) by (eapply Rle_trans; [apply (tiny_le (-24)); lia|]; cbn; lra).
    set (m := IZR (away q)) in *. clearbody m.
    assert (W : (-3000000000 <= w <= 3000000000)%R) by (split; nra).
    assert (V : (- / 3000000 <= w * e <= / 3000000)%R) by (split; nra).
    apply Rabs_le. split; lra. }
  pose proof (K a Fa En) as Ka. pose proof (K b Fb Em) as Kb. apply Rabs_le_inv in Ka. apply Rabs_le_inv in Kb.
  assert (D : (Rabs ((d_val a - d_val b) * IZR (10 ^ p)) <= 1 + / 1048576)%R) by (apply Rabs_le; lra).
  rewrite Rabs_mult, (Rabs_pos_eq (IZR (10 ^ p))) in D by lra.
  apply Rmult_le_reg_r with (IZR (10 ^ p)); [exact P|]. unfold Rdiv. rewrite Rmult_assoc, Rinv_l by lra. lra.
Qed.

(** It does not depend on the order, and a number equals itself. *)
Theorem C107_equivalence : forall pow10 a b p r, about_equal pow10 a b p = Ret r ->
  about_equal pow10 b a p = Ret r /\ about_equal pow10 a a p = Ret true
  /\ (r = true -> forall c, about_equal pow10 b c p = about_equal pow10 a c p).
Proof.
  intros pow10 a b p r E. unfold about_equal in *.
  destruct (d_round_int (d_mul a (pow10 p))) as [n| | |]; try discriminate. cbn [bind] in *.
  destruct (d_round_int (d_mul b (pow10 p))) as [m| | |]; try discriminate. cbn [bind] in *.
  injection E as <-. rewrite Z.eqb_sym, Z.eqb_refl. split; [reflexivity|]. split; [reflexivity|].
  intros T c. apply Z.eqb_eq in T. now subst.
Qed.

(** ** Examples *)

(** A random engine: a linear congruence; reals are one end of the interval or the other *)
Definition toy_rng : rng := mk_rng Z (fun seed => seed mod 2147483647) 1
  (fun lo hi s => (lo + s mod (hi - lo + 1), (16807 * s + 1) mod 2147483647))
  (fun lo hi s => (if Z.even s then lo else hi, (16807 * s + 1) mod 2147483647)).

Lemma toy_rng_ok : rng_ok toy_rng.
Proof.
  split.
  - intros lo hi s H. cbn. pose proof (Z.mod_pos_bound s (hi - lo + 1) ltac:(lia)). lia.
  - intros lo hi s Fl Fh L _. cbn. destruct (Z.even s); (split; [assumption|lra]).
Qed.

Definition ten_to (p : Z) : double := d_of_z (10 ^ p).

Lemma ten_to_ok : powers_of_ten ten_to.
Proof.
  intros p Hp. unfold ten_to. split; [split; [apply d_of_z_ok|]|].
  - assert (C : In p (map Z.of_nat (seq 0 23))) by (apply in_map_iff; exists (Z.to_nat p); split; [lia|apply in_seq; lia]).
    revert C. generalize p. apply Forall_forall. cbn [seq map]. repeat (apply Forall_cons; [vm_compute; reflexivity|]). apply Forall_nil.
  - assert (C : In p (map Z.of_nat (seq 0 23))) by (apply in_map_iff; exists (Z.to_nat p); split; [lia|apply in_seq; lia]).
    revert C. generalize p. apply Forall_forall. cbn [seq map]. unfold d_val.
    repeat (apply Forall_cons; [vm_compute; lra|]). apply Forall_nil.
Qed.

(** A file of three records without colors; a point of a noisy cloud; default exponents; a name *)
Example C106_example : rng_ok toy_rng
  /\ (exists p q, generate_random_point_records toy_rng 3 2 false 123 = [mk_pr d_one d_minus_one d_one 30477 13508 265 0 0 0 [15316; 1896]; p; q])
  /\ length (get_noisy_point_cloud toy_rng 5 d_one d_one d_minus_one 123) = 5%nat
  /\ default_min_exponent = -510 /\ default_max_exponent = 512
  /\ length (generate_points toy_rng (fun k => k =? 1) 4 default_min_exponent default_max_exponent) = 4%nat
  /\ length (generate_tmp_filename toy_rng (chars "/tmp") 123 16) = 21%nat.
Proof.
  split; [apply toy_rng_ok|]. split; [eexists _, _; vm_compute; reflexivity|]. repeat split; vm_compute; reflexivity.
Qed.

(** 1.2344 and 1.2336 agree to three decimals; 0.0005 and the double just below it do not; and
    comparing 3000000 with itself is undefined. *)
Example C107_example : powers_of_ten ten_to
  /\ about_equal ten_to 4608238062552673052 4608234459672971156 3 = Ret true
  /\ about_equal ten_to 4557750909289998844 4557750909289998843 3 = Ret false
  /\ about_equal ten_to 4703696862291427328 4703696862291427328 3 = UB ub_float_to_int.
Proof. split; [apply ten_to_ok|]. repeat split; vm_compute; reflexivity. Qed.

Print Assumptions C106_records.
Print Assumptions C106_file.
Print Assumptions C106_cloud.
Print Assumptions C106_points.
Print Assumptions C106_tmp.
Print Assumptions C107_defined.
Print Assumptions C107_undefined.
Print Assumptions C107_near.
Print Assumptions C107_equivalence.
