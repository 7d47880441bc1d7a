(** C106 and C120: the promises of the generators of test data are exact.  Whatever the promises allow, some
    engine that keeps to the C++ standard generates, and other seeds give it something else. *)
From Coq Require Import String Reals ZArith List Bool Lia Lra.
From Flocq Require Import Core.
From Verif.Model Require Import Base Double Arith PointRecord Point Affine TestUtils GaussianCloud.
From Verif.Spec Require Import Rounding Geometry Testing.
From Verif.Proofs Require Import BaseFacts DoubleFacts ArithFacts VoxelFacts ErrorFacts FileFacts TileSizeFacts.
From Verif.Props Require Import TestUtilsProps.
Import ListNotations.
Open Scope Z_scope.

(** An engine that is fed the numbers it returns: a queue of reals and a queue of integers.  A number
    outside the interval asked for is replaced by the lower end. *)
Definition queues : Type := list double * list Z.
Definition fed (seeds : Z -> queues) (start : queues) : rng :=
  mk_rng queues seeds start
    (fun lo hi s => let v := hd lo (snd s) in (if (lo <=? v) && (v <=? hi) then v else lo, (fst s, tl (snd s))))
    (fun lo hi s => let v := hd lo (fst s) in
       (if (0 <=? v) && (v <? two64) && d_is_finite v && d_leb lo v && d_leb v hi then v else lo, (tl (fst s), snd s))).

Lemma fed_ok seeds start : rng_ok (fed seeds start).
Proof.
  split.
  - intros lo hi s H. cbn. destruct ((lo <=? _) && _) eqn:E; [|cbn; lia]. apply andb_prop in E as [A B]. lia.
  - intros lo hi s Fl Fh H _. cbn [fed rng_real fst]. set (v := hd lo (fst s)). clearbody v.
    match goal with |- context [if ?c then _ else _] => destruct c eqn:E end; [|split; [exact Fl|lra]].
    repeat (apply andb_prop in E as [E ?]). assert (Fv : finite v) by (split; [split; lia|assumption]).
    split; [exact Fv|]. split; apply d_leb_val; try apply Fl; try apply Fh; try apply Fv; assumption.
Qed.

Lemma fed_int seeds start lo hi v rs is : lo <= v <= hi -> rng_int (fed seeds start) lo hi (rs, v :: is) = (v, (rs, is)).
Proof. intros [A B]. cbn. now rewrite (proj2 (Z.leb_le _ _) A), (proj2 (Z.leb_le _ _) B). Qed.

Lemma fed_real seeds start lo hi v rs is : finite lo -> finite hi -> between (d_val lo) (d_val hi) v ->
  rng_real (fed seeds start) lo hi (v :: rs, is) = (v, (rs, is)).
Proof.
  intros [Ol Fl] [Oh Fh] [[Ov Fv] [A B]]. cbn. rewrite Fv.
  rewrite (proj2 (d_leb_val lo v Ol Ov Fl Fv) A), (proj2 (d_leb_val v hi Ov Oh Fv Fh) B).
  unfold d_ok in Ov. rewrite (proj2 (Z.leb_le 0 v)), (proj2 (Z.ltb_lt v two64)) by lia. reflexivity.
Qed.

Lemma fed_unit seeds start v rs is : between (-1) 1 v -> rng_real (fed seeds start) d_minus_one d_one (v :: rs, is) = (v, (rs, is)).
Proof.
  intros B. destruct d_minus_one_val as [F1 V1]. destruct one_finite as [F2 V2]. apply fed_real; [exact F1|exact F2|]. now rewrite V1, V2.
Qed.

Lemma fed_zero seeds start v rs is : between 0 1 v -> rng_real (fed seeds start) d_zero d_one (v :: rs, is) = (v, (rs, is)).
Proof.
  intros B. destruct one_finite as [F2 V2]. assert (V0 : d_val d_zero = 0%R) by apply d_val_zero.
  apply fed_real; [exact zero_finite|exact F2|]. now rewrite V0, V2.
Qed.

(** A generator that gives back what was loaded gives back a list that was loaded. *)
Lemma times_load {S A} (P : A -> Prop) (g : S -> A * S) (load : A -> S -> S) : (forall a s, P a -> g (load a s) = (a, s)) ->
  forall l s, Forall P l -> times (length l) g (fold_right load s l) = (l, s).
Proof.
  intros H l s F. induction F as [|a l Pa F IH]; cbn [length times fold_right]; [reflexivity|]. now rewrite (H _ _ Pa), IH.
Qed.

Lemma times_ints seeds start lo hi l rs is : Forall (fun v => lo <= v <= hi) l ->
  times (length l) (rng_int (fed seeds start) lo hi) (rs, l ++ is) = (l, (rs, is)).
Proof.
  intros F. induction F as [|a l Pa F IH]; cbn [length times]; [reflexivity|]. cbn [app]. now rewrite fed_int, IH.
Qed.

(** Any records that keep to C106_records, any other such records for any other seed *)
Theorem C106_any_records : forall n k rgb (out : Z -> list point_record), 0 <= k ->
  (forall seed, Z.of_nat (length (out seed)) = n /\ Forall (test_record k rgb) (out seed)) ->
  exists r, rng_ok r /\ forall seed, generate_random_point_records r n k rgb seed = out seed.
Proof.
  intros n k rgb out Hk H.
  set (load := fun (p : point_record) (s : queues) => ([rx p; ry p; rz p] ++ fst s,
    [rc p; rp p; ri p] ++ (if rgb then [rr p; rg p; rb p] else []) ++ rextra p ++ snd s)).
  set (seeds := fun seed => fold_right load ([], []) (out seed)).
  exists (fed seeds ([], [])). split; [apply fed_ok|]. intros seed. destruct (H seed) as [L F].
  unfold generate_random_point_records. replace (Z.to_nat n) with (length (out seed)) by lia.
  change (rng_seed (fed seeds ([], [])) seed) with (fold_right load ([], []) (out seed)).
  rewrite (times_load (test_record k rgb) _ load); [reflexivity| |exact F].
  intros p [rs is] T. destruct T as [X Y Z_ Fi Ex G]. unfold load, random_record. cbn [fst snd app].
  apply Forall_app in Fi as [Fi Fe]. rewrite !Forall_cons_iff in Fi. destruct Fi as (F1 & F2 & F3 & F4 & F5 & F6 & _).
  assert (U16 : forall v, 0 <= v <= 32768 -> to_u16 v = v) by (intros v Hv; unfold to_u16, two16; apply Z.mod_small; lia).
  assert (U32 : forall v, 0 <= v <= 32768 -> to_u32 v = v) by (intros v Hv; unfold to_u32, two32; apply Z.mod_small; lia).
  assert (U64 : map to_u64 (rextra p) = rextra p).
  { clear - Fe. induction Fe as [|v l Hv Fe IH]; cbn; [reflexivity|]. rewrite IH. f_equal. unfold to_u64, two64. apply Z.mod_small. lia. }
  rewrite !fed_unit by assumption. rewrite !fed_int by assumption. replace (Z.to_nat k) with (length (rextra p)) by lia.
  destruct rgb.
  - cbn [app]. rewrite !fed_int by assumption. rewrite times_ints by exact Fe. rewrite U64, !U16, !U32 by assumption. now destruct p.
  - cbn [app]. rewrite times_ints by exact Fe. rewrite U64, !U32, !U16 by (assumption || lia). destruct (G eq_refl) as (G1 & G2 & G3).
    destruct p; cbn in *. now subst.
Qed.

(** Any points of the box that are extents times fractions *)
Theorem C106_any_cloud : forall n ex ey ez (out : Z -> list point),
  (forall seed, Z.of_nat (length (out seed)) = n /\ Forall (fun u => between 0 1 (px u) /\ between 0 1 (py u) /\ between 0 1 (pz u)) (out seed)) ->
  exists r, rng_ok r /\ forall seed, get_noisy_point_cloud r n ex ey ez seed
    = map (fun u => mk_pt (d_mul (px u) ex) (d_mul (py u) ey) (d_mul (pz u) ez)) (out seed).
Proof.
  intros n ex ey ez out H.
  set (load := fun (u : point) (s : queues) => ([px u; py u; pz u] ++ fst s, snd s)).
  set (seeds := fun seed => fold_right load ([], []) (out seed)).
  exists (fed seeds ([], [])). split; [apply fed_ok|]. intros seed. destruct (H seed) as [L F].
  unfold get_noisy_point_cloud. replace (Z.to_nat n) with (length (out seed)) by lia.
  change (rng_seed (fed seeds ([], [])) seed) with (fold_right load ([], []) (out seed)).
  clear L H. induction F as [|u l (X & Y & Z_) F IH]; cbn [length times fold_right map]; [reflexivity|].
  unfold noisy_point at 1. unfold load at 1. cbn [app]. rewrite !fed_zero by assumption.
  rewrite <- surjective_pairing. match type of IH with fst ?t = _ => destruct t as [l' s'] end. cbn [fst] in *. now rewrite IH.
Qed.

(** Any points whose coordinates are fractions times powers of two, in either order of evaluation *)
Theorem C106_any_points : forall order lo hi (fractions : list point) (powers : list (Z * Z * Z)),
  length powers = length fractions ->
  Forall (fun u => between (-1) 1 (px u) /\ between (-1) 1 (py u) /\ between (-1) 1 (pz u)) fractions ->
  Forall (fun '(a, b, c) => lo <= a <= hi /\ lo <= b <= hi /\ lo <= c <= hi) powers ->
  exists r, rng_ok r /\ generate_points r order (Z.of_nat (length fractions)) lo hi
    = map (fun '(u, (a, b, c)) => mk_pt (d_ldexp (px u) a) (d_ldexp (py u) b) (d_ldexp (pz u) c)) (combine fractions powers).
Proof.
  intros order lo hi us es L Fu Fe.
  set (load := fun (q : point * (Z * Z * Z)) (s : queues) => let '(u, (a, b, c)) := q in ([px u; py u; pz u] ++ fst s, [a; b; c] ++ snd s)).
  set (qs := combine us es). exists (fed (fun _ => ([], [])) (fold_right load ([], []) qs)). split; [apply fed_ok|].
  unfold generate_points. rewrite Nat2Z.id. replace (length us) with (length qs) by (unfold qs; rewrite combine_length, L; lia).
  assert (Q : Forall (fun '(u, (a, b, c)) => (between (-1) 1 (px u) /\ between (-1) 1 (py u) /\ between (-1) 1 (pz u))
     /\ lo <= a <= hi /\ lo <= b <= hi /\ lo <= c <= hi) qs).
  { apply Forall_forall. intros [u [[a b] c]] I. rewrite Forall_forall in Fu, Fe.
    split; [apply (Fu u), (in_combine_l _ _ _ _ I)|apply (Fe (a, b, c)), (in_combine_r _ _ _ _ I)]. }
  assert (D : forall start o v e rs is, between (-1) 1 v -> lo <= e <= hi -> scaled (fed (fun _ => ([], [])) start) lo hi o (v :: rs, e :: is) = (d_ldexp v e, (rs, is))).
  { intros start o v e rs is V E. unfold scaled. destruct o; now rewrite ?fed_int, ?fed_unit, ?fed_int by assumption. }
  clearbody qs. clear L Fu Fe.
  enough (K : forall start, fst (times (length qs) (scaled_point (fed (fun _ => ([], [])) start) lo hi order) (fold_right load ([], []) qs))
    = map (fun '(u, (a, b, c)) => mk_pt (d_ldexp (px u) a) (d_ldexp (py u) b) (d_ldexp (pz u) c)) qs) by apply K.
  intros start. induction Q as [|[u [[a b] c]] l ((X & Y & Z_) & A & B & C) F IH]; cbn [length times fold_right map]; [reflexivity|].
  unfold scaled_point at 1. cbn [load app fst snd]. rewrite !D by assumption.
  rewrite <- surjective_pairing. match type of IH with fst ?t = _ => destruct t as [l' s'] end. cbn [fst] in *. now rewrite IH.
Qed.

(** Any lower case name, another one at another time *)
Theorem C106_any_name : forall dir n (out : Z -> list Z),
  (forall now, Z.of_nat (length (out now)) = n /\ Forall (fun c => 97 <= c <= 122) (out now)) ->
  exists r, rng_ok r /\ forall now, generate_tmp_filename r dir now n = path_append dir (out now).
Proof.
  intros dir n out H.
  exists (fed (fun now => ([], map (fun c => c - 97) (out now) ++ [])) ([], [])). split; [apply fed_ok|]. intros now. destruct (H now) as [L F].
  unfold generate_tmp_filename. f_equal. cbn [fed rng_seed].
  replace (Z.to_nat n) with (length (map (fun c => c - 97) (out now))) by (rewrite map_length; lia).
  change (mk_rng _ _ _ _ _) with (fed (fun now => ([], map (fun c => c - 97) (out now) ++ [])) ([], [])).
  rewrite times_ints by (apply Forall_map; eapply Forall_impl; [|exact F]; cbn beta; lia). cbn [fst]. rewrite map_map.
  rewrite <- (map_id (out now)) at 2. apply map_ext. lia.
Qed.

(** The Gaussian cloud: for any two fractions and any normal deviate for each point, some engine and
    distribution give the point of Box and Muller: at the angle 2 pi times the second fraction, at
    the distance of the first, and at the height of the deviate. *)
Theorem C120_any_cloud : forall log t n radius stddev (out : Z -> list (double * double * double)),
  (forall seed, Z.of_nat (length (out seed)) = n /\ Forall (fun '(x, y, v) => between 0 1 x /\ between 0 1 y /\ between (-64) 64 v) (out seed)) ->
  exists r d, rng_ok r /\ (forall s, between (-64) 64 (fst (nd_draw d s)))
    /\ forall seed, get_noisy_gaussian_point_cloud r d log t n radius stddev seed
    = map (fun '(x, y, v) => let distance := d_mul radius (d_sqrt (d_mul d_minus_two (log x))) in
        let angle := d_mul d_two_pi y in
        mk_pt (d_mul distance (d_cos t angle)) (d_mul distance (d_sin t angle)) (d_mul stddev v)) (out seed).
Proof.
  intros log t n radius stddev out H.
  set (load := fun (u : double * double * double) (s : queues) => let '(x, y, v) := u in ([x; y] ++ fst s, [v] ++ snd s)).
  set (seeds := fun seed => fold_right load ([], []) (out seed)).
  set (r := fed seeds ([], [])).
  set (ok := fun v => (0 <=? v) && (v <? two64) && d_is_finite v && d_leb 13857576053419016192 v && d_leb v 4634204016564240384).
  set (d := mk_normal r unit tt (fun '(u, s) => let v := hd d_zero (snd s) in (if ok v then v else d_zero, (u, (fst s, tl (snd s)))))).
  exists r, d. split; [apply fed_ok|].
  assert (Lo : finite 13857576053419016192 /\ d_val 13857576053419016192 = (-64)%R) by (split; [split; vm_compute; intuition congruence|unfold d_val; vm_compute; lra]).
  assert (Hi : finite 4634204016564240384 /\ d_val 4634204016564240384 = 64%R) by (split; [split; vm_compute; intuition congruence|unfold d_val; vm_compute; lra]).
  destruct Lo as [[Lo1 Lo2] Lo3]. destruct Hi as [[Hi1 Hi2] Hi3].
  split.
  { intros [u s]. cbn [d nd_draw fst]. set (v := hd d_zero (snd s)). clearbody v. destruct (ok v) eqn:E.
    - unfold ok in E. repeat (apply andb_prop in E as [E ?]). assert (Ov : d_ok v) by (split; lia). split; [now split|].
      rewrite <- Lo3, <- Hi3. split; apply d_leb_val; assumption.
    - assert (V0 : d_val d_zero = 0%R) by apply d_val_zero. split; [exact zero_finite|]. rewrite V0. split; lra. }
  intros seed. destruct (H seed) as [L F].
  unfold get_noisy_gaussian_point_cloud. replace (Z.to_nat n) with (length (out seed)) by lia.
  change (rng_seed r seed) with (fold_right load ([], []) (out seed)). change (nd_init d) with tt.
  clear L H. induction F as [|[[x y] v] l (X & Y & V) F IH]; cbn [length times fold_right map]; [reflexivity|].
  unfold gaussian_point at 1. cbn [load app fst snd]. 
  pose proof (fun rs is => fed_zero seeds ([], []) x rs is X) as E1. pose proof (fun rs is => fed_zero seeds ([], []) y rs is Y) as E2. fold r in E1, E2.
  rewrite E1, E2.
  cbn [d nd_draw fst snd hd tl].
  assert (E : ok v = true).
  { destruct V as [[Ov Fv] [V1 V2]]. rewrite <- Lo3 in V1. rewrite <- Hi3 in V2. unfold ok. rewrite Fv.
    rewrite (proj2 (d_leb_val _ v Lo1 Ov Lo2 Fv) V1), (proj2 (d_leb_val v _ Ov Hi1 Fv Hi2) V2).
    unfold d_ok in Ov. now rewrite (proj2 (Z.leb_le 0 v)), (proj2 (Z.ltb_lt v two64)) by lia. }
  rewrite E. match goal with |- fst (let '(_, _) := ?t in _) = _ => destruct t as [l' s'] eqn:T end.
  apply (f_equal fst) in T. cbn [fst] in T |- *. f_equal. rewrite <- IH, <- T. now rewrite <- (surjective_pairing (fold_right load ([], []) l)).
Qed.

(** Two records that differ in every field, for odd seeds in the other order *)
Definition gen_a : point_record := mk_pr d_one d_zero d_minus_one 1 2 3 4 5 6 [7; 32768].
Definition gen_b : point_record := mk_pr d_minus_one d_one d_zero 8 9 10 11 12 13 [14; 0].
Example C106_any_example :
  (let out := fun seed => if Z.odd seed then [gen_b; gen_a] else [gen_a; gen_b] in
   (forall seed, Z.of_nat (length (out seed)) = 2 /\ Forall (test_record 2 true) (out seed)) /\ out 1 <> out 2)
  /\ Forall (fun u => between 0 1 (px u) /\ between 0 1 (py u) /\ between 0 1 (pz u)) [mk_pt d_one d_zero d_one]
  /\ d_mul d_one d_minus_one <> d_mul d_zero d_minus_one /\ d_ldexp d_one 3 <> d_ldexp d_one 4.
Proof.
  destruct one_finite as [F1 V1]. destruct d_minus_one_val as [Fm Vm]. pose proof zero_finite as F0. assert (V0 : d_val d_zero = 0%R) by apply d_val_zero.
  assert (B : forall lo hi, (lo <= 0)%R -> (1 <= hi)%R -> between lo hi d_one /\ between lo hi d_zero).
  { intros lo hi A C. split; (split; [assumption|]); rewrite ?V1, ?V0; lra. }
  destruct (B (-1)%R 1%R) as [B1 B2]; [lra|lra|]. destruct (B 0%R 1%R) as [B3 B4]; [lra|lra|].
  assert (B5 : between (-1) 1 d_minus_one) by (split; [exact Fm|lra]).
  assert (Ta : test_record 2 true gen_a) by (split; try assumption; try reflexivity; try discriminate; repeat constructor; cbn; lia).
  assert (Tb : test_record 2 true gen_b) by (split; try assumption; try reflexivity; try discriminate; repeat constructor; cbn; lia).
  split; [split; [intros seed; destruct (Z.odd seed); auto|discriminate]|].
  split; [constructor; [auto|constructor]|]. split; intros E; vm_compute in E; discriminate E.
Qed.

Print Assumptions C106_any_records.
Print Assumptions C106_any_cloud.
Print Assumptions C106_any_points.
Print Assumptions C106_any_name.
Print Assumptions C120_any_cloud.
