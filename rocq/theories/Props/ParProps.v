(** C38, C47, C77: the parallel loops of the library under every schedule. *)
From Coq Require Import Reals ZArith List Bool Lia Lra.
From Flocq Require Import Core.
From Verif.Model Require Import Base Double Arith PointRecord Point Extent Voxel Utils Subsampling RadiusSearch
  Compression IO Par Affine.
From Verif.Spec Require Import Schedules Rounding.
From Verif.Proofs Require Import BaseFacts SubsampleFacts ParFacts DoubleFacts ArithFacts ToyZlib.
Import ListNotations.
Open Scope Z_scope.
Open Scope outcome_scope.

Ltac own := repeat first [ apply owns_done | apply owns_fail | apply compute_owns; intro
                         | apply owns_load; intro | apply owns_modify ].

Lemma par_total : forall body prs (f : point_record -> point_record),
  (forall i, owns i (body i)) -> (forall i a, run_local (body i) a = Ret (f a)) ->
  schedule_free (par_for (length prs) body prs) (Ret (map f prs)).
Proof.
  intros body prs f O R. rewrite <- mapM_total. apply par_for_map. intros i a. split; [apply O|apply R].
Qed.

(** ** C38: affine operations act on their own coordinates only *)

Theorem C38_add : forall v prs,
  schedule_free (par_for (length prs) (add_x_body v) prs)
    (Ret (map (fun p => moved p (d_add (rx p) v) (ry p) (rz p)) prs))
  /\ schedule_free (par_for (length prs) (add_y_body v) prs)
    (Ret (map (fun p => moved p (rx p) (d_add (ry p) v) (rz p)) prs))
  /\ schedule_free (par_for (length prs) (add_z_body v) prs)
    (Ret (map (fun p => moved p (rx p) (ry p) (d_add (rz p) v)) prs)).
Proof. intros v prs. split; [|split]; apply par_total; intros; own; reflexivity. Qed.

Theorem C38_add_vector : forall v prs,
  schedule_free (par_for (length prs) (add_body v) prs)
    (Ret (map (fun p => moved p (d_add (rx p) (rx v)) (d_add (ry p) (ry v)) (d_add (rz p) (rz v))) prs)).
Proof. intros v prs. apply par_total; intros; own; reflexivity. Qed.

Theorem C38_scale : forall v prs,
  schedule_free (par_for (length prs) (scale_x_body v) prs)
    (Ret (map (fun p => moved p (d_mul (rx p) v) (ry p) (rz p)) prs))
  /\ schedule_free (par_for (length prs) (scale_y_body v) prs)
    (Ret (map (fun p => moved p (rx p) (d_mul (ry p) v) (rz p)) prs))
  /\ schedule_free (par_for (length prs) (scale_z_body v) prs)
    (Ret (map (fun p => moved p (rx p) (ry p) (d_mul (rz p) v)) prs)).
Proof. intros v prs. split; [|split]; apply par_total; intros; own; reflexivity. Qed.

(** With [c] and [s] the cosine and sine of the angle: the two coordinates in the
    plane of rotation become (a c - b s, a s + b c), the third stays. *)
Theorem C38_rotate : forall t degrees prs,
  let r := d_div (d_mul degrees d_pi) d_180 in
  let c := d_cos t r in
  let s := d_sin t r in
  let turn a b := (d_sub (d_mul a c) (d_mul b s), d_add (d_mul a s) (d_mul b c)) in
  schedule_free (par_for (length prs) (rotate_x_body t degrees) prs)
    (Ret (map (fun p => moved p (rx p) (fst (turn (ry p) (rz p))) (snd (turn (ry p) (rz p)))) prs))
  /\ schedule_free (par_for (length prs) (rotate_y_body t degrees) prs)
    (Ret (map (fun p => moved p (fst (turn (rx p) (rz p))) (ry p) (snd (turn (rx p) (rz p)))) prs))
  /\ schedule_free (par_for (length prs) (rotate_z_body t degrees) prs)
    (Ret (map (fun p => moved p (fst (turn (rx p) (ry p))) (snd (turn (rx p) (ry p))) (rz p)) prs)).
Proof.
  intros t degrees prs r c s turn.
  split; [|split]; apply par_total; intros; unfold rotate_x_body, rotate_y_body, rotate_z_body, rotate_body; own; reflexivity.
Qed.

(** Adding 0 and scaling by 1 leave every finite coordinate numerically as it is. *)
Theorem C38_neutral : forall x, finite x -> d_eqb (d_add x d_zero) x = true /\ d_eqb (d_mul x d_one) x = true.
Proof.
  intros x [Ox Fx].
  assert (Z0 : d_ok d_zero) by (unfold d_ok, d_zero, two64; lia).
  assert (O1 : d_ok d_one) by (unfold d_ok, d_one, two64; lia).
  assert (V1 : d_val d_one = 1%R) by (unfold d_val; cbn; unfold F2R; cbn; lra).
  split.
  - destruct (d_add_val x d_zero Ox Z0 Fx eq_refl) as [F V].
    change (d_val d_zero) with 0%R in F, V. rewrite Rplus_0_r in F, V.
    apply d_eqb_val; [apply d_add_ok|exact Ox|apply F, fits_val|exact Fx|].
    rewrite (V (fits_val x)). apply rnd_val.
  - destruct (d_mul_val x d_one Ox O1 Fx eq_refl) as [F V].
    rewrite V1, Rmult_1_r in F, V.
    apply d_eqb_val; [apply d_mul_ok|exact Ox|apply F, fits_val|exact Fx|].
    rewrite (V (fits_val x)). apply rnd_val.
Qed.

(** Rotating by 0 degrees leaves finite coordinates numerically as they are, when
    the C library has cos 0 = 1 and sin 0 = 0. *)
Theorem C38_rotate_by_zero : forall t a b, finite a -> finite b ->
  d_cos t d_zero = d_one -> d_sin t d_zero = d_zero ->
  d_eqb (turn_minus t (radians d_zero) a b) a = true /\ d_eqb (turn_plus t (radians d_zero) a b) b = true.
Proof.
  intros t a b [Oa Fa] [Ob Fb] C S.
  replace (radians d_zero) with d_zero by (vm_compute; reflexivity).
  assert (Z0 : d_ok d_zero) by (unfold d_ok, d_zero, two64; lia).
  assert (O1 : d_ok d_one) by (unfold d_ok, d_one, two64; lia).
  assert (V1 : d_val d_one = 1%R) by (unfold d_val; cbn; unfold F2R; cbn; lra).
  assert (M1 : forall x, d_ok x -> d_is_finite x = true ->
     d_is_finite (d_mul x d_one) = true /\ d_val (d_mul x d_one) = d_val x).
  { intros x Ox Fx. destruct (d_mul_val x d_one Ox O1 Fx eq_refl) as [F V]. rewrite V1, Rmult_1_r in F, V.
    split; [apply F, fits_val|]. rewrite (V (fits_val x)). apply rnd_val. }
  assert (M0 : forall x, d_ok x -> d_is_finite x = true ->
     d_is_finite (d_mul x d_zero) = true /\ d_val (d_mul x d_zero) = 0%R).
  { intros x Ox Fx. destruct (d_mul_val x d_zero Ox Z0 Fx eq_refl) as [F V].
    change (d_val d_zero) with 0%R in F, V. rewrite Rmult_0_r in F, V.
    split; [apply F, fits_0|]. rewrite (V fits_0). apply rnd_0. }
  unfold turn_minus, turn_plus. rewrite C, S.
  destruct (M1 a Oa Fa) as [Fa1 Va1]. destruct (M1 b Ob Fb) as [Fb1 Vb1].
  destruct (M0 a Oa Fa) as [Fa0 Va0]. destruct (M0 b Ob Fb) as [Fb0 Vb0].
  split.
  - destruct (d_sub_val (d_mul a d_one) (d_mul b d_zero) (d_mul_ok _ _) (d_mul_ok _ _) Fa1 Fb0) as [F V].
    rewrite Va1, Vb0, Rminus_0_r in F, V.
    apply d_eqb_val; [apply d_sub_ok|exact Oa|apply F, fits_val|exact Fa|]. rewrite (V (fits_val a)). apply rnd_val.
  - destruct (d_add_val (d_mul a d_zero) (d_mul b d_one) (d_mul_ok _ _) (d_mul_ok _ _) Fa0 Fb1) as [F V].
    rewrite Va0, Vb1, Rplus_0_l in F, V.
    apply d_eqb_val; [apply d_add_ok|exact Ob|apply F, fits_val|exact Fb|]. rewrite (V (fits_val b)). apply rnd_val.
Qed.

(** Two records and two interleavings of a rotation with cos = 0.5, sin = 2: both
    end with the same records, and nothing but x and y has changed. *)
Definition ex_half : double := 4602678819172646912.
Definition ex_two : double := 4611686018427387904.
Definition ex_trig : trig := mk_trig (fun _ => ex_half) (fun _ => ex_two).
Definition ex_prs : list point_record :=
  [mk_pr d_one ex_two d_one 1 2 3 4 5 6 [7]; mk_pr ex_two ex_two d_zero 8 9 10 11 12 13 [14]].
Example C38_example :
  let m := par_for 2 (rotate_z_body ex_trig d_one) ex_prs in
  let a := prun [0; 1; 0; 1; 0; 1; 0; 1; 0; 1; 0; 1] m in
  let b := prun [1; 1; 1; 1; 0; 0; 0; 0; 1; 1; 0; 0] m in
  a = b
  /\ a = Ret (mk_machine
       [mk_pr 13838435755002691584 4613937818241073152 d_one 1 2 3 4 5 6 [7];
        mk_pr 13837309855095848960 4617315517961601024 d_zero 8 9 10 11 12 13 [14]] [Done; Done]).
Proof. vm_compute. auto. Qed.

(** ** C47: parallel loops are schedule independent *)

(** Voxel indexing. *)
Theorem C47_voxels : forall points e res,
  schedule_free (par_for (length points) (voxel_body points e res) (voxel_init (length points)))
    (get_voxel_indexes_ext points e res).
Proof.
  intros points e res. unfold get_voxel_indexes_ext. rewrite <- mapM_map_id.
  apply par_for_free; [apply repeat_length|apply map_length|].
  intros i a r _ Hr. rewrite znth_map in Hr. destruct (znth points i) as [p|] eqn:E; [|discriminate Hr].
  cbn [option_map] in Hr. injection Hr as <-. unfold voxel_body. split; [own|].
  rewrite compute_run, (vec_get_Some _ _ _ E). cbn [bind]. rewrite compute_run.
  destruct (get_voxel_index p (minp e) res); reflexivity.
Qed.

Theorem C47_voxels_of_indexes : forall points indexes res,
  schedule_free (par_for (length indexes) (voxel_body_of points indexes res) (voxel_init (length indexes)))
    (get_voxel_indexes_of points indexes res).
Proof.
  intros points indexes res. unfold get_voxel_indexes_of. rewrite <- mapM_map_id.
  apply par_for_free; [apply repeat_length|apply map_length|].
  intros i a r _ Hr. rewrite znth_map in Hr. destruct (znth indexes i) as [pi|] eqn:E; [|discriminate Hr].
  cbn [option_map] in Hr. injection Hr as <-. unfold voxel_body_of. split; [own|].
  rewrite compute_run, (vec_get_Some _ _ _ E). cbn [bind]. rewrite compute_run.
  destruct (vec_get points pi) as [p|e|u|]; cbn [bind]; [|reflexivity..]. rewrite compute_run.
  destruct (get_voxel_index p _ res); reflexivity.
Qed.

(** Radius search: whatever the schedule, the callback is called exactly once for
    each search point, with the neighbors that the sequential search gives it. *)
Theorem C47_radius_search : forall rand points pis nis radius max pvi nvi,
  get_voxel_indexes_of points pis radius = Ret pvi ->
  get_voxel_indexes_of points nis radius = Ret nvi ->
  schedule_free
    (par_for (length pvi)
       (radius_body rand points pis nis pvi (get_voxel_index_map nvi) radius max)
       (repeat [] (length pvi)))
    (calls <- radius_search rand points pis nis radius max ;; Ret (map (fun call => [snd call]) calls)).
Proof.
  intros rand points pis nis radius max pvi nvi P N.
  set (f := fun i => get_neighbors rand i points pis nis pvi (get_voxel_index_map nvi) radius max).
  assert (E : (calls <- radius_search rand points pis nis radius max ;; Ret (map (fun call => [snd call]) calls))
    = mapM (fun x => x) (map (fun i => ns <- f i ;; Ret [ns]) (iota (length pvi)))).
  { unfold radius_search. rewrite P. cbn [bind]. rewrite N. cbn [bind]. fold f. rewrite mapM_map_id.
    change (fun i => ns <- get_neighbors rand i points pis nis pvi (get_voxel_index_map nvi) radius max ;; Ret (i, ns))
      with (fun i => ns <- f i ;; Ret (i, ns)).
    clearbody f. generalize (iota (length pvi)). intros l. induction l as [|i l IH]; [reflexivity|].
    cbn [mapM]. destruct (f i) as [ns|e|u|]; cbn [bind]; [|reflexivity..].
    rewrite <- IH. destruct (mapM (fun i0 => ns0 <- f i0;; Ret (i0, ns0)) l); reflexivity. }
  rewrite E. apply par_for_free; [apply repeat_length|rewrite map_length; apply iota_length|].
  intros i a r Ha Hr. unfold radius_body. split; [own|].
  pose proof (znth_Some_range _ _ _ Ha) as B. unfold zlen in B. rewrite repeat_length in B.
  apply znth_In, repeat_spec in Ha. subst a.
  rewrite znth_map, iota_nth in Hr by exact B. cbn [option_map] in Hr. injection Hr as <-.
  rewrite compute_run. fold (f i). destruct (f i); reflexivity.
Qed.

(** The compressed writer's sections and its loop over the extra fields. *)
Theorem C47_compress_columns : forall z (columns : list (coltype * list Z)),
  schedule_free (par_for (length columns) (compress_body z columns) (repeat [] (length columns)))
    (mapM (fun '(t, col) => compress_field z t col) columns).
Proof.
  intros z columns. rewrite <- mapM_map_id.
  apply par_for_free; [apply repeat_length|apply map_length|].
  intros i a r _ Hr. rewrite znth_map in Hr. destruct (znth columns i) as [[t col]|] eqn:E; [|discriminate Hr].
  cbn [option_map] in Hr. injection Hr as <-. unfold compress_body. split.
  - apply compute_owns. intros [t' col']. own.
  - rewrite compute_run, (vec_get_Some _ _ _ E). cbn [bind]. rewrite compute_run.
    destruct (compress_field z t col); reflexivity.
Qed.

(** Quantizing. *)
Theorem C47_quantize : forall precision prs,
  schedule_free (par_for (length prs) (quantize_body precision) prs)
    (mapM (fun p =>
       q <- quantize_point precision (pr_pt p) ;; Ret (moved p (px q) (py q) (pz q))) prs).
Proof.
  intros precision prs. apply par_for_map. intros i a. unfold quantize_body. split; [own|].
  cbn [run_local]. unfold quantize_point. cbn [px py pz pr_pt].
  rewrite compute_run. destruct (quantize1 (rx a) precision) as [x|e|u|]; cbn [bind run_local]; [|reflexivity..].
  rewrite compute_run. change (ry (set_x x a)) with (ry a).
  destruct (quantize1 (ry a) precision) as [y|e|u|]; cbn [bind run_local]; [|reflexivity..].
  rewrite compute_run. change (rz (set_y y (set_x x a))) with (rz a).
  destruct (quantize1 (rz a) precision) as [w|e|u|]; reflexivity.
Qed.

(** The compressed reader's loop over the records. *)
Lemma col_store_owns : forall {A} i x set (k : thread A), owns i k -> owns i (col_store x i set k).
Proof. intros A i [|v x] set k H; cbn; [exact H|]. apply compute_owns. intro. now apply owns_modify. Qed.

Lemma extra_store_owns : forall extra j i k, owns i k -> owns i (extra_store extra j i k).
Proof. induction extra as [|c t IH]; intros j i k H; cbn; [exact H|]. now apply col_store_owns, IH. Qed.

Lemma col_store_run : forall {A} x n set (k : thread A) a, set 0 a = a ->
  run_local (col_store x n set k) a = (v <- col_get x n ;; run_local k (set v a)).
Proof.
  intros A [|y x] n set k a H; cbn [col_store col_get].
  - cbn [bind]. now rewrite H.
  - rewrite compute_run. now destruct (vec_get (y :: x) n).
Qed.

Lemma zset_app : forall (l : list Z) a b t, zset (l ++ a :: t) (zlen l) b = Some (l ++ b :: t).
Proof.
  induction l as [|x l IH]; intros a b t; [reflexivity|].
  cbn [app zset]. rewrite zlen_cons. pose proof (zlen_nonneg l).
  replace (1 + zlen l =? 0) with false by (symmetry; apply Z.eqb_neq; lia).
  replace (1 + zlen l <? 0) with false by (symmetry; apply Z.ltb_ge; lia).
  replace (1 + zlen l - 1) with (zlen l) by lia. now rewrite IH.
Qed.

Lemma extra_store_run : forall extra n p done, rextra p = done ++ repeat 0 (length extra) ->
  run_local (extra_store extra (zlen done) n Done) p
  = (ve <- mapM (fun e => col_get e n) extra ;; Ret (set_extra (done ++ ve) p)).
Proof.
  induction extra as [|c t IH]; intros n p done H.
  - cbn. cbn in H. rewrite <- H. destruct p; reflexivity.
  - cbn [extra_store mapM]. cbn [length repeat] in H.
    assert (S : forall v, set_extra_at (zlen done) v p = set_extra (done ++ v :: repeat 0 (length t)) p).
    { intros v. unfold set_extra_at. now rewrite H, zset_app. }
    rewrite col_store_run by (rewrite S, <- H; destruct p; reflexivity).
    destruct (col_get c n) as [v|e|u|]; cbn [bind]; [|reflexivity..].
    rewrite S. assert (L : zlen done + 1 = zlen (done ++ [v])) by (rewrite zlen_app; reflexivity).
    rewrite L. erewrite IH by (cbn [rextra set_extra]; rewrite <- app_assoc; reflexivity).
    destruct (mapM (fun e => col_get e n) t) as [ve|e|u|]; cbn [bind]; [|reflexivity..].
    rewrite <- app_assoc. reflexivity.
Qed.

Lemma col_store_x : forall col n (k : thread point_record) a1 a2 a3 a4 a5 a6 a7 a8 e,
  run_local (col_store col n set_x k) (mk_pr 0 a1 a2 a3 a4 a5 a6 a7 a8 e)
  = (v <- col_get col n ;; run_local k (mk_pr v a1 a2 a3 a4 a5 a6 a7 a8 e)).
Proof. intros. now rewrite col_store_run. Qed.
Lemma col_store_y : forall col n (k : thread point_record) a0 a2 a3 a4 a5 a6 a7 a8 e,
  run_local (col_store col n set_y k) (mk_pr a0 0 a2 a3 a4 a5 a6 a7 a8 e)
  = (v <- col_get col n ;; run_local k (mk_pr a0 v a2 a3 a4 a5 a6 a7 a8 e)).
Proof. intros. now rewrite col_store_run. Qed.
Lemma col_store_z : forall col n (k : thread point_record) a0 a1 a3 a4 a5 a6 a7 a8 e,
  run_local (col_store col n set_z k) (mk_pr a0 a1 0 a3 a4 a5 a6 a7 a8 e)
  = (v <- col_get col n ;; run_local k (mk_pr a0 a1 v a3 a4 a5 a6 a7 a8 e)).
Proof. intros. now rewrite col_store_run. Qed.
Lemma col_store_c : forall col n (k : thread point_record) a0 a1 a2 a4 a5 a6 a7 a8 e,
  run_local (col_store col n set_c k) (mk_pr a0 a1 a2 0 a4 a5 a6 a7 a8 e)
  = (v <- col_get col n ;; run_local k (mk_pr a0 a1 a2 v a4 a5 a6 a7 a8 e)).
Proof. intros. now rewrite col_store_run. Qed.
Lemma col_store_p : forall col n (k : thread point_record) a0 a1 a2 a3 a5 a6 a7 a8 e,
  run_local (col_store col n set_p k) (mk_pr a0 a1 a2 a3 0 a5 a6 a7 a8 e)
  = (v <- col_get col n ;; run_local k (mk_pr a0 a1 a2 a3 v a5 a6 a7 a8 e)).
Proof. intros. now rewrite col_store_run. Qed.
Lemma col_store_i : forall col n (k : thread point_record) a0 a1 a2 a3 a4 a6 a7 a8 e,
  run_local (col_store col n set_i k) (mk_pr a0 a1 a2 a3 a4 0 a6 a7 a8 e)
  = (v <- col_get col n ;; run_local k (mk_pr a0 a1 a2 a3 a4 v a6 a7 a8 e)).
Proof. intros. now rewrite col_store_run. Qed.
Lemma col_store_r : forall col n (k : thread point_record) a0 a1 a2 a3 a4 a5 a7 a8 e,
  run_local (col_store col n set_r k) (mk_pr a0 a1 a2 a3 a4 a5 0 a7 a8 e)
  = (v <- col_get col n ;; run_local k (mk_pr a0 a1 a2 a3 a4 a5 v a7 a8 e)).
Proof. intros. now rewrite col_store_run. Qed.
Lemma col_store_g : forall col n (k : thread point_record) a0 a1 a2 a3 a4 a5 a6 a8 e,
  run_local (col_store col n set_g k) (mk_pr a0 a1 a2 a3 a4 a5 a6 0 a8 e)
  = (v <- col_get col n ;; run_local k (mk_pr a0 a1 a2 a3 a4 a5 a6 v a8 e)).
Proof. intros. now rewrite col_store_run. Qed.
Lemma col_store_b : forall col n (k : thread point_record) a0 a1 a2 a3 a4 a5 a6 a7 e,
  run_local (col_store col n set_b k) (mk_pr a0 a1 a2 a3 a4 a5 a6 a7 0 e)
  = (v <- col_get col n ;; run_local k (mk_pr a0 a1 a2 a3 a4 a5 a6 a7 v e)).
Proof. intros. now rewrite col_store_run. Qed.

Lemma read_body_run : forall x y z c p i r g b extra n,
  run_local (read_body x y z c p i r g b extra n) (pr_zero 0) = record_at x y z c p i r g b extra n.
Proof.
  intros x y z c p i r g b extra n. unfold read_body, record_at, pr_zero.
  change (zrepeat 0 0) with (@nil Z). change d_zero with 0.
  Ltac one H := rewrite H;
    match goal with |- (_ <- ?m ;; _) = _ => generalize m; intros [?|?|?|]; cbn [bind]; [|reflexivity..] end.
  one col_store_x. one col_store_y. one col_store_z. one col_store_c. one col_store_p.
  one col_store_i. one col_store_r. one col_store_g. one col_store_b.
  cbn [run_local]. rewrite (extra_store_run extra n _ []).
  - generalize (mapM (fun e => col_get e n) extra). intros [ve|e|u|]; reflexivity.
  - cbn [rextra set_extra app]. unfold zresize, zrepeat.
    replace (ztake (zlen extra) []) with (@nil Z) by reflexivity.
    unfold zlen. cbn [app length Z.of_nat]. now rewrite Z.sub_0_r, Nat2Z.id.
Qed.

Theorem C47_read_records : forall x y z c p i r g b extra total, 0 <= total ->
  schedule_free
    (par_for (Z.to_nat total) (read_body x y z c p i r g b extra) (repeat (pr_zero 0) (Z.to_nat total)))
    (mapM (record_at x y z c p i r g b extra) (zseq total)).
Proof.
  intros x y z c p i r g b extra total T. rewrite <- mapM_map_id.
  apply par_for_free; [apply repeat_length| |].
  { rewrite map_length. unfold zseq. now rewrite map_length, seq_length. }
  intros n a o Ha Hr. split.
  { unfold read_body. repeat apply col_store_owns. apply owns_modify, extra_store_owns, owns_done. }
  pose proof (znth_Some_range _ _ _ Ha) as B. unfold zlen in B. rewrite repeat_length in B.
  apply znth_In, repeat_spec in Ha. subst a.
  unfold zseq in Hr. fold (iota (Z.to_nat total)) in Hr.
  rewrite znth_map, iota_nth in Hr by exact B. cbn [option_map] in Hr. injection Hr as <-.
  apply read_body_run.
Qed.

(** Reading two records under an interleaved schedule. *)
Example C47_example :
  let m := par_for 2 (read_body [d_one; ex_two] [] [] [3; 4] [] [] [] [] [5; 6] [[7; 8]; []]) (repeat (pr_zero 0) 2) in
  prun [0; 1; 1; 0; 1; 0; 0; 1; 0; 1] m
  = Ret (mk_machine [mk_pr d_one 0 0 3 0 0 0 0 5 [7; 0]; mk_pr ex_two 0 0 4 0 0 0 0 6 [8; 0]] [Done; Done]).
Proof. vm_compute. reflexivity. Qed.

(** ** C77: adding an element of the cloud to the cloud *)

(** [affine::add (p, p[k])] takes the offset by reference: as soon as there is a
    second element some schedule has a data race. *)
Theorem C77_add_alias_races : forall prs k j, 0 <= k < zlen prs -> 0 <= j < zlen prs -> j <> k ->
  exists sched s, prun sched (par_for (length prs) (add_self_body k) prs) = Ret s /\ race s.
Proof.
  intros prs k j K J N. exists [k; k; j].
  set (n := length prs).
  destruct (znth_in_range prs k K) as [a Ha]. destruct (znth_in_range prs j J) as [b Hb].
  set (ts := map (add_self_body k) (iota n)).
  assert (L : zlen ts = zlen prs) by (unfold ts; rewrite zlen_map; unfold zlen; now rewrite iota_length).
  assert (TK : znth ts k = Some (add_self_body k k)).
  { unfold ts. rewrite znth_map, iota_nth by (unfold n; unfold zlen in K; lia). reflexivity. }
  assert (TJ : znth ts j = Some (add_self_body k j)).
  { unfold ts. rewrite znth_map, iota_nth by (unfold n; unfold zlen in J; lia). reflexivity. }
  unfold par_for. fold n. fold ts. cbn [prun].
  unfold pstep at 1. cbn [threads memory]. rewrite TK. unfold add_self_body at 1. cbn [access].
  rewrite (vec_get_Some _ _ _ Ha). cbn [bind].
  match goal with |- context [vec_set ts k ?t] => destruct (vec_set_in ts k t ltac:(lia)) as (t1 & -> & L1 & S1) end.
  cbn [bind]. unfold pstep at 1. cbn [threads memory]. rewrite S1, Z.eqb_refl. cbn [access].
  rewrite (vec_get_Some _ _ _ Ha). cbn [bind].
  match goal with |- context [vec_set t1 k ?t] => destruct (vec_set_in t1 k t ltac:(lia)) as (t2 & -> & L2 & S2) end.
  cbn [bind]. unfold pstep at 1. cbn [threads memory]. rewrite S2.
  replace (j =? k) with false by (symmetry; now apply Z.eqb_neq).
  rewrite S1. replace (j =? k) with false by (symmetry; now apply Z.eqb_neq).
  rewrite TJ. unfold add_self_body at 1. cbn [access]. rewrite (vec_get_Some _ _ _ Hb). cbn [bind].
  match goal with |- context [vec_set t2 j ?t] => destruct (vec_set_in t2 j t ltac:(lia)) as (t3 & -> & L3 & S3) end.
  cbn [bind]. eexists. split; [reflexivity|].
  exists k, j. do 2 eexists. exists k, true, false. cbn [threads].
  split; [congruence|]. split; [rewrite S3; replace (k =? j) with false by (symmetry; apply Z.eqb_neq; congruence);
    rewrite S2, Z.eqb_refl; reflexivity|].
  split; [rewrite S3, Z.eqb_refl; reflexivity|]. split; [reflexivity|]. split; [reflexivity|]. left. reflexivity.
Qed.

(** Even without interleaving, the order of the iterations matters: [1; 2] becomes
    [2; 4] in increasing order and [2; 3] in decreasing order. *)
Definition ex_three : double := 4613937818241073152.
Definition ex_four : double := 4616189618054758400.
Definition at_x (x : double) : point_record := mk_pr x 0 0 0 0 0 0 0 0 [].
Theorem C77_add_alias_order :
  let m := par_for 2 (add_self_body 0) [at_x d_one; at_x ex_two] in
  prun (repeat 0 9 ++ repeat 1 9) m = Ret (mk_machine [at_x ex_two; at_x ex_four] [Done; Done])
  /\ prun (repeat 1 9 ++ repeat 0 9) m = Ret (mk_machine [at_x ex_two; at_x ex_three] [Done; Done]).
Proof. vm_compute. auto. Qed.

Print Assumptions C38_add.
Print Assumptions C38_add_vector.
Print Assumptions C38_scale.
Print Assumptions C38_rotate.
Print Assumptions C38_neutral.
Print Assumptions C38_rotate_by_zero.
Print Assumptions C47_voxels.
Print Assumptions C47_voxels_of_indexes.
Print Assumptions C47_radius_search.
Print Assumptions C47_compress_columns.
Print Assumptions C47_quantize.
Print Assumptions C47_read_records.
Print Assumptions C77_add_alias_races.
Print Assumptions C77_add_alias_order.
