(** C122: filtering before or after merging. *)
From Coq Require Import String ZArith List Bool Lia.
From Verif.Model Require Import Base Double Arith Header PointRecord Point File Subsampling Compression IO AppUtils AppConvert FilterApp MergeApp
  GetOpt Commands Programs.
From Verif.Spec Require Import Streams Files Apps ZlibContract CommandLines Sampling FilterOrder.
From Verif.Proofs Require Import BaseFacts FileFacts FilterFacts SubsampleFacts SafetyFacts StoreFacts ToyZlib.
From Verif.Props Require Import FileProps FilterProps MergeProps FilterOrderProps.
Import ListNotations.
Open Scope Z_scope.
Open Scope outcome_scope.

(** The filters by class and coordinate do not look at the point id. *)
Lemma one_filter_id : forall stod F, one_by_one stod F ->
  exists k, (forall f, live f -> F f = Ret (with_prs f (filter k (f_prs f)))) /\ forall i p, k (with_id i p) = k p.
Proof.
  intros stod F H. destruct H as [c|c|a o v x n A O V S].
  - exists (class_in c). split; [|reflexivity]. intros f L. now apply filter_file.
  - exists (fun p => negb (class_in c p)). split; [|reflexivity]. intros f L. now apply filter_file.
  - assert (Ea : exists sel, In (a, sel) [(chars "x", rx); (chars "y", ry); (chars "z", rz)]).
    { cbn [map In] in A. destruct A as [<-|[<-|[<-|[]]]]; eexists; cbn; eauto. }
    assert (Eo : exists cmp, In (o, cmp) [(chars "<", fun u w => d_ltb u w); (chars ">", fun u w => d_ltb w u)]).
    { cbn [map In] in O. destruct O as [<-|[<-|[]]]; eexists; cbn; eauto. }
    destruct Ea as [sel Ea]. destruct Eo as [cmp Eo]. exists (fun p => negb (cmp (sel p) x)). split.
    + intros f L. destruct (C50_removes_matching stod f _ sel cmp v x n L (cc a sel o cmp v Ea Eo V) S) as (g & E & (M1 & M2 & M3 & M4) & P).
      rewrite E. f_equal. unfold with_prs. rewrite <- P. destruct g; cbn in *. congruence.
    + intros i p. do 2 f_equal. destruct Ea as [T|[T|[T|[]]]]; inversion T; subst; reflexivity.
Qed.

Lemma filter_map_same {A} (k : A -> bool) (g : A -> A) l : (forall p, k (g p) = k p) -> filter k (map g l) = map g (filter k l).
Proof. intros H. induction l as [|a l IH]; [reflexivity|]. cbn. rewrite H, IH. destruct (k a); reflexivity. Qed.

Lemma filter_flat {A B} (k : B -> bool) (g : A -> list B) l : filter k (flat_map g l) = flat_map (fun a => filter k (g a)) l.
Proof. induction l as [|a l IH]; [reflexivity|]. cbn. now rewrite filter_app, IH. Qed.

Lemma merged_filtered k (idf : Z -> Z) : (forall i p, k (with_id i p) = k p) -> forall hs gs n,
  Forall2 (fun h g => g = with_prs h (filter k (f_prs h))) hs gs ->
  filter k (flat_map (fun '(i, h) => map (with_id (idf i)) (f_prs h)) (numbered n hs))
  = flat_map (fun '(i, h) => map (with_id (idf i)) (f_prs h)) (numbered n gs).
Proof.
  intros K hs gs n F. revert n. induction F as [|h g hs gs -> F IH]; intros n; [reflexivity|]. cbn [numbered flat_map].
  rewrite filter_app, IH. f_equal. cbn [f_prs with_prs]. now apply filter_map_same.
Qed.

(** keep-class, remove-class and remove-coords give the same before and after spoc_merge:
    the files [bs'] hold what the filter makes of the files [bs]. *)
Theorem C122_merge : forall z ZS stod F args bs bs' f fs g gs, zlib_ok z ZS -> one_by_one stod F ->
  Forall is_bytes bs -> Forall is_bytes bs' ->
  Forall2 (file_of (read_spoc_file z)) bs (f :: fs) -> Forall2 (file_of (read_spoc_file z)) bs' (g :: gs) ->
  Forall2 (fun f g => F f = Ret g) (f :: fs) (g :: gs) -> fs <> [] -> uniform (flat_map f_prs (f :: fs)) ->
  exists m m' warned, merge_files z args (map Some bs) = Ret (m, warned) /\ merge_files z args (map Some bs') = Ret (m', warned)
  /\ F m = Ret m'.
Proof.
  intros z ZS stod F args bs bs' f fs g gs Hz HF B B' R R' FG N U. destruct (one_filter_id stod F HF) as (k & K & Ki).
  assert (Lv : forall h, In h (f :: fs) -> live h).
  { clear - Hz B R. intros h I. destruct (Forall2_In_r _ _ _ _ R I) as (b & Ib & (s & Rb)). rewrite Forall_forall in B.
    pose proof (C16_reading_is_safe z ZS (i_open b) Hz (B b Ib)) as T. rewrite Rb in T.
    destruct T as (hd & s1 & _ & _ & _ & Uh & _ & Ma & Mi & _). split; try lia. exact Uh. }
  assert (FG' : Forall2 (fun h g => g = with_prs h (filter k (f_prs h))) (f :: fs) (g :: gs)).
  { clear - FG Lv K. induction FG as [|h g0 hs gs0 E FG IH]; constructor.
    - rewrite K in E by (apply Lv; now left). now injection E as <-.
    - apply IH. intros h' I. apply Lv. now right. }
  assert (W : forall P : spoc_file -> Prop, (forall h h', P h -> same_meta h h' -> P h') ->
     ((forall h, In h (f :: fs) -> P h) <-> (forall h, In h (g :: gs) -> P h))).
  { clear - FG'. intros P Pm. split; intros H h I.
    - destruct (Forall2_In_r _ _ _ _ FG' I) as (h0 & I0 & ->). eapply Pm; [apply H, I0|]. repeat split.
    - assert (X : exists h0, In h0 (g :: gs) /\ h0 = with_prs h (filter k (f_prs h))).
      { clear - FG' I. induction FG' as [|a b l l' E FG IH]; [destruct I|]. destruct I as [->|I]; [exists b; split; [now left|exact E]|].
        destruct (IH I) as (h0 & I0 & E0). exists h0. split; [now right|exact E0]. }
      destruct X as (h0 & I0 & E0). eapply Pm; [apply H, I0|]. rewrite E0. repeat split. }
  assert (Ug : uniform (flat_map f_prs (g :: gs))).
  { clear - U FG'. assert (S : forall p, In p (flat_map f_prs (g :: gs)) -> In p (flat_map f_prs (f :: fs))).
    { intros p I. apply in_flat_map in I as (h & Ih & Ip). destruct (Forall2_In_r _ _ _ _ FG' Ih) as (h0 & I0 & ->).
      apply in_flat_map. exists h0. split; [exact I0|]. cbn [f_prs with_prs] in Ip. now apply filter_In in Ip. }
    intros p q I J. apply U; now apply S. }
  assert (N' : gs <> []).
  { intros ->. inversion FG' as [|? ? ? ? _ X]. inversion X. congruence. }
  destruct (C51_concatenates z ZS args bs f fs Hz B R N U) as (m & w & M & Ma & Mi & Wk & C & P & Wn).
  destruct (C51_concatenates z ZS args bs' g gs Hz B' R' N' Ug) as (m' & w' & M' & Ma' & Mi' & Wk' & C' & P' & Wn').
  assert (Wfg : f_wkt g = f_wkt f) by (inversion FG'; subst; reflexivity).
  exists m, m', w. split; [exact M|]. split.
  - rewrite M'. do 2 f_equal. apply eq_true_iff_eq. rewrite Wn, Wn'. rewrite Wfg.
    assert (X : (exists h, In h gs /\ f_wkt h <> f_wkt f) <-> (exists h, In h fs /\ f_wkt h <> f_wkt f)).
    { inversion FG' as [|? ? ? ? _ FT]; subst. clear - FT. split; intros (h & I & D).
      - destruct (Forall2_In_r _ _ _ _ FT I) as (h0 & I0 & ->). exists h0. split; [exact I0|exact D].
      - induction FT as [|a b l l' E FT IH]; [destruct I|]. destruct I as [->|I].
        + exists b. split; [now left|]. rewrite E. exact D.
        + destruct (IH I) as (h0 & I0 & E0). exists h0. split; [now right|exact E0]. }
    now rewrite X.
  - assert (Lm : live m).
    { split; try lia. rewrite P. clear - U. intros p q I J. apply in_flat_map in I as ([i h] & I & Ip). apply in_flat_map in J as ([j h'] & J & Jq).
      apply in_map_iff in Ip as (p0 & <- & Ip). apply in_map_iff in Jq as (q0 & <- & Jq). cbn [with_id rextra].
      assert (X : forall (l : list spoc_file) n i h, In (i, h) (numbered n l) -> In h l).
      { clear. induction l as [|a l IH]; intros n i h I; [destruct I|]. destruct I as [E|I]; [injection E as _ <-; now left|right; eapply IH, I]. }
      apply U; apply in_flat_map; eauto. }
    rewrite K by exact Lm. f_equal.
    assert (Cm : f_compressed m = f_compressed m').
    { apply eq_true_iff_eq. rewrite C, C'. apply (W (fun h => f_compressed h = true)). intros h h' E (_ & _ & _ & ->). exact E. }
    assert (Pm : filter k (f_prs m) = f_prs m').
    { rewrite P, P'. apply (merged_filtered k (fun i => if ma_point_id args <? 0 then i mod 2 ^ 32 else ma_point_id args mod 2 ^ 32) Ki _ _ _ FG'). }
    destruct m as [a1 a2 a3 a4 a5], m' as [b1 b2 b3 b4 b5]. cbn [f_major f_minor f_wkt f_compressed f_prs] in *. unfold with_prs. cbn [f_major f_minor f_wkt f_compressed f_prs].
    rewrite Pm. congruence.
Qed.

(** With unique-xyz it does matter: merging can bring records at the same place together. *)
Definition merge_rec (c : Z) : point_record := mk_pr d_one 0 0 c 9 3 4 5 6 [7].
Definition merge_f (c : Z) : spoc_file := mk_file 0 1 (chars "W") false [merge_rec c; mk_pr 0 d_one 0 c 9 3 4 5 6 [8]].
Definition merge_b (f : spoc_file) : list Z := o_bytes (fst (write_spoc_file toy false f (mk_ostream [] None false))).

Theorem C122_unique_differs : forall sh,
  exists m warned, merge_files toy (mk_merge_args true 0) [Some (merge_b (merge_f 2)); Some (merge_b (merge_f 3))] = Ret (m, warned)
  /\ unique_xyz sh (merge_f 2) 0 = Ret (merge_f 2) /\ unique_xyz sh (merge_f 3) 0 = Ret (merge_f 3)
  /\ length (f_prs m) = 4%nat /\ exists g, unique_xyz sh m 0 = Ret g /\ length (f_prs g) = 2%nat.
Proof.
  intros sh. eexists. eexists. split; [vm_compute; reflexivity|]. split; [vm_compute; reflexivity|]. split; [vm_compute; reflexivity|].
  split; [reflexivity|]. eexists. split; [vm_compute; reflexivity|reflexivity].
Qed.

(** remove-coords "x < 1" on two files that are merged; each loses a record. *)
Definition merge_stod : stod_fn := fun s => if beq_bytes s (chars "1") then Some (d_one, 1) else None.
Example C122_example : exists m m' warned,
  merge_files toy (mk_merge_args true (-1)) (map Some [merge_b (merge_f 2); merge_b (merge_f 3)]) = Ret (m, warned)
  /\ merge_files toy (mk_merge_args true (-1)) (map Some [merge_b (mk_file 0 1 (chars "W") false [merge_rec 2]); merge_b (mk_file 0 1 (chars "W") false [merge_rec 3])]) = Ret (m', warned)
  /\ remove_coords merge_stod m (chars "x" ++ chars " " ++ chars "<" ++ chars " " ++ chars "1") = Ret m'
  /\ length (f_prs m) = 4%nat /\ length (f_prs m') = 2%nat.
Proof.
  destruct (C122_merge toy toy_stream merge_stod (fun f => remove_coords merge_stod f (chars "x" ++ chars " " ++ chars "<" ++ chars " " ++ chars "1"))
    (mk_merge_args true (-1)) [merge_b (merge_f 2); merge_b (merge_f 3)]
    [merge_b (mk_file 0 1 (chars "W") false [merge_rec 2]); merge_b (mk_file 0 1 (chars "W") false [merge_rec 3])]
    (merge_f 2) [merge_f 3] (mk_file 0 1 (chars "W") false [merge_rec 2]) [mk_file 0 1 (chars "W") false [merge_rec 3]] toy_ok) as (m & m' & w & M & M' & E).
  - apply (one_coords merge_stod (chars "x") (chars "<") (chars "1") d_one 1); cbn; auto. intros [H|[]]. discriminate.
  - repeat constructor; vm_compute; congruence.
  - repeat constructor; vm_compute; congruence.
  - repeat constructor; eexists; vm_compute; reflexivity.
  - repeat constructor; eexists; vm_compute; reflexivity.
  - repeat constructor; vm_compute; reflexivity.
  - discriminate.
  - intros p q I J. cbn in I, J. intuition subst; reflexivity.
  - exists m, m', w. split; [exact M|]. split; [exact M'|]. split; [exact E|].
    vm_compute in M. injection M as <- <-. vm_compute in M'. injection M' as <-. split; reflexivity.
Qed.

Print Assumptions C122_merge.
Print Assumptions C122_unique_differs.
