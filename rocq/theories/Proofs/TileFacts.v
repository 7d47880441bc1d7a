(** Lemmas about spoc_tile: the tile map, the file names, writing the tiles. *)
From Coq Require Import ZArith List Bool Lia Permutation Sorting.
From Verif.Model Require Import Base Double Arith Header PointRecord Point Extent File Compression IO AppConvert AppUtils FilterApp TileApp.
From Verif.Spec Require Import Files Apps Streams ZlibContract Text Tiles.
From Verif.Proofs Require Import BaseFacts FileFacts FilterFacts StoreFacts HeaderCutFacts TextFacts.
Import ListNotations.
Open Scope Z_scope.
Open Scope outcome_scope.

(** ** The tile map *)

(** The positions of [k], counted from [i] *)
Fixpoint places (k i : Z) (idx : list Z) : list Z :=
  match idx with
  | [] => []
  | j :: t => if j =? k then i :: places k (i + 1) t else places k (i + 1) t
  end.

Fixpoint tile_look (k : Z) (m : tile_map) : option (list Z) :=
  match m with
  | [] => None
  | (j, v) :: t => if k =? j then Some v else tile_look k t
  end.

Lemma tile_at_look : forall k m, tile_at k m = match tile_look k m with Some v => Ret v | None => Throw out_of_range end.
Proof. induction m as [|[j v] t IH]; cbn; [reflexivity|]. destruct (k =? j); [reflexivity|exact IH]. Qed.

Definition extend (o : option (list Z)) (l : list Z) : option (list Z) :=
  match o with Some v => Some (v ++ l) | None => match l with [] => None | _ => Some l end end.

Lemma extend_nil : forall o, extend o [] = o.
Proof. intros [v|]; cbn; [now rewrite app_nil_r|reflexivity]. Qed.

Lemma tile_look_push : forall k j i m,
  tile_look k (tile_push j i m) = if j =? k then extend (tile_look k m) [i] else tile_look k m.
Proof.
  intros k j i. induction m as [|[a v] t IH]; cbn [tile_push tile_look].
  - rewrite (Z.eqb_sym k j). destruct (j =? k); reflexivity.
  - destruct (Z.eqb_spec j a) as [->|N]; cbn [tile_look].
    + rewrite (Z.eqb_sym a k). destruct (k =? a); reflexivity.
    + destruct (Z.eqb_spec k a) as [->|N'].
      * destruct (Z.eqb_spec j a); [contradiction|reflexivity].
      * exact IH.
Qed.

Lemma tile_look_loop : forall k idx i m,
  tile_look k (tile_map_loop i idx m) = extend (tile_look k m) (places k i idx).
Proof.
  intros k. induction idx as [|j t IH]; intros i m; cbn [tile_map_loop places]; [now rewrite extend_nil|].
  rewrite IH, tile_look_push. destruct (j =? k); [|reflexivity].
  destruct (tile_look k m) as [v|]; cbn [extend]; [now rewrite <- app_assoc|]. reflexivity.
Qed.

Lemma tile_push_keys : forall k i m x, In x (map fst (tile_push k i m)) <-> x = k \/ In x (map fst m).
Proof.
  intros k i. induction m as [|[j v] t IH]; intros x; cbn [tile_push map fst In].
  - split; intros [H|H]; auto.
  - destruct (Z.eqb_spec k j) as [->|N]; cbn [map fst In]; [intuition|]. rewrite IH. intuition.
Qed.

Lemma tile_push_nodup : forall k i m, NoDup (map fst m) -> NoDup (map fst (tile_push k i m)).
Proof.
  intros k i. induction m as [|[j v] t IH]; intros N; cbn [tile_push map fst].
  - constructor; [intros []|constructor].
  - inversion N; subst. destruct (Z.eqb_spec k j) as [->|D]; cbn [map fst]; [now constructor|].
    constructor; [|auto]. rewrite tile_push_keys. intros [->|I]; [now apply D|contradiction].
Qed.

Lemma tile_loop_keys : forall idx i m x, In x (map fst (tile_map_loop i idx m)) <-> In x idx \/ In x (map fst m).
Proof.
  induction idx as [|j t IH]; intros i m x; cbn [tile_map_loop In]; [tauto|].
  rewrite IH, tile_push_keys. intuition.
Qed.

Lemma tile_loop_nodup : forall idx i m, NoDup (map fst m) -> NoDup (map fst (tile_map_loop i idx m)).
Proof. induction idx as [|j t IH]; intros i m N; cbn; [exact N|]. apply IH. now apply tile_push_nodup. Qed.

Lemma places_In : forall k idx i, places k i idx = [] <-> ~ In k idx.
Proof.
  intros k. induction idx as [|j t IH]; intros i; cbn [places In]; [tauto|].
  destruct (Z.eqb_spec j k) as [->|N]; [split; [discriminate|tauto]|]. rewrite IH. tauto.
Qed.

Lemma tile_at_map : forall idx k, In k idx -> tile_at k (get_tile_map idx) = Ret (places k 0 idx).
Proof.
  intros idx k I. rewrite tile_at_look. unfold get_tile_map. rewrite tile_look_loop. cbn [tile_look extend].
  destruct (places k 0 idx) eqn:E; [|reflexivity]. apply places_In in E. contradiction.
Qed.

Lemma places_range : forall k idx i j, In j (places k i idx) -> i <= j < i + zlen idx.
Proof.
  intros k. induction idx as [|a t IH]; intros i j I; cbn [places] in I; [destruct I|].
  rewrite zlen_cons. pose proof (zlen_nonneg t).
  destruct (a =? k); [destruct I as [<-|I]; [lia|]|]; apply IH in I; lia.
Qed.

Lemma places_pick : forall k idx l pre, length idx = length l ->
  map (znth (pre ++ l)) (places k (zlen pre) idx) = map Some (numbered_with k idx l).
Proof.
  intros k. induction idx as [|a t IH]; intros [|p l] pre L; try discriminate L; [reflexivity|].
  injection L as L. cbn [places]. unfold numbered_with. cbn [combine filter fst].
  assert (E : zlen pre + 1 = zlen (pre ++ [p])) by (rewrite zlen_app; reflexivity).
  assert (A : pre ++ p :: l = (pre ++ [p]) ++ l) by (now rewrite <- app_assoc).
  assert (Z : znth (pre ++ p :: l) (zlen pre) = Some p).
  { clear. induction pre as [|x pre IH]; [reflexivity|]. cbn [app znth]. rewrite zlen_cons. pose proof (zlen_nonneg pre).
    destruct (Z.eqb_spec (1 + zlen pre) 0); [lia|]. destruct (Z.ltb_spec (1 + zlen pre) 0); [lia|].
    replace (1 + zlen pre - 1) with (zlen pre) by lia. exact IH. }
  destruct (a =? k); cbn [map]; rewrite ?Z, E; [f_equal|]; rewrite A; apply IH; exact L.
Qed.

(** ** Sorting *)

Lemma insert_key_perm : forall k l, Permutation (insert_key k l) (k :: l).
Proof.
  intros k. induction l as [|j t IH]; cbn; [reflexivity|]. destruct (k <=? j); [reflexivity|].
  rewrite IH. apply perm_swap.
Qed.

Lemma sort_keys_perm : forall l, Permutation (sort_keys l) l.
Proof. induction l as [|k t IH]; cbn; [reflexivity|]. rewrite insert_key_perm. now constructor. Qed.

Lemma insert_key_sorted : forall k l, StronglySorted Z.lt l -> ~ In k l -> StronglySorted Z.lt (insert_key k l).
Proof.
  intros k l S N. induction S as [|j t S IH F]; cbn; [repeat constructor|].
  destruct (Z.leb_spec k j) as [L|L].
  - assert (k < j) by (assert (k <> j) by (intros ->; apply N; now left); lia).
    constructor; [constructor; assumption|]. constructor; [assumption|].
    eapply Forall_impl; [|exact F]. intros x Hx. lia.
  - constructor; [apply IH; intros I; apply N; now right|].
    apply Forall_forall. intros x I. apply (Permutation_in x (insert_key_perm k t)) in I. destruct I as [<-|I]; [exact L|].
    rewrite Forall_forall in F. now apply F.
Qed.

Lemma sort_keys_sorted : forall l, NoDup l -> StronglySorted Z.lt (sort_keys l).
Proof.
  induction 1 as [|k t N D IH]; cbn; [constructor|]. apply insert_key_sorted; [exact IH|].
  intros I. apply N. eapply Permutation_in; [apply sort_keys_perm|exact I].
Qed.

(** The keys, as the program visits them *)
Definition tile_keys (idx : list Z) : list Z := sort_keys (map fst (get_tile_map idx)).

Lemma tile_keys_In : forall idx k, In k (tile_keys idx) <-> In k idx.
Proof.
  intros idx k. unfold tile_keys. split; intros I.
  - eapply Permutation_in in I; [|apply sort_keys_perm]. apply tile_loop_keys in I. cbn in I. tauto.
  - eapply Permutation_in; [symmetry; apply sort_keys_perm|]. apply tile_loop_keys. now left.
Qed.

Lemma tile_keys_sorted : forall idx, StronglySorted Z.lt (tile_keys idx).
Proof. intros idx. apply sort_keys_sorted, tile_loop_nodup. constructor. Qed.

Lemma sorted_nodup_lt : forall l, StronglySorted Z.lt l -> NoDup l.
Proof.
  induction 1 as [|k t S IH F]; constructor; [|exact IH]. intros I. rewrite Forall_forall in F. apply F in I. lia.
Qed.

(** ** The records of the tiles *)

Lemma split_by_key : forall {A} (L : list (Z * A)) keys, NoDup keys ->
  Permutation (flat_map (fun k => filter (fun kp => fst kp =? k) L) keys) (filter (fun kp => member (fst kp) keys) L).
Proof.
  intros A L. induction keys as [|k t IH]; intros N.
  - assert (E : filter (fun kp : Z * A => member (fst kp) []) L = []); [|rewrite E; reflexivity].
    induction L as [|x L IHL]; cbn; [reflexivity|exact IHL].
  - inversion N; subst. cbn [flat_map]. rewrite IH by assumption.
    rewrite <- (filter_partition (fun kp => fst kp =? k) (filter (fun kp => member (fst kp) (k :: t)) L)).
    apply Permutation_app.
    + assert (E : filter (fun kp => fst kp =? k) (filter (fun kp => member (fst kp) (k :: t)) L) = filter (fun kp => fst kp =? k) L).
      { clear - k. induction L as [|x L IHL]; cbn [filter]; [reflexivity|].
        destruct (member (fst x) (k :: t)) eqn:M; cbn [filter].
        - destruct (fst x =? k); [f_equal|]; exact IHL.
        - destruct (Z.eqb_spec (fst x) k) as [Q|]; [|exact IHL]. exfalso.
          assert (M' : member (fst x) (k :: t) = true) by (apply member_iff; left; now symmetry). congruence. }
      rewrite E. reflexivity.
    + assert (E : filter (fun kp => negb (fst kp =? k)) (filter (fun kp => member (fst kp) (k :: t)) L)
                  = filter (fun kp => member (fst kp) t) L); [|now rewrite E].
      clear - H1. induction L as [|x L IHL]; cbn [filter]; [reflexivity|].
      destruct (member (fst x) (k :: t)) eqn:M; cbn [filter].
      * apply member_iff in M. destruct (Z.eqb_spec (fst x) k) as [Q|Q]; cbn [negb].
        -- destruct (member (fst x) t) eqn:M'; [|exact IHL]. apply member_iff in M'. rewrite Q in M'. contradiction.
        -- destruct M as [M|M]; [congruence|]. apply member_iff in M. rewrite M. now f_equal.
      * destruct (member (fst x) t) eqn:M'; [|exact IHL]. exfalso.
        assert (Q : member (fst x) (k :: t) = true) by (apply member_iff; right; now apply member_iff). congruence.
Qed.

Lemma combine_snd : forall {A B} (a : list A) (b : list B), length a = length b -> map snd (combine a b) = b.
Proof. induction a as [|x a IH]; intros [|y b] L; try discriminate L; cbn; [reflexivity|]. f_equal. auto. Qed.

Lemma tiles_partition : forall idx prs keys, length idx = length prs -> NoDup keys -> (forall k, In k idx -> In k keys) ->
  Permutation (flat_map (fun k => numbered_with k idx prs) keys) prs.
Proof.
  intros idx prs keys L N I.
  assert (E : flat_map (fun k => numbered_with k idx prs) keys
              = map snd (flat_map (fun k => filter (fun kp => fst kp =? k) (combine idx prs)) keys)).
  { clear N I. induction keys as [|k t IH]; cbn; [reflexivity|]. now rewrite map_app, IH. }
  rewrite E, (split_by_key _ _ N).
  assert (A : filter (fun kp => member (fst kp) keys) (combine idx prs) = combine idx prs).
  { assert (Q : forall x, In x (combine idx prs) -> member (fst x) keys = true).
    { intros [k p] H. apply member_iff. cbn. apply I. now apply in_combine_l in H. }
    revert Q. generalize (combine idx prs). clear. induction l as [|x l IH]; intros Q; cbn; [reflexivity|].
    rewrite Q by now left. f_equal. apply IH. intros y Hy. apply Q. now right. }
  rewrite A, combine_snd by exact L. reflexivity.
Qed.

Lemma numbered_with_sub : forall n idx prs p, In p (numbered_with n idx prs) -> In p prs.
Proof.
  intros n idx prs p I. unfold numbered_with in I. apply in_map_iff in I as ([k q] & <- & I).
  apply filter_In in I as [I _]. now apply in_combine_r in I.
Qed.

Lemma numbered_with_nonempty : forall n idx prs, length idx = length prs -> In n idx -> numbered_with n idx prs <> [].
Proof.
  intros n. unfold numbered_with. induction idx as [|k t IH]; intros [|p prs] L I; try discriminate L; [destruct I|].
  cbn [combine filter fst]. destruct (Z.eqb_spec k n) as [->|N]; cbn [map]; [discriminate|].
  apply IH; [now injection L|]. destruct I as [I|I]; [contradiction|exact I].
Qed.

Lemma numbered_with_length : forall n idx prs, (length (numbered_with n idx prs) <= length prs)%nat.
Proof.
  intros n. unfold numbered_with. induction idx as [|k t IH]; intros [|p prs]; cbn; try lia.
  specialize (IH prs). destruct (k =? n); cbn; lia.
Qed.

Definition tile_of (f : spoc_file) (idx : list Z) (n : Z) : spoc_file :=
  mk_file 0 1 (f_wkt f) (f_compressed f) (numbered_with n idx (f_prs f)).

Lemma make_tile_ok : forall f idx n, uniform (f_prs f) -> length idx = length (f_prs f) ->
  make_tile f (places n 0 idx) = Ret (tile_of f idx n).
Proof.
  intros f idx n U L. unfold make_tile.
  destruct (push_at_map (f_prs f) (places n 0 idx)
              (set_compressed (f_compressed f) (set_wkt (f_wkt f) file_default))) as (sel & E & M).
  - exact U.
  - intros i I. apply places_range in I. unfold zlen in *. lia.
  - rewrite E. pose proof (places_pick n idx (f_prs f) [] L) as P. cbn [app] in P. change (zlen (@nil point_record)) with 0 in P.
    rewrite P in M. apply map_Some_inj in M. now rewrite M.
Qed.

(** ** The names *)

Lemma number_zeros : forall j t, number (List.repeat 48 j ++ t) = number t.
Proof. induction j as [|j IH]; intros t; cbn [List.repeat app number]; [reflexivity|]. rewrite IH. lia. Qed.

Lemma put_padded_number : forall d n, 0 <= n -> number (put_padded d n) = n.
Proof.
  intros d n H. unfold put_padded, zrepeat. rewrite number_zeros. now destruct (put_uint_spec n H) as (_ & _ & -> & _).
Qed.

Lemma tile_name_inj : forall args c a b, 0 <= a -> 0 <= b -> tile_name args c a = tile_name args c b -> a = b.
Proof.
  intros args c a b A B E. unfold tile_name in E. apply app_inv_head in E. apply app_inv_tail in E.
  rewrite <- (put_padded_number (ta_digits args) a A), E. now apply put_padded_number.
Qed.

(** ** Writing *)

Lemma file_put_same : forall n b fs, file_put n b fs n = Some b.
Proof. intros. unfold file_put. now rewrite beq_bytes_refl. Qed.

Lemma file_put_other : forall n m b fs, m <> n -> file_put n b fs m = fs m.
Proof.
  intros n m b fs N. unfold file_put. destruct (beq_bytes m n) eqn:E; [|reflexivity]. apply beq_bytes_eq in E. contradiction.
Qed.

Lemma write_tiles_safe : forall z debug acc args f m keys fs name bytes, ta_force args = false ->
  fs name = Some bytes -> can_read acc name = true ->
  fst (write_tiles z debug acc args f m keys fs) name = Some bytes.
Proof.
  intros z debug acc args f m. induction keys as [|k t IH]; intros fs name bytes Hf E R; cbn [write_tiles]; [exact E|].
  destruct (v <- tile_at k m ;; make_tile f v) as [tile|e|u|]; try exact E.
  rewrite Hf. cbn [negb andb].
  set (nm := tile_name args (f_compressed tile) k).
  destruct (match fs nm with Some _ => can_read acc nm | None => false end) eqn:C; [exact E|].
  destruct (negb (can_write acc nm)); [exact E|].
  destruct (write_spoc_file z debug tile (mk_ostream [] None false)) as [os r].
  assert (N : name <> nm) by (intros ->; rewrite E in C; congruence).
  assert (P : file_put nm (o_bytes os) fs name = Some bytes) by (now rewrite file_put_other).
  destruct r; try exact P. now apply IH.
Qed.

Lemma write_tiles_only : forall z debug acc args f idx keys fs name, uniform (f_prs f) -> length idx = length (f_prs f) ->
  (forall k, In k keys -> In k idx /\ name <> tile_name args (f_compressed f) k) ->
  fst (write_tiles z debug acc args f (get_tile_map idx) keys fs) name = fs name.
Proof.
  intros z debug acc args f idx. induction keys as [|k t IH]; intros fs name U L H; cbn [write_tiles]; [reflexivity|].
  destruct (H k (or_introl eq_refl)) as [I N].
  rewrite (tile_at_map idx k I). cbn [bind]. rewrite make_tile_ok by assumption. cbn [f_compressed tile_of].
  destruct (negb (ta_force args) && _); [reflexivity|].
  destruct (negb (can_write acc _)); [reflexivity|].
  destruct (write_spoc_file z debug _ (mk_ostream [] None false)) as [os r].
  assert (P : file_put (tile_name args (f_compressed f) k) (o_bytes os) fs name = fs name) by (now rewrite file_put_other).
  destruct r; try exact P. rewrite IH; auto. intros j J. apply H. now right.
Qed.

Lemma tile_of_storable : forall f idx n, storable f -> storable (tile_of f idx n).
Proof.
  intros f idx n S. assert (E : tile_of f idx n = with_prs f (numbered_with n idx (f_prs f))).
  { destruct S as ([A B _ _ _ _ _] & _). unfold tile_of, with_prs. now rewrite A, B. }
  rewrite E. apply storable_pick; [exact S| |apply numbered_with_length].
  intros p. apply numbered_with_sub.
Qed.

Lemma write_tiles_ok : forall z ZS debug acc args f idx, zlib_ok z ZS -> storable f -> length idx = length (f_prs f) ->
  Forall (fun k => 0 <= k) idx ->
  forall keys fs, NoDup keys -> (forall k, In k keys -> In k idx) ->
  (forall k, In k keys -> can_write acc (tile_name args (f_compressed f) k) = true
     /\ (ta_force args = true \/ fs (tile_name args (f_compressed f) k) = None
         \/ can_read acc (tile_name args (f_compressed f) k) = false)) ->
  exists fs', write_tiles z debug acc args f (get_tile_map idx) keys fs = (fs', Ret tt)
  /\ forall k, In k keys -> exists bytes t', fs' (tile_name args (f_compressed f) k) = Some bytes
       /\ is_bytes bytes /\ kept (tile_of f idx k) t' /\ read_spoc_file z (i_open bytes) = Ret (t', i_open []).
Proof.
  intros z ZS debug acc args f idx Hz S L P. induction keys as [|k t IH]; intros fs N I W.
  - exists fs. split; [reflexivity|]. intros k [].
  - cbn [write_tiles]. pose proof (I k (or_introl eq_refl)) as Ik. rewrite (tile_at_map idx k Ik). cbn [bind].
    assert (U : uniform (f_prs f)) by apply S.
    rewrite make_tile_ok by assumption. cbn [f_compressed tile_of].
    destruct (W k (or_introl eq_refl)) as [Cw Ce].
    set (nm := tile_name args (f_compressed f) k) in *.
    assert (C1 : negb (ta_force args) && match fs nm with Some _ => can_read acc nm | None => false end = false).
    { destruct Ce as [-> |[-> | ->]]; [reflexivity|apply andb_false_r|destruct (fs nm); apply andb_false_r]. }
    rewrite C1, Cw. cbn [negb].
    fold (tile_of f idx k).
    destruct (storable_one z ZS debug (tile_of f idx k) Hz (tile_of_storable f idx k S)) as (cs & t' & E & Bt & K & R).
    destruct (emits_appends _ _ E (mk_ostream [] None false)) as (os & Eos & _ & Bos).
    { split; reflexivity. }
    rewrite Eos. cbn [o_bytes app] in Bos. inversion N; subst.
    destruct (IH (file_put nm (o_bytes os) fs)) as (fs' & E' & A'); auto.
    { intros j J. apply I. now right. }
    { intros j J. destruct (W j (or_intror J)) as [X Y]. split; [exact X|]. destruct Y as [Y|[Y|Y]]; [now left|right; left|now (right; right)].
      rewrite file_put_other; [exact Y|]. intros Q. apply tile_name_inj in Q.
      - subst. contradiction.
      - rewrite Forall_forall in P. apply P, I. now right.
      - rewrite Forall_forall in P. now apply P. }
    exists fs'. split; [exact E'|]. intros j [<-|J]; [|now apply A'].
    exists (o_bytes os), t'. split; [|split; [exact Bt|split; [exact K|rewrite <- (app_nil_r (o_bytes os)); apply R; constructor]]].
    pose proof (write_tiles_only z debug acc args f idx t (file_put nm (o_bytes os) fs) nm U L) as O.
    rewrite E' in O. cbn [fst] in O. change (fs' nm = Some (o_bytes os)). rewrite O; [apply file_put_same|].
    intros j J. split; [apply I; now right|]. intros Q. apply tile_name_inj in Q.
    + subst. contradiction.
    + rewrite Forall_forall in P. now apply P.
    + rewrite Forall_forall in P. apply P, I. now right.
Qed.

(** Only then does it succeed. *)
Lemma write_tiles_inv : forall z debug acc args f idx, uniform (f_prs f) -> length idx = length (f_prs f) ->
  Forall (fun k => 0 <= k) idx ->
  forall keys fs fs', NoDup keys -> (forall k, In k keys -> In k idx) ->
  write_tiles z debug acc args f (get_tile_map idx) keys fs = (fs', Ret tt) ->
  forall k, In k keys -> can_write acc (tile_name args (f_compressed f) k) = true
     /\ (ta_force args = true \/ fs (tile_name args (f_compressed f) k) = None
         \/ can_read acc (tile_name args (f_compressed f) k) = false).
Proof.
  intros z debug acc args f idx U L P. induction keys as [|k t IH]; intros fs fs' N I E j J; [destruct J|].
  cbn [write_tiles] in E. pose proof (I k (or_introl eq_refl)) as Ik. rewrite (tile_at_map idx k Ik) in E. cbn [bind] in E.
  rewrite make_tile_ok in E by assumption. cbn [f_compressed tile_of] in E.
  set (nm := tile_name args (f_compressed f) k) in *.
  destruct (negb (ta_force args) && match fs nm with Some _ => can_read acc nm | None => false end) eqn:C1; [discriminate E|].
  destruct (negb (can_write acc nm)) eqn:C2; [discriminate E|].
  destruct (write_spoc_file z debug _ (mk_ostream [] None false)) as [os r].
  destruct r as [[]|e|u|]; try discriminate E.
  inversion N; subst. destruct J as [<-|J].
  - fold nm. split; [now apply negb_false_iff|]. apply andb_false_iff in C1 as [C1|C1].
    + left. now apply negb_false_iff.
    + right. destruct (fs nm); [now right|now left].
  - destruct (IH _ _ ltac:(assumption) (fun a H => I a (or_intror H)) E j J) as [A B]. split; [exact A|].
    rewrite file_put_other in B; [exact B|]. intros Q. apply tile_name_inj in Q.
    + subst. contradiction.
    + rewrite Forall_forall in P. apply P, I. now right.
    + rewrite Forall_forall in P. now apply P.
Qed.
