(** C128: the ranges that spoc_info shows, over merging, tiling and filtering. *)
From Coq Require Import String ZArith List Bool Lia Permutation Sorted.
From Verif.Model Require Import Base Double Arith Header PointRecord Point File Compression IO AppUtils AppConvert FilterApp MergeApp TileApp
  Json InfoApp.
From Verif.Spec Require Import Text Streams Files Apps ZlibContract Geometry Sampling Tiles Reports.
From Verif.Proofs Require Import BaseFacts FileFacts ToyZlib OrderFacts StoreFacts FilterFacts TileFacts CountFacts SummaryFacts.
From Verif.Props Require Import FilterProps MergeProps TileProps TileWidthProps InfoProps SummaryProps.
Import ListNotations.
Open Scope Z_scope.

(** The columns of the report that merging keeps: all but the point id. *)
Inductive field : column -> (point_record -> Z) -> Prop :=
| field_x : field col_double rx
| field_y : field col_double ry
| field_z : field col_double rz
| field_c : field col_u32 rc
| field_i : field col_u16 ri
| field_r : field col_u16 rr
| field_g : field col_u16 rg
| field_b : field col_u16 rb
| field_extra (j : Z) : field col_u64 (fun p => nth (Z.to_nat j) (rextra p) 0).

(** The report of [f] shows the range [mn] to [mx] for the column. *)
Definition shows (k : column) (col : point_record -> Z) (f : spoc_file) (r : Z * Z) : Prop :=
  forall fmt srt label txt, (forall a, shown_as fmt k a (txt a)) ->
  get_summary_string fmt srt k label (map col (f_prs f)) true false
  = Ret (text_line [label; chars "range="; txt (difference k (snd r) (fst r)); chars ", min="; txt (fst r); chars ", max="; txt (snd r)]).

Definition no_nan (f : spoc_file) : Prop := Forall (fun p => pt_no_nan (pr_pt p)) (f_prs f).
Definition has_records (f : spoc_file) : bool := match f_prs f with [] => false | _ => true end.

Definition range (k : column) (x : list Z) : Z * Z :=
  match x with [] => (0, 0) | a :: t => (min_element k a t, max_element k a t) end.

Lemma field_ok k col p : field k col -> pr_ok p -> in_column k (col p).
Proof.
  intros H [X Y Z_ C P I R G B E]. unfold u32_ok, u16_ok, two32, two16 in *. destruct H; cbn [in_column]; try assumption; try lia.
  destruct (nth_in_or_default (Z.to_nat j) (rextra p) 0) as [In_|D]; [|rewrite D; lia]. rewrite Forall_forall in E. specialize (E _ In_). unfold u64_ok, two64 in E. lia.
Qed.

Lemma field_number k col p : field k col -> pt_no_nan (pr_pt p) -> numb k (col p).
Proof. intros H (X & Y & Z_). destruct H; cbn; auto. Qed.

Lemma field_id k col i p : field k col -> col (with_id i p) = col p.
Proof. intros []; reflexivity. Qed.

Lemma numb_all k x : Forall (numb k) x -> all_numbers k x.
Proof. destruct k; cbn; auto. Qed.

(** What the report shows *)
Lemma shows_values k col f : Forall (in_column k) (map col (f_prs f)) -> Forall (numb k) (map col (f_prs f)) -> f_prs f <> [] ->
  shows k col f (range k (map col (f_prs f))) /\ least k (map col (f_prs f)) (fst (range k (map col (f_prs f))))
  /\ greatest k (map col (f_prs f)) (snd (range k (map col (f_prs f)))).
Proof.
  intros Fc F Ne. unfold shows.
  destruct (map col (f_prs f)) as [|a t] eqn:E; [destruct (f_prs f); [congruence|discriminate]|]. cbn [range fst snd].
  pose proof (min_element_spec k t a F) as Mn. pose proof (max_element_spec k t a F) as Mx. split; [|split; assumption].
  intros fmt srt label txt T. cbn [get_summary_string].
  assert (D : col_sub k (max_element k a t) (min_element k a t) = difference k (max_element k a t) (min_element k a t)).
  { rewrite Forall_forall in Fc. apply col_sub_difference; [apply Fc, Mx|apply Fc, Mn|]. apply Mn, Mx. }
  assert (Et : forall b, col_text fmt k b = txt b) by (intros b; symmetry; apply shown_as_text, T).
  now rewrite D, !Et.
Qed.

Lemma column_values k col f : field k col -> Forall pr_ok (f_prs f) -> no_nan f ->
  Forall (in_column k) (map col (f_prs f)) /\ Forall (numb k) (map col (f_prs f)).
Proof.
  intros H O N. split; apply Forall_map.
  - eapply Forall_impl; [|exact O]. intros p. now apply field_ok.
  - eapply Forall_impl; [|exact N]. intros p. now apply field_number.
Qed.

(** ** The minimum of a concatenation *)

Definition smaller (k : column) (a b : Z) : Z := if col_ltb k b a then b else a.
Definition larger (k : column) (a b : Z) : Z := if col_ltb k a b then b else a.

Lemma smaller_assoc k a b c : numb k a -> numb k b -> numb k c -> smaller k (smaller k a b) c = smaller k a (smaller k b c).
Proof.
  intros A B C. unfold smaller. pose proof (col_ltb_key k b a B A) as E1. pose proof (col_ltb_key k c b C B) as E2. pose proof (col_ltb_key k c a C A) as E3.
  destruct (col_ltb k b a) eqn:X1, (col_ltb k c b) eqn:X2; rewrite ?X1, ?X2; try reflexivity; destruct (col_ltb k c a) eqn:X3; try reflexivity; exfalso; intuition (try congruence; lia).
Qed.
Lemma larger_assoc k a b c : numb k a -> numb k b -> numb k c -> larger k (larger k a b) c = larger k a (larger k b c).
Proof.
  intros A B C. unfold larger. pose proof (col_ltb_key k a b A B) as E1. pose proof (col_ltb_key k b c B C) as E2. pose proof (col_ltb_key k a c A C) as E3.
  destruct (col_ltb k a b) eqn:X1, (col_ltb k b c) eqn:X2; rewrite ?X1, ?X2; try reflexivity; destruct (col_ltb k a c) eqn:X3; try reflexivity; exfalso; intuition (try congruence; lia).
Qed.

Lemma min_start k u : forall m b, numb k m -> numb k b -> Forall (numb k) u -> min_element k (smaller k m b) u = smaller k m (min_element k b u).
Proof.
  induction u as [|c u IH]; intros m b M B F; [reflexivity|]. inversion F as [|? ? C F']; subst. unfold min_element in *. cbn [fold_left].
  change (if col_ltb k c (smaller k m b) then c else smaller k m b) with (smaller k (smaller k m b) c). rewrite smaller_assoc by assumption.
  change (if col_ltb k c b then c else b) with (smaller k b c). apply IH; try assumption. unfold smaller. now destruct (col_ltb k c b).
Qed.
Lemma max_start k u : forall m b, numb k m -> numb k b -> Forall (numb k) u -> max_element k (larger k m b) u = larger k m (max_element k b u).
Proof.
  induction u as [|c u IH]; intros m b M B F; [reflexivity|]. inversion F as [|? ? C F']; subst. unfold max_element in *. cbn [fold_left].
  change (if col_ltb k (larger k m b) c then c else larger k m b) with (larger k (larger k m b) c). rewrite larger_assoc by assumption.
  change (if col_ltb k b c then c else b) with (larger k b c). apply IH; try assumption. unfold larger. now destruct (col_ltb k b c).
Qed.

Lemma range_app k x y : x <> [] -> y <> [] -> Forall (numb k) (x ++ y) ->
  range k (x ++ y) = (smaller k (fst (range k x)) (fst (range k y)), larger k (snd (range k x)) (snd (range k y))).
Proof.
  intros X Y F. destruct x as [|a t]; [congruence|]. destruct y as [|b u]; [congruence|]. apply Forall_app in F as [Fx Fy]. cbn [app range fst snd].
  pose proof (min_element_spec k t a Fx) as [Mn _]. pose proof (max_element_spec k t a Fx) as [Mx _].
  pose proof Fx as Gx. rewrite Forall_forall in Gx. apply Gx in Mn, Mx. inversion Fy as [|? ? B Fu]; subst.
  unfold min_element, max_element. rewrite !fold_left_app. cbn [fold_left]. f_equal.
  - exact (min_start k u _ b Mn B Fu).
  - exact (max_start k u _ b Mx B Fu).
Qed.

Lemma range_concat k (xs : list (list Z)) : Forall (fun x => x <> []) xs -> xs <> [] -> Forall (numb k) (List.concat xs) ->
  In (fst (range k (List.concat xs))) (map (fun x => fst (range k x)) xs) /\ In (snd (range k (List.concat xs))) (map (fun x => snd (range k x)) xs).
Proof.
  intros Ne. induction Ne as [|x l X Ne IH]; intros N F; [congruence|]. destruct l as [|y l].
  - cbn [List.concat map]. rewrite app_nil_r. split; now left.
  - cbn [List.concat] in F |- *. change (y ++ List.concat l) with (List.concat (y :: l)) in *.
    assert (C : List.concat (y :: l) <> []) by (inversion Ne as [|? ? Hy]; subst; destruct y; [congruence|discriminate]).
    rewrite range_app by assumption. apply Forall_app in F as [_ F]. destruct (IH ltac:(discriminate) F) as [A B]. cbn [fst snd].
    unfold smaller, larger. split; cbn [map].
    + destruct (col_ltb k _ _); [right; exact A|left; reflexivity].
    + destruct (col_ltb k _ _); [right; exact B|left; reflexivity].
Qed.

(** The columns are those of the report. *)
Theorem C128_columns : forall prs e, has_extras e prs ->
  (forall name k x, In (name, k, x) (columns prs) <-> name = "p"%string /\ k = col_u32 /\ x = map rp prs
     \/ exists col, field k col /\ x = map col prs /\ In (name, k) [("x", col_double); ("y", col_double); ("z", col_double); ("c", col_u32);
          ("i", col_u16); ("r", col_u16); ("g", col_u16); ("b", col_u16)]%string
          /\ match name with
             | "x" => col = rx | "y" => col = ry | "z" => col = rz | "c" => col = rc | "i" => col = ri
             | "r" => col = rr | "g" => col = rg | "b" => col = rb | _ => False
             end%string)
  /\ forall j, 0 <= j < e -> exists col, field col_u64 col /\ get_extra j prs = Ret (map col prs).
Proof.
  intros prs e E. split.
  - intros name k x. cbn [columns In]. split.
    + intros H. repeat (destruct H as [H|H]; [injection H as <- <- <-; first [left; repeat split; reflexivity|right; eexists; split; [|split; [reflexivity|split; [cbn; tauto|reflexivity]]]; constructor]|]). destruct H.
    + intros [(-> & -> & ->)|(col & _ & -> & I & M)]; [unfold get_p; tauto|].
      cbn [In] in I. repeat (destruct I as [I|I]; [injection I as <- <-; cbn in M; subst col; unfold get_x, get_y, get_z, get_c, get_i, get_r, get_g, get_b; tauto|]). destruct I.
  - intros j J. exists (fun p => nth (Z.to_nat j) (rextra p) 0). split; [constructor|]. unfold get_extra.
    assert (G : Forall (fun p => vec_get (rextra p) j = Ret (nth (Z.to_nat j) (rextra p) 0)) prs).
    { apply Forall_forall. intros p I. specialize (E p I). unfold vec_get.
      destruct (znth_in_range (rextra p) j) as (v & V); [unfold zlen; lia|]. rewrite V. f_equal.
      symmetry. apply nth_error_nth. rewrite <- V. symmetry. apply znth_nth_error. lia. }
    induction G as [|p l H G IH]; [reflexivity|]. cbn [mapM map]. rewrite H. cbn [bind]. rewrite IH; [reflexivity|]. intros q I. apply E. now right.
Qed.

(** The merged file spans the ranges of the inputs that have records, and no more. *)
Theorem C128_merge : forall z ZS args bs f fs m warned k col, zlib_ok z ZS -> Forall is_bytes bs ->
  Forall2 (file_of (read_spoc_file z)) bs (f :: fs) -> fs <> [] -> uniform (flat_map f_prs (f :: fs)) ->
  (forall h, In h (f :: fs) -> Forall pr_ok (f_prs h) /\ no_nan h) -> existsb has_records (f :: fs) = true ->
  merge_files z args (map Some bs) = Ret (m, warned) -> field k col ->
  exists mn mx ranges, shows k col m (mn, mx) /\ Forall2 (shows k col) (filter has_records (f :: fs)) ranges
    /\ least k (map fst ranges) mn /\ greatest k (map snd ranges) mx.
Proof.
  intros z ZS args bs f fs m w k col Hz B R N U Hs Ex M Hf. destruct (C51_concatenates z ZS args bs f fs Hz B R N U) as (m' & w' & M' & _ & _ & _ & _ & P & _).
  rewrite M in M'. injection M' as <- <-.
  set (idf := fun i => if ma_point_id args <? 0 then i mod 2 ^ 32 else ma_point_id args mod 2 ^ 32).
  change (f_prs m = flat_map (fun '(i, h) => map (with_id (idf i)) (f_prs h)) (numbered 0 (f :: fs))) in P. clearbody idf.
  set (hs := filter has_records (f :: fs)).
  assert (Ne : hs <> []).
  { apply existsb_exists in Ex as (h & I & Eh). intros E. assert (J : In h hs) by now apply filter_In. rewrite E in J. destruct J. }
  assert (V : forall h, In h hs -> Forall (in_column k) (map col (f_prs h)) /\ Forall (numb k) (map col (f_prs h)) /\ f_prs h <> []).
  { intros h I. apply filter_In in I as [I Eh]. destruct (Hs h I) as [O Nn]. destruct (column_values k col h Hf O Nn) as [A C]. split; [exact A|]. split; [exact C|].
    unfold has_records in Eh. destruct (f_prs h); [discriminate|discriminate]. }
  assert (C : map col (f_prs m) = List.concat (map (fun h => map col (f_prs h)) hs)).
  { rewrite P. unfold hs. generalize 0. clear - Hf. induction (f :: fs) as [|h l IH]; intros i; [reflexivity|].
    cbn [numbered flat_map filter]. rewrite map_app, map_map, IH. rewrite (map_ext _ col) by (intros p; exact (field_id k col _ p Hf)).
    unfold has_records at 2. destruct (f_prs h) eqn:E; [reflexivity|]. cbn [map List.concat]. now rewrite E. }
  set (xs := map (fun h => map col (f_prs h)) hs) in C.
  assert (Xn : Forall (fun x => x <> []) xs).
  { apply Forall_map, Forall_forall. intros h I. destruct (V h I) as (_ & _ & D). destruct (f_prs h); [congruence|discriminate]. }
  assert (Fi : Forall (in_column k) (List.concat xs)).
  { apply Forall_concat, Forall_map, Forall_forall. intros h I. now apply V. }
  assert (Fn : Forall (numb k) (List.concat xs)).
  { apply Forall_concat, Forall_map, Forall_forall. intros h I. now apply V. }
  assert (Xe : xs <> []) by (unfold xs; destruct hs; [congruence|discriminate]).
  assert (Mp : f_prs m <> []).
  { intros E. rewrite E in C. destruct xs as [|[|a x] xs']; [congruence|inversion Xn; congruence|discriminate C]. }
  rewrite <- C in Fi, Fn. destruct (shows_values k col m Fi Fn Mp) as (Sh & Le & Gr). rewrite C in Sh, Le, Gr, Fn.
  destruct (range_concat k xs Xn Xe Fn) as [I1 I2].
  exists (fst (range k (List.concat xs))), (snd (range k (List.concat xs))), (map (range k) xs).
  split; [now rewrite <- surjective_pairing|]. split.
  { unfold xs. clear - V Hf. induction hs as [|h l IH]; [constructor|]. cbn [map]. constructor.
    - destruct (V h (or_introl eq_refl)) as (A & B & D). now apply shows_values.
    - apply IH. intros g I. apply V. now right. }
  rewrite !map_map. split; (split; [assumption|]).
  - intros b I. apply in_map_iff in I as (x & <- & I). apply Le. apply in_concat. exists x. split; [exact I|].
    unfold xs in I. apply in_map_iff in I as (h & <- & I). destruct (V h I) as (A & B' & D). now apply shows_values.
  - intros b I. apply in_map_iff in I as (x & <- & I). apply Gr. apply in_concat. exists x. split; [exact I|].
    unfold xs in I. apply in_map_iff in I as (h & <- & I). destruct (V h I) as (A & B' & D). now apply shows_values.
Qed.

(** A filter can only make the range narrower. *)
Theorem C128_filter : forall sh stod args f g k col, permutes sh -> live f -> Forall pr_ok (f_prs f) -> no_nan f ->
  filter_process sh stod args f = Ret g -> f_prs g <> [] -> field k col ->
  exists mn mx mn' mx', shows k col f (mn, mx) /\ shows k col g (mn', mx') /\ at_most k mn mn' /\ at_most k mn' mx' /\ at_most k mx' mx.
Proof.
  intros sh stod args f g k col P L O N H Ne Hf. destruct (C78_only_selects sh stod args f g P L H) as (_ & (rest & Pm) & _).
  assert (In_ : forall p, In p (f_prs g) -> In p (f_prs f)) by (intros p I; apply (Permutation_in p Pm), in_or_app; now left).
  assert (Nf : f_prs f <> []) by (intros E; destruct (f_prs g) as [|p l]; [congruence|]; specialize (In_ p (or_introl eq_refl)); rewrite E in In_; destruct In_).
  destruct (column_values k col f Hf O N) as [A B].
  assert (A' : Forall (in_column k) (map col (f_prs g))) by (apply Forall_map, Forall_forall; intros p I; rewrite Forall_map, Forall_forall in A; auto).
  assert (B' : Forall (numb k) (map col (f_prs g))) by (apply Forall_map, Forall_forall; intros p I; rewrite Forall_map, Forall_forall in B; auto).
  destruct (shows_values k col f A B Nf) as (S1 & [L1 L2] & [G1 G2]). destruct (shows_values k col g A' B' Ne) as (S2 & [L3 L4] & [G3 G4]).
  exists (fst (range k (map col (f_prs f)))), (snd (range k (map col (f_prs f)))), (fst (range k (map col (f_prs g)))), (snd (range k (map col (f_prs g)))).
  rewrite <- !surjective_pairing. split; [exact S1|]. split; [exact S2|].
  assert (Sub : forall v, In v (map col (f_prs g)) -> In v (map col (f_prs f))) by (intros v I; apply in_map_iff in I as (p & <- & I); apply in_map, In_, I).
  split; [apply L2, Sub, L3|]. split; [apply L4, G3|apply G2, Sub, G3].
Qed.

(** [a] and [b] are the same number. *)
Definition same_number (k : column) (a b : Z) : Prop := at_most k a b /\ at_most k b a.

Lemma Forall2_sub {A B} (R Q : A -> B -> Prop) l l' : (forall a b, In a l -> R a b -> Q a b) -> Forall2 R l l' -> Forall2 Q l l'.
Proof. intros H F. induction F as [|a b l l' Hab F IH]; constructor; [apply H; [now left|exact Hab]|]. apply IH. intros x y I. apply H. now right. Qed.

Lemma kept_values k col t t' : field k col -> Forall pr_ok (f_prs t) -> no_nan t -> kept t t' ->
  Forall2 (fun p p' => in_column k (col p') /\ numb k (col p') /\ same_number k (col p) (col p')) (f_prs t) (f_prs t').
Proof.
  intros Hf O N K.
  assert (Same : forall p, In p (f_prs t) -> in_column k (col p) /\ numb k (col p) /\ same_number k (col p) (col p)).
  { intros p I. unfold no_nan in N. rewrite Forall_forall in O, N. pose proof (field_number k col p Hf (N p I)) as Np.
    split; [now apply field_ok; auto|]. split; [exact Np|]. split; apply at_most_key; auto; lia. }
  unfold kept in K. destruct (f_compressed t).
  - destruct K as (_ & _ & _ & _ & K).
    assert (Zero : forall p p' (sel : point_record -> double), In p (f_prs t) -> d_ok (sel p) -> d_is_nan (sel p) = false -> kept_coord sel (f_prs t) p p' ->
      d_ok (sel p') /\ d_is_nan (sel p') = false /\ same_number col_double (sel p) (sel p')).
    { intros p p' sel I Op Np [[-> _]|[-> Hz]].
      - split; [exact Op|]. split; [exact Np|]. split; apply (at_most_key col_double); auto; lia.
      - split; [unfold d_ok, two64; lia|]. split; [reflexivity|].
        assert (Kz : d_key (sel p) = 0) by (destruct (Hz p I) as [-> | ->]; reflexivity).
        split; [apply (at_most_key col_double (sel p) 0 Np eq_refl)|apply (at_most_key col_double 0 (sel p) eq_refl Np)]; cbn [col_key]; rewrite Kz; change (d_key 0) with 0; lia. }
    assert (G : forall p p', In p (f_prs t) -> kept_record (f_prs t) p p' -> in_column k (col p') /\ numb k (col p') /\ same_number k (col p) (col p')).
    { intros p p' I (X & Y & Z_ & C & P & Ii & R & G & B & E). pose proof (Same p I) as S. unfold no_nan in N. rewrite Forall_forall in O, N.
      specialize (O p I). specialize (N p I). destruct O as [Ox Oy Oz _ _ _ _ _ _ _]. destruct N as (Nx & Ny & Nz).
      destruct Hf; cbn [in_column numb] in *; rewrite ?C, ?Ii, ?R, ?G, ?B, ?E; try exact S; now apply Zero. }
    exact (Forall2_sub _ _ _ _ G K).
  - subst t'. clear - Same. induction (f_prs t) as [|p l IH]; constructor; [apply Same; now left|]. apply IH. intros q I. apply Same. now right.
Qed.

Lemma Forall2_In_l' {A B} (R : A -> B -> Prop) l l' a : Forall2 R l l' -> In a l -> exists b, In b l' /\ R a b.
Proof. intros H I. induction H as [|x y l l' Hx H IH]; [destruct I|]. destruct I as [->|I]; [exists y; split; [now left|exact Hx]|]. destruct (IH I) as (b & J & Hb). exists b. split; [now right|exact Hb]. Qed.

Lemma Forall_forall2_map {A B} (R : A -> B -> Prop) (g : A -> B) l : (forall a, In a l -> R a (g a)) -> Forall2 R l (map g l).
Proof. intros H. induction l as [|a l IH]; constructor; [apply H; now left|]. apply IH. intros b I. apply H. now right. Qed.

(** The tiles lie in the range of the input, and reach both of its ends. *)
Theorem C128_tiles : forall z ZS debug acc args input f fs fs' k col, zlib_ok z ZS -> storable f -> no_nan f -> f_prs f <> [] ->
  file_of (read_spoc_file z) input f -> tile_tool z debug acc args input fs = (fs', Ret tt) -> field k col ->
  exists mn mx tiles ranges, shows k col f (mn, mx) /\ Forall2 (shows k col) (map snd tiles) ranges
  /\ (forall name t, In (name, t) tiles -> f_prs t <> [] /\ exists bytes, fs' name = Some bytes /\ read_spoc_file z (i_open bytes) = Ret (t, i_open []))
  /\ (forall name, ~ In name (map fst tiles) -> fs' name = fs name)
  /\ Forall (fun r => at_most k mn (fst r) /\ at_most k (fst r) (snd r) /\ at_most k (snd r) mx) ranges
  /\ Exists (fun r => same_number k mn (fst r)) ranges /\ Exists (fun r => same_number k mx (snd r)) ranges.
Proof.
  intros z ZS debug acc args input f fs fs' k col Hz S N Ne F E Hf.
  destruct (C52_partition z ZS debug acc args input f fs fs' Hz S F E) as (numbers & tiles & Nu & St & P & T & O).
  assert (Ok : Forall pr_ok (f_prs f)) by apply S.
  destruct (column_values k col f Hf Ok N) as [Vc Vn].
  destruct (shows_values k col f Vc Vn Ne) as (S1 & [L1 L2] & [G1 G2]).
  set (r := range k (map col (f_prs f))) in *.
  assert (Sub : forall n t, In (n, t) tiles -> forall p, In p (f_prs t) -> In p (f_prs f)).
  { intros n t I p J. apply (Permutation_in p P). apply in_flat_map. exists (n, t). now split. }
  assert (X : exists ts, Forall2 (fun kt nt => fst nt = tile_name args (f_compressed f) (fst kt)
       /\ (exists bytes, fs' (fst nt) = Some bytes /\ read_spoc_file z (i_open bytes) = Ret (snd nt, i_open []))
       /\ f_prs (snd kt) <> []
       /\ Forall2 (fun p p' => in_column k (col p') /\ numb k (col p') /\ same_number k (col p) (col p')) (f_prs (snd kt)) (f_prs (snd nt))) tiles ts).
  { clear - T Sub Ok N Hf. induction tiles as [|[n t] l IH]; [now exists []|].
    destruct IH as (ts & H); [intros k' t' I; apply T; now right|intros n' t' I; apply (Sub n' t'); now right|].
    destruct (T n t (or_introl eq_refl)) as (_ & _ & Nt & bytes & t' & Eb & _ & K & R).
    exists ((tile_name args (f_compressed f) n, t') :: ts). constructor; [|exact H]. cbn [fst snd]. split; [reflexivity|]. split; [eauto|]. split; [exact Nt|].
    unfold no_nan in N. rewrite Forall_forall in Ok, N.
    apply kept_values; [exact Hf| | |exact K]; [|unfold no_nan]; apply Forall_forall; intros p I; [apply Ok|apply N]; apply (Sub n t); auto; now left. }
  destruct X as (ts & X).
  assert (W : forall name t, In (name, t) ts -> f_prs t <> [] /\ Forall (in_column k) (map col (f_prs t)) /\ Forall (numb k) (map col (f_prs t))
    /\ (forall v, In v (map col (f_prs t)) -> exists u, In u (map col (f_prs f)) /\ same_number k u v)).
  { intros name t I. destruct (Forall2_In_r _ _ _ _ X I) as ([n t0] & J & _ & _ & Nt & K). cbn [snd] in *.
    split; [intros Q; rewrite Q in K; inversion K; congruence|].
    split; [apply Forall_map, Forall_forall; intros p H; destruct (Forall2_In_r _ _ _ _ K H) as (q & _ & A & _); exact A|].
    split; [apply Forall_map, Forall_forall; intros p H; destruct (Forall2_In_r _ _ _ _ K H) as (q & _ & _ & A & _); exact A|].
    intros v H. apply in_map_iff in H as (p & <- & H). destruct (Forall2_In_r _ _ _ _ K H) as (q & Q & _ & _ & A). exists (col q). split; [|exact A].
    apply in_map. eapply Sub; eauto. }
  assert (Reach : forall v, In v (map col (f_prs f)) -> exists name t u, In (name, t) ts /\ In u (map col (f_prs t)) /\ same_number k v u).
  { intros v H. apply in_map_iff in H as (p & <- & H). apply (Permutation_in p (Permutation_sym P)) in H. apply in_flat_map in H as (kt & I & H).
    destruct (Forall2_In_l' _ _ _ _ X I) as ([name t] & J & _ & _ & _ & K). destruct (Forall2_In_l' _ _ _ _ K H) as (q & Q & _ & _ & A).
    exists name, t, (col q). split; [exact J|]. split; [apply in_map, Q|exact A]. }
  set (rs := map (fun t => range k (map col (f_prs t))) (map snd ts)).
  assert (Trans : forall a b c, numb k a -> numb k b -> numb k c -> at_most k a b -> at_most k b c -> at_most k a c).
  { intros a b c A B C AB BC. apply at_most_key in AB; auto. apply at_most_key in BC; auto. apply at_most_key; auto. lia. }
  assert (Nf : forall v, In v (map col (f_prs f)) -> numb k v) by (rewrite Forall_forall in Vn; exact Vn).
  exists (fst r), (snd r), ts, rs. split; [rewrite <- surjective_pairing; exact S1|]. split.
  { unfold rs. apply Forall_forall2_map. intros t I. apply in_map_iff in I as ([name t'] & <- & I). destruct (W name t' I) as (A & B & C & _). now apply shows_values. }
  split; [|split; [|split; [|split]]].
  - intros name t I. split; [apply (W name t I)|]. destruct (Forall2_In_r _ _ _ _ X I) as (kt & _ & _ & H & _). exact H.
  - intros name H. apply O. intros n t I ->. apply H. destruct (Forall2_In_l' _ _ _ _ X I) as ([name t'] & J & Q & _). cbn [fst] in Q. subst name.
    apply in_map_iff. eexists. split; [|exact J]. reflexivity.
  - unfold rs. apply Forall_map, Forall_forall. intros t I. apply in_map_iff in I as ([name t'] & <- & I). cbn [snd]. destruct (W name t' I) as (A & B & C & D).
    destruct (shows_values k col t' B C A) as (_ & [L3 L4] & [G3 G4]). rewrite Forall_forall in C.
    destruct (D _ L3) as (u & Iu & Eu). destruct (D _ G3) as (w & Iw & Ew).
    split; [apply (Trans _ u); auto; apply Eu|]. split; [now apply L4|]. apply (Trans _ w); auto. apply Ew.
  - destruct (Reach _ L1) as (name & t & u & I & Iu & Eu). apply Exists_exists. exists (range k (map col (f_prs t))). split; [unfold rs; rewrite map_map; apply in_map_iff; now exists (name, t)|].
    destruct (W name t I) as (A & B & C & D). destruct (shows_values k col t B C A) as (_ & [L3 L4] & _). rewrite Forall_forall in C.
    destruct (D _ L3) as (v & Iv & Ev). split; [apply (Trans _ v); auto; apply Ev|]. apply (Trans _ u); auto. apply Eu.
  - destruct (Reach _ G1) as (name & t & u & I & Iu & Eu). apply Exists_exists. exists (range k (map col (f_prs t))). split; [unfold rs; rewrite map_map; apply in_map_iff; now exists (name, t)|].
    destruct (W name t I) as (A & B & C & D). destruct (shows_values k col t B C A) as (_ & _ & [G3 G4]). rewrite Forall_forall in C.
    destruct (D _ G3) as (v & Iv & Ev). split; [apply (Trans _ u); auto; apply Eu|]. apply (Trans _ v); auto. apply Ev.
Qed.

(** The three records of [t_file], its two tiles, the file merged with itself and an empty one,
    and what is left of it without the class 3; -0 in a compressed tile is the number 0. *)
Definition zero_file : spoc_file := mk_file 0 1 (chars "W") true [t_pr (2 ^ 63) (2 ^ 63) 1].
Example C128_example :
  let empty := mk_file 0 1 (chars "W") false [] in
  storable t_file /\ no_nan t_file /\ file_of (read_spoc_file toy) (t_bytes t_file) t_file
  /\ snd (tile_tool toy false t_all t_args (t_bytes t_file) t_none) = Ret tt
  /\ (exists m, merge_files toy (mk_merge_args true (-1)) (map Some [t_bytes t_file; t_bytes empty; t_bytes t_file]) = Ret (m, false)
       /\ range col_u32 (map rc (f_prs m)) = (1, 3))
  /\ filter has_records [t_file; empty; t_file] = [t_file; t_file]
  /\ (exists g, remove_classes t_file [3] = Ret g /\ range col_u32 (map rc (f_prs t_file)) = (1, 3) /\ range col_u32 (map rc (f_prs g)) = (1, 2))
  /\ kept zero_file (mk_file 0 1 (chars "W") true [t_pr 0 0 1]) /\ same_number col_double (2 ^ 63) 0.
Proof.
  cbv zeta. split; [apply t_storable|]. split; [repeat constructor|]. split; [eexists; vm_compute; reflexivity|]. split; [vm_compute; reflexivity|].
  split; [eexists; split; vm_compute; reflexivity|]. split; [reflexivity|]. split; [eexists; split; [|split]; vm_compute; reflexivity|]. split; [|split; reflexivity].
  cbn. split; [reflexivity|]. repeat (split; [reflexivity|]). constructor; [|constructor].
  unfold kept_record. split; [right|split; [right|split; [right|cbn; tauto]]]; (split; [reflexivity|]); intros q [<-|[]]; unfold is_zero_double; cbn; tauto.
Qed.

Print Assumptions C128_columns.
Print Assumptions C128_merge.
Print Assumptions C128_filter.
Print Assumptions C128_tiles.
