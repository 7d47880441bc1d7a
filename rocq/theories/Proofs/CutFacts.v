(** Compressed files that end early: the columns one by one. *)
From Coq Require Import ZArith List Bool Lia.
From Verif.Model Require Import Base Double Header PointRecord Compression File IO.
From Verif.Spec Require Import Format Streams Files Truncation.
From Verif.Proofs Require Import BaseFacts HeaderFacts HeaderCutFacts FileMoreFacts.
Import ListNotations.
Open Scope Z_scope.
Open Scope outcome_scope.

Lemma read_header_bytes bs h s' : bytes_ok bs -> read_header (i_open bs) = Ret (h, s') -> i_good s' = true ->
  bs = header_bytes h ++ i_rest s'.
Proof.
  intros Hok H Hg. destruct (read_header_good (i_open bs) h s' Hok H) as [G _]. revert G. unfold read_header in H.
  destruct (is_read 4 (i_open bs)) as [g0 s0] eqn:E0.
  destruct (beq_bytes _ SPOC); cbn [negb] in H; [|discriminate].
  destruct (read_uint 1 _ s0) as [ma s1] eqn:E1. destruct (ma =? MAJOR_VERSION); cbn [negb] in H; [|discriminate].
  destruct (read_uint 1 _ s1) as [mi s2] eqn:E2. destruct (mi =? MINOR_VERSION); cbn [negb] in H; [|discriminate].
  destruct (read_uint 2 0 s2) as [len s3] eqn:E3. destruct (is_read len s3) as [g4 s4] eqn:E4.
  destruct (read_uint 1 _ s4) as [e s5] eqn:E5. destruct (read_uint 8 _ s5) as [t s6] eqn:E6.
  destruct (read_uint 1 _ s6) as [c s7] eqn:E7. injection H as <- <-. intros G.
  destruct (is_read_ok _ _ _ _ (Hok : bytes_ok (i_rest (i_open bs))) E0) as [_ O0].
  destruct (read_uint_range _ _ _ _ _ O0 E1) as [_ O1].
  destruct (read_uint_range _ _ _ _ _ O1 E2) as [_ O2].
  destruct (read_uint_range _ _ _ _ _ O2 E3) as [Hlen O3].
  destruct (read_uint_good_inv _ _ _ _ _ E7 Hg) as (G6 & b7 & R6 & L7 & V7).
  destruct (read_uint_good_inv _ _ _ _ _ E6 G6) as (G5 & b6 & R5 & L6 & V6).
  destruct (read_uint_good_inv _ _ _ _ _ E5 G5) as (G4 & b5 & R4 & L5 & V5).
  destruct (is_read_good_inv _ _ _ _ (proj1 Hlen) E4 G4) as (G3 & R3 & L4).
  destruct (read_uint_good_inv _ _ _ _ _ E3 G3) as (G2 & b3 & R2 & L3 & V3).
  destruct (read_uint_good_inv _ _ _ _ _ E2 G2) as (G1 & b2 & R1 & L2 & V2).
  destruct (read_uint_good_inv _ _ _ _ _ E1 G1) as (G0 & b1 & R0 & L1 & V1).
  destruct (is_read_good_inv 4 _ _ _ ltac:(lia) E0 G0) as (_ & R & L0). cbn [i_open i_rest] in R.
  assert (B : bytes_ok (g0 ++ b1 ++ b2 ++ b3 ++ g4 ++ b5 ++ b6 ++ b7 ++ i_rest s7)).
  { rewrite <- R6, <- R5, <- R4, <- R3, <- R2, <- R1, <- R0, <- R. exact Hok. }
  assert (K : forall w b v, bytes_ok b -> zlen b = Z.of_nat w -> v = le_val b -> le_bytes w v = b).
  { intros w b v Ob Lb ->. unfold zlen in Lb. replace w with (length b) by lia. now apply le_bytes_val. }
  unfold bytes_ok in B. rewrite !Forall_app in B. destruct B as (B0 & B1 & B2 & B3 & B4 & B5 & B6 & B7 & _).
  unfold header_bytes. cbn [h_sig h_major h_minor h_wkt h_extra h_total h_compressed].
  rewrite overwrite_full by (rewrite L0; reflexivity). rewrite overwrite_full by (rewrite zlen_zrepeat; lia).
  assert (Lu : to_u16 (zlen g4) = le_val b3).
  { rewrite L4, V3. unfold to_u16. apply Z.mod_small. rewrite <- V3. cbn in Hlen. unfold two16. lia. }
  rewrite (K _ _ _ B1 L1 V1), (K _ _ _ B2 L2 V2), Lu, (K _ _ _ B3 L3 eq_refl), (K _ _ _ B5 L5 V5), (K _ _ _ B6 L6 V6), (K _ _ _ B7 L7 V7).
  rewrite R, R0, R1, R2, R3, R4, R5, R6. rewrite <- !app_assoc. reflexivity.
Qed.

(** ** One stream is the beginning of another *)
Definition begins (s1 s2 : istream) : Prop :=
  i_good s1 = true /\ i_good s2 = true /\ exists t, i_rest s2 = i_rest s1 ++ t.

Lemma is_read_begins n s1 s2 g1 s1' g2 s2' : 0 <= n -> begins s1 s2 -> is_read n s1 = (g1, s1') -> is_read n s2 = (g2, s2') ->
  (g1 = g2 /\ begins s1' s2') \/ i_good s1' = false.
Proof.
  intros N (G1 & G2 & t & R) E1 E2. destruct (i_good s1') eqn:G; [left|now right].
  unfold is_read in *. rewrite G1 in E1. rewrite G2 in E2. rewrite R in E2.
  destruct (zlen (ztake n (i_rest s1)) <? n) eqn:L1; injection E1 as <- <-; [discriminate G|]. apply Z.ltb_ge in L1. rewrite zlen_ztake in L1. pose proof (zlen_nonneg (i_rest s1)).
  rewrite ztake_app_l in E2 by lia. rewrite (proj2 (Z.ltb_ge _ _)) in E2 by (rewrite zlen_ztake; lia). injection E2 as <- <-.
  split; [reflexivity|]. split; [reflexivity|]. split; [reflexivity|]. exists t. cbn [i_rest]. apply zdrop_app_l. lia.
Qed.

Lemma is_read_bad_bad n s g s' : i_good s = false -> is_read n s = (g, s') -> i_good s' = false.
Proof.
  intros G E. unfold is_read in E. rewrite G in E. injection E as <- <-. unfold i_good. cbn. now rewrite andb_comm.
Qed.

Lemma read_uint_begins k s1 s2 v1 s1' v2 s2' : begins s1 s2 -> read_uint k 0 s1 = (v1, s1') -> read_uint k 0 s2 = (v2, s2') ->
  (v1 = v2 /\ begins s1' s2') \/ i_good s1' = false.
Proof.
  unfold read_uint. intros B E1 E2. destruct (is_read (Z.of_nat k) s1) as [g1 t1] eqn:R1. destruct (is_read (Z.of_nat k) s2) as [g2 t2] eqn:R2.
  injection E1 as <- <-. injection E2 as <- <-. destruct (is_read_begins _ _ _ _ _ _ _ (Nat2Z.is_nonneg k) B R1 R2) as [(-> & B')|B']; auto.
Qed.

Section Cut.
Variable z : zlib.

Lemma read_compressed_begins t size s1 s2 c1 s1' c2 s2' : begins s1 s2 -> bytes_ok (i_rest s1) ->
  read_compressed z t size s1 = Ret (c1, s1') -> read_compressed z t size s2 = Ret (c2, s2') ->
  (c1 = c2 /\ begins s1' s2' /\ bytes_ok (i_rest s1')) \/ i_good s1' = false.
Proof.
  intros B O E1 E2. unfold read_compressed in *.
  destruct (read_uint 8 0 s1) as [n1 t1] eqn:R1. destruct (read_uint 8 0 s2) as [n2 t2] eqn:R2.
  destruct (read_uint_range _ _ _ _ _ O R1) as [Rn O1].
  destruct (read_uint_begins _ _ _ _ _ _ _ B R1 R2) as [(<- & B')|Bad].
  - destruct (n1 =? 0) eqn:N0.
    + injection E1 as <- <-. injection E2 as <- <-. left. auto.
    + destruct (PTRDIFF_MAX <? n1); [discriminate|].
      destruct (is_read n1 t1) as [g1 u1] eqn:Q1. destruct (is_read n1 t2) as [g2 u2] eqn:Q2.
      destruct (is_read_ok _ _ _ _ O1 Q1) as [_ O2].
      destruct (is_read_begins _ _ _ _ _ _ _ (proj1 Rn) B' Q1 Q2) as [(<- & B2)|Bad].
      * destruct (PTRDIFF_MAX <? size * Z.of_nat (ct_width t)); [discriminate|]. destruct (size =? 0); [discriminate|].
        destruct (decompress_to z (overwrite g1 (zrepeat 0 n1)) (size * Z.of_nat (ct_width t))) as [d| | |]; try discriminate. cbn [bind] in *.
        injection E1 as <- <-. injection E2 as <- <-. left. auto.
      * right. destruct (PTRDIFF_MAX <? size * Z.of_nat (ct_width t)); [discriminate|]. destruct (size =? 0); [discriminate|].
        destruct (decompress_to z (overwrite g1 (zrepeat 0 n1)) (size * Z.of_nat (ct_width t))) as [d| | |]; try discriminate. cbn [bind] in *.
        injection E1 as <- <-. exact Bad.
  - right. destruct (n1 =? 0); [injection E1 as <- <-; exact Bad|]. destruct (PTRDIFF_MAX <? n1); [discriminate|].
    destruct (is_read n1 t1) as [g1 u1] eqn:Q1. pose proof (is_read_bad_bad _ _ _ _ Bad Q1) as Bad2.
    destruct (PTRDIFF_MAX <? size * Z.of_nat (ct_width t)); [discriminate|]. destruct (size =? 0); [discriminate|].
    destruct (decompress_to z (overwrite g1 (zrepeat 0 n1)) (size * Z.of_nat (ct_width t))) as [d| | |]; try discriminate. cbn [bind] in *.
    injection E1 as <- <-. exact Bad2.
Qed.

(** All columns in one loop *)
Fixpoint read_cols (ts : list coltype) (size : Z) (s : istream) : outcome (list (list Z) * istream) :=
  match ts with
  | [] => Ret ([], s)
  | t :: ts =>
    '(c, s) <- read_compressed z t size s ;;
    '(cs, s) <- read_cols ts size s ;;
    Ret (c :: cs, s)
  end.

Lemma read_cols_length ts : forall size s cs s', read_cols ts size s = Ret (cs, s') -> length cs = length ts.
Proof.
  induction ts as [|t ts IH]; intros size s cs s' E; cbn [read_cols] in E; [now injection E as <- <-|].
  destruct (read_compressed z t size s) as [[c s1]| | |]; try discriminate. cbn [bind] in E.
  destruct (read_cols ts size s1) as [[cs1 s2]| | |] eqn:E1; try discriminate. cbn [bind] in E. injection E as <- <-. cbn. f_equal. eapply IH, E1.
Qed.

Lemma read_cols_bad ts : forall size s cs s', i_good s = false -> read_cols ts size s = Ret (cs, s') ->
  (forall i, nth i cs [] = []) /\ i_good s' = false.
Proof.
  induction ts as [|t ts IH]; intros size s cs s' B E; cbn [read_cols] in E.
  - injection E as <- <-. split; [now intros [|i]|exact B].
  - destruct (read_compressed_bad z t size s B) as (s1 & E1 & B1). rewrite E1 in E. cbn [bind] in E.
    destruct (read_cols ts size s1) as [[cs1 s2]| | |] eqn:E2; try discriminate. cbn [bind] in E. injection E as <- <-.
    destruct (IH _ _ _ _ B1 E2) as [H1 H2]. split; [|exact H2]. intros [|i]; [reflexivity|apply H1].
Qed.

Lemma read_cols_begins ts : forall size s1 s2 cs1 s1' cs2 s2', begins s1 s2 -> bytes_ok (i_rest s1) ->
  read_cols ts size s1 = Ret (cs1, s1') -> read_cols ts size s2 = Ret (cs2, s2') ->
  exists j, (forall i, (i < j)%nat -> nth i cs1 [] = nth i cs2 []) /\ (forall i, (j < i)%nat -> nth i cs1 [] = [])
    /\ (i_good s1' = true -> cs1 = cs2).
Proof.
  induction ts as [|t ts IH]; intros size s1 s2 cs1 s1' cs2 s2' B O E1 E2; cbn [read_cols] in E1, E2.
  - injection E1 as <- <-. injection E2 as <- <-. exists 0%nat. split; [lia|]. split; [now intros [|i]|auto].
  - destruct (read_compressed z t size s1) as [[c1 t1]| | |] eqn:R1; try discriminate.
    destruct (read_compressed z t size s2) as [[c2 t2]| | |] eqn:R2; try discriminate. cbn [bind] in E1, E2.
    destruct (read_cols ts size t1) as [[d1 u1]| | |] eqn:Q1; try discriminate.
    destruct (read_cols ts size t2) as [[d2 u2]| | |] eqn:Q2; try discriminate. cbn [bind] in E1, E2.
    injection E1 as <- <-. injection E2 as <- <-.
    destruct (read_compressed_begins _ _ _ _ _ _ _ _ B O R1 R2) as [(<- & B' & O')|Bad].
    + destruct (IH _ _ _ _ _ _ _ B' O' Q1 Q2) as (j & J1 & J2 & J3). exists (S j). split; [|split].
      * intros [|i] I; [reflexivity|]. cbn. apply J1. lia.
      * intros [|i] I; [lia|]. cbn. apply J2. lia.
      * intros G. f_equal. now apply J3.
    + destruct (read_cols_bad _ _ _ _ _ Bad Q1) as [H1 H2]. exists 0%nat. split; [lia|]. split.
      * intros [|i] I; [lia|]. cbn. apply H1.
      * congruence.
Qed.

Definition field_types (e : Z) : list coltype :=
  [t_double; t_double; t_double; t_u32; t_u32; t_u16; t_u16; t_u16; t_u16] ++ repeat t_u64 (Z.to_nat e).

Definition of_values (l : list Z) : point_record :=
  mk_pr (nth 0 l 0) (nth 1 l 0) (nth 2 l 0) (nth 3 l 0) (nth 4 l 0) (nth 5 l 0) (nth 6 l 0) (nth 7 l 0) (nth 8 l 0) (skipn 9 l).

Lemma read_extras_cols k size : forall s, read_extras z k size s = read_cols (repeat t_u64 k) size s.
Proof. induction k as [|k IH]; intros s; [reflexivity|]. cbn [read_extras repeat read_cols]. destruct (read_compressed z t_u64 size s) as [[c s1]| | |]; cbn [bind]; auto. now rewrite IH. Qed.

Lemma read_points_cols total e s : read_compressed_points z total e s
  = ('(cs, s) <- read_cols (field_types e) total s ;;
     if PTRDIFF_MAX <? total * sizeof_point_record then Throw length_error
     else prs <- mapM (fun n => l <- mapM (fun c => col_get c n) cs ;; Ret (of_values l)) (zseq total) ;; Ret (prs, s)).
Proof.
  unfold read_compressed_points, field_types. cbn [app read_cols].
  do 9 (match goal with |- context [read_compressed z ?t total ?s0] => destruct (read_compressed z t total s0) as [[? ?]| | |]; cbn [bind]; try reflexivity end).
  rewrite read_extras_cols. destruct (read_cols (repeat t_u64 (Z.to_nat e)) total i7) as [[ex s']| | |]; cbn [bind]; try reflexivity.
  destruct (PTRDIFF_MAX <? total * sizeof_point_record); [reflexivity|]. f_equal. apply mapM_ext. intros n _. unfold record_at. cbn [mapM].
  do 9 (match goal with |- context [col_get ?c n] => destruct (col_get c n) as [?v| | |]; cbn [bind]; try reflexivity end).
  destruct (mapM (fun e0 => col_get e0 n) ex) as [ve| | |]; reflexivity.
Qed.

Lemma mapM_nth {A B} (f : A -> outcome B) : forall l bs, mapM f l = Ret bs ->
  length bs = length l /\ forall i a, nth_error l i = Some a -> exists b, nth_error bs i = Some b /\ f a = Ret b.
Proof.
  induction l as [|a l IH]; intros bs E; cbn [mapM] in E.
  - injection E as <-. split; [reflexivity|]. intros [|i]; discriminate.
  - destruct (f a) as [b| | |] eqn:Ea; try discriminate. cbn [bind] in E. destruct (mapM f l) as [t| | |] eqn:El; try discriminate. cbn [bind] in E. injection E as <-.
    destruct (IH _ eq_refl) as [L N]. split; [cbn; now rewrite L|]. intros [|i] x Hx; cbn in *; [injection Hx as <-; eauto|now apply N].
Qed.

Lemma column_values l i : (9 <= length l)%nat -> column i (of_values l) = nth i l 0.
Proof.
  intros L. do 9 (destruct l as [|? l]; [cbn in L; lia|]). unfold column, of_values. cbn [rx ry rz rc rp ri rr rg rb rextra nth skipn app]. reflexivity.
Qed.

Lemma points_columns total e s prs s' : read_compressed_points z total e s = Ret (prs, s') ->
  exists cs, read_cols (field_types e) total s = Ret (cs, s') /\ length prs = Z.to_nat total
  /\ forall i n p, nth_error prs n = Some p -> col_get (nth i cs []) (Z.of_nat n) = Ret (column i p).
Proof.
  rewrite read_points_cols. intros E. destruct (read_cols (field_types e) total s) as [[cs s1]| | |] eqn:R; try discriminate. cbn [bind] in E.
  destruct (PTRDIFF_MAX <? total * sizeof_point_record); [discriminate|].
  destruct (mapM _ (zseq total)) as [l| | |] eqn:M; try discriminate. cbn [bind] in E. injection E as <- <-. exists cs. split; [reflexivity|].
  apply mapM_nth in M as [L N]. assert (Lz : length (zseq total) = Z.to_nat total) by (unfold zseq; now rewrite map_length, seq_length).
  split; [congruence|]. intros i n p Hp.
  assert (Hn : (n < Z.to_nat total)%nat) by (rewrite <- Lz, <- L; apply nth_error_Some; congruence).
  assert (Zn : nth_error (zseq total) n = Some (Z.of_nat n)).
  { unfold zseq. apply map_nth_error. rewrite nth_error_nth' with (d := O) by (rewrite seq_length; exact Hn). now rewrite seq_nth by exact Hn. }
  destruct (N n _ Zn) as (q & Hq & Eq). rewrite Hp in Hq. injection Hq as <-.
  destruct (mapM (fun c => col_get c (Z.of_nat n)) cs) as [vs| | |] eqn:V; try discriminate. cbn [bind] in Eq. injection Eq as <-.
  apply mapM_nth in V as [Lv Nv]. pose proof (read_cols_length _ _ _ _ _ R) as Lc.
  assert (L9 : (9 <= length vs)%nat) by (rewrite Lv, Lc; unfold field_types; rewrite app_length; cbn; lia).
  rewrite column_values by exact L9. destruct (le_lt_dec (length cs) i) as [I|I].
  - rewrite !nth_overflow by lia. reflexivity.
  - destruct (nth_error cs i) as [c|] eqn:C; [|apply nth_error_None in C; lia]. destruct (Nv i c C) as (v & Hv & Ev).
    rewrite (nth_error_nth _ _ _ C), (nth_error_nth _ _ _ Hv). exact Ev.
Qed.

End Cut.
