(** A concrete codec satisfying the zlib contract: every data byte [b] is sent
    as [1; b], the stream ends with [0].  It shows that the hypotheses of the
    theorems about compressed files can be met, and serves in examples. *)
From Coq Require Import String ZArith List Bool Lia.
From Verif.Model Require Import Base Compression.
From Verif.Spec Require Import ZlibContract.
From Verif.Proofs Require Import BaseFacts CompressionFacts.
Import ListNotations.
Open Scope Z_scope.

Definition esc (data : list Z) : list Z := flat_map (fun b => [1; b]) data.
Definition enc (data : list Z) : list Z := esc data ++ [0].

Definition toy_def : Type := (list Z * bool)%type.       (* pending output, end marker queued *)
Inductive toy_mode : Type := Tag | Byte | End | Err.
Definition toy_inf : Type := (list Z * toy_mode)%type.   (* pending output, parser state *)

Definition toy_deflate (st : toy_def) (chunk : list Z) (fl : zflush) (n : Z)
  : toy_def * list Z * list Z :=
  let '(q, fin) := st in
  let fin' := match fl with Z_FINISH => true | Z_NO_FLUSH => fin end in
  let q' := q ++ esc chunk ++ (if negb fin && fin' then [0] else []) in
  ((zdrop n q', fin'), [], map to_u8 (ztake n q')).

Fixpoint parse (m : toy_mode) (l : list Z) : list Z * toy_mode * list Z :=
  match m, l with
  | End, _ => ([], End, l)
  | Err, _ => ([], Err, l)
  | _, [] => ([], m, [])
  | Tag, b :: t => if b =? 1 then parse Byte t else if b =? 0 then ([], End, t) else ([], Err, t)
  | Byte, b :: t => let '(d, m', r) := parse Tag t in (b :: d, m', r)
  end.

Definition toy_inflate (st : toy_inf) (chunk : list Z) (n : Z)
  : toy_inf * list Z * list Z * zret :=
  let '(q, m) := st in
  let '(d, m', r) := parse m chunk in
  let q' := q ++ d in
  ((zdrop n q', m'), r, map to_u8 (ztake n q'),
   match zdrop n q' with
   | _ :: _ => Z_OK
   | [] => match m' with End => Z_STREAM_END | Err => Z_DATA_ERROR | _ => Z_OK end
   end).

Definition toy : zlib :=
  mk_zlib toy_def toy_inf
    (fun level => if (-1 <=? level) && (level <=? 9) then Some ([], false) else None)
    toy_deflate
    ([], Tag)
    toy_inflate
    (fun st chunk => length (fst st) + 2 * length chunk + (if snd st then 0 else 1))%nat
    (fun st chunk => length (fst st) + length chunk)%nat.

Definition toy_stream (strm data : list Z) : Prop := bytes_ok data /\ strm = enc data.

(** ** Facts *)

Lemma map_to_u8_id : forall l, bytes_ok l -> map to_u8 l = l.
Proof.
  induction l as [|a l IH]; intros H; [reflexivity|]. inversion H as [|? ? Ha Hl]; subst.
  cbn. rewrite IH by auto. unfold to_u8. unfold byte_ok in Ha. now rewrite Z.mod_small by lia.
Qed.

Lemma map_to_u8_ok : forall l, bytes_ok (map to_u8 l).
Proof.
  intros l. apply Forall_forall. intros x Hx. apply in_map_iff in Hx as (y & <- & _).
  unfold byte_ok, to_u8; zs. apply Z.mod_pos_bound. lia.
Qed.

Lemma esc_app : forall a b, esc (a ++ b) = esc a ++ esc b.
Proof. intros; unfold esc; apply flat_map_app. Qed.

Lemma esc_length : forall a, length (esc a) = (2 * length a)%nat.
Proof. induction a; cbn [esc flat_map app length]; [reflexivity|]. fold (esc a0). lia. Qed.

Lemma esc_ok : forall a, bytes_ok a -> bytes_ok (esc a).
Proof.
  induction 1; cbn; constructor; [unfold byte_ok; zs; lia|]. constructor; auto.
Qed.

Lemma parse_split : forall l m d m' r, parse m l = (d, m', r) ->
  exists used, l = used ++ r /\ parse m used = (d, m', []) /\ (length d <= length used)%nat
    /\ (r = [] \/ m' = End \/ m' = Err).
Proof.
  induction l as [|b t IH]; intros m d m' r H.
  - destruct m; cbn in H; injection H as <- <- <-; exists []; repeat split; auto.
  - destruct m; cbn [parse] in H.
    + destruct (b =? 1) eqn:E1.
      * destruct (IH _ _ _ _ H) as (u & -> & Hu & Hl & Hr).
        exists (b :: u). cbn [parse app length]. rewrite E1. repeat split; auto.
      * destruct (b =? 0) eqn:E0; injection H as <- <- <-; exists [b]; cbn; rewrite E1, E0; repeat split; auto.
    + destruct (parse Tag t) as [[d1 m1] r1] eqn:E. injection H as <- <- <-.
      destruct (IH _ _ _ _ E) as (u & -> & Hu & Hl & Hr).
      exists (b :: u). cbn [parse app length]. rewrite Hu. repeat split; auto. lia.
    + injection H as <- <- <-. exists []. cbn. repeat split; auto.
    + injection H as <- <- <-. exists []. cbn. repeat split; auto.
Qed.

Lemma parse_app : forall a m d m' b, parse m a = (d, m', []) ->
  parse m (a ++ b) = let '(d2, m2, r2) := parse m' b in (d ++ d2, m2, r2).
Proof.
  induction a as [|x a IH]; intros m d m' b H.
  - destruct m; cbn in H; injection H as <- <-; cbn [app]; destruct (parse _ b) as [[d2 m2] r2]; reflexivity.
  - destruct m; cbn [parse app] in *.
    + destruct (x =? 1); [now apply IH|].
      destruct (x =? 0); injection H as <- <- ->; destruct b; reflexivity.
    + destruct (parse Tag a) as [[d1 m1] r1] eqn:E. injection H as <- <- ->.
      rewrite (IH _ _ _ b E). destruct (parse m1 b) as [[d2 m2] r2]. reflexivity.
    + discriminate.
    + discriminate.
Qed.

Lemma parse_app_stop : forall a m d m' r b, parse m a = (d, m', r) -> r <> [] ->
  parse m (a ++ b) = (d, m', r ++ b).
Proof.
  induction a as [|x a IH]; intros m d m' r b H Hr.
  - destruct m; cbn in H; injection H as <- <- <-; congruence.
  - destruct m; cbn [parse app] in *.
    + destruct (x =? 1); [now apply IH|].
      destruct (x =? 0); injection H as <- <- <-; reflexivity.
    + destruct (parse Tag a) as [[d1 m1] r1] eqn:E. injection H as <- <- <-.
      now rewrite (IH _ _ _ _ b E).
    + injection H as <- <- <-. reflexivity.
    + injection H as <- <- <-. reflexivity.
Qed.

Lemma parse_enc : forall data, parse Tag (enc data) = (data, End, []).
Proof.
  induction data as [|b data IH]; [reflexivity|].
  unfold enc, esc in *. cbn [flat_map app parse]. cbn [Z.eqb Pos.eqb]. now rewrite IH.
Qed.

Lemma toy_d_inv : forall level st inp out ph, d_run toy level st inp out ph ->
  bytes_ok inp /\ bytes_ok (fst st)
  /\ out ++ fst st = esc inp ++ (if snd st then [0] else [])
  /\ (ph = None -> snd st = false)
  /\ (forall r, ph = Some r -> snd st = true /\ r = []).
Proof.
  intros level st inp out ph H. 
  assert (Hq : forall (q : list Z) (fin fin' : bool) (chunk : list Z) (n : Z) (inp out : list Z),
     bytes_ok inp -> bytes_ok q -> bytes_ok chunk ->
     out ++ q = esc inp ++ (if fin then [0] else []) -> (fin = true -> chunk = []) -> (fin = true -> fin' = true) ->
     bytes_ok (q ++ esc chunk ++ (if negb fin && fin' then [0] else [])) /\
     (out ++ map to_u8 (ztake n (q ++ esc chunk ++ (if negb fin && fin' then [0] else []))))
       ++ zdrop n (q ++ esc chunk ++ (if negb fin && fin' then [0] else []))
     = esc (inp ++ chunk) ++ (if fin' then [0] else [])).
  { clear. intros q fin fin' chunk n inp out Hi Hq Hc Ho Hf1 Hf2.
    set (q' := q ++ esc chunk ++ (if negb fin && fin' then [0] else [])).
    assert (Hq' : bytes_ok q').
    { unfold q', bytes_ok. apply Forall_app; split; [auto|]. apply Forall_app; split; [now apply esc_ok|].
      destruct (negb fin && fin'); constructor; [unfold byte_ok; zs; lia|constructor]. }
    split; [assumption|].
    rewrite map_to_u8_id by now apply Forall_ztake.
    rewrite <- app_assoc, ztake_zdrop. unfold q'. rewrite app_assoc, Ho, esc_app, <- !app_assoc. f_equal.
    destruct fin; cbn [negb andb].
    - rewrite Hf1 by auto. rewrite Hf2 by auto. reflexivity.
    - destruct fin'; reflexivity. }
  induction H as [st0 Hinit | st inp out chunk n st' used rest o Hrun IH Hn Hok E Hch
                 | st inp out chunk n st' used rest o Hrun IH Hn Hok E Hch
                 | st inp out chunk n st' used rest o Hrun IH Hn E Hch].
  - cbn in Hinit. destruct ((-1 <=? level) && (level <=? 9)); [|discriminate].
    injection Hinit as <-. cbn. repeat split; try constructor; congruence.
  - destruct IH as (Hi & Hb & Ho & Hf & _). destruct st as [q fin]. cbn in Hb, Ho, Hf.
    cbn in E. injection E as <- <- <-. rewrite app_nil_r in Hch. subst chunk. specialize (Hf eq_refl). subst fin.
    destruct (Hq q false false used n inp out) as [H1 H2]; auto; try discriminate.
    cbn [fst snd]. cbn [negb andb] in *.
    split; [apply Forall_app; auto|]. split; [apply Forall_zdrop; exact H1|].
    split; [exact H2|]. split; [congruence|]. intros r Hr; split; congruence.
  - destruct IH as (Hi & Hb & Ho & Hf & _). destruct st as [q fin]. cbn in Hb, Ho, Hf.
    cbn in E. injection E as <- <- <-. rewrite app_nil_r in Hch. subst chunk. specialize (Hf eq_refl). subst fin.
    destruct (Hq q false true used n inp out) as [H1 H2]; auto; try discriminate.
    cbn [fst snd]. cbn [negb andb] in *.
    split; [apply Forall_app; auto|]. split; [apply Forall_zdrop; exact H1|].
    split; [exact H2|]. split; [congruence|]. intros r Hr; split; congruence.
  - destruct IH as (Hi & Hb & Ho & _ & Hf). destruct st as [q fin]. cbn in Hb, Ho, Hf.
    destruct (Hf _ eq_refl) as [-> ->].
    cbn in E. injection E as <- <- <-. destruct used; [|discriminate].
    destruct (Hq q true true [] n inp out) as [H1 H2]; auto; try (now constructor).
    cbn [fst snd]. cbn [negb andb] in *.
    split; [apply Forall_app; auto|]. split; [apply Forall_zdrop; exact H1|].
    split; [exact H2|]. split; [congruence|]. intros r Hr; split; congruence.
Qed.

Lemma toy_deflated : forall level inp out, deflated toy level inp out -> toy_stream out inp.
Proof.
  intros level inp out (st & inp0 & out0 & chunk & n & st' & o & Hrun & Hn & Hok & E & Hlt & -> & ->).
  assert (Hr : d_run toy level st' (inp0 ++ chunk) (out0 ++ o) (Some [])).
  { destruct Hrun as [Hr|Hr].
    - eapply dr_finish with (chunk := chunk) (n := n); eauto. now rewrite app_nil_r.
    - eapply dr_more with (chunk := chunk) (n := n); eauto. now rewrite app_nil_r. }
  destruct (toy_d_inv _ _ _ _ _ Hr) as (Hi & Hb & Ho & _ & Hf).
  destruct (Hf _ eq_refl) as [Hs _]. rewrite Hs in Ho.
  split; [assumption|]. unfold enc. rewrite <- Ho.
  destruct st as [q fin]. cbn in E. injection E as <- <-. cbn [fst].
  rewrite zlen_map, zlen_ztake in Hlt.
  rewrite zdrop_all; [now rewrite app_nil_r|].
  pose proof (zlen_nonneg (q ++ esc chunk ++ (if negb fin && true then [0] else []))). lia.
Qed.

Lemma toy_i_inv : forall st c p, i_run toy st c p ->
  exists d, parse Tag c = (d, snd st, []) /\ p ++ map to_u8 (fst st) = map to_u8 d.
Proof.
  intros st c p H. induction H as [|st c p chunk n st' used rest o ret Hrun IH Hn E Hch].
  - exists []. split; reflexivity.
  - destruct st as [q m]. destruct IH as (d & Hp & Hd). cbn [fst snd] in *.
    cbn in E. destruct (parse m chunk) as [[d2 m2] r2] eqn:E2.
    injection E as <- <- <- <-. cbn [fst snd].
    destruct (parse_split _ _ _ _ _ E2) as (u & Hu & Hpu & _ & _).
    rewrite Hch in Hu. apply app_inv_tail in Hu. subst u.
    exists (d ++ d2). split.
    + rewrite (parse_app _ _ _ _ used Hp), Hpu. reflexivity.
    + rewrite <- app_assoc, <- map_app, ztake_zdrop, map_app, app_assoc, Hd, map_app. reflexivity.
Qed.

Lemma zlen_lt_take_drop : forall {A} n (l : list A), 0 < n ->
  zlen (ztake n l) < n -> zdrop n l = [] /\ ztake n l = l.
Proof.
  intros A n l Hn H. rewrite zlen_ztake in H. pose proof (zlen_nonneg l).
  split; [apply zdrop_all; lia|apply ztake_all; lia].
Qed.

Theorem toy_ok : zlib_ok toy toy_stream.
Proof.
  constructor.
  - intros level. cbn. destruct ((-1 <=? level) && (level <=? 9)) eqn:E.
    + apply andb_prop in E as [E1 E2]. apply Z.leb_le in E1, E2. split; [lia|eauto].
    + split; [intros [st H]; discriminate|]. intros [H1 H2].
      apply Z.leb_le in H1, H2. rewrite H1, H2 in E. discriminate.
  - intros [q fin] chunk fl n st' rest o Hn E. cbn in E. injection E as <- <- <-.
    rewrite zlen_map. set (fin' := match fl with Z_NO_FLUSH => fin | Z_FINISH => true end).
    set (tl := if negb fin && fin' then [0] else []).
    repeat split.
    + rewrite zlen_ztake. pose proof (zlen_nonneg (q ++ esc chunk ++ tl)). lia.
    + apply map_to_u8_ok.
    + exists chunk. now rewrite app_nil_r.
    + intros Hfull. cbn [d_measure toy fst snd].
      assert (Hq : zlen (zdrop n (q ++ esc chunk ++ tl)) + n = zlen (q ++ esc chunk ++ tl)).
      { rewrite <- (ztake_zdrop n (q ++ esc chunk ++ tl)) at 2. rewrite zlen_app. lia. }
      unfold zlen in Hq. rewrite !app_length, esc_length in Hq.
      cbn [length]. unfold tl, fin' in *. destruct fin, fl; cbn [negb andb length] in *; lia.
  - exact toy_deflated.
  - intros level inp out Hd. destruct (toy_deflated _ _ _ Hd) as [_ ->].
    unfold enc. rewrite zlen_app. unfold zlen. rewrite esc_length. cbn [length]. lia.
  - intros strm data [_ ->]. unfold enc. intros H. now apply app_eq_nil in H as [_ H].
  - intros [q m] chunk n st' rest o ret Hn E. cbn in E.
    destruct (parse m chunk) as [[d2 m2] r2] eqn:E2. injection E as <- <- <- <-.
    destruct (parse_split _ _ _ _ _ E2) as (u & -> & _ & Hl & _).
    rewrite zlen_map. repeat split.
    + rewrite zlen_ztake. pose proof (zlen_nonneg (q ++ d2)). lia.
    + apply map_to_u8_ok.
    + eauto.
    + intros Hfull. cbn [i_measure toy fst snd].
      assert (Hq : zlen (zdrop n (q ++ d2)) + n = zlen (q ++ d2)).
      { rewrite <- (ztake_zdrop n (q ++ d2)) at 2. rewrite zlen_app. lia. }
      unfold zlen in Hq. rewrite !app_length in *. lia.
  - intros strm data [Hdata ->] [q m] c p c' Hrun Hstrm chunk n st' rest o ret Hn Hch Hp E.
    destruct (toy_i_inv _ _ _ Hrun) as (d & Hd & Hpd). cbn [fst snd] in *.
    pose proof (parse_enc data) as Henc. rewrite Hstrm in Henc.
    rewrite (parse_app _ _ _ _ c' Hd) in Henc.
    destruct (parse m c') as [[dc mc] rc] eqn:Ec. injection Henc as Hdata' -> ->.
    assert (Hdb : bytes_ok d /\ bytes_ok dc).
    { rewrite <- Hdata' in Hdata. now apply Forall_app in Hdata. }
    destruct Hdb as [Hdb Hdcb].
    rewrite (map_to_u8_id d) in Hpd by auto.
    cbn in E. destruct (parse m chunk) as [[d2 m2] r2] eqn:E2.
    injection E as <- <- <- <-.
    destruct (parse_split _ _ _ _ _ E2) as (u & Hu & Hpu & _ & Hrest).
    exists u. split; [assumption|].
    assert (Hcase : (exists t, r2 = [] /\ c' = u ++ t /\ exists d3, parse m2 t = (d3, End, []) /\ dc = d2 ++ d3 /\ chunk = u)
                    \/ (m2 = End /\ u = c' /\ d2 = dc)).
    { destruct Hch as [[t Ht]|[t Ht]].
      - left. destruct r2 as [|b r2].
        + exists t. rewrite app_nil_r in Hu. subst u.
          repeat split; auto. rewrite Ht in Ec. rewrite (parse_app _ _ _ _ t E2) in Ec.
          destruct (parse m2 t) as [[d3 m3] r3]. injection Ec as <- <- <-. eauto.
        + exfalso. rewrite Ht in Ec. rewrite (parse_app_stop _ _ _ _ _ t E2) in Ec by discriminate.
          injection Ec as _ _ H. discriminate.
      - right. rewrite Ht in E2. rewrite (parse_app _ _ _ _ t Ec) in E2. cbn in E2.
        destruct t; injection E2 as <- <- <-; rewrite app_nil_r; repeat split; auto.
        + rewrite Ht in Hu. rewrite !app_nil_r in Hu. auto.
        + rewrite Ht in Hu. apply app_inv_tail in Hu. auto. }
    assert (Hd2b : bytes_ok d2).
    { destruct Hcase as [(t & _ & _ & d3 & _ & -> & _)|(_ & _ & ->)]; auto.
      now apply Forall_app in Hdcb. }
    assert (Hout : p ++ map to_u8 (ztake n (q ++ d2)) ++ map to_u8 (zdrop n (q ++ d2)) = d ++ d2).
    { rewrite <- map_app, ztake_zdrop, map_app, app_assoc, Hpd, map_to_u8_id by auto. reflexivity. }
    split; [|split; [|split; [|split]]].
    + rewrite Hstrm. destruct Hcase as [(t & _ & -> & _)|(_ & -> & _)].
      * exists t. now rewrite app_assoc.
      * apply prefix_refl.
    + destruct Hcase as [(t & _ & _ & d3 & _ & Hdc & _)|(_ & _ & Hdc)].
      * exists (map to_u8 (zdrop n (q ++ d2)) ++ d3).
        rewrite <- Hdata', Hdc, app_assoc, <- Hout, <- !app_assoc. reflexivity.
      * exists (map to_u8 (zdrop n (q ++ d2))).
        rewrite <- Hdata', <- Hdc, <- Hout, <- !app_assoc. reflexivity.
    + destruct (zdrop n (q ++ d2)) as [|y ys] eqn:Ez; [|now left].
      destruct Hcase as [(t & Hr & Hc' & d3 & Hpt & Hdc & _)|(Hm & Huc & Hdc)].
      * destruct m2; try (now left).
        -- right; right. destruct t; cbn in Hpt; injection Hpt as <-; [|discriminate].
           rewrite app_nil_r in *. subst. repeat split; auto.
        -- destruct t; cbn in Hpt; injection Hpt; discriminate.
      * subst m2. right; right. subst u d2. repeat split; auto.
        cbn in Hout. rewrite app_nil_r in Hout. now rewrite <- Hdata'.
    + rewrite zlen_map. intros Hlt. destruct (zlen_lt_take_drop _ _ Hn Hlt) as [Hz _]. rewrite Hz.
      destruct Hrest as [-> | [-> | ->]]; [now left|now right|].
      destruct Hcase as [(t & -> & _)|(Hm & _)]; [now left|discriminate].
    + rewrite zlen_map. intros Hlt [t Ht]. destruct (zlen_lt_take_drop _ _ Hn Hlt) as [Hz _]. rewrite Hz.
      rewrite Ht in E2. rewrite (parse_app _ _ _ _ t Ec) in E2.
      destruct t; cbn in E2; injection E2 as _ <- _; reflexivity.
Qed.
