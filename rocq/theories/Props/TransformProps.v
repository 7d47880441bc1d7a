(** C56 - C60: spoc_transform. *)
From Coq Require Import String Reals ZArith List Bool Lia.
From Flocq Require Import Core.
From Verif.Model Require Import Base Double Arith Header PointRecord File Utils Par Affine Compression IO AppUtils TransformApp.
From Verif.Spec Require Import Rounding Format Streams Text Fields Transforms Files Apps.
From Verif.Proofs Require Import BaseFacts ArithFacts HeaderFacts PointRecordFacts IOFacts FileFacts FileIOFacts HeaderCutFacts TextFacts FieldFacts TransformFacts FileMoreFacts ToyZlib.
From Verif.Props Require Import TextProps.
Import ListNotations.
Open Scope Z_scope.
Open Scope outcome_scope.

Section Commands.
Variable stod : stod_fn.
Variable t : trig.
Variable noise : noise_fn.
Variable seed : Z.
(** the number of extra fields that the header states *)
Variable e : Z.

Notation op_of name params := (get_op stod t noise seed e (mk_command (chars name) params)).

(** ** C57 replace *)

(** [replace f,v1,v2], for every integer field, every way to write it, all values of
    [int] and any separators.  Negative values are taken modulo 2^32 and the new value is
    narrowed to the type of the field. *)
Theorem C57_replace : forall f name c1 t1 c2 t2 v1 v2,
  names f name -> Forall alphanumeric name -> integer_field f -> ~ alphanumeric c1 ->
  int_text v1 t1 -> - 2 ^ 31 <= v1 < 2 ^ 31 -> ~ digit c2 -> int_text v2 t2 -> - 2 ^ 31 <= v2 < 2 ^ 31 ->
  exists op, op_of "replace" (name ++ c1 :: t1 ++ c2 :: t2) = Ret op
  /\ forall k p, match value f p with
     | None => exists what, op k p = Throw (runtime_error what)
     | Some v => exists p', op k p = Ret p'
         /\ if v =? v1 mod 2 ^ 32 then assigned f (v2 mod 2 ^ 32 mod range f) p p' else p' = p
     end.
Proof.
  intros f name c1 t1 c2 t2 v1 v2 N A F C1 T1 B1 C2 T2 B2.
  unfold get_op. cbn [cmd_name cmd_params]. change (beq_bytes (chars "replace") (chars "replace")) with true.
  repeat match goal with |- context [beq_bytes (chars ?a) (chars ?b)] =>
    change (beq_bytes (chars a) (chars b)) with false end. cbv iota.
  rewrite (consume_name f name) by (auto; intros c u [= <- <-]; exact C1). cbn [bind tl].
  rewrite (consume_int_text v1 t1 c2 t2 T1 B1 C2). cbn [bind]. rewrite (consume_int_end v2 t2 T2 B2). cbn [bind].
  unfold get_replace_op. rewrite (refuse_xyz_ok _ f name N F). cbn [bind].
  eexists. split; [reflexivity|]. intros k p. cbv beta.
  rewrite (names_label f name N).
  assert (R2 : forall v, to_u32 v = v mod 2 ^ 32) by reflexivity.
  destruct f; try (exfalso; apply F; cbn; tauto); cbn [label value].
  7: { rewrite (names_index k0 name e N). destruct N as [B _]. change (if k0 <? 0 then None else nth_error (rextra p) (Z.to_nat k0)) with (value (FE k0) p).
    pose proof (check_extra_cases k0 p ltac:(lia)) as C.
    change (ch_e =? ch_c) with false. change (ch_e =? ch_p) with false. change (ch_e =? ch_i) with false.
    change (ch_e =? ch_r) with false. change (ch_e =? ch_g) with false. change (ch_e =? ch_b) with false.
    change (ch_e =? ch_e) with true. cbv iota.
    destruct (value (FE k0) p) as [v|] eqn:V; [destruct C as [-> ->]|rewrite C]; cbn [bind]; [|eauto].
    rewrite R2. destruct (v =? v1 mod 2 ^ 32).
    - destruct (put_extra_ok k0 (to_u32 v2) p v ltac:(lia) V) as (p' & E & S). exists p'. split; [exact E|].
      cbn [range]. rewrite <- R2. rewrite Z.mod_small; [exact S|].
      assert (0 <= to_u32 v2 < 2 ^ 32) by (unfold to_u32, two32; apply Z.mod_pos_bound; lia). lia.
    - eauto. }
  all: cbn [Z.eqb Pos.eqb ch_c ch_p ch_i ch_r ch_g ch_b ch_e].
  all: rewrite R2; eexists; split; [reflexivity|].
  all: match goal with |- context [if ?b then assigned _ _ _ _ else _] => destruct b; [|reflexivity] end.
  all: cbn [range].
  - rewrite Z.mod_mod by lia. apply (put_value_ok FC (to_u32 v2)). discriminate.
  - rewrite Z.mod_mod by lia. apply (put_value_ok FP (to_u32 v2)). discriminate.
  - apply (put_value_ok FI (to_u16 (to_u32 v2))). discriminate.
  - apply (put_value_ok FR (to_u16 (to_u32 v2))). discriminate.
  - apply (put_value_ok FG (to_u16 (to_u32 v2))). discriminate.
  - apply (put_value_ok FB (to_u16 (to_u32 v2))). discriminate.
Qed.

(** So, with values that the field can hold, the records that hold [v1] get [v2]. *)
Theorem C57_replace_in_range : forall f name c1 t1 c2 t2 v1 v2,
  names f name -> Forall alphanumeric name -> integer_field f -> ~ alphanumeric c1 -> ~ digit c2 ->
  int_text v1 t1 -> 0 <= v1 < 2 ^ 31 -> int_text v2 t2 -> 0 <= v2 < 2 ^ 31 -> v2 < range f ->
  exists op, op_of "replace" (name ++ c1 :: t1 ++ c2 :: t2) = Ret op
  /\ forall k p v, value f p = Some v ->
     (v = v1 -> exists p', op k p = Ret p' /\ assigned f v2 p p') /\ (v <> v1 -> op k p = Ret p).
Proof.
  intros f name c1 t1 c2 t2 v1 v2 N A F C1 C2 T1 B1 T2 B2 R.
  destruct (C57_replace f name c1 t1 c2 t2 v1 v2) as (op & O & H); auto; try lia.
  exists op. split; [exact O|]. intros k p v V. specialize (H k p). rewrite V in H. destruct H as (p' & E & H).
  rewrite (Z.mod_small v1), (Z.mod_small v2), (Z.mod_small v2) in H by lia.
  destruct (Z.eqb_spec v v1); split; intros Q; try contradiction; [eauto|]. now rewrite E, H.
Qed.

(** ** C58 replace-not *)

(** [replace-not f,v,...,v,r].  Only for the classification and the extra fields does the
    new value go where it belongs.  Finding: for p, i, r, g and b it is the classification
    that is overwritten. *)
Theorem C58_replace_not : forall f name c1 ts s vs r,
  names f name -> Forall alphanumeric name -> integer_field f -> ~ alphanumeric c1 ->
  Forall2 int_text (vs ++ [r]) ts -> Forall (fun v => - 2 ^ 31 <= v < 2 ^ 31) (vs ++ [r]) -> separated ts s ->
  vs <> [] ->
  exists op, op_of "replace-not" (name ++ c1 :: s) = Ret op
  /\ forall k p, match value f p with
     | None => exists what, op k p = Throw (runtime_error what)
     | Some v =>
       (In v (map (fun w => w mod 2 ^ 32) vs) -> op k p = Ret p)
       /\ (~ In v (map (fun w => w mod 2 ^ 32) vs) -> exists p', op k p = Ret p'
            /\ match f with FE _ => assigned f (r mod 2 ^ 64) p p' | _ => assigned FC (r mod 2 ^ 32) p p' end)
     end.
Proof.
  intros f name c1 ts s vs r N A F C1 T B S VS.
  unfold get_op. cbn [cmd_name cmd_params]. change (beq_bytes (chars "replace-not") (chars "replace-not")) with true.
  repeat match goal with |- context [beq_bytes (chars ?a) (chars ?b)] =>
    change (beq_bytes (chars a) (chars b)) with false end. cbv iota.
  rewrite (consume_name f name) by (auto; intros c u [= <- <-]; exact C1). cbn [bind tl].
  rewrite (C74_reads_the_list (vs ++ [r]) ts s T B S). cbn [bind].
  unfold get_replace_not_op. rewrite (refuse_xyz_ok _ f name N F). cbn [bind].
  rewrite map_app. cbn [map]. rewrite last_last, removelast_last.
  assert (L : zlen (map (fun v => v mod 2 ^ 32) vs ++ [r mod 2 ^ 32]) <? 2 = false).
  { apply Z.ltb_ge. rewrite zlen_app, zlen_cons, zlen_nil, zlen_map. pose proof (zlen_nonneg vs).
    destruct (Z.eq_dec (zlen vs) 0) as [Q|]; [|lia]. now apply zlen_zero_nil in Q. }
  rewrite L. eexists. split; [reflexivity|]. intros k p. cbv beta.
  set (us := map (fun w => w mod 2 ^ 32) vs).
  assert (U : us <> []) by (unfold us; destruct vs; [congruence|discriminate]).
  assert (Br : - 2 ^ 31 <= r < 2 ^ 31).
  { rewrite Forall_forall in B. apply B. apply in_or_app. right. now left. }
  assert (R : to_i32 (r mod 2 ^ 32) = r).
  { unfold to_i32, two32, two31. destruct (Z_lt_ge_dec r 0).
    - rewrite <- (Z.mod_add r 1 (2 ^ 32)) by lia. rewrite (Z.mod_small (r + 1 * 2 ^ 32)) by lia.
      rewrite (Z.mod_small (r + 1 * 2 ^ 32)) by lia. destruct (Z.ltb_spec (r + 1 * 2 ^ 32) (2147483648)); lia.
    - rewrite (Z.mod_small r), (Z.mod_small r) by lia. destruct (Z.ltb_spec r (2147483648)); lia. }
  rewrite R.
  pose proof (copy_source_cases f name e p N F) as C.
  destruct (value f p) as [v|] eqn:V.
  - assert (NL : forall l, not_listed name (field_index name e) l p = Ret (negb (existsb (Z.eqb v) l))).
    { induction l as [|i l IH]; [reflexivity|]. cbn [not_listed existsb]. rewrite C. cbn [bind].
      rewrite (Z.eqb_sym v i). rewrite (Z.eqb_sym i v). destruct (v =? i); [reflexivity|]. exact IH. }
    rewrite NL. cbn [bind]. split.
    + intros I. assert (X : existsb (Z.eqb v) us = true) by (apply existsb_exists; exists v; split; [exact I|apply Z.eqb_refl]).
      rewrite X. reflexivity.
    + intros I. assert (X : existsb (Z.eqb v) us = false).
      { apply not_true_iff_false. intros X. apply existsb_exists in X as (x & Ix & Ex). apply Z.eqb_eq in Ex. now subst. }
      rewrite X. cbn [negb]. unfold put_replacement. rewrite (names_label f name N).
      destruct f; try (exfalso; apply F; cbn; tauto); cbn [label].
      7: { rewrite (names_index k0 name e N). destruct N as [Bk _].
        destruct (put_extra_ok k0 (r mod 2 ^ 64) p v ltac:(lia) V) as (p' & Ep & S'). exists p'. split; [exact Ep|exact S']. }
      all: eexists; split; [reflexivity|]; apply (put_value_ok FC (to_u32 r)); discriminate.
  - destruct us as [|u us']; [congruence|]. cbn [not_listed]. rewrite C. cbn [bind]. eauto.
Qed.

(** Fewer than two values are refused. *)
Theorem C58_one_value : forall f name c1 t1 v1,
  names f name -> Forall alphanumeric name -> ~ alphanumeric c1 -> int_text v1 t1 -> - 2 ^ 31 <= v1 < 2 ^ 31 ->
  exists what, op_of "replace-not" (name ++ c1 :: t1) = Throw (runtime_error what).
Proof.
  intros f name c1 t1 v1 N A C1 T1 B1.
  unfold get_op. cbn [cmd_name cmd_params]. change (beq_bytes (chars "replace-not") (chars "replace-not")) with true.
  repeat match goal with |- context [beq_bytes (chars ?a) (chars ?b)] =>
    change (beq_bytes (chars a) (chars b)) with false end. cbv iota.
  rewrite (consume_name f name) by (auto; intros c u [= <- <-]; exact C1). cbn [bind tl].
  rewrite (C74_reads_the_list [v1] [t1] t1) by (repeat constructor; auto; lia). cbn [bind map].
  unfold get_replace_not_op. destruct (integer_dec f) as [F|F].
  - rewrite (refuse_xyz_ok _ f name N F). cbn [bind]. eexists. reflexivity.
  - rewrite (refuse_xyz_bad _ f name N F). cbn [bind]. eexists. reflexivity.
Qed.

(** ** C60 set *)

(** [set f,v]: the value is truncated towards zero; a value that the type of an integer
    field cannot hold is undefined behaviour (a finding: there is no check). *)
Theorem C60_set : forall f name c1 s v n,
  names f name -> Forall alphanumeric name -> ~ alphanumeric c1 -> stod s = Some (v, n) -> d_ok v ->
  exists op, op_of "set" (name ++ c1 :: s) = Ret op
  /\ forall k p,
     (value f p = None -> exists what, op k p = Throw (runtime_error what))
     /\ (value f p <> None -> ~ integer_field f -> exists p', op k p = Ret p' /\ assigned f v p p')
     /\ (value f p <> None -> integer_field f -> finite v -> 0 <= Ztrunc (d_val v) < range f ->
           exists p', op k p = Ret p' /\ assigned f (Ztrunc (d_val v)) p p')
     /\ (value f p <> None -> integer_field f -> ~ (finite v /\ 0 <= Ztrunc (d_val v) < range f) ->
           op k p = UB ub_float_to_int).
Proof.
  intros f name c1 s v n N A C1 S Ok.
  unfold get_op. cbn [cmd_name cmd_params]. change (beq_bytes (chars "set") (chars "set")) with true.
  repeat match goal with |- context [beq_bytes (chars ?a) (chars ?b)] =>
    change (beq_bytes (chars a) (chars b)) with false end. cbv iota.
  rewrite (consume_name f name) by (auto; intros c u [= <- <-]; exact C1). cbn [bind tl].
  unfold consume_double. rewrite S. cbn [bind]. eexists. split; [reflexivity|]. intros k p. unfold get_set_op.
  rewrite (names_label f name N).
  assert (CA : forall hi, finite v /\ 0 <= Ztrunc (d_val v) < hi -> d_cast 0 (hi - 1) v = Ret (Ztrunc (d_val v))).
  { intros hi [Fv B]. apply d_cast_ret. split; [apply Fv|]. split; [reflexivity|lia]. }
  assert (CU : forall hi, ~ (finite v /\ 0 <= Ztrunc (d_val v) < hi) -> d_cast 0 (hi - 1) v = UB ub_float_to_int).
  { intros hi H. destruct (d_cast_cases 0 (hi - 1) v) as [(m & E)|E]; [|exact E]. exfalso. apply H.
    apply d_cast_ret in E as (Fv & -> & B). split; [exact (conj Ok Fv)|lia]. }
  destruct f; cbn [label].
  1-3: split; [intros Q; discriminate Q|split; [|split; intros _ F; exfalso; apply F; cbn; tauto]].
  1: intros _ _; eexists; split; [reflexivity|apply (put_value_ok FX); discriminate].
  1: intros _ _; eexists; split; [reflexivity|apply (put_value_ok FY); discriminate].
  1: intros _ _; eexists; split; [reflexivity|apply (put_value_ok FZ); discriminate].
  1-6: split; [intros Q; discriminate Q|split; [intros _ Q; exfalso; apply Q; intros [H|[H|[H|[]]]]; discriminate H|]].
  1-6: cbn [Z.eqb Pos.eqb ch_x ch_y ch_z ch_c ch_p ch_i ch_r ch_g ch_b ch_e range]; unfold d_to_u32, d_to_u16;
       change two32 with (2 ^ 32); change two16 with (2 ^ 16).
  1-6: split; [intros _ _ Fv B; rewrite CA by (split; [exact Fv|exact B]); cbn [bind]; eexists; split; [reflexivity|]
              |intros _ _ H; rewrite CU by exact H; reflexivity].
  - apply (put_value_ok FC); discriminate.
  - apply (put_value_ok FP); discriminate.
  - apply (put_value_ok FI); discriminate.
  - apply (put_value_ok FR); discriminate.
  - apply (put_value_ok FG); discriminate.
  - apply (put_value_ok FB); discriminate.
  - rewrite (names_index k0 name e N). destruct N as [B0 _].
    cbn [Z.eqb Pos.eqb ch_x ch_y ch_z ch_c ch_p ch_i ch_r ch_g ch_b ch_e]. unfold d_to_size. change two64 with (2 ^ 64).
    pose proof (check_extra_cases k0 p ltac:(lia)) as C. destruct (value (FE k0) p) as [w|] eqn:V.
    + destruct C as [-> _]. cbn [bind range]. split; [intros Q; discriminate Q|]. split; [intros _ Q; exfalso; apply Q; intros [H|[H|[H|[]]]]; discriminate H|].
      split.
      * intros _ _ Fv B. rewrite CA by (split; [exact Fv|exact B]). cbn [bind].
        destruct (put_extra_ok k0 (Ztrunc (d_val v)) p w ltac:(lia) V) as (p' & E & S'). eauto.
      * intros _ _ H. rewrite CU by exact H. reflexivity.
    + rewrite C. cbn [bind]. repeat split; try (intros Q; exfalso; apply Q; reflexivity). eauto.
Qed.

(** ** C56 The single commands *)

(** copy-field: the value is narrowed to the type of the destination. *)
Theorem C56_copy_field : forall f1 f2 n1 n2 c1 tail,
  names f1 n1 -> Forall alphanumeric n1 -> names f2 n2 -> Forall alphanumeric n2 -> ~ alphanumeric c1 ->
  not_first alphanumeric tail ->
  (~ integer_field f1 \/ ~ integer_field f2 ->
     exists what, op_of "copy-field" (n1 ++ c1 :: n2 ++ tail) = Throw (runtime_error what))
  /\ (integer_field f1 -> integer_field f2 -> exists op, op_of "copy-field" (n1 ++ c1 :: n2 ++ tail) = Ret op
     /\ forall k p, pr_ok p -> match value f1 p, value f2 p with
        | Some v, Some _ => exists p', op k p = Ret p' /\ assigned f2 (v mod range f2) p p'
        | _, _ => exists what, op k p = Throw (runtime_error what)
        end).
Proof.
  intros f1 f2 n1 n2 c1 tail N1 A1 N2 A2 C1 T.
  unfold get_op. cbn [cmd_name cmd_params]. change (beq_bytes (chars "copy-field") (chars "copy-field")) with true.
  repeat match goal with |- context [beq_bytes (chars ?a) (chars ?b)] =>
    change (beq_bytes (chars a) (chars b)) with false end. cbv iota.
  rewrite (consume_name f1 n1) by (auto; intros c u [= <- <-]; exact C1). cbn [bind tl].
  rewrite (consume_name f2 n2) by auto. cbn [bind]. unfold get_copy_field_op.
  split.
  { intros [H|H].
    - rewrite (refuse_xyz_bad _ f1 n1 N1 H). cbn [bind]. eauto.
    - destruct (integer_dec f1) as [F|F].
      + rewrite (refuse_xyz_ok _ f1 n1 N1 F). cbn [bind]. rewrite (refuse_xyz_bad _ f2 n2 N2 H). cbn [bind]. eauto.
      + rewrite (refuse_xyz_bad _ f1 n1 N1 F). cbn [bind]. eauto. }
  intros F1 F2. rewrite (refuse_xyz_ok _ f1 n1 N1 F1). cbn [bind].
  rewrite (refuse_xyz_ok _ f2 n2 N2 F2). cbn [bind]. eexists. split; [reflexivity|]. intros k p P.
  pose proof (copy_source_cases f1 n1 e p N1 F1) as C. destruct (value f1 p) as [v|] eqn:V1; rewrite C; cbn [bind]; [|eauto].
  unfold copy_dest. rewrite (names_label f2 n2 N2).
  destruct f2; try (exfalso; apply F2; cbn; tauto); cbn [label value].
  7: { rewrite (names_index k0 n2 e N2). destruct N2 as [B _]. change (if k0 <? 0 then None else nth_error (rextra p) (Z.to_nat k0)) with (value (FE k0) p).
    pose proof (check_extra_cases k0 p ltac:(lia)) as C2.
    cbn [Z.eqb Pos.eqb ch_x ch_y ch_z ch_c ch_p ch_i ch_r ch_g ch_b ch_e].
    destruct (value (FE k0) p) as [w|] eqn:V2; [destruct C2 as [-> _]|rewrite C2]; cbn [bind]; [|eauto].
    destruct (put_extra_ok k0 v p w ltac:(lia) V2) as (p' & Ep & S'). exists p'. split; [exact Ep|].
    cbn [range]. pose proof (value_range f1 p v P F1 V1) as Rv. rewrite Z.mod_small; [exact S'|].
    destruct f1; cbn [range] in Rv; lia. }
  all: eexists; split; [reflexivity|].
  - apply (put_value_ok FC (to_u32 v)); discriminate.
  - apply (put_value_ok FP (to_u32 v)); discriminate.
  - apply (put_value_ok FI (to_u16 v)); discriminate.
  - apply (put_value_ok FR (to_u16 v)); discriminate.
  - apply (put_value_ok FG (to_u16 v)); discriminate.
  - apply (put_value_ok FB (to_u16 v)); discriminate.
Qed.

(** The commands with one number: the exact new coordinates, all other fields as before. *)
Definition moved (p : point_record) (x y z : double) : point_record :=
  mk_pr x y z (rc p) (rp p) (ri p) (rr p) (rg p) (rb p) (rextra p).

Theorem C56_numbers : forall s v n, stod s = Some (v, n) ->
  exists op, op_of "add-x" s = Ret op /\ (forall k p, op k p = Ret (moved p (d_add (rx p) v) (ry p) (rz p)))
  /\ exists op, op_of "add-y" s = Ret op /\ (forall k p, op k p = Ret (moved p (rx p) (d_add (ry p) v) (rz p)))
  /\ exists op, op_of "add-z" s = Ret op /\ (forall k p, op k p = Ret (moved p (rx p) (ry p) (d_add (rz p) v)))
  /\ exists op, op_of "scale-x" s = Ret op /\ (forall k p, op k p = Ret (moved p (d_mul (rx p) v) (ry p) (rz p)))
  /\ exists op, op_of "scale-y" s = Ret op /\ (forall k p, op k p = Ret (moved p (rx p) (d_mul (ry p) v) (rz p)))
  /\ exists op, op_of "scale-z" s = Ret op /\ (forall k p, op k p = Ret (moved p (rx p) (ry p) (d_mul (rz p) v)))
  /\ let a := d_div (d_mul v d_pi) d_180 in
     let c := d_cos t a in let sn := d_sin t a in
     exists op, op_of "rotate-x" s = Ret op /\ (forall k p, op k p = Ret (moved p (rx p)
       (d_sub (d_mul (ry p) c) (d_mul (rz p) sn)) (d_add (d_mul (ry p) sn) (d_mul (rz p) c))))
  /\ exists op, op_of "rotate-y" s = Ret op /\ (forall k p, op k p = Ret (moved p
       (d_sub (d_mul (rx p) c) (d_mul (rz p) sn)) (ry p) (d_add (d_mul (rx p) sn) (d_mul (rz p) c))))
  /\ exists op, op_of "rotate-z" s = Ret op /\ (forall k p, op k p = Ret (moved p
       (d_sub (d_mul (rx p) c) (d_mul (ry p) sn)) (d_add (d_mul (rx p) sn) (d_mul (ry p) c)) (rz p))).
Proof.
  intros s v n S. unfold get_op, consume_double. cbn [cmd_name cmd_params]. rewrite S.
  repeat (eexists; split; [reflexivity|]; split; [intros k p; reflexivity|]).
  cbv zeta. repeat (eexists; split; [reflexivity|]; split; [intros k p; reflexivity|]).
  eexists; split; [reflexivity|]. intros k p; reflexivity.
Qed.

(** quantize-xyz: each coordinate becomes the multiple of [v] next to it, towards 0, when
    the quotient fits an [int]; else it is undefined (a finding). *)
Theorem C56_quantize : forall s v n, stod s = Some (v, n) ->
  exists op, op_of "quantize-xyz" s = Ret op
  /\ forall k p,
     (forall sel, In sel [rx; ry; rz] -> finite (d_div (sel p) v) /\ - 2 ^ 31 <= Ztrunc (d_val (d_div (sel p) v)) < 2 ^ 31) ->
     op k p = Ret (moved p (d_mul (d_of_z (Ztrunc (d_val (d_div (rx p) v)))) v)
                           (d_mul (d_of_z (Ztrunc (d_val (d_div (ry p) v)))) v)
                           (d_mul (d_of_z (Ztrunc (d_val (d_div (rz p) v)))) v)).
Proof.
  intros s v n S. unfold get_op, consume_double. cbn [cmd_name cmd_params]. rewrite S.
  eexists; split; [reflexivity|]. intros k p H. unfold get_quantize_op, quantize1, d_to_int.
  assert (Q : forall sel, In sel [rx; ry; rz] -> d_cast (- two31) (two31 - 1) (d_div (sel p) v) = Ret (Ztrunc (d_val (d_div (sel p) v)))).
  { intros sel I. destruct (H sel I) as [F B]. apply d_cast_ret. change two31 with (2 ^ 31). split; [apply F|]. split; [reflexivity|lia]. }
  rewrite (Q rx) by (cbn; tauto). cbn [bind].
  change (ry (set_x ?a ?b)) with (ry b). rewrite (Q ry) by (cbn; tauto). cbn [bind].
  change (rz (set_y ?a (set_x ?c ?b))) with (rz b). rewrite (Q rz) by (cbn; tauto). cbn [bind]. reflexivity.
Qed.

(** Noise is added to the axes whose parameter is not zero, and nothing else changes. *)
Theorem C56_noise : forall s v n kind name, stod s = Some (v, n) ->
  In (kind, name) [(gaussian, "gaussian-noise"); (uniform_real, "uniform-noise")]%string ->
  exists op, op_of name s = Ret op
  /\ forall k p, op k p = Ret (if d_eqb v d_zero then p else
       moved p (d_add (rx p) (noise kind seed (v, v, v) k 0)) (d_add (ry p) (noise kind seed (v, v, v) k 1))
               (d_add (rz p) (noise kind seed (v, v, v) k 2))).
Proof.
  intros s v n kind name S I. unfold get_op, consume_double. cbn [cmd_name cmd_params]. rewrite S.
  cbn [In] in I. destruct I as [[= <- <-]|[[= <- <-]|[]]].
  all: eexists; split; [reflexivity|]; intros k p; unfold get_noise_op, d_neb.
  all: destruct (d_eqb v d_zero); cbn [negb]; [destruct p|]; reflexivity.
Qed.

(** The commands with an axis in their name give the noise to that axis alone; the
    other two parameters are zero. *)
Theorem C56_noise_axis : forall s v n kind name, stod s = Some (v, n) ->
  In (kind, name) [(gaussian, "gaussian-noise"); (uniform_real, "uniform-noise")]%string ->
  let axis_of a := (name ++ a)%string in
  (exists op, op_of (axis_of "-x"%string) s = Ret op
     /\ forall k p, op k p = Ret (if d_eqb v d_zero then p
          else moved p (d_add (rx p) (noise kind seed (v, 0, 0) k 0)) (ry p) (rz p)))
  /\ (exists op, op_of (axis_of "-y"%string) s = Ret op
     /\ forall k p, op k p = Ret (if d_eqb v d_zero then p
          else moved p (rx p) (d_add (ry p) (noise kind seed (0, v, 0) k 1)) (rz p)))
  /\ (exists op, op_of (axis_of "-z"%string) s = Ret op
     /\ forall k p, op k p = Ret (if d_eqb v d_zero then p
          else moved p (rx p) (ry p) (d_add (rz p) (noise kind seed (0, 0, v) k 2)))).
Proof.
  intros s v n kind name S I. unfold get_op, consume_double. cbn [cmd_name cmd_params]. rewrite S.
  cbn [In] in I. destruct I as [[= <- <-]|[[= <- <-]|[]]].
  all: split; [|split]; (eexists; split; [reflexivity|]; intros k p; unfold get_noise_op, d_neb).
  all: change (d_eqb d_zero d_zero) with true; destruct (d_eqb v d_zero); cbn [negb]; [destruct p|]; reflexivity.
Qed.

(** The frame: a command changes only the fields it names, in every record. *)
Theorem C56_frame : forall c op, get_op stod t noise seed e c = Ret op ->
  exists fs, touches (cmd_name c) (cmd_params c) fs
  /\ forall k p p', op k p = Ret p' -> only fs p p'.
Proof.
  intros [name s] op. cbn [cmd_name cmd_params].
  assert (NUM : forall n g fs, In (n, fs) fixed_fields -> name = chars n ->
    (forall v k p p', g v k p = Ret p' -> only fs p p') ->
    ('(v, _) <- consume_double stod s ;; Ret (g v : top)) = Ret op ->
    exists fs, touches name s fs /\ forall k p p', op k p = Ret p' -> only fs p p').
  { intros n g fs I -> H E. destruct (consume_double stod s) as [[v r]|x|u|]; try discriminate E.
    cbn [bind] in E. injection E as <-. exists fs. split; [|apply H]. left. exists n. auto. }
  assert (FLD : forall l r, consume_field_name s = Ret (l, r) -> exists f, first_field s f /\ names f l).
  { intros l r E. apply consume_name_inv in E as (tail & f & -> & _ & A & T & N). exists f. split; [|exact N].
    exists l, tail. auto. }
  assert (NOI : forall kind sx sy sz fs,
     (d_neb sx d_zero = true -> In FX fs) -> (d_neb sy d_zero = true -> In FY fs) -> (d_neb sz d_zero = true -> In FZ fs) ->
     forall k p p', get_noise_op noise kind seed sx sy sz k p = Ret p' -> only fs p p').
  { intros kind sx sy sz fs X Y Z k p p' E. unfold get_noise_op in E. injection E as <-.
    split; [destruct (d_neb sx d_zero), (d_neb sy d_zero), (d_neb sz d_zero); reflexivity|].
    intros g G. destruct (d_neb sx d_zero), (d_neb sy d_zero), (d_neb sz d_zero); destruct g; try reflexivity;
      exfalso; apply G; auto. }
  assert (Z0 : forall P, d_neb d_zero d_zero = true -> P) by (intros P Q; discriminate Q).
  unfold get_op. cbn [cmd_name cmd_params].
  destruct (beq_bytes name (chars "add-x")) eqn:B; [apply beq_bytes_eq in B|clear B].
  { apply (NUM "add-x"%string _ [FX]); [cbn; tauto|exact B|]. intros v k p p' [= <-]. split; [reflexivity|]. intros g G. destruct g; try reflexivity; exfalso; apply G; cbn; tauto. }
  destruct (beq_bytes name (chars "add-y")) eqn:B; [apply beq_bytes_eq in B|clear B].
  { apply (NUM "add-y"%string _ [FY]); [cbn; tauto|exact B|]. intros v k p p' [= <-]. split; [reflexivity|]. intros g G. destruct g; try reflexivity; exfalso; apply G; cbn; tauto. }
  destruct (beq_bytes name (chars "add-z")) eqn:B; [apply beq_bytes_eq in B|clear B].
  { apply (NUM "add-z"%string _ [FZ]); [cbn; tauto|exact B|]. intros v k p p' [= <-]. split; [reflexivity|]. intros g G. destruct g; try reflexivity; exfalso; apply G; cbn; tauto. }
  destruct (beq_bytes name (chars "copy-field")) eqn:B; [apply beq_bytes_eq in B|clear B].
  { intros E. destruct (consume_field_name s) as [[n1 r1]| | |] eqn:E1; try discriminate E. cbn [bind] in E.
    destruct (consume_field_name r1) as [[n2 r2]| | |] eqn:E2; try discriminate E. cbn [bind] in E.
    apply consume_name_inv in E1 as (tail1 & f1 & -> & -> & A1 & T1 & N1).
    apply consume_name_inv in E2 as (tail2 & f2 & Q & -> & A2 & T2 & N2).
    unfold get_copy_field_op in E.
    destruct (integer_dec f1) as [F1|F1]; [rewrite (refuse_xyz_ok _ f1 n1 N1 F1) in E|rewrite (refuse_xyz_bad _ f1 n1 N1 F1) in E; discriminate E].
    cbn [bind] in E.
    destruct (integer_dec f2) as [F2|F2]; [rewrite (refuse_xyz_ok _ f2 n2 N2 F2) in E|rewrite (refuse_xyz_bad _ f2 n2 N2 F2) in E; discriminate E].
    cbn [bind] in E. injection E as <-.
    exists [f2]. split.
    - right. left. split; [exact B|]. exists f2. split; [|auto].
      destruct tail1 as [|c tail1].
      + cbn [tl] in Q. symmetry in Q. apply app_eq_nil in Q as [-> _]. exfalso.
        destruct f2; cbn [names] in N2; try discriminate N2. destruct N2 as (_ & u & Q & _). discriminate Q.
      + cbn [tl] in Q. subst tail1. exists n1, c, (n2 ++ tail2). repeat split; auto.
        * intros H. exact (T1 c _ eq_refl H).
        * exists n2, tail2. auto.
    - intros k p p' H. destruct (copy_source n1 (field_index n1 e) p) as [v|x|u|]; try discriminate H. cbn [bind] in H.
      unfold copy_dest in H. rewrite (names_label f2 n2 N2) in H.
      destruct f2; try (exfalso; apply F2; cbn; tauto); cbn [label] in H.
      7: { rewrite (names_index k0 n2 e N2) in H. destruct N2 as [Bk _].
        cbn [Z.eqb Pos.eqb ch_x ch_y ch_z ch_c ch_p ch_i ch_r ch_g ch_b ch_e] in H.
        pose proof (check_extra_cases k0 p ltac:(lia)) as C. destruct (value (FE k0) p) as [w|] eqn:V.
        - destruct C as [C _]. rewrite C in H. cbn [bind] in H. destruct (put_extra_ok k0 v p w ltac:(lia) V) as (q & Eq & [_ O]).
          rewrite Eq in H. injection H as <-. exact O.
        - rewrite C in H. discriminate H. }
      all: injection H as <-.
      + apply (put_value_ok FC (to_u32 v)); discriminate.
      + apply (put_value_ok FP (to_u32 v)); discriminate.
      + apply (put_value_ok FI (to_u16 v)); discriminate.
      + apply (put_value_ok FR (to_u16 v)); discriminate.
      + apply (put_value_ok FG (to_u16 v)); discriminate.
      + apply (put_value_ok FB (to_u16 v)); discriminate. }
  destruct (beq_bytes name (chars "gaussian-noise")) eqn:B; [apply beq_bytes_eq in B|clear B].
  { apply (NUM "gaussian-noise"%string _ [FX; FY; FZ]); [cbn; tauto|exact B|]. intros v. apply NOI; intros Q; try (apply (Z0 _ Q)); cbn; tauto. }
  destruct (beq_bytes name (chars "gaussian-noise-x")) eqn:B; [apply beq_bytes_eq in B|clear B].
  { apply (NUM "gaussian-noise-x"%string _ [FX]); [cbn; tauto|exact B|]. intros v. apply NOI; intros Q; try (apply (Z0 _ Q)); cbn; tauto. }
  destruct (beq_bytes name (chars "gaussian-noise-y")) eqn:B; [apply beq_bytes_eq in B|clear B].
  { apply (NUM "gaussian-noise-y"%string _ [FY]); [cbn; tauto|exact B|]. intros v. apply NOI; intros Q; try (apply (Z0 _ Q)); cbn; tauto. }
  destruct (beq_bytes name (chars "gaussian-noise-z")) eqn:B; [apply beq_bytes_eq in B|clear B].
  { apply (NUM "gaussian-noise-z"%string _ [FZ]); [cbn; tauto|exact B|]. intros v. apply NOI; intros Q; try (apply (Z0 _ Q)); cbn; tauto. }
  destruct (beq_bytes name (chars "quantize-xyz")) eqn:B; [apply beq_bytes_eq in B|clear B].
  { apply (NUM "quantize-xyz"%string _ [FX; FY; FZ]); [cbn; tauto|exact B|]. intros v k p p' H. unfold get_quantize_op in H.
    destruct (quantize1 (rx p) v) as [x|w|u|]; try discriminate H. cbn [bind] in H.
    match type of H with context [bind ?m _] => destruct m as [y|w|u|]; try discriminate H; cbn [bind] in H end.
    match type of H with context [bind ?m _] => destruct m as [z|w|u|]; try discriminate H; cbn [bind] in H end.
    injection H as <-. split; [reflexivity|]. intros g G. destruct g; try reflexivity; exfalso; apply G; cbn; tauto. }
  destruct (beq_bytes name (chars "replace")) eqn:B; [apply beq_bytes_eq in B|clear B].
  { intros E. destruct (consume_field_name s) as [[l r]| | |] eqn:E1; try discriminate E. cbn [bind] in E.
    destruct (consume_int r) as [[v1 r1]| | |]; try discriminate E. cbn [bind] in E.
    destruct (consume_int r1) as [[v2 r2]| | |]; try discriminate E. cbn [bind] in E.
    destruct (FLD l r eq_refl) as (f & FF & N). exists [f]. split; [right; right; left; split; [auto|]; exists f; auto|].
    unfold get_replace_op in E.
    destruct (integer_dec f) as [F|F]; [rewrite (refuse_xyz_ok _ f l N F) in E|rewrite (refuse_xyz_bad _ f l N F) in E; discriminate E].
    cbn [bind] in E. injection E as <-. intros k p p' H. rewrite (names_label f l N) in H.
    destruct f; try (exfalso; apply F; cbn; tauto); cbn [label] in H;
      cbn [Z.eqb Pos.eqb ch_x ch_y ch_z ch_c ch_p ch_i ch_r ch_g ch_b ch_e] in H.
    7: { rewrite (names_index k0 l e N) in H. destruct N as [Bk _].
      pose proof (check_extra_cases k0 p ltac:(lia)) as C. destruct (value (FE k0) p) as [w|] eqn:V.
      - destruct C as [C1 C2]. rewrite C1 in H. cbn [bind] in H. rewrite C2 in H. cbn [bind] in H.
        destruct (w =? v1); [|injection H as <-; apply only_refl].
        destruct (put_extra_ok k0 v2 p w ltac:(lia) V) as (q & Eq & [_ O]).
        rewrite Eq in H. injection H as <-. exact O.
      - rewrite C in H. discriminate H. }
    all: injection H as <-; match goal with |- only _ _ (if ?b then _ else _) => destruct b; [|apply only_refl] end.
    + apply (put_value_ok FC v2); discriminate.
    + apply (put_value_ok FP v2); discriminate.
    + apply (put_value_ok FI (to_u16 v2)); discriminate.
    + apply (put_value_ok FR (to_u16 v2)); discriminate.
    + apply (put_value_ok FG (to_u16 v2)); discriminate.
    + apply (put_value_ok FB (to_u16 v2)); discriminate. }
  destruct (beq_bytes name (chars "replace-not")) eqn:B; [apply beq_bytes_eq in B|clear B].
  { intros E. destruct (consume_field_name s) as [[l r]| | |] eqn:E1; try discriminate E. cbn [bind] in E.
    destruct (consume_ints r) as [[vs r1]| | |]; try discriminate E. cbn [bind] in E.
    destruct (FLD l r eq_refl) as (f & FF & N). exists [match f with FE k => FE k | _ => FC end].
    split; [right; right; right; split; [auto|]; exists f; auto|].
    unfold get_replace_not_op in E.
    destruct (integer_dec f) as [F|F]; [rewrite (refuse_xyz_ok _ f l N F) in E|rewrite (refuse_xyz_bad _ f l N F) in E; discriminate E].
    cbn [bind] in E. destruct (zlen vs <? 2) eqn:L; [discriminate E|]. injection E as <-. intros k p p' H.
    match type of H with bind ?m _ = _ => destruct m as [b|x|u|] eqn:NL; try discriminate H; cbn [bind] in H end.
    destruct b; [|injection H as <-; apply only_refl].
    unfold put_replacement in H. rewrite (names_label f l N) in H.
    destruct f; try (exfalso; apply F; cbn; tauto); cbn [label] in H;
      cbn [Z.eqb Pos.eqb ch_x ch_y ch_z ch_c ch_p ch_i ch_r ch_g ch_b ch_e] in H.
    7: { rewrite (names_index k0 l e N) in H. destruct N as [Bk _].
      destruct (value (FE k0) p) as [w|] eqn:V.
      - destruct (put_extra_ok k0 (to_u64 (to_i32 (last vs 0))) p w ltac:(lia) V) as (q & Eq & [_ O]).
        rewrite Eq in H. injection H as <-. exact O.
      - exfalso. rewrite value_extra in V by lia. unfold put_extra, vec_set in H.
        rewrite zset_None in H; [discriminate H|]. now apply znth_None_range. }
    all: injection H as <-; apply (put_value_ok FC); discriminate. }
  destruct (beq_bytes name (chars "rotate-x")) eqn:B; [apply beq_bytes_eq in B|clear B].
  { apply (NUM "rotate-x"%string _ [FY; FZ]); [cbn; tauto|exact B|]. intros v k p p' [= <-]. split; [reflexivity|]. intros g G. destruct g; try reflexivity; exfalso; apply G; cbn; tauto. }
  destruct (beq_bytes name (chars "rotate-y")) eqn:B; [apply beq_bytes_eq in B|clear B].
  { apply (NUM "rotate-y"%string _ [FX; FZ]); [cbn; tauto|exact B|]. intros v k p p' [= <-]. split; [reflexivity|]. intros g G. destruct g; try reflexivity; exfalso; apply G; cbn; tauto. }
  destruct (beq_bytes name (chars "rotate-z")) eqn:B; [apply beq_bytes_eq in B|clear B].
  { apply (NUM "rotate-z"%string _ [FX; FY]); [cbn; tauto|exact B|]. intros v k p p' [= <-]. split; [reflexivity|]. intros g G. destruct g; try reflexivity; exfalso; apply G; cbn; tauto. }
  destruct (beq_bytes name (chars "scale-x")) eqn:B; [apply beq_bytes_eq in B|clear B].
  { apply (NUM "scale-x"%string _ [FX]); [cbn; tauto|exact B|]. intros v k p p' [= <-]. split; [reflexivity|]. intros g G. destruct g; try reflexivity; exfalso; apply G; cbn; tauto. }
  destruct (beq_bytes name (chars "scale-y")) eqn:B; [apply beq_bytes_eq in B|clear B].
  { apply (NUM "scale-y"%string _ [FY]); [cbn; tauto|exact B|]. intros v k p p' [= <-]. split; [reflexivity|]. intros g G. destruct g; try reflexivity; exfalso; apply G; cbn; tauto. }
  destruct (beq_bytes name (chars "scale-z")) eqn:B; [apply beq_bytes_eq in B|clear B].
  { apply (NUM "scale-z"%string _ [FZ]); [cbn; tauto|exact B|]. intros v k p p' [= <-]. split; [reflexivity|]. intros g G. destruct g; try reflexivity; exfalso; apply G; cbn; tauto. }
  destruct (beq_bytes name (chars "set")) eqn:B; [apply beq_bytes_eq in B|clear B].
  { intros E. destruct (consume_field_name s) as [[l r]| | |] eqn:E1; try discriminate E. cbn [bind] in E.
    destruct (consume_double stod r) as [[v r1]| | |]; try discriminate E. cbn [bind] in E.
    destruct (FLD l r eq_refl) as (f & FF & N). exists [f]. split; [right; right; left; split; [auto|]; exists f; auto|].
    injection E as <-. intros k p p' H. unfold get_set_op in H. rewrite (names_label f l N) in H.
    destruct f; cbn [label] in H; cbn [Z.eqb Pos.eqb ch_x ch_y ch_z ch_c ch_p ch_i ch_r ch_g ch_b ch_e] in H.
    10: { rewrite (names_index k0 l e N) in H. destruct N as [Bk _].
      pose proof (check_extra_cases k0 p ltac:(lia)) as C. destruct (value (FE k0) p) as [w|] eqn:V.
      - destruct C as [C1 C2]. rewrite C1 in H. cbn [bind] in H.
        destruct (d_to_size v) as [m|x|u|]; try discriminate H. cbn [bind] in H.
        destruct (put_extra_ok k0 m p w ltac:(lia) V) as (q & Eq & [_ O]).
        rewrite Eq in H. injection H as <-. exact O.
      - rewrite C in H. discriminate H. }
    all: try (match type of H with bind ?m _ = _ => destruct m as [m'|x|u|]; try discriminate H; cbn [bind] in H end).
    all: injection H as <-.
    + apply (put_value_ok FX); discriminate.
    + apply (put_value_ok FY); discriminate.
    + apply (put_value_ok FZ); discriminate.
    + apply (put_value_ok FC); discriminate.
    + apply (put_value_ok FP); discriminate.
    + apply (put_value_ok FI); discriminate.
    + apply (put_value_ok FR); discriminate.
    + apply (put_value_ok FG); discriminate.
    + apply (put_value_ok FB); discriminate. }
  destruct (beq_bytes name (chars "uniform-noise")) eqn:B; [apply beq_bytes_eq in B|clear B].
  { apply (NUM "uniform-noise"%string _ [FX; FY; FZ]); [cbn; tauto|exact B|]. intros v. apply NOI; intros Q; try (apply (Z0 _ Q)); cbn; tauto. }
  destruct (beq_bytes name (chars "uniform-noise-x")) eqn:B; [apply beq_bytes_eq in B|clear B].
  { apply (NUM "uniform-noise-x"%string _ [FX]); [cbn; tauto|exact B|]. intros v. apply NOI; intros Q; try (apply (Z0 _ Q)); cbn; tauto. }
  destruct (beq_bytes name (chars "uniform-noise-y")) eqn:B; [apply beq_bytes_eq in B|clear B].
  { apply (NUM "uniform-noise-y"%string _ [FY]); [cbn; tauto|exact B|]. intros v. apply NOI; intros Q; try (apply (Z0 _ Q)); cbn; tauto. }
  destruct (beq_bytes name (chars "uniform-noise-z")) eqn:B; [apply beq_bytes_eq in B|clear B].
  { apply (NUM "uniform-noise-z"%string _ [FZ]); [cbn; tauto|exact B|]. intros v. apply NOI; intros Q; try (apply (Z0 _ Q)); cbn; tauto. }
  intros E. discriminate E.
Qed.

End Commands.

Section Files.
Variable stod : stod_fn.
Variable t : trig.
Variable noise : noise_fn.
Variable seed : Z.
(** The library's [stod] returns 64-bit patterns. *)
Hypothesis stod_ok : forall s v n, stod s = Some (v, n) -> d_ok v.

(** Record [p], number [k] of a file with [e] extra fields, becomes [p'] by the commands,
    one after the other. *)
Inductive applies (e : Z) : list command -> Z -> point_record -> point_record -> Prop :=
| ap_none : forall k p, applies e [] k p p
| ap_next : forall c cs op k p p1 p2, get_op stod t noise seed e c = Ret op -> op k p = Ret p1 ->
    applies e cs k p1 p2 -> applies e (c :: cs) k p p2.

(** All commands are understood. *)
Definition understood (e : Z) (cs : list command) : Prop :=
  forall c, In c cs -> exists op, get_op stod t noise seed e c = Ret op.

Lemma understood_ops : forall e cs, understood e cs -> exists ops, mapM (get_op stod t noise seed e) cs = Ret ops
  /\ forall k p p', applies e cs k p p' <-> run_ops ops k p = Ret p'.
Proof.
  intros e. induction cs as [|c cs IH]; intros U.
  - exists []. split; [reflexivity|]. intros k p p'. cbn [run_ops]. split; [intros H; now inversion H|intros [= <-]; constructor].
  - destruct (U c (or_introl eq_refl)) as (op & O). destruct IH as (ops & Eq & H); [intros x X; apply U; now right|].
    exists (op :: ops). cbn [mapM]. rewrite O. cbn [bind]. rewrite Eq. split; [reflexivity|].
    intros k p p'. cbn [run_ops]. split.
    + intros A. inversion A as [|? ? op' ? ? p1 ? O' E1 A1]; subst. rewrite O in O'. injection O' as <-.
      rewrite E1. cbn [bind]. now apply H.
    + destruct (op k p) as [p1| | |] eqn:E1; cbn [bind]; intros R; try discriminate R.
      econstructor; [exact O|exact E1|]. now apply H.
Qed.

Lemma applies_good : forall e cs k p p', applies e cs k p p' -> pr_ok p ->
  pr_ok p' /\ List.length (rextra p') = List.length (rextra p).
Proof.
  intros e cs k p p' A. induction A as [|c cs op k p p1 p2 O E A IH]; intros P; [auto|].
  destruct (C56_frame stod t noise seed e c op O) as (fs & _ & H). destruct (H k p p1 E) as [L _].
  destruct IH as [I1 I2]; [eapply get_op_ok; eauto|]. split; [exact I1|congruence].
Qed.

Lemma numbered_in : forall {A} (l : list A) i k a, In (k, a) (numbered i l) -> In a l.
Proof.
  intros A l. induction l as [|x l IH]; intros i k a H; [destruct H|]. destruct H as [H|H].
  - injection H as <- <-. now left.
  - right. eapply IH. exact H.
Qed.

Lemma numbered_len : forall {A} (l : list A) i, List.length (numbered i l) = List.length l.
Proof. intros A l. induction l as [|x l IH]; intros i; cbn; [reflexivity|]. now rewrite IH. Qed.

Lemma Forall2_len : forall {A B} (R : A -> B -> Prop) a b, Forall2 R a b -> List.length a = List.length b.
Proof. intros A B R a b H. induction H; cbn; congruence. Qed.

(** What the program reads and writes, as bytes. *)
Lemma transform_reads : forall cs f h tail, good_file f -> f_compressed f = false -> get_extra_fields f <= 255 ->
  get_header f = Ret h -> cs <> [] ->
  forall ops bs o, mapM (get_op stod t noise seed (get_extra_fields f)) cs = Ret ops ->
  leaves (transform_points (List.length (f_prs f)) 0 (get_extra_fields f) ops (i_open tail)) bs o ->
  leaves (transform_tool stod t noise cs seed (header_bytes h ++ tail)) (header_bytes h ++ bs) o.
Proof.
  intros cs f h tail Hf Hc He Hh Hcs ops bs o Hops Hl.
  destruct (get_header_spec f Hf He) as (h' & Hh' & Hgh & Hw & Hx & Htot & Hcomp & Hsig). rewrite Hh in Hh'. injection Hh' as <-.
  unfold transform_tool. destruct cs as [|c cs']; [congruence|]. set (cs := c :: cs') in *.
  unfold transform_apply, read_header_uncompressed. rewrite (read_header_round_trip h tail Hgh). cbn [bind].
  rewrite Hcomp, Hc. cbn [b2z Z.eqb negb]. intros s Hs. unfold w_bind at 1, w_lift at 1.
  apply leaves_seq; [now apply write_header_emits| |exact Hs].
  intros s' Hs'. unfold w_bind, w_lift. rewrite Hx, Hops, Htot.
  replace (Z.to_nat (zlen (f_prs f))) with (List.length (f_prs f)) by (unfold zlen; lia). apply Hl. exact Hs'.
Qed.

(** ** C56 The file *)

Lemma transformed_good : forall f k cs prs', good_file f -> has_extras k (f_prs f) ->
  Forall2 (fun kp p' => applies (get_extra_fields f) cs (fst kp) (snd kp) p') (numbered 0 (f_prs f)) prs' ->
  good_file (with_prs f prs') /\ has_extras k prs' /\ get_extra_fields (with_prs f prs') = get_extra_fields f
  /\ List.length prs' = List.length (f_prs f).
Proof.
  intros f k cs prs' Hf Hk A. pose proof (Forall2_len _ _ _ A) as Ln. rewrite numbered_len in Ln.
  assert (X : forall p', In p' prs' -> exists p, In p (f_prs f) /\ pr_ok p' /\ List.length (rextra p') = List.length (rextra p)).
  { intros p' I. destruct Hf as [_ _ _ _ Hp _ _]. rewrite Forall_forall in Hp. clear - A I Hp stod_ok.
    remember (numbered 0 (f_prs f)) as l eqn:El.
    assert (Hl : forall kp, In kp l -> In (snd kp) (f_prs f)).
    { intros [k p] J. subst l. now apply numbered_in in J. }
    clear El. induction A as [|[j p] q l m R A IH]; [destruct I|]. destruct I as [->|I].
    - exists p. assert (P : In p (f_prs f)) by (apply (Hl (j, p)); now left). split; [exact P|].
      eapply applies_good; [exact R|]. now apply Hp.
    - apply IH; [exact I|]. intros kp J. apply Hl. now right. }
  assert (Hk' : has_extras k prs').
  { intros p' I. destruct (X p' I) as (p & P & _ & L). rewrite L. now apply Hk. }
  split; [|split; [exact Hk'|split; [|congruence]]].
  - destruct Hf as [A1 A2 A3 A4 A5 A6 A7]. split; cbn [f_major f_minor f_wkt f_prs with_prs]; auto.
    + apply Forall_forall. intros p' I. now destruct (X p' I) as (_ & _ & P & _).
    + intros p q P Q. apply Hk' in P, Q. lia.
    + rewrite <- Ln. exact A7.
  - unfold get_extra_fields. cbn [f_prs with_prs].
    destruct A as [|[j p] q l m R A]; [destruct (f_prs f); [reflexivity|discriminate Ln]|].
    destruct (f_prs f) as [|p0 ps]; [discriminate Ln|].
    pose proof (Hk' q (or_introl eq_refl)). pose proof (Hk p0 (or_introl eq_refl)). unfold zlen. lia.
Qed.

(** The bytes written for the file with the transformed records: the header is that of
    the input, record k is the result of the commands on record k of the input. *)
Theorem C56_file : forall z debug f k cs prs', good_file f -> f_compressed f = false ->
  has_extras k (f_prs f) -> k <= 255 -> cs <> [] -> understood (get_extra_fields f) cs ->
  Forall2 (fun kp p' => applies (get_extra_fields f) cs (fst kp) (snd kp) p') (numbered 0 (f_prs f)) prs' ->
  exists input output, appends (write_spoc_file z debug f) input
    /\ appends (transform_tool stod t noise cs seed input) output
    /\ appends (write_spoc_file z debug (with_prs f prs')) output
    /\ (k <= 123 -> read_spoc_file z (i_open output) = Ret (with_prs f prs', i_open [])).
Proof.
  intros z debug f k cs prs' Hf Hc Hk H255 Hcs Hu A.
  destruct (transformed_good f k cs prs' Hf Hk A) as (Hf' & Hk' & He' & Ln).
  assert (He : 0 <= get_extra_fields f <= 255 /\ (k <= 123 -> get_extra_fields f <= 123)).
  { unfold get_extra_fields. destruct (f_prs f) as [|p ps]; [lia|]. pose proof (Hk p (or_introl eq_refl)). unfold zlen. lia. }
  destruct (get_header_spec f Hf ltac:(lia)) as (h & Hh & Hgh & Hw & Hx & Htot & Hcomp & Hsig).
  destruct (understood_ops _ cs Hu) as (ops & Hops & Happ).
  assert (Hh' : get_header (with_prs f prs') = Ret h).
  { rewrite <- Hh. unfold get_header. change (f_wkt (with_prs f prs')) with (f_wkt f).
    change (f_major (with_prs f prs')) with (f_major f). change (f_minor (with_prs f prs')) with (f_minor f).
    change (f_compressed (with_prs f prs')) with (f_compressed f). rewrite He'. cbn [f_prs with_prs].
    unfold zlen. now rewrite Ln. }
  exists (header_bytes h ++ prs_bytes (f_prs f)), (header_bytes h ++ prs_bytes prs').
  split; [apply emits_appends, write_file_uncompressed_emits; auto; apply Hf|].
  split; [|split].
  - apply emits_appends. intros s Hs.
    apply (transform_reads cs f h (prs_bytes (f_prs f)) Hf Hc ltac:(lia) Hh Hcs ops (prs_bytes prs') (Ret tt) Hops); [|exact Hs].
    pose proof (transform_points_run (get_extra_fields f) ops (f_prs f) 0 prs' 0 []) as R.
    rewrite !app_nil_r, Nat.add_0_r in R.
    rewrite <- (app_nil_r (prs_bytes prs')). apply R.
    + apply Hf.
    + apply Forall_forall. intros p P. destruct (f_prs f) as [|p0 ps] eqn:Ep; [destruct P|].
      unfold get_extra_fields. rewrite Ep. unfold zlen. rewrite (Hk p P). pose proof (Hk p0 (or_introl eq_refl)). lia.
    + lia.
    + unfold all_run. clear - A Happ. induction A as [|kp p' l m R A IH]; constructor; [now apply Happ|exact IH].
    + intros s' Hs'. cbn [transform_points]. rewrite os_write_nil by exact Hs'. reflexivity.
  - apply emits_appends, write_file_uncompressed_emits; auto. apply Hf'.
  - intros H123. rewrite <- (app_nil_r (header_bytes h ++ prs_bytes prs')), <- app_assoc.
    apply (read_file_of_uncompressed_bytes z (with_prs f prs') h []); auto; [rewrite He'; lia|constructor].
Qed.

(** Two runs are one run with both lists of commands. *)
Theorem C56_two_runs : forall z debug f k cs1 cs2 prs1 prs2, good_file f -> f_compressed f = false ->
  has_extras k (f_prs f) -> k <= 255 -> cs1 <> [] -> cs2 <> [] -> understood (get_extra_fields f) (cs1 ++ cs2) ->
  Forall2 (fun kp p' => applies (get_extra_fields f) cs1 (fst kp) (snd kp) p') (numbered 0 (f_prs f)) prs1 ->
  Forall2 (fun kp p' => applies (get_extra_fields f) cs2 (fst kp) (snd kp) p') (numbered 0 prs1) prs2 ->
  exists input middle output, appends (write_spoc_file z debug f) input
    /\ appends (transform_tool stod t noise cs1 seed input) middle
    /\ appends (transform_tool stod t noise cs2 seed middle) output
    /\ appends (transform_tool stod t noise (cs1 ++ cs2) seed input) output.
Proof.
  intros z debug f k cs1 cs2 prs1 prs2 Hf Hc Hk H255 N1 N2 U A1 A2.
  assert (D : forall w a b, appends w a -> appends w b -> a = b).
  { intros w a b Ha Hb. destruct (Ha o_open) as (s1 & E1 & _ & B1); [split; reflexivity|].
    destruct (Hb o_open) as (s2 & E2 & _ & B2); [split; reflexivity|]. rewrite E1 in E2. injection E2 as <-.
    cbn in B1, B2. congruence. }
  destruct (transformed_good f k cs1 prs1 Hf Hk A1) as (Hf1 & Hk1 & He1 & Ln1).
  destruct (C56_file z debug f k cs1 prs1) as (input & middle & I & M & W1 & _); auto.
  { intros c C. apply U, in_or_app. now left. }
  destruct (C56_file z debug (with_prs f prs1) k cs2 prs2) as (m' & output & M' & O & W2 & _); auto.
  { rewrite He1. intros c C. apply U, in_or_app. now right. }
  { rewrite He1. exact A2. }
  assert (A : Forall2 (fun kp p' => applies (get_extra_fields f) (cs1 ++ cs2) (fst kp) (snd kp) p') (numbered 0 (f_prs f)) prs2).
  { assert (T : forall e k p q r, applies e cs1 k p q -> applies e cs2 k q r -> applies e (cs1 ++ cs2) k p r).
    { clear. intros e k p q r H. induction H as [|c cs op k p p1 p2 O E A IH]; intros B; [exact B|].
      cbn [app]. econstructor; [exact O|exact E|]. now apply IH. }
    clear - A1 A2 T. revert A1 A2. generalize (get_extra_fields f) as e. generalize 0 as i. generalize (f_prs f) as prs.
    intros prs i e A1. revert prs2. remember (numbered i prs) as l eqn:El. revert i prs El.
    induction A1 as [|kp q l m R A1 IH]; intros i prs El prs2 A2.
    - destruct prs; [|discriminate El]. inversion A2. constructor.
    - destruct prs as [|p prs]; [discriminate El|]. injection El as -> ->. inversion A2 as [|a b c d R2 A3]; subst.
      constructor; [eapply T; [exact R|exact R2]|]. eapply IH; [reflexivity|exact A3]. }
  destruct (C56_file z debug f k (cs1 ++ cs2) prs2) as (i' & o' & I' & O' & W' & _); auto.
  { destruct cs1; [congruence|discriminate]. }
  assert (middle = m') as <- by (eapply D; eassumption). assert (input = i') as <- by (eapply D; eassumption).
  change (with_prs (with_prs f prs1) prs2) with (with_prs f prs2) in W2.
  assert (output = o') as <- by (eapply D; eassumption).
  exists input, middle, output. auto.
Qed.

(** Whatever the input and the commands: the program ends, with success, an exception, or
    a conversion of a number out of the range of an integer. *)
Theorem C56_ends : forall cs input os, match snd (transform_tool stod t noise cs seed input os) with
  | Ret _ | Throw _ | UB ub_float_to_int => True
  | _ => False
  end.
Proof.
  intros cs input os. unfold transform_tool. destruct cs as [|c0 cs']; [exact I|]. generalize (c0 :: cs'). clear cs'. intros cs.
  unfold transform_apply. unfold w_bind at 1, w_lift at 1. unfold read_header_uncompressed.
  destruct (read_header_total (i_open input)) as [(h & s & ->)|(x & ->)]; cbn [bind]; [|exact I].
  destruct (negb (h_compressed h =? 0)); cbn [snd]; [exact I|].
  unfold w_seq. unfold w_bind at 1. destruct (write_header h os) as [os1 [[]|x|u|]] eqn:W.
  2,3,4: unfold write_header in W; destruct (check_signature h); cbn [negb] in W;
    repeat (unfold w_seq at 1, w_bind at 1, w_put at 1 in W); unfold w_put, w_lift in W; try discriminate W.
  2: exact I.
  unfold w_bind, w_lift.
  assert (G : (exists ops, mapM (get_op stod t noise seed (h_extra h)) cs = Ret ops
                /\ forall op, In op ops -> exists c, get_op stod t noise seed (h_extra h) c = Ret op)
              \/ exists w, mapM (get_op stod t noise seed (h_extra h)) cs = Throw (runtime_error w)).
  { clear W. induction cs as [|c cs IH]; [left; exists []; split; [reflexivity|intros op []]|]. cbn [mapM].
    pose proof (get_op_total stod t noise seed (h_extra h) c) as T.
    destruct (get_op stod t noise seed (h_extra h) c) as [op|[]|u|] eqn:O; try contradiction; cbn [bind]; [|eauto].
    destruct IH as [(ops & -> & H)|(w & ->)]; cbn [bind]; [left|eauto].
    exists (op :: ops). split; [reflexivity|]. intros o [<-|I]; eauto. }
  destruct G as [(ops & -> & H)|(w & ->)]; [|exact I].
  generalize (Z.to_nat (h_total h)) as n, 0 as k. intros n. clear W. revert s os1. clear - H.
  assert (K : forall m s k os, match snd (transform_points m k (h_extra h) ops s os) with Ret _ | Throw _ | UB ub_float_to_int => True | _ => False end).
  { induction m as [|m IH]; intros s k os; cbn [transform_points]; [exact I|].
    unfold w_bind at 1, w_lift at 1. unfold read_point_record.
    destruct (PTRDIFF_MAX <? h_extra h * 8); [exact I|].
    match goal with |- context [let '(got, s) := is_read ?a ?b in _] => destruct (is_read a b) as [got s1] end.
    assert (C : forall p s', match snd (w_bind (w_lift (Ret (p, s'))) (fun '(p, s) => w_bind (w_lift (run_ops ops k p)) (fun p' =>
      w_seq (write_point_record p') (transform_points m (k + 1) (h_extra h) ops s))) os) with Ret _ | Throw _ | UB ub_float_to_int => True | _ => False end).
    { intros p s'. unfold w_bind at 1, w_lift at 1. unfold w_bind at 1, w_lift at 1.
      pose proof (run_ops_ends stod t noise seed (h_extra h) ops k p H) as E.
      destruct (run_ops ops k p) as [p'|x|u|]; [|exact I|exact E|exact E].
      unfold w_seq, w_bind. destruct (write_point_record p' os) as [os2 [[]|x|u|]] eqn:W; [apply IH|exact I| |].
      all: unfold write_point_record, w_seq, w_bind, w_put, w_ret in W; destruct (negb _); discriminate W. }
    match goal with |- context [if ?b then _ else _] => destruct b end;
      [match goal with |- context [let '(got, s) := is_read ?a ?b in _] => destruct (is_read a b) as [gote s2] end|];
    apply C. }
  intros s os1 k. apply K.
Qed.

(** ** C59 Failures *)

(** Finding: the header has been written when the commands are checked.  With any command
    that is not understood, the output is the header and nothing else. *)
Theorem C59_bad_command : forall z debug f k cs, good_file f -> f_compressed f = false ->
  has_extras k (f_prs f) -> k <= 255 -> ~ understood (get_extra_fields f) cs ->
  exists h hb input what, appends (write_spoc_file z debug f) input
    /\ get_header f = Ret h /\ header_layout h hb
    /\ forall os, healthy os -> exists os', transform_tool stod t noise cs seed input os = (os', Throw (runtime_error what))
         /\ o_bytes os' = o_bytes os ++ hb.
Proof.
  intros z debug f k cs Hf Hc Hk H255 U.
  assert (He : 0 <= get_extra_fields f <= 255).
  { unfold get_extra_fields. destruct (f_prs f) as [|p ps]; [lia|]. pose proof (Hk p (or_introl eq_refl)). unfold zlen. lia. }
  destruct (get_header_spec f Hf ltac:(lia)) as (h & Hh & Hgh & Hw & Hx & Htot & Hcomp & Hsig).
  assert (G : exists w, mapM (get_op stod t noise seed (get_extra_fields f)) cs = Throw (runtime_error w)).
  { clear - U. revert U. induction cs as [|c cs IH]; intros U; [exfalso; apply U; intros c []|]. cbn [mapM].
    pose proof (get_op_total stod t noise seed (get_extra_fields f) c) as T.
    destruct (get_op stod t noise seed (get_extra_fields f) c) as [op|[]|u|] eqn:O; try contradiction; cbn [bind]; [|eauto].
    destruct IH as (w & ->); [|cbn [bind]; eauto]. intros H. apply U. intros x [<-|I]; [eauto|]. now apply H. }
  destruct G as (what & G).
  exists h, (header_bytes h), (header_bytes h ++ prs_bytes (f_prs f)), what.
  split; [apply emits_appends, write_file_uncompressed_emits; auto; apply Hf|].
  split; [exact Hh|]. split; [now apply header_bytes_layout|]. intros os Ho.
  unfold transform_tool. destruct cs as [|c cs']; [exfalso; apply U; intros c []|]. set (cs := c :: cs') in *.
  unfold transform_apply, read_header_uncompressed. rewrite (read_header_round_trip h _ Hgh). cbn [bind].
  rewrite Hcomp, Hc. cbn [b2z Z.eqb negb]. unfold w_bind at 1, w_lift at 1.
  assert (L : leaves (w_seq (write_header h) (w_bind (w_lift (mapM (get_op stod t noise seed (h_extra h)) cs)) (fun ops =>
     transform_points (Z.to_nat (h_total h)) 0 (h_extra h) ops (i_open (prs_bytes (f_prs f)))))) (header_bytes h) (Throw (runtime_error what))).
  { rewrite <- (app_nil_r (header_bytes h)). apply leaves_seq; [now apply write_header_emits|].
    intros s Hs. unfold w_bind, w_lift. rewrite Hx, G. now rewrite os_write_nil. }
  destruct (leaves_good _ _ _ _ L Ho) as (os' & E & _ & B). exists os'. auto.
Qed.

(** When a command fails on a record, the header and the records before it have been
    written. *)
Theorem C59_bad_record : forall z debug f k before p after cs1 c cs2 op p1 x prs', good_file f -> f_compressed f = false ->
  has_extras k (f_prs f) -> k <= 255 -> understood (get_extra_fields f) (cs1 ++ c :: cs2) ->
  f_prs f = before ++ p :: after ->
  Forall2 (fun kp p' => applies (get_extra_fields f) (cs1 ++ c :: cs2) (fst kp) (snd kp) p') (numbered 0 before) prs' ->
  applies (get_extra_fields f) cs1 (Z.of_nat (List.length before)) p p1 ->
  get_op stod t noise seed (get_extra_fields f) c = Ret op -> op (Z.of_nat (List.length before)) p1 = Throw x ->
  exists h hb input recs, appends (write_spoc_file z debug f) input
    /\ get_header f = Ret h /\ header_layout h hb /\ Forall2 record_layout prs' recs
    /\ forall os, healthy os -> exists os', transform_tool stod t noise (cs1 ++ c :: cs2) seed input os = (os', Throw x)
         /\ o_bytes os' = o_bytes os ++ hb ++ concat recs.
Proof.
  intros z debug f k before p after cs1 c cs2 op p1 x prs' Hf Hc Hk H255 U Ep A A1 O Ex.
  assert (He : 0 <= get_extra_fields f <= 255).
  { unfold get_extra_fields. destruct (f_prs f) as [|p0 ps]; [lia|]. pose proof (Hk p0 (or_introl eq_refl)). unfold zlen. lia. }
  assert (Hx0 : Forall (fun p => zlen (rextra p) = get_extra_fields f) (f_prs f)).
  { apply Forall_forall. intros q P. unfold get_extra_fields. destruct (f_prs f) as [|p0 ps] eqn:E; [destruct P|].
    unfold zlen. rewrite (Hk q P). pose proof (Hk p0 (or_introl eq_refl)). lia. }
  destruct (get_header_spec f Hf ltac:(lia)) as (h & Hh & Hgh & Hw & Hx & Htot & Hcomp & Hsig).
  destruct (understood_ops _ _ U) as (ops & Hops & Happ).
  assert (Hok : forall q, In q prs' -> pr_ok q).
  { destruct Hf as [_ _ _ _ Hp _ _]. rewrite Forall_forall in Hp. intros q Q.
    assert (Hl : forall kp, In kp (numbered 0 before) -> In (snd kp) (f_prs f)).
    { intros [j r] J. apply numbered_in in J. rewrite Ep. apply in_or_app. now left. }
    clear - A Hl Hp Q stod_ok. induction A as [|[j r] q' l m R A IH]; [destruct Q|]. destruct Q as [->|Q].
    - eapply applies_good; [exact R|]. apply Hp. apply (Hl (j, r)). now left.
    - apply IH; [exact Q|]. intros kp J. apply Hl. now right. }
  exists h, (header_bytes h), (header_bytes h ++ prs_bytes (f_prs f)), (map pr_bytes prs').
  split; [apply emits_appends, write_file_uncompressed_emits; auto; apply Hf|].
  split; [exact Hh|]. split; [now apply header_bytes_layout|].
  split. { clear - Hok. induction prs' as [|q l IH]; constructor; [apply pr_bytes_layout, Hok; now left|apply IH; intros; apply Hok; now right]. }
  intros os Ho.
  assert (RX : run_ops ops (Z.of_nat (List.length before)) p = Throw x).
  { clear - Hops A1 O Ex. revert ops Hops. induction A1 as [k p|c' cs op' k p p1' p2 O' E A1 IH]; intros ops Hops; cbn [app mapM] in Hops.
    - rewrite O in Hops. cbn [bind] in Hops. destruct (mapM _ cs2) as [l| | |]; try discriminate Hops. injection Hops as <-.
      cbn [run_ops]. now rewrite Ex.
    - rewrite O' in Hops. cbn [bind] in Hops. destruct (mapM _ (cs ++ c :: cs2)) as [l| | |] eqn:El; try discriminate Hops. injection Hops as <-.
      cbn [run_ops]. rewrite E. cbn [bind]. now apply IH. }
  assert (L : leaves (transform_tool stod t noise (cs1 ++ c :: cs2) seed (header_bytes h ++ prs_bytes (f_prs f)))
                     (header_bytes h ++ prs_bytes prs' ++ []) (Throw x)).
  { apply (transform_reads _ f h _ Hf Hc ltac:(lia) Hh) with (ops := ops); [destruct cs1; discriminate|exact Hops|].
    rewrite Ep. unfold prs_bytes at 1. rewrite flat_map_app. cbn [flat_map]. rewrite app_length. cbn [List.length].
    rewrite Ep in Hx0. destruct Hf as [_ _ _ _ Hp _ _]. rewrite Ep in Hp.
    apply Forall_app in Hx0 as [X1 X2]. apply Forall_app in Hp as [P1 P2]. inversion X2; subst. inversion P2; subst.
    apply (transform_points_run (get_extra_fields f) ops before 0 prs'); [assumption|assumption|lia| |].
    - unfold all_run. clear - A Happ. induction A as [|kp p' l m R A IH]; constructor; [now apply Happ|exact IH].
    - cbn [Z.add]. change (0 + zlen before) with (zlen before).
      pose proof (transform_points_stop (get_extra_fields f) ops p (zlen before) (List.length after) (flat_map pr_bytes after)) as S.
      change (Z.of_nat (List.length before)) with (zlen before) in RX. rewrite RX in S. apply S; [assumption|assumption|assumption|].
      intros p' Q. discriminate Q. }
  destruct (leaves_good _ _ _ _ L Ho) as (os' & E & _ & B). exists os'. split; [exact E|].
  rewrite B, app_nil_r. unfold prs_bytes. now rewrite flat_map_concat_map.
Qed.

(** Without a command nothing is written; a compressed file is refused before anything is
    written. *)
Theorem C59_nothing_written : forall cs input os,
  cs = [] \/ (exists h s, read_header (i_open input) = Ret (h, s) /\ h_compressed h <> 0) ->
  exists what, transform_tool stod t noise cs seed input os = (os, Throw (runtime_error what)).
Proof.
  intros cs input os [->|(h & s & Hh & Hc)]; [eexists; reflexivity|].
  unfold transform_tool. destruct cs; [eexists; reflexivity|].
  unfold transform_apply, read_header_uncompressed, w_bind, w_lift. rewrite Hh. cbn [bind].
  destruct (Z.eqb_spec (h_compressed h) 0); [contradiction|]. eexists. reflexivity.
Qed.

End Files.

(** ** Examples *)

(** "1" and "-1", "2"; the oracle for the rotation is a quarter turn *)
Definition tx_stod : stod_fn := fun s => match s with
  | 49 :: _ => Some (d_one, 1)
  | 50 :: _ => Some (4611686018427387904, 1)
  | 45 :: 49 :: _ => Some (13830554455654793216, 2)
  | _ => None
  end.
Definition tx_trig : trig := mk_trig (fun _ => d_zero) (fun _ => d_one).
Definition tx_noise : noise_fn := fun _ _ _ _ _ => d_one.
Definition tx_cmd (n p : string) : command := mk_command (chars n) (chars p).

Lemma tx_stod_ok : forall s v n, tx_stod s = Some (v, n) -> d_ok v.
Proof.
  intros s v n. unfold tx_stod, d_ok. repeat match goal with |- context [match ?x with _ => _ end] => destruct x end;
    intros [= <- <-]; now vm_compute.
Qed.

Definition tx_p : point_record := mk_pr d_one d_zero d_one 2 3 4 5 6 7 [8; 9].

Lemma tx_decimal : forall c u, digit c -> Forall digit u -> (c = 48 -> u = []) -> decimal (number (c :: u)) (c :: u).
Proof.
  intros c u Dc Du Hz. split; [discriminate|]. split; [now constructor|]. split; [reflexivity|]. cbn [hd].
  intros ->. now rewrite Hz.
Qed.

(** The hypotheses on the texts are met. *)
Example tx_texts : names FI (chars "i") /\ names (FE 1) (chars "e1") /\ Forall alphanumeric (chars "e1") /\ Forall alphanumeric (chars "i")
  /\ integer_field (FE 1) /\ integer_field FI /\ ~ alphanumeric 44 /\ ~ digit 44 /\ int_text 9 (chars "9") /\ int_text (-3) (chars "-3")
  /\ separated [chars "9"; chars "-3"] (chars "9,-3").
Proof.
  assert (D : forall c, 48 <= c <= 57 -> decimal (number [c]) [c]) by (intros c C; apply tx_decimal; [exact C|constructor|reflexivity]).
  change (chars "e1") with [101; 49]. change (chars "i") with [105]. change (chars "9") with [57]. change (chars "-3") with [45; 51].
  split; [reflexivity|]. split.
  { split; [lia|]. exists (chars "1"). split; [reflexivity|].
    exists [], [], [49], []. split; [reflexivity|]. split; [constructor|].
    split; [constructor; [unfold digit; lia|constructor]|]. split; [discriminate|]. split; [intros c u Q; discriminate Q|].
    left. split; [now left|reflexivity]. }
  split; [constructor; [unfold alphanumeric; lia|constructor; [unfold alphanumeric; lia|constructor]]|].
  split; [constructor; [unfold alphanumeric; lia|constructor]|].
  split; [intros [Q|[Q|[Q|[]]]]; discriminate Q|]. split; [intros [Q|[Q|[Q|[]]]]; discriminate Q|]. split; [unfold alphanumeric; lia|]. split; [unfold digit; lia|].
  split; [apply (D 57); lia|]. split; [exists [51]; split; [reflexivity|apply (D 51); lia]|].
  apply (sep_more [57] 44 _ [45; 51]); [unfold digit; lia|constructor].
Qed.

Definition tx_run (n p : string) : outcome point_record :=
  op <- get_op tx_stod tx_trig tx_noise 0 2 (tx_cmd n p) ;; op 0 tx_p.

Example C57_example :
  tx_run "replace" "e1,9,-3" = Ret (mk_pr d_one d_zero d_one 2 3 4 5 6 7 [8; 4294967293])
  /\ tx_run "replace" "e0,9,-3" = Ret tx_p
  /\ tx_run "replace" "i,4,65537" = Ret (mk_pr d_one d_zero d_one 2 3 1 5 6 7 [8; 9])
  /\ tx_run "replace" "e2,9,-3" = Throw (runtime_error "Invalid extra field specification").
Proof. vm_compute. repeat split. Qed.

Example C58_example :
  tx_run "replace-not" "i,5,6" = Ret (mk_pr d_one d_zero d_one 6 3 4 5 6 7 [8; 9])
  /\ tx_run "replace-not" "i,5,4,6" = Ret tx_p
  /\ tx_run "replace-not" "e1,5,-1" = Ret (mk_pr d_one d_zero d_one 2 3 4 5 6 7 [8; 18446744073709551615])
  /\ tx_run "replace-not" "e2,5,-1" = Throw (runtime_error "Invalid extra field specification").
Proof. vm_compute. repeat split. Qed.

Example C60_example :
  tx_run "set" "x,2" = Ret (mk_pr 4611686018427387904 d_zero d_one 2 3 4 5 6 7 [8; 9])
  /\ tx_run "set" "e1,2" = Ret (mk_pr d_one d_zero d_one 2 3 4 5 6 7 [8; 2])
  /\ tx_run "set" "i,-1" = UB ub_float_to_int
  /\ tx_run "set" "e2,1" = Throw (runtime_error "Invalid extra field specification").
Proof. vm_compute. repeat split. Qed.

Example C56_example :
  tx_run "copy-field" "e1,i" = Ret (mk_pr d_one d_zero d_one 2 3 9 5 6 7 [8; 9])
  /\ tx_run "add-x" "1" = Ret (mk_pr 4611686018427387904 d_zero d_one 2 3 4 5 6 7 [8; 9])
  /\ tx_run "rotate-z" "1" = Ret (mk_pr d_zero d_one d_one 2 3 4 5 6 7 [8; 9])
  /\ tx_run "quantize-xyz" "2" = Ret (mk_pr d_zero d_zero d_zero 2 3 4 5 6 7 [8; 9])
  /\ tx_run "gaussian-noise" "1" = Ret (mk_pr 4611686018427387904 d_one 4611686018427387904 2 3 4 5 6 7 [8; 9]).
Proof. vm_compute. repeat split. Qed.

(** A file of three records, transformed by two commands; the second fails on the third
    record. *)
Definition tx_file (prs : list point_record) : spoc_file := mk_file 0 1 [65] false prs.

Example C56_file_example : let prs := [tx_p; set_c 9 tx_p] in let f := tx_file prs in
  let cs := [tx_cmd "set" "c,2"; tx_cmd "add-y" "1"] in
  let prs' := [set_y d_one tx_p; set_y d_one tx_p] in
  good_file f /\ f_compressed f = false /\ has_extras 2 (f_prs f) /\ cs <> [] /\ understood tx_stod tx_trig tx_noise 7 (get_extra_fields f) cs
  /\ Forall2 (fun kp p' => applies tx_stod tx_trig tx_noise 7 (get_extra_fields f) cs (fst kp) (snd kp) p') (numbered 0 (f_prs f)) prs'.
Proof.
  cbv zeta. split; [|split; [reflexivity|split; [|split; [discriminate|split]]]].
  - split; cbn; try lia; try reflexivity; [repeat constructor; lia| |].
    + repeat constructor; cbn; unfold d_ok; try lia; now vm_compute.
    + intros p q P Q. cbn in P, Q. intuition subst; reflexivity.
  - intros p P. cbn in P. intuition subst; reflexivity.
  - intros c C. cbn in C. destruct C as [<-|[<-|[]]]; eexists; reflexivity.
  - repeat constructor; cbn [fst snd numbered].
    + eapply ap_next; [reflexivity|vm_compute; reflexivity|]. eapply ap_next; [reflexivity|vm_compute; reflexivity|constructor].
    + eapply ap_next; [reflexivity|vm_compute; reflexivity|]. eapply ap_next; [reflexivity|vm_compute; reflexivity|constructor].
Qed.

Example C59_example : let f := tx_file [tx_p] in
  ~ understood tx_stod tx_trig tx_noise 7 (get_extra_fields f) [tx_cmd "add-y" "1"; tx_cmd "add-w" "1"]
  /\ understood tx_stod tx_trig tx_noise 7 (get_extra_fields f) [tx_cmd "set" "e2,1"]
  /\ (exists op what, get_op tx_stod tx_trig tx_noise 7 (get_extra_fields f) (tx_cmd "set" "e2,1") = Ret op /\ op 0 tx_p = Throw (runtime_error what)).
Proof.
  cbv zeta. split; [|split].
  - intros H. destruct (H (tx_cmd "add-w" "1")) as (op & O); [cbn; auto|]. vm_compute in O. discriminate O.
  - intros c [<-|[]]. eexists. reflexivity.
  - eexists. eexists. split; [reflexivity|]. vm_compute. reflexivity.
Qed.

Example C59_nothing_example : transform_tool tx_stod tx_trig tx_noise [] 0 [] o_open = (o_open, Throw (runtime_error "No command was specified")).
Proof. reflexivity. Qed.

Print Assumptions C57_replace.
Print Assumptions C57_replace_in_range.
Print Assumptions C58_replace_not.
Print Assumptions C58_one_value.
Print Assumptions C60_set.
Print Assumptions C56_copy_field.
Print Assumptions C56_numbers.
Print Assumptions C56_quantize.
Print Assumptions C56_noise.
Print Assumptions C56_noise_axis.
Print Assumptions C56_frame.
Print Assumptions C56_file.
Print Assumptions C56_two_runs.
Print Assumptions C56_ends.
Print Assumptions C59_bad_command.
Print Assumptions C59_bad_record.
Print Assumptions C59_nothing_written.
