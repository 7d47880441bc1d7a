(** Model of spoc/point_record.h. *)
From Coq Require Import ZArith List Bool String.
From Verif.Model Require Import Base Double.
Import ListNotations.
Open Scope Z_scope.
Open Scope outcome_scope.

(** spoc/point_record.h:14-25.  Coordinates are the bit patterns of doubles. *)
Record point_record : Type := mk_pr {
  rx : double;
  ry : double;
  rz : double;
  rc : Z;                  (* uint32_t classification *)
  rp : Z;                  (* uint32_t point ID *)
  ri : Z;                  (* uint16_t intensity/NIR *)
  rr : Z;                  (* uint16_t red *)
  rg : Z;                  (* uint16_t green *)
  rb : Z;                  (* uint16_t blue *)
  rextra : list Z          (* std::vector<uint64_t> *)
}.

(** The values the C++ types can hold. *)
Definition u16_ok (z : Z) : Prop := 0 <= z < two16.
Definition u32_ok (z : Z) : Prop := 0 <= z < two32.
Definition u64_ok (z : Z) : Prop := 0 <= z < two64.
Record pr_ok (p : point_record) : Prop := mk_pr_ok {
  ok_x : d_ok (rx p);
  ok_y : d_ok (ry p);
  ok_z : d_ok (rz p);
  ok_c : u32_ok (rc p);
  ok_p : u32_ok (rp p);
  ok_i : u16_ok (ri p);
  ok_r : u16_ok (rr p);
  ok_g : u16_ok (rg p);
  ok_b : u16_ok (rb p);
  ok_extra : Forall u64_ok (rextra p)
}.

(** spoc/point_record.h:50-56, constructor from a number of extra fields (with
    0 it is also the default constructor, 28-34) *)
Definition pr_zero (extra_fields : Z) : point_record :=
  mk_pr d_zero d_zero d_zero 0 0 0 0 0 0 (zrepeat 0 extra_fields).

(** spoc/point_record.h:35-41 *)
Definition pr_xyz (x y z : double) : point_record := mk_pr x y z 0 0 0 0 0 0 [].

(** [std::vector<uint64_t>::operator==] and other element-wise vector equality *)
Fixpoint vec_eqb {A} (eq : A -> A -> bool) (a b : list A) : bool :=
  match a, b with
  | [], [] => true
  | x :: a', y :: b' => eq x y && vec_eqb eq a' b'
  | _, _ => false
  end.

(** spoc/point_record.h:78-91, [operator==] *)
Definition pr_eqb (a b : point_record) : bool :=
  d_eqb (rx b) (rx a) && d_eqb (ry b) (ry a) && d_eqb (rz b) (rz a)
  && (rc b =? rc a) && (rp b =? rp a) && (ri b =? ri a)
  && (rr b =? rr a) && (rg b =? rg a) && (rb b =? rb a)
  && vec_eqb Z.eqb (rextra b) (rextra a).

(** Memory image of the first 40 bytes of the struct (the members x..b are
    contiguous and naturally aligned without padding on the platform). *)
Definition struct_image (p : point_record) : list Z :=
  le_bytes 8 (rx p) ++ le_bytes 8 (ry p) ++ le_bytes 8 (rz p)
  ++ le_bytes 4 (rc p) ++ le_bytes 4 (rp p)
  ++ le_bytes 2 (ri p) ++ le_bytes 2 (rr p) ++ le_bytes 2 (rg p) ++ le_bytes 2 (rb p).

Definition struct_size : Z := 40.

(** Memory image of a [std::vector<uint64_t>]'s elements. *)
Definition u64s_image (l : list Z) : list Z := flat_map (le_bytes 8) l.

(** Elements of [width] bytes found in a byte array. *)
Fixpoint words (n : nat) (width : nat) (bs : list Z) : list Z :=
  match n with
  | O => []
  | S n' => le_val (firstn width bs) :: words n' width (skipn width bs)
  end.

(** The record whose memory image is [img] (40 bytes) and [ext] (the elements
    of the extra vector). *)
Definition pr_of_image (img ext : list Z) (extra_fields : Z) : point_record :=
  let f off w := le_val (ztake w (zdrop off img)) in
  mk_pr (f 0 8) (f 8 8) (f 16 8) (f 24 4) (f 28 4) (f 32 2) (f 34 2) (f 36 2) (f 38 2)
        (words (Z.to_nat extra_fields) 8 ext).

(** spoc/point_record.h:130-144, [write_point_record] *)
Definition write_point_record (p : point_record) : writer unit :=
  w_seq (w_put (struct_image p))
        (if negb (zlen (rextra p) =? 0) then w_put (u64s_image (rextra p)) else w_ret tt).

(** spoc/point_record.h:147-162, [read_point_record].  [extra_fields * 8] is
    computed in [size_t]; the vector constructor throws when the byte size
    exceeds [PTRDIFF_MAX]. *)
Definition read_point_record (extra_fields : Z) (s : istream)
    : outcome (point_record * istream) :=
  if PTRDIFF_MAX <? extra_fields * 8 then Throw length_error
  else
    let p := pr_zero extra_fields in
    let '(got, s) := is_read struct_size s in
    let img := overwrite got (struct_image p) in
    if negb (zlen (rextra p) =? 0) then
      let '(gote, s) := is_read (zlen (rextra p) * 8) s in
      Ret (pr_of_image img (overwrite gote (u64s_image (rextra p))) extra_fields, s)
    else Ret (pr_of_image img [] extra_fields, s).

(** spoc/point_record.h:168-238, the column accessors.  Simplification: the
    loop filling a pre-sized vector at increasing indexes is [map]. *)
Definition get_x (prs : list point_record) : list double := map rx prs.
Definition get_y (prs : list point_record) : list double := map ry prs.
Definition get_z (prs : list point_record) : list double := map rz prs.
Definition get_c (prs : list point_record) : list Z := map rc prs.
Definition get_p (prs : list point_record) : list Z := map rp prs.
Definition get_i (prs : list point_record) : list Z := map ri prs.
Definition get_r (prs : list point_record) : list Z := map rr prs.
Definition get_g (prs : list point_record) : list Z := map rg prs.
Definition get_b (prs : list point_record) : list Z := map rb prs.

(** spoc/point_record.h:240-245 *)
Definition get_extra_fields_size (prs : list point_record) : Z :=
  match prs with [] => 0 | p :: _ => zlen (rextra p) end.

(** spoc/point_record.h:247-256.  The [assert] is a no-op in release builds,
    where an index out of range is undefined behaviour; in debug builds it
    aborts.  Both are [UB] here: no defined result. *)
Definition get_extra (k : Z) (prs : list point_record) : outcome (list Z) :=
  mapM (fun p => vec_get (rextra p) k) prs.

(** spoc/point_record.h:258-303 *)
Definition has_all_zero (f : point_record -> Z) (prs : list point_record) : bool :=
  negb (existsb (fun p => negb (f p =? 0)) prs).
Definition has_all_zero_c := has_all_zero rc.
Definition has_all_zero_p := has_all_zero rp.
Definition has_all_zero_i := has_all_zero ri.
Definition has_all_zero_r := has_all_zero rr.
Definition has_all_zero_g := has_all_zero rg.
Definition has_all_zero_b := has_all_zero rb.
Definition has_all_zero_rgb (prs : list point_record) : bool :=
  has_all_zero_r prs && has_all_zero_g prs && has_all_zero_b prs.
(** spoc/point_record.h:299-303: [pr.extra[n]] is unchecked and [any_of] stops at
    the first non-zero value. *)
Fixpoint has_all_zero_extra (n : Z) (prs : list point_record) : outcome bool :=
  match prs with
  | [] => Ret true
  | p :: t =>
    v <- vec_get (rextra p) n ;;
    if negb (v =? 0) then Ret false else has_all_zero_extra n t
  end.
