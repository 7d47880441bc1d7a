(** Model of spoc/point.h and of the hash functions of spoc/utils.h. *)
From Coq Require Import ZArith List Bool.
From Verif.Model Require Import Base Double Arith PointRecord.
Import ListNotations.
Open Scope Z_scope.
Open Scope outcome_scope.

(** spoc/point.h:18-24 at [T = double]; the instance at [uint64_t] is used by
    [rescale] only and has the same shape *)
Record point : Type := mk_pt { px : Z; py : Z; pz : Z }.

Definition pt_ok (p : point) : Prop := d_ok (px p) /\ d_ok (py p) /\ d_ok (pz p).

(** The location of a record ([p.x], [p.y], [p.z]); the templates below take
    point and point_record alike. *)
Definition pr_pt (p : point_record) : point := mk_pt (rx p) (ry p) (rz p).

(** spoc/point.h:45-52 *)
Definition pt_eqb (a b : point) : bool :=
  if d_neb (px a) (px b) then false
  else if d_neb (py a) (py b) then false
  else if d_neb (pz a) (pz b) then false
  else true.

(** spoc/point.h:59-63 *)
Definition pt_neb (a b : point) : bool := negb (pt_eqb a b).

(** spoc/point.h:70-77 and 84-89 *)
Definition pt_sub (a b : point) : point :=
  mk_pt (d_sub (px a) (px b)) (d_sub (py a) (py b)) (d_sub (pz a) (pz b)).

(** spoc/point.h:96-103 and 110-115 *)
Definition pt_add (a b : point) : point :=
  mk_pt (d_add (px a) (px b)) (d_add (py a) (py b)) (d_add (pz a) (pz b)).

(** spoc/point.h:136-146 *)
Definition pt_ltb (a b : point) : bool :=
  if d_ltb (px a) (px b) then true
  else if d_gtb (px a) (px b) then false
  else if d_ltb (py a) (py b) then true
  else if d_gtb (py a) (py b) then false
  else if d_ltb (pz a) (pz b) then true
  else if d_gtb (pz a) (pz b) then false
  else false.

(** spoc/point.h:148-152 *)
Definition append_double (d : double) (bytes : list Z) : list Z := bytes ++ le_bytes 8 d.

(** spoc/point.h:154-159: eight bytes from offset [off]; reading past the end is
    undefined *)
Definition bytes_to_double (bytes : list Z) (off : Z) : outcome double :=
  if off + 8 <=? zlen bytes then Ret (le_val (ztake 8 (zdrop off bytes))) else UB ub_index.

(** spoc/point.h:161-168 *)
Definition encode_point (p : point) : list Z :=
  append_double (pz p) (append_double (py p) (append_double (px p) [])).

(** spoc/point.h:170-177 *)
Definition decode_point (bytes : list Z) : outcome point :=
  x <- bytes_to_double bytes (0 * 8) ;;
  y <- bytes_to_double bytes (1 * 8) ;;
  z <- bytes_to_double bytes (2 * 8) ;;
  Ret (mk_pt x y z).

(** Memory image of a [point<double>]: three members of 8 bytes. *)
Definition point_image (p : point) : list Z := le_bytes 8 (px p) ++ le_bytes 8 (py p) ++ le_bytes 8 (pz p).
Definition point_size : Z := 24.

(** spoc/point.h:179-188; [&points[0]] on an empty vector is undefined *)
Definition encode_points (points : list point) : outcome (list Z) :=
  match points with
  | [] => UB ub_index
  | _ => Ret (flat_map point_image points)
  end.

(** The [n] points at the start of a byte array. *)
Fixpoint points_at (n : nat) (bytes : list Z) : list point :=
  match n with
  | O => []
  | S n' =>
    mk_pt (le_val (ztake 8 bytes)) (le_val (ztake 8 (zdrop 8 bytes))) (le_val (ztake 8 (zdrop 16 bytes)))
    :: points_at n' (zdrop point_size bytes)
  end.

(** spoc/point.h:190-203 (release build: the [assert] is not there) *)
Definition decode_points (bytes : list Z) : outcome (list point) :=
  match bytes with
  | [] => UB ub_index
  | _ => Ret (points_at (Z.to_nat (zlen bytes / point_size)) bytes)
  end.

(** spoc/point.h:259-267 *)
Definition distance (a b : point) : double :=
  let x_dis := d_sub (px a) (px b) in
  let y_dis := d_sub (py a) (py b) in
  let z_dis := d_sub (pz a) (pz b) in
  d_sqrt (d_add (d_add (d_mul x_dis x_dis) (d_mul y_dis y_dis)) (d_mul z_dis z_dis)).

(** ** Hashing *)

(** spoc/utils.h:11-15, [hv] is [std::hash<T>{}(v)] *)
Definition hash_value (seed hv : Z) : Z :=
  to_u64 (to_u64 (to_u64 (Z.shiftl seed 6) + Z.shiftr seed 2) + 2654435769 + hv).

(** spoc/utils.h:17-33 on the list of its arguments' [std::hash] values *)
Fixpoint hash_combine (seed : Z) (hvs : list Z) : Z :=
  match hvs with
  | [] => seed
  | hv :: t => hash_combine (Z.lxor seed (hash_value seed hv)) t
  end.

(** The [std::hash] functions of the element types. *)
Record hashes : Type := mk_hashes {
  hash_double : double -> Z;
  hash_u16 : Z -> Z;
  hash_u32 : Z -> Z;
  hash_u64 : Z -> Z
}.

(** spoc/point.h:28-38 *)
Definition point_hash (H : hashes) (p : point) : Z :=
  hash_combine 0 [hash_double H (px p); hash_double H (py p); hash_double H (pz p)].

(** spoc/point_record.h:99-117 *)
Definition point_record_hash (H : hashes) (p : point_record) : Z :=
  let h := hash_combine 0 [hash_double H (rx p); hash_double H (ry p); hash_double H (rz p)] in
  let h := hash_combine h [hash_u32 H (rc p); hash_u32 H (rp p)] in
  let h := hash_combine h [hash_u16 H (ri p); hash_u16 H (rr p); hash_u16 H (rg p); hash_u16 H (rb p)] in
  fold_left (fun h e => hash_combine h [hash_u64 H e]) (rextra p) h.
