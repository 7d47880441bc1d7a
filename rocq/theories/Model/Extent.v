(** Model of spoc/extent.h. *)
From Coq Require Import ZArith List Bool.
From Verif.Model Require Import Base Double Arith PointRecord Point.
Import ListNotations.
Open Scope Z_scope.
Open Scope outcome_scope.

(** spoc/extent.h:15-19 *)
Record extent : Type := mk_ext { minp : point; maxp : point }.

(** spoc/extent.h:21-26 *)
Definition get_volume (e : extent) : double :=
  d_mul (d_mul (d_sub (px (maxp e)) (px (minp e))) (d_sub (py (maxp e)) (py (minp e))))
        (d_sub (pz (maxp e)) (pz (minp e))).

(** spoc/extent.h:28-32 *)
Definition get_area (e : extent) : double :=
  d_mul (d_sub (px (maxp e)) (px (minp e))) (d_sub (py (maxp e)) (py (minp e))).

(** spoc/extent.h:37-42, the starting values *)
Definition extent_start : extent :=
  mk_ext (mk_pt d_max d_max d_max) (mk_pt d_lowest d_lowest d_lowest).

(** spoc/extent.h:43-51, the loop body; the argument order of [std::min] and
    [std::max] matters for NaN *)
Definition extent_step (e : extent) (p : point) : extent :=
  mk_ext (mk_pt (d_min (px p) (px (minp e))) (d_min (py p) (py (minp e))) (d_min (pz p) (pz (minp e))))
         (mk_pt (d_max2 (px p) (px (maxp e))) (d_max2 (py p) (py (maxp e))) (d_max2 (pz p) (pz (maxp e)))).

(** spoc/extent.h:34-53 *)
Definition get_extent (points : list point) : extent := fold_left extent_step points extent_start.

(** spoc/extent.h:56-62 *)
Definition all_less_equal (a b : point) : bool :=
  if d_gtb (px a) (px b) then false
  else if d_gtb (py a) (py b) then false
  else if d_gtb (pz a) (pz b) then false
  else true.

(** spoc/extent.h:64-81 *)
Definition get_total_extent (e1 e2 : extent) : extent :=
  mk_ext (mk_pt (d_min (px (minp e1)) (px (minp e2))) (d_min (py (minp e1)) (py (minp e2)))
                (d_min (pz (minp e1)) (pz (minp e2))))
         (mk_pt (d_max2 (px (maxp e1)) (px (maxp e2))) (d_max2 (py (maxp e1)) (py (maxp e2)))
                (d_max2 (pz (maxp e1)) (pz (maxp e2)))).

(** spoc/extent.h:83-86 *)
Definition ext_eqb (a b : extent) : bool := pt_eqb (minp a) (minp b) && pt_eqb (maxp a) (maxp b).

(** spoc/extent.h:90-96 *)
Definition encode_extent (e : extent) : list Z * list Z := (encode_point (minp e), encode_point (maxp e)).

(** spoc/extent.h:98-104 *)
Definition decode_extent (bytes : list Z * list Z) : outcome extent :=
  a <- decode_point (fst bytes) ;;
  b <- decode_point (snd bytes) ;;
  Ret (mk_ext a b).

(** spoc/extent.h:106: 2^62 as a double *)
Definition max_value : double := 4886405595696988160.

(** spoc/extent.h:108-117, one coordinate: [(p - minp) * max_value / s] converted
    to [uint64_t] *)
Definition rescale1 (p s minv : double) : outcome Z :=
  d_to_size (d_div (d_mul (d_sub p minv) max_value) s).
Definition rescale_point (p s m : point) : outcome point :=
  x <- rescale1 (px p) (px s) (px m) ;;
  y <- rescale1 (py p) (py s) (py m) ;;
  z <- rescale1 (pz p) (pz s) (pz m) ;;
  Ret (mk_pt x y z).

(** spoc/extent.h:119-128, one coordinate: [p * s / max_value + minp], where the
    [uint64_t] is first converted to [double] *)
Definition restore1 (p : Z) (s minv : double) : double :=
  d_add (d_div (d_mul (d_of_z p) s) max_value) minv.
Definition restore_point (p s m : point) : point :=
  mk_pt (restore1 (px p) (px s) (px m)) (restore1 (py p) (py s) (py m)) (restore1 (pz p) (pz s) (pz m)).

(** spoc/extent.h:130-140 (release build) *)
Definition rescale (p : list point) (e : extent) : outcome (list point) :=
  let s := pt_sub (maxp e) (minp e) in
  mapM (fun q => rescale_point q s (minp e)) p.

(** spoc/extent.h:142-152 (release build) *)
Definition restore (p : list point) (e : extent) : list point :=
  let s := pt_sub (maxp e) (minp e) in
  map (fun q => restore_point q s (minp e)) p.
