(** Model of spoc/utils.h (hashing is in Model/Point.v). *)
From Coq Require Import ZArith List Bool String.
From Verif.Model Require Import Base Double Arith PointRecord Point Extent.
Import ListNotations.
Open Scope Z_scope.
Open Scope outcome_scope.

(** spoc/utils.h:37-51, one coordinate: [static_cast<int> (x / precision) * precision] *)
Definition quantize1 (x precision : double) : outcome double :=
  n <- d_to_int (d_div x precision) ;; Ret (d_mul (d_of_z n) precision).

Definition quantize_point (precision : double) (p : point) : outcome point :=
  x <- quantize1 (px p) precision ;;
  y <- quantize1 (py p) precision ;;
  z <- quantize1 (pz p) precision ;;
  Ret (mk_pt x y z).

(** spoc/utils.h:37-51.  [debug]: [REQUIRE] throws when compiled without [NDEBUG]
    and is not there otherwise. *)
Definition quantize (debug : bool) (points : list point) (precision : double) : outcome (list point) :=
  if debug && negb (d_neb precision d_zero) then Throw (runtime_error "Contract failed")
  else mapM (quantize_point precision) points.

(** spoc/utils.h:54-67 *)
Definition get_center (points : list point) : point :=
  let c := fold_left pt_add points (mk_pt d_zero d_zero d_zero) in
  let n := d_of_z (zlen points) in
  mk_pt (d_div (px c) n) (d_div (py c) n) (d_div (pz c) n).

(** spoc/utils.h:77-85, the test *)
Definition outside (e : extent) (p : point) : bool :=
  d_ltb (px p) (px (minp e)) || d_ltb (py p) (py (minp e)) || d_ltb (pz p) (pz (minp e))
  || d_gtb (px p) (px (maxp e)) || d_gtb (py p) (py (maxp e)) || d_gtb (pz p) (pz (maxp e)).

(** spoc/utils.h:70-90, on any element type with a location [loc] *)
Fixpoint crop {A} (loc : A -> point) (points : list A) (e : extent) : list A :=
  match points with
  | [] => []
  | p :: t => if outside e (loc p) then crop loc t e else p :: crop loc t e
  end.
