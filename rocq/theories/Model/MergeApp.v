(** Model of the spoc_merge program. *)
From Coq Require Import ZArith List Bool String.
From Verif.Model Require Import Base Double Arith Header PointRecord Point Extent File Compression IO AppConvert FilterApp Par.
Import ListNotations.
Open Scope Z_scope.
Open Scope outcome_scope.

(** apps/merge/merge.h:24-34, the loop *)
Fixpoint append_loop (id : Z) (prs : list point_record) (f2 : spoc_file) : outcome spoc_file :=
  match prs with
  | [] => Ret f2
  | p :: t => f2' <- after (push_back (set_p id p)) f2 ;; append_loop id t f2'
  end.

(** apps/merge/merge.h:13-35: 'f2' afterwards, and whether a warning was printed *)
Definition append (f1 f2 : spoc_file) (id : Z) (quiet : bool) : outcome (spoc_file * bool) :=
  warned <- (if quiet then Ret false
             else h1 <- get_header f1 ;; h2 <- get_header f2 ;; Ret (negb (beq_bytes (h_wkt h1) (h_wkt h2)))) ;;
  f2' <- append_loop id (f_prs f1) f2 ;;
  Ret (f2', warned).

(** apps/merge/merge_cmd.h:14-22, the options that matter *)
Record merge_args : Type := mk_merge_args { ma_quiet : bool; ma_point_id : Z (* int *) }.

(** apps/merge/merge.cpp:61-107, the loop from input [i] on.  An input is what the file
    holds, [None] when it cannot be opened.  The areas, which only lead to a
    second warning, are in [area_loop]. *)
Fixpoint merge_loop (z : zlib) (args : merge_args) (i : Z) (inputs : list (option (list Z)))
    (g : spoc_file) (warned : bool) : outcome (spoc_file * bool) :=
  match inputs with
  | [] => Ret (g, warned)
  | None :: _ => Throw (runtime_error "Could not open file for reading")
  | Some bytes :: t =>
    '(f, _) <- read_spoc_file z (i_open bytes) ;;
    let g := if f_compressed f then g else set_compressed false g in
    let g := if i =? 0 then set_wkt (f_wkt f) g else g in
    let id := to_u32 (if ma_point_id args <? 0 then i else ma_point_id args) in
    '(g, w) <- append f g id (ma_quiet args) ;;
    merge_loop z args (i + 1) t g (warned || w)
  end.

(** apps/merge/merge.cpp:47-107 *)
Definition merge_files (z : zlib) (args : merge_args) (inputs : list (option (list Z)))
    : outcome (spoc_file * bool) :=
  if zlen inputs <? 2 then Throw (runtime_error "At least two input files are required to merge")
  else merge_loop z args 0 inputs (set_compressed true file_default) false.

(** apps/merge/merge.cpp:47-136 *)
Definition merge_tool (z : zlib) (debug : bool) (args : merge_args) (inputs : list (option (list Z))) : writer unit :=
  w_bind (w_lift (merge_files z args inputs)) (fun '(g, _) => write_spoc_file z debug g).

(** apps/merge/merge.cpp:90-97 and 112-119, the area of the bounding box of the points of an input *)
Definition cloud_area (prs : list point_record) : double :=
  let e := get_extent (map pr_pt prs) in
  d_mul (d_sub (px (maxp e)) (px (minp e))) (d_sub (py (maxp e)) (py (minp e))).

(** apps/merge/merge.cpp:59-107, 'area_sum' after the loop, for inputs that [merge_loop]
    has read *)
Fixpoint area_loop (z : zlib) (inputs : list (option (list Z))) (area_sum : double) : outcome double :=
  match inputs with
  | [] => Ret area_sum
  | None :: _ => Throw (runtime_error "Could not open file for reading")
  | Some bytes :: t =>
    '(f, _) <- read_spoc_file z (i_open bytes) ;;
    area_loop z t (d_add area_sum (cloud_area (f_prs f)))
  end.

(** apps/merge/merge.cpp:48-130: is the warning about the area printed? *)
Definition area_warning (z : zlib) (args : merge_args) (inputs : list (option (list Z))) : outcome bool :=
  '(g, _) <- merge_files z args inputs ;;
  if ma_quiet args then Ret false
  else
    area_sum <- area_loop z inputs 0 ;;
    Ret (d_gtb (d_div (cloud_area (f_prs g)) area_sum) (d_of_z 100)).
