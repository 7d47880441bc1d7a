(** Model of the spoc_info program. *)
From Coq Require Import ZArith List Bool String.
From Verif.Model Require Import Base Double Arith Header PointRecord Point Extent Voxel File Compression IO AppUtils AppConvert TileApp SrsApp Asprs Json.
Import ListNotations.
Open Scope Z_scope.
Open Scope outcome_scope.

(** ** Classes *)

(** [++m[k]] of a [std::unordered_map<int,size_t>], kept in order of insertion *)
Fixpoint count_one (k : Z) (m : list (Z * Z)) : list (Z * Z) :=
  match m with
  | [] => [(k, 1)]
  | (j, n) :: t => if k =? j then (j, n + 1) :: t else (j, n) :: count_one k t
  end.

(** apps/info/info.h:18-24; the class, a [uint32_t], becomes an [int] *)
Definition count_classes (c : list Z) : list (Z * Z) := fold_left (fun m i => count_one (to_i32 i) m) c [].

(** apps/info/info.h:31-33: [setfill ('0') << setw (3) << to_string (k)] *)
Definition class_label (k : Z) : list Z := let t := put_int k in zrepeat 48 (3 - zlen t) ++ t.

(** apps/info/info.h:26-36; [m] in the order in which the loop visits it *)
Definition label_counts (m : list (Z * Z)) : str_map Z :=
  fold_left (fun a i => map_set (class_label (fst i)) (snd i) a) m [].

(** apps/info/info.h:15-37 *)
Definition get_class_count_map (c : list Z) : str_map Z := label_counts (count_classes c).

(** ** Metrics *)

(** apps/info/info.h:39-62 *)
Definition get_metric_values (p : list point_record) : outcome (str_map double) :=
  let e := get_extent (map pr_pt p) in
  let area := d_mul (d_sub (px (maxp e)) (px (minp e))) (d_sub (py (maxp e)) (py (minp e))) in
  vi <- get_voxel_indexes_ext (map pr_pt p) e d_one ;;
  let vis := get_voxel_index_set vi in
  let gi := map (fun v => mk_vox (Voxel.vi v) (vj v) 0) vi in
  let gis := get_voxel_index_set gi in
  let v := [] in
  let v := map_set (chars "extent_point_density") (d_div (d_of_z (zlen p)) area) v in
  let v := map_set (chars "grid_point_density") (d_div (d_of_z (zlen p)) (d_of_z (zlen gis))) v in
  Ret (map_set (chars "voxel_point_density") (d_div (d_of_z (zlen p)) (d_of_z (zlen vis))) v).

(** apps/info/info.h:64-71 *)
Definition get_metric_units : str_map (list Z) :=
  map_set (chars "extent_point_density") (chars "pts/unit^2")
    (map_set (chars "grid_point_density") (chars "pts/unit^2")
       (map_set (chars "voxel_point_density") (chars "pts/unit^3") [])).

(** ** Summaries *)

(** The element types of the columns. *)
Inductive column : Type := col_double | col_u32 | col_u16 | col_u64.

(** [a < b] *)
Definition col_ltb (k : column) (a b : Z) : bool :=
  match k with col_double => d_ltb a b | _ => a <? b end.

(** [a - b]; the difference of two [uint16_t] is an [int] *)
Definition col_sub (k : column) (a b : Z) : Z :=
  match k with
  | col_double => d_sub a b
  | col_u32 => to_u32 (a - b)
  | col_u16 => a - b
  | col_u64 => to_u64 (a - b)
  end.

(** [std::any] of an element, and of a difference.  gcc names [uint32_t] "j". *)
Definition col_value (k : column) (a : Z) : value :=
  match k with
  | col_double => v_double a
  | col_u32 => v_other (chars "j")
  | col_u16 => v_u16 a
  | col_u64 => v_u64 a
  end.
Definition col_range (k : column) (a : Z) : value :=
  match k with col_u16 => v_int a | _ => col_value k a end.

(** [os << a] of an element or of a difference *)
Definition col_text (fmt : number_format) (k : column) (a : Z) : list Z :=
  match k with col_double => show_double fmt a | _ => put_int a end.

(** [std::sort] on doubles: a parameter, because the order of equal elements, the two
    zeros, is not specified. *)
Definition sorter : Type := list double -> list double.

(** [std::sort].  With a NaN and two different numbers, [<] is not an order. *)
Definition col_sort (srt : sorter) (k : column) (x : list Z) : outcome (list Z) :=
  match k with
  | col_double =>
    if existsb d_is_nan x && existsb (fun a => existsb (d_ltb a) x) x then UB ub_sort else Ret (srt x)
  | _ => Ret (sort_keys x)
  end.

(** [*std::min_element] and [*std::max_element] of [a :: t] *)
Definition min_element (k : column) (a : Z) (t : list Z) : Z :=
  fold_left (fun m b => if col_ltb k b m then b else m) t a.
Definition max_element (k : column) (a : Z) (t : list Z) : Z :=
  fold_left (fun m b => if col_ltb k m b then b else m) t a.

(** [y.front ()] and [y.back ()], not called on an empty vector *)
Definition front (y : list Z) : outcome Z := vec_get y 0.
Definition back (y : list Z) : outcome Z := vec_get y (zlen y - 1).

(** apps/info/info.h:73-113 *)
Definition get_summary_object (srt : sorter) (k : column) (x : list Z) (quartiles : bool) : outcome (str_map value) :=
  match x with
  | [] => Ret (map_set (chars "max") (v_int 0) (map_set (chars "min") (v_int 0) (map_set (chars "size") (v_int 0) [])))
  | a :: t =>
    if quartiles then
      let n := zlen x in
      y <- col_sort srt k x ;;
      q0 <- front y ;;
      q4 <- back y ;;
      q1 <- vec_get y (n / 4) ;;
      q2 <- vec_get y (n / 2) ;;
      q3 <- vec_get y (to_u64 (3 * n) / 4) ;;
      let s := map_set (chars "range") (col_range k (col_sub k q4 q0)) [] in
      let s := map_set (chars "q0") (col_value k q0) s in
      let s := map_set (chars "q1") (col_value k q1) s in
      let s := map_set (chars "q2") (col_value k q2) s in
      let s := map_set (chars "q3") (col_value k q3) s in
      Ret (map_set (chars "q4") (col_value k q4) s)
    else
      let mn := min_element k a t in
      let mx := max_element k a t in
      let s := map_set (chars "range") (col_range k (col_sub k mx mn)) [] in
      let s := map_set (chars "min") (col_value k mn) s in
      Ret (map_set (chars "max") (col_value k mx) s)
  end.

(** A line of text: the pieces, and [endl] *)
Definition line (l : list (list Z)) : list Z := List.concat l ++ [10].
Definition tab : list Z := [9].

(** apps/info/info.h:115-203; [fmt] prints with three decimals *)
Definition get_summary_string (fmt : number_format) (srt : sorter) (k : column) (label : list Z) (x : list Z) (compact quartiles : bool)
    : outcome (list Z) :=
  match x with
  | [] =>
    Ret (if compact then []
         else line [label; chars "0"] ++ line [chars "size"; tab; chars "0"]
              ++ line [chars "min"; tab; chars "0"] ++ line [chars "max"; tab; chars "0"])
  | a :: t =>
    let n := zlen x in
    let txt := col_text fmt k in
    if quartiles then
      y <- col_sort srt k x ;;
      q0 <- front y ;;
      q4 <- back y ;;
      q1 <- vec_get y (n / 4) ;;
      q2 <- vec_get y (n / 2) ;;
      q3 <- vec_get y (to_u64 (3 * n) / 4) ;;
      Ret (if compact then
             line [label; chars "range="; txt (col_sub k q4 q0); chars ", "; txt q0;
                   chars " + "; txt (col_sub k q1 q0); chars " + "; txt (col_sub k q2 q1);
                   chars " + "; txt (col_sub k q3 q2); chars " + "; txt (col_sub k q4 q3);
                   chars " = "; txt q4]
           else
             line [label; put_uint n] ++ line [chars "range"; tab; txt (col_sub k q4 q0)]
             ++ line [chars "q0"; tab; txt q0] ++ line [chars "q1"; tab; txt q1] ++ line [chars "q2"; tab; txt q2]
             ++ line [chars "q3"; tab; txt q3] ++ line [chars "q4"; tab; txt q4])
    else
      let mn := min_element k a t in
      let mx := max_element k a t in
      Ret (if compact then
             line [label; chars "range="; txt (col_sub k mx mn); chars ", min="; txt mn; chars ", max="; txt mx]
           else
             line [label; put_uint n] ++ line [chars "range"; tab; txt (col_sub k mx mn)]
             ++ line [chars "min"; tab; txt mn] ++ line [chars "max"; tab; txt mx])
  end.

(** ** The report *)

(** apps/info/info_cmd.h:14-27; help, verbose and version are left out *)
Record info_args : Type := mk_info_args {
  ia_json : bool;
  ia_header : bool;
  ia_summary : bool;
  ia_classes : bool;
  ia_metrics : bool;
  ia_compact : bool;
  ia_quartiles : bool;
  ia_fns : list (list Z)
}.

(** What the C++ library decides: how [os] (15 decimals) and the summaries' stream (3
    decimals) print floating point numbers, and the order of equal doubles. *)
Record printing : Type := mk_printing { p_os : number_format; p_summary : number_format; p_sort : sorter }.

(** The columns in the order of apps/info/info.h:242-250 and 300-308 *)
Definition columns (p : list point_record) : list (string * column * list Z) :=
  [("x", col_double, get_x p); ("y", col_double, get_y p); ("z", col_double, get_z p);
   ("c", col_u32, get_c p); ("p", col_u32, get_p p);
   ("i", col_u16, get_i p); ("r", col_u16, get_r p); ("g", col_u16, get_g p); ("b", col_u16, get_b p)]%string.

(** [get_extra_fields_size], and the indexes of the loops over the extra fields *)
Definition extra_indexes (p : list point_record) : list Z :=
  match p with
  | [] => []
  | r :: _ => map Z.of_nat (seq 0 (List.length (rextra r)))
  end.

(** apps/info/info.h:227-236; the flag is 0 or 1 *)
Definition header_object (h : header) : str_map value :=
  let o := map_set (chars "major_version") (v_u8 (h_major h)) [] in
  let o := map_set (chars "minor_version") (v_u8 (h_minor h)) o in
  let o := map_set (chars "wkt") (v_string (h_wkt h)) o in
  let o := map_set (chars "total_points") (v_u64 (h_total h)) o in
  map_set (chars "compressed") (v_u8 (h_compressed h)) o.

Fixpoint foldM {A B} (f : A -> B -> outcome A) (l : list B) (a : A) : outcome A :=
  match l with
  | [] => Ret a
  | b :: t => a <- f a b ;; foldM f t a
  end.

(** apps/info/info.h:238-256 *)
Definition summary_object (srt : sorter) (p : list point_record) (quartiles : bool) : outcome (str_map value) :=
  s <- foldM (fun s i => let '(name, k, x) := i in
                o <- get_summary_object srt k x quartiles ;;
                Ret (map_set (chars name) (v_object o) s)) (columns p) [] ;;
  a <- mapM (fun k => x <- get_extra k p ;; o <- get_summary_object srt col_u64 x quartiles ;; Ret (v_object o)) (extra_indexes p) ;;
  Ret (map_set (chars "extra") (v_array a) s).

(** apps/info/info.h:258-268 and 270-280 *)
Definition as_object {V} (f : V -> value) (m : str_map V) : str_map value :=
  fold_left (fun c i => map_set (fst i) (f (snd i)) c) m [].

Definition when {A} (b : bool) (f : A -> outcome A) (a : A) : outcome A := if b then f a else Ret a.

(** apps/info/info.h:225-280 *)
Definition info_object (prt : printing) (args : info_args) (f : spoc_file) : outcome (str_map value) :=
  j <- when (ia_header args) (fun j =>
         h <- get_header f ;; Ret (map_set (chars "header") (v_object (header_object h)) j)) [] ;;
  j <- when (ia_summary args) (fun j =>
         s <- summary_object (p_sort prt) (f_prs f) (ia_quartiles args) ;;
         Ret (map_set (chars "summary") (v_object s) j)) j ;;
  j <- when (ia_classes args) (fun j =>
         Ret (map_set (chars "classifications") (v_object (as_object v_u64 (get_class_count_map (get_c (f_prs f))))) j)) j ;;
  when (ia_metrics args) (fun j =>
    m <- get_metric_values (f_prs f) ;;
    Ret (map_set (chars "metrics") (v_object (as_object v_double m)) j)) j.

(** apps/info/info.h:289-296; [get_header] is called again for each line, after the
    label is printed *)
Definition header_lines (f : spoc_file) : writer unit :=
  w_iter (fun l : string * (header -> list Z) =>
            w_seq (w_put (chars (fst l) ++ tab)) (w_bind (w_lift (get_header f)) (fun h => w_put (line [snd l h]))))
    [("major_version"%string, fun h => put_int (h_major h));
     ("minor_version"%string, fun h => put_int (h_minor h));
     ("ogc_wkt"%string, fun h => quoted (h_wkt h));
     ("total_points"%string, fun h => put_uint (h_total h));
     ("compressed"%string, fun h => if h_compressed h =? 0 then chars "false" else chars "true")].

(** apps/info/info.h:298-317 *)
Definition summary_lines (prt : printing) (p : list point_record) (compact quartiles : bool) : writer unit :=
  let put k label x :=
    w_bind (w_lift (get_summary_string (p_summary prt) (p_sort prt) k label x compact quartiles)) w_put in
  w_seq
    (w_iter (fun i => let '(name, k, x) := i in put k (chars name ++ tab) x) (columns p))
    (w_iter (fun k => w_bind (w_lift (get_extra k p)) (fun x => put col_u64 (chars "extra_" ++ put_uint k ++ tab) x))
       (extra_indexes p)).

(** apps/info/info.h:319-337; [stoi] of the label *)
Definition class_lines (p : list point_record) : writer unit :=
  w_iter (fun i : list Z * Z =>
            w_bind (w_lift (stoi (fst i))) (fun j =>
              let l := match class_find (fst j) get_asprs_class_map with None => chars "undefined" | Some s => s end in
              w_put (line [chars "cls_"; fst i; tab; put_uint (snd i); tab; l])))
    (get_class_count_map (get_c p)).

(** apps/info/info.h:339-351 *)
Definition metric_lines (prt : printing) (p : list point_record) : writer unit :=
  w_bind (w_lift (get_metric_values p)) (fun m =>
    w_iter (fun i : list Z * double =>
              w_seq (w_put (fst i ++ tab ++ show_double (p_os prt) (snd i) ++ tab))
                match map_get (fst i) get_metric_units with
                | Some u => w_put (line [u])
                | None => w_lift (Throw out_of_range)
                end) m).

Definition w_when (b : bool) (w : writer unit) : writer unit := if b then w else w_ret tt.

(** apps/info/info.h:206-353.  The text of one [os <<] statement is written at once. *)
Definition process (prt : printing) (args : info_args) (f : spoc_file) : writer unit :=
  if ia_json args then
    w_bind (w_lift (info_object prt args f)) (fun j =>
      w_put (if ia_compact args then print (p_os prt) (v_object j) else pretty_print (p_os prt) (v_object j) 0))
  else
    w_seq (w_when (ia_header args) (header_lines f))
      (w_seq (w_when (ia_summary args) (summary_lines prt (f_prs f) (ia_compact args) (ia_quartiles args)))
         (w_seq (w_when (ia_classes args) (class_lines (f_prs f)))
            (w_when (ia_metrics args) (metric_lines prt (f_prs f))))).

(** apps/info/info.cpp:47-82: standard output; what goes to the log is left out *)
Definition info_main (z : zlib) (prt : printing) (acc : access_rights) (args : info_args) (fs : files) (input : list Z) : writer unit :=
  match ia_fns args with
  | [] => from_input (read_spoc_file z (i_open input)) (process prt args)
  | fns => w_iter (fun fn => w_bind (w_lift (open_input acc fs fn)) (fun bytes =>
                     from_input (read_spoc_file z (i_open bytes)) (process prt args))) fns
  end.
