(** Model of the spoc_tile program. *)
From Coq Require Import ZArith List Bool String.
From Verif.Model Require Import Base Double Arith Header PointRecord Point Extent File Compression IO AppConvert AppUtils FilterApp.
Import ListNotations.
Open Scope Z_scope.
Open Scope outcome_scope.

(** [std::numeric_limits<float>::epsilon ()], 2^-23, as a double *)
Definition float_epsilon : double := 4503599627370496000.     (* 0x3E80000000000000 *)

(** apps/tile/tile.h:17-29 *)
Definition get_tile_size (e : extent) (tiles : Z) : double :=
  let dx := d_add (d_sub (px (maxp e)) (px (minp e))) float_epsilon in
  let dy := d_add (d_sub (py (maxp e)) (py (minp e))) float_epsilon in
  if d_gtb dx dy then d_div dx (d_of_z tiles) else d_div dy (d_of_z tiles).

(** apps/tile/tile.h:38-41: [stride] *)
Definition tile_stride (e : extent) (tile_size_x : double) : outcome Z :=
  let dx := d_sub (px (maxp e)) (px (minp e)) in
  if d_gtb tile_size_x d_zero then d_to_size (d_add (d_div dx tile_size_x) d_one) else d_to_size d_one.

(** apps/tile/tile.h:50-55: [xi] and [yi] *)
Definition tile_cell (p minv tile_size : double) : outcome Z :=
  let o := d_sub p minv in
  if d_gtb tile_size d_zero then d_to_size (d_div o tile_size) else d_to_size d_zero.

(** apps/tile/tile.h:47-58, one point; the arithmetic is on [size_t] *)
Definition tile_index (e : extent) (tile_size_x tile_size_y : double) (stride : Z) (p : point) : outcome Z :=
  xi <- tile_cell (px p) (px (minp e)) tile_size_x ;;
  yi <- tile_cell (py p) (py (minp e)) tile_size_y ;;
  Ret (to_u64 (yi * stride + xi)).

(** apps/tile/tile.h:31-66 *)
Definition get_tile_indexes (p : list point) (e : extent) (tile_size_x tile_size_y : double) : outcome (list Z) :=
  stride <- tile_stride e tile_size_x ;;
  mapM (tile_index e tile_size_x tile_size_y stride) p.

(** apps/tile/tile.h:68, the [unordered_map] as an association list *)
Definition tile_map : Type := list (Z * list Z).

(** [m[k].push_back (i)] *)
Fixpoint tile_push (k i : Z) (m : tile_map) : tile_map :=
  match m with
  | [] => [(k, [i])]
  | (j, v) :: t => if k =? j then (j, v ++ [i]) :: t else (j, v) :: tile_push k i t
  end.

(** apps/tile/tile.h:70-81, the loop from index [i] *)
Fixpoint tile_map_loop (i : Z) (indexes : list Z) (m : tile_map) : tile_map :=
  match indexes with
  | [] => m
  | k :: t => tile_map_loop (i + 1) t (tile_push k i m)
  end.
Definition get_tile_map (indexes : list Z) : tile_map := tile_map_loop 0 indexes [].

(** [tile_map.at (k)] *)
Fixpoint tile_at (k : Z) (m : tile_map) : outcome (list Z) :=
  match m with
  | [] => Throw out_of_range
  | (j, v) :: t => if k =? j then Ret v else tile_at k t
  end.

(** [std::sort] of a vector of [size_t] *)
Fixpoint insert_key (k : Z) (l : list Z) : list Z :=
  match l with
  | [] => [k]
  | j :: t => if k <=? j then k :: l else j :: insert_key k t
  end.
Definition sort_keys (l : list Z) : list Z := fold_right insert_key [] l.

(** apps/tile/tile.cpp:134-157: the file object of one tile *)
Definition make_tile (f : spoc_file) (v : list Z) : outcome spoc_file :=
  push_at (f_prs f) v (set_compressed (f_compressed f) (set_wkt (f_wkt f) file_default)).

(** apps/tile/tile_cmd.h:14-27.  [ta_fn] is the stem and extension of the input's file
    name, [None] for standard input; [Commands.stem_extension] finds them. *)
Record tile_args : Type := mk_tile_args {
  ta_force : bool;
  ta_tiles : Z;                   (* unsigned *)
  ta_digits : Z;                  (* unsigned *)
  ta_size : double;
  ta_size_x : double;
  ta_size_y : double;
  ta_prefix : list Z;
  ta_fn : option (list Z * list Z)
}.

(** [os << setw (digits) << setfill ('0') << n] *)
Definition put_padded (digits n : Z) : list Z :=
  let t := put_uint n in zrepeat 48 (to_i32 digits - zlen t) ++ t.

(** apps/tile/tile.cpp:117-119 *)
Definition tile_prefix (args : tile_args) : list Z :=
  match ta_prefix args, ta_fn args with
  | [], Some (stem, _) => stem
  | pre, _ => pre
  end.

(** apps/tile/tile.cpp:159-171 *)
Definition tile_name (args : tile_args) (compressed : bool) (n : Z) : list Z :=
  tile_prefix args ++ put_padded (ta_digits args) n
  ++ match ta_fn args with
     | Some (_, ext) => ext
     | None => if compressed then chars ".zpoc" else chars ".spoc"
     end.

(** The file system: the contents of the files that exist. *)
Definition files : Type := list Z -> option (list Z).
Definition file_put (name bytes : list Z) (fs : files) : files :=
  fun n => if beq_bytes n name then Some bytes else fs n.

(** Which files can be opened for reading and for writing (permissions). *)
Record access_rights : Type := mk_access { can_read : list Z -> bool; can_write : list Z -> bool }.

(** apps/tile/tile.cpp:131-194, the loop: the file system afterwards, also after an
    exception.  An [ofstream] truncates its file when it is opened; what was written
    stays.  Left out: a device that fills up. *)
Fixpoint write_tiles (z : zlib) (debug : bool) (acc : access_rights) (args : tile_args) (f : spoc_file) (m : tile_map)
    (keys : list Z) (fs : files) : files * outcome unit :=
  match keys with
  | [] => (fs, Ret tt)
  | k :: t =>
    match (v <- tile_at k m ;; make_tile f v) with
    | Ret tile =>
      let name := tile_name args (f_compressed tile) k in
      if negb (ta_force args) && match fs name with Some _ => can_read acc name | None => false end
      then (fs, Throw (runtime_error "File already exists. Use the force option to overwrite. Aborting."))
      else if negb (can_write acc name)
      then (fs, Throw (runtime_error "Could not open file for writing"))
      else
        let '(os, r) := write_spoc_file z debug tile (mk_ostream [] None false) in
        let fs' := file_put name (o_bytes os) fs in
        match r with
        | Ret _ => write_tiles z debug acc args f m t fs'
        | Throw e => (fs', Throw e)
        | UB u => (fs', UB u)
        | Hang => (fs', Hang)
        end
    | Throw e => (fs, Throw e)
    | UB u => (fs, UB u)
    | Hang => (fs, Hang)
    end
  end.

(** apps/tile/tile.cpp:80-101: the tile sizes in x and y *)
Definition tile_sizes (args : tile_args) (e : extent) : double * double :=
  if d_gtb (ta_size args) d_zero then (ta_size args, ta_size args)
  else if d_gtb (ta_size_x args) d_zero || d_gtb (ta_size_y args) d_zero then (ta_size_x args, ta_size_y args)
  else let s := get_tile_size e (ta_tiles args) in (s, s).

(** apps/tile/tile.cpp:71-107: from the file that was read to the tile numbers *)
Definition tile_numbers (args : tile_args) (f : spoc_file) : outcome (list Z) :=
  if d_gtb (ta_size args) d_zero && d_gtb (ta_size_x args) d_zero
  then Throw (runtime_error "You can't specify both 'tile-size' and 'tile-size-x'")
  else if d_gtb (ta_size args) d_zero && d_gtb (ta_size_y args) d_zero
  then Throw (runtime_error "You can't specify both 'tile-size' and 'tile-size-y'")
  else
    let pts := map pr_pt (f_prs f) in
    let e := get_extent pts in
    let '(sx, sy) := tile_sizes args e in
    get_tile_indexes pts e sx sy.

(** apps/tile/tile.cpp:57-194 *)
Definition tile_tool (z : zlib) (debug : bool) (acc : access_rights) (args : tile_args) (input : list Z) (fs : files)
    : files * outcome unit :=
  match (if match ta_fn args, ta_prefix args with None, [] => true | _, _ => false end
         then Throw (runtime_error "If using stdin as input you must specify an output prefix")
         else '(f, _) <- read_spoc_file z (i_open input) ;;
              idx <- tile_numbers args f ;;
              Ret (f, idx)) with
  | Ret (f, idx) =>
    let m := get_tile_map idx in
    write_tiles z debug acc args f m (sort_keys (map fst m)) fs
  | Throw e => (fs, Throw e)
  | UB u => (fs, UB u)
  | Hang => (fs, Hang)
  end.
