(** What the getters of the Python module return (spocpy/spocpy/spocpy.cpp), and the
    attributes of its Header objects.

    Python's values: an int, a str (as its bytes), a bool, a list of floats (as their
    64 bits) or of ints.  As in SpocPy.v: C++ exceptions become Python exceptions, and
    arguments that do not fit the C++ type raise TypeError. *)
From Coq Require Import ZArith List Bool String.
From Verif.Model Require Import Base Double Header PointRecord File TileApp SrsApp SpocPy.
Import ListNotations.
Open Scope Z_scope.
Open Scope outcome_scope.

Inductive py_value : Type :=
| V_int (n : Z) | V_str (s : list Z) | V_bool (b : bool) | V_floats (l : list double) | V_ints (l : list Z).

(** The getters of SpocFile that return no object of the module, spocpy/spocpy/spocpy.cpp:93-112 *)
Inductive py_getter : Type :=
| G_getMajorVersion | G_getMinorVersion | G_getWKT | G_getCompressed
| G_getX | G_getY | G_getZ | G_getC | G_getP | G_getI | G_getR | G_getG | G_getB
| G_getExtra (k : Z).

(** spocpy/spocpy/spocpy.cpp:93-112 and spoc/file.h:120-138, 250-268 *)
Definition py_get (g : py_getter) (f : spoc_file) : outcome py_value :=
  match g with
  | G_getMajorVersion => Ret (V_int (f_major f))
  | G_getMinorVersion => Ret (V_int (f_minor f))
  | G_getWKT => Ret (V_str (f_wkt f))
  | G_getCompressed => Ret (V_bool (f_compressed f))
  | G_getX => Ret (V_floats (get_x (f_prs f)))
  | G_getY => Ret (V_floats (get_y (f_prs f)))
  | G_getZ => Ret (V_floats (get_z (f_prs f)))
  | G_getC => Ret (V_ints (get_c (f_prs f)))
  | G_getP => Ret (V_ints (get_p (f_prs f)))
  | G_getI => Ret (V_ints (get_i (f_prs f)))
  | G_getR => Ret (V_ints (get_r (f_prs f)))
  | G_getG => Ret (V_ints (get_g (f_prs f)))
  | G_getB => Ret (V_ints (get_b (f_prs f)))
  | G_getExtra k => if negb (fits 64 k) then Throw type_error else col <- get_extra k (f_prs f) ;; Ret (V_ints col)
  end.

(** A getter of object [i] *)
Definition py_value_of (g : py_getter) (i : nat) (st : py_state) : outcome py_value :=
  f <- the (py_spocfiles st) i ;; py_get g f.

(** spocpy/spocpy/spocpy.cpp:13-21 *)
Definition py_getmajorversion : Z := MAJOR_VERSION.
Definition py_getminorversion : Z := MINOR_VERSION.

(** The attributes of Header, spocpy/spocpy/spocpy.cpp:67-74; the signature is not among
    them.  Their types are uint8_t, uint8_t, string, uint8_t, size_t and uint8_t
    (spoc/header.h:83-95), so that [compressed] is an int in Python. *)
Inductive py_header_attribute : Type :=
| H_major_version | H_minor_version | H_wkt | H_extra_fields | H_total_points | H_compressed.

Definition py_header_get (a : py_header_attribute) (h : header) : py_value :=
  match a with
  | H_major_version => V_int (h_major h)
  | H_minor_version => V_int (h_minor h)
  | H_wkt => V_str (h_wkt h)
  | H_extra_fields => V_int (h_extra h)
  | H_total_points => V_int (h_total h)
  | H_compressed => V_int (h_compressed h)
  end.

(** Assignment to an attribute; a bool is an int in Python *)
Definition py_header_assign (a : py_header_attribute) (v : py_value) (h : header) : outcome header :=
  let v := match v with V_bool b => V_int (b2z b) | _ => v end in
  match a, v with
  | H_major_version, V_int n =>
    if fits 8 n then Ret (mk_header (h_sig h) n (h_minor h) (h_wkt h) (h_extra h) (h_total h) (h_compressed h)) else Throw type_error
  | H_minor_version, V_int n =>
    if fits 8 n then Ret (mk_header (h_sig h) (h_major h) n (h_wkt h) (h_extra h) (h_total h) (h_compressed h)) else Throw type_error
  | H_wkt, V_str s => Ret (mk_header (h_sig h) (h_major h) (h_minor h) s (h_extra h) (h_total h) (h_compressed h))
  | H_extra_fields, V_int n =>
    if fits 8 n then Ret (mk_header (h_sig h) (h_major h) (h_minor h) (h_wkt h) n (h_total h) (h_compressed h)) else Throw type_error
  | H_total_points, V_int n =>
    if fits 64 n then Ret (mk_header (h_sig h) (h_major h) (h_minor h) (h_wkt h) (h_extra h) n (h_compressed h)) else Throw type_error
  | H_compressed, V_int n =>
    if fits 8 n then Ret (mk_header (h_sig h) (h_major h) (h_minor h) (h_wkt h) (h_extra h) (h_total h) n) else Throw type_error
  | _, _ => Throw type_error
  end.

(** readheader as a function that returns a value, spocpy/spocpy/spocpy.cpp:23-32 *)
Definition py_header_of (acc : access_rights) (fn : list Z) (st : py_state) : outcome header :=
  py_readheader acc fn (py_disk st).
