(** What it means for a file to be representable, and for two files to hold the
    same data, independently of readers and writers. *)
From Coq Require Import ZArith List.
From Verif.Model Require Import Base Double Header PointRecord File.
Import ListNotations.
Open Scope Z_scope.

(** All records have equally many extra fields. *)
Definition uniform (prs : list point_record) : Prop :=
  forall p q, In p prs -> In q prs -> length (rextra p) = length (rextra q).

(** All records have [k] extra fields. *)
Definition has_extras (k : Z) (prs : list point_record) : Prop :=
  forall p, In p prs -> Z.of_nat (length (rextra p)) = k.

(** A file as the current version of the library builds it: version 0.1, a WKT
    of at most 65535 bytes, fields within the range of their C++ types, equally
    many extra fields in all records, and no more records than a
    [std::vector<point_record>] (64 bytes each) can have. *)
Record good_file (f : spoc_file) : Prop := mk_good_file {
  gf_major : f_major f = 0;
  gf_minor : f_minor f = 1;
  gf_wkt : Forall (fun b => 0 <= b < 256) (f_wkt f);
  gf_wkt_len : Z.of_nat (length (f_wkt f)) <= 65535;
  gf_prs : Forall pr_ok (f_prs f);
  gf_uniform : uniform (f_prs f);
  gf_total : Z.of_nat (length (f_prs f)) * 64 <= 2 ^ 63 - 1
}.

(** The bit patterns of +0.0 and -0.0. *)
Definition is_zero_double (d : double) : Prop := d = 0 \/ d = 2 ^ 63.

(** What the compressed format keeps of coordinate [sel] of record [p]: the bits,
    unless the whole column is zero, in which case +0.0. *)
Definition kept_coord (sel : point_record -> double) (prs : list point_record)
    (p p' : point_record) : Prop :=
  (sel p' = sel p /\ ~ (forall q, In q prs -> is_zero_double (sel q)))
  \/ (sel p' = 0 /\ (forall q, In q prs -> is_zero_double (sel q))).

(** [p'] is what the compressed format keeps of [p], a record of [prs]. *)
Definition kept_record (prs : list point_record) (p p' : point_record) : Prop :=
  kept_coord rx prs p p' /\ kept_coord ry prs p p' /\ kept_coord rz prs p p'
  /\ rc p' = rc p /\ rp p' = rp p /\ ri p' = ri p /\ rr p' = rr p /\ rg p' = rg p
  /\ rb p' = rb p /\ rextra p' = rextra p.

(** [f'] is what the compressed format keeps of [f]. *)
Definition kept_file (f f' : spoc_file) : Prop :=
  f_major f' = f_major f /\ f_minor f' = f_minor f /\ f_wkt f' = f_wkt f
  /\ f_compressed f' = f_compressed f
  /\ Forall2 (kept_record (f_prs f)) (f_prs f) (f_prs f').

(** The same, record by record, up to the compressed flag. *)
Definition same_points (f f' : spoc_file) : Prop :=
  f_major f' = f_major f /\ f_minor f' = f_minor f /\ f_wkt f' = f_wkt f /\ f_prs f' = f_prs f.

(** Some coordinate column is all zeros and has a negative zero in it. *)
Definition loses_sign (prs : list point_record) : Prop :=
  exists sel, In sel [rx; ry; rz]
    /\ (forall q, In q prs -> is_zero_double (sel q))
    /\ (exists q, In q prs /\ sel q = 2 ^ 63).

(** Files the round trip theorems apply to. *)
Definition storable (f : spoc_file) : Prop :=
  good_file f /\ 8 * Z.of_nat (length (f_prs f)) + 32 < 2 ^ 31
  /\ exists k, has_extras k (f_prs f) /\ k <= (if f_compressed f then 255 else 123).

(** What is kept of a file by writing and reading. *)
Definition kept (f f' : spoc_file) : Prop :=
  if f_compressed f then kept_file f f' else f' = f.
