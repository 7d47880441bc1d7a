(** The SPOC file format as published in /repo/README.md (section "File
    format"), stated without reference to the encoder or decoder. *)
From Coq Require Import ZArith List.
From Verif.Model Require Import Base Header PointRecord.
Import ListNotations.
Open Scope Z_scope.

(** The value of a byte string read as a little endian number: the sum of
    [byte i * 256^i]. *)
Definition positional (bs : list Z) : Z :=
  fold_right Z.add 0 (map (fun i => nth i bs 0 * 256 ^ Z.of_nat i) (seq 0 (length bs))).

(** [bs] is the little endian representation of [v] in [w] bytes. *)
Definition is_le (w : nat) (v : Z) (bs : list Z) : Prop :=
  length bs = w /\ Forall (fun b => 0 <= b < 256) bs /\ positional bs = v.

(** Header table of the README: identifier, versions, WKT length, WKT, extra
    fields, total points, compression flag. *)
Definition header_layout (h : header) (bs : list Z) : Prop :=
  exists b_len b_total,
    bs = [83; 80; 79; 67] ++ [h_major h] ++ [h_minor h] ++ b_len ++ h_wkt h
           ++ [h_extra h] ++ b_total ++ [h_compressed h]
    /\ is_le 2 (Z.of_nat (length (h_wkt h))) b_len
    /\ is_le 8 (h_total h) b_total.

(** Point record table of the README. *)
Definition record_layout (p : point_record) (bs : list Z) : Prop :=
  exists bx by_ bz bc bp bi br bg bb bes,
    bs = bx ++ by_ ++ bz ++ bc ++ bp ++ bi ++ br ++ bg ++ bb ++ concat bes
    /\ is_le 8 (rx p) bx /\ is_le 8 (ry p) by_ /\ is_le 8 (rz p) bz
    /\ is_le 4 (rc p) bc /\ is_le 4 (rp p) bp
    /\ is_le 2 (ri p) bi /\ is_le 2 (rr p) br /\ is_le 2 (rg p) bg /\ is_le 2 (rb p) bb
    /\ Forall2 (is_le 8) (rextra p) bes.

(** A header the current version of the library can represent: the values each
    field can hold, version 0.1, WKT of at most 65535 bytes. *)
Record good_header (h : header) : Prop := mk_good_header {
  gh_sig : h_sig h = [83; 80; 79; 67];
  gh_major : h_major h = 0;
  gh_minor : h_minor h = 1;
  gh_wkt : Forall (fun b => 0 <= b < 256) (h_wkt h);
  gh_wkt_len : (Z.of_nat (length (h_wkt h)) <= 65535);
  gh_extra : 0 <= h_extra h <= 255;
  gh_total : 0 <= h_total h < 2 ^ 64;
  gh_compressed : 0 <= h_compressed h <= 255
}.

(** Total size of the header in bytes. *)
Definition header_size (h : header) : Z := 18 + Z.of_nat (length (h_wkt h)).

(** Output streams that accept everything. *)
Definition healthy (s : ostream) : Prop := o_room s = None /\ o_bad s = false.

(** [n] calls of [read_point_record] for records with [e] extra fields. *)
Fixpoint read_records (n : nat) (e : Z) (s : istream) : outcome (list point_record * istream) :=
  match n with
  | O => Ret ([], s)
  | S n' =>
    bind (read_point_record e s) (fun '(p, s) =>
    bind (read_records n' e s) (fun '(ps, s) =>
    Ret (p :: ps, s)))
  end.
