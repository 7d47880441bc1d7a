(** Programs that use [spoc_file] objects, and what they should do.

    A program owns a list of objects and performs operations on them.  [step]
    runs one operation with the code of the model; [spec_step] says what it
    should do in terms of plain lists of records. *)
From Coq Require Import ZArith List Bool.
From Verif.Model Require Import Base Double Header PointRecord File.
From Verif.Spec Require Import Files.
Import ListNotations.
Open Scope Z_scope.

Inductive op : Type :=
| NewDefault
| NewVersion (major minor : Z) (wkt : list Z) (flag : bool) (prs : list point_record)
| NewWkt (wkt : list Z) (flag : bool) (prs : list point_record)
| Copy (i : nat)
| CloneEmpty (i : nat)
| PushBack (i : nat) (p : point_record)
| SetRecord (i : nat) (n : Z) (p : point_record)
| SetRecords (i : nat) (prs : list point_record)
| MoveIn (i : nat) (prs : list point_record)
| MoveOut (i : nat) (taken : bool)
| Resize (i : nat) (k : Z)
| Swap (i j : nat)
| Assign (i j : nat)
| SetWkt (i : nat) (wkt : list Z)
| SetCompressed (i : nat) (flag : bool).

Definition store : Type := list spoc_file.

(** Replace object [i]. *)
Definition upd (s : store) (i : nat) (f : spoc_file) : store := firstn i s ++ f :: skipn (S i) s.

Definition add_new (s : store) (m : outcome spoc_file) : store * outcome unit :=
  match m with
  | Ret f => (s ++ [f], Ret tt)
  | Throw e => (s, Throw e)
  | UB u => (s, UB u)
  | Hang => (s, Hang)
  end.

Definition on (s : store) (i : nat) (m : mutator) : store * outcome unit :=
  match nth_error s i with
  | Some f => let '(f', r) := m f in (upd s i f', r)
  | None => (s, Ret tt)
  end.

(** One operation; an operation on an object that does not exist does nothing. *)
Definition step (debug : bool) (s : store) (o : op) : store * outcome unit :=
  match o with
  | NewDefault => add_new s (Ret file_default)
  | NewVersion major minor wkt flag prs => add_new s (file_ctor major minor wkt flag prs)
  | NewWkt wkt flag prs => add_new s (file_ctor_wkt wkt flag prs)
  | Copy i => match nth_error s i with Some f => add_new s (file_copy f) | None => (s, Ret tt) end
  | CloneEmpty i => match nth_error s i with Some f => add_new s (clone_empty f) | None => (s, Ret tt) end
  | PushBack i p => on s i (push_back p)
  | SetRecord i n p => on s i (set_point_record debug n p)
  | SetRecords i prs => on s i (set_point_records prs)
  | MoveIn i prs => on s i (fun f => let '(f', _, r) := move_point_records_in prs f in (f', r))
  | MoveOut i taken => on s i (fun f => (snd (move_point_records_out taken f), Ret tt))
  | Resize i k => on s i (resize_extra_fields k)
  | Swap i j =>
    match nth_error s i, nth_error s j with
    | Some f, Some g => let '(f', g') := swap f g in (upd (upd s i f') j g', Ret tt)
    | _, _ => (s, Ret tt)
    end
  | Assign i j =>
    if Nat.eqb i j then (s, Ret tt)
    else match nth_error s j with Some g => on s i (assign g) | None => (s, Ret tt) end
  | SetWkt i wkt => on s i (fun f => (set_wkt wkt f, Ret tt))
  | SetCompressed i flag => on s i (fun f => (set_compressed flag f, Ret tt))
  end.

(** A whole program.  It catches exceptions; undefined behaviour ends it. *)
Fixpoint run (debug : bool) (s : store) (ops : list op) : option store :=
  match ops with
  | [] => Some s
  | o :: ops =>
    match step debug s o with
    | (s', Ret _) | (s', Throw _) => run debug s' ops
    | _ => None
    end
  end.

(** ** Specification *)

(** Extra fields cut or padded with zeros to [k]. *)
Definition resized (k : Z) (p p' : point_record) : Prop :=
  rx p' = rx p /\ ry p' = ry p /\ rz p' = rz p /\ rc p' = rc p /\ rp p' = rp p /\ ri p' = ri p
  /\ rr p' = rr p /\ rg p' = rg p /\ rb p' = rb p
  /\ length (rextra p') = Z.to_nat k
  /\ forall j, (j < Z.to_nat k)%nat ->
       nth_error (rextra p') j = Some (nth j (rextra p) 0).

Definition set_prs (f : spoc_file) (prs : list point_record) : spoc_file :=
  mk_file (f_major f) (f_minor f) (f_wkt f) (f_compressed f) prs.

(** The operation names an object that does not exist. *)
Definition touches_missing (s : store) (o : op) : Prop :=
  match o with
  | NewDefault | NewVersion _ _ _ _ _ | NewWkt _ _ _ => False
  | Copy i | CloneEmpty i | PushBack i _ | SetRecord i _ _ | SetRecords i _ | MoveIn i _
  | MoveOut i _ | Resize i _ | SetWkt i _ | SetCompressed i _ => nth_error s i = None
  | Swap i j | Assign i j => nth_error s i = None \/ nth_error s j = None
  end.

(** [spec_step s o s' ok]: operation [o] turns [s] into [s'] and is accepted
    ([ok = true]) or refused with an exception ([ok = false]). *)
Inductive spec_step (debug : bool) (s : store) : op -> store -> bool -> Prop :=
| s_default : spec_step debug s NewDefault (s ++ [mk_file 0 1 [] false []]) true
| s_version : forall ma mi w c prs, uniform prs ->
    spec_step debug s (NewVersion ma mi w c prs) (s ++ [mk_file (ma mod 256) (mi mod 256) w c prs]) true
| s_version_bad : forall ma mi w c prs, ~ uniform prs ->
    spec_step debug s (NewVersion ma mi w c prs) s false
| s_wkt : forall w c prs, uniform prs ->
    spec_step debug s (NewWkt w c prs) (s ++ [mk_file 0 1 w c prs]) true
| s_wkt_bad : forall w c prs, ~ uniform prs -> spec_step debug s (NewWkt w c prs) s false
| s_copy : forall i f, nth_error s i = Some f -> spec_step debug s (Copy i) (s ++ [f]) true
| s_clone : forall i f, nth_error s i = Some f ->
    spec_step debug s (CloneEmpty i) (s ++ [set_prs f []]) true
| s_push : forall i f p, nth_error s i = Some f -> uniform (f_prs f ++ [p]) ->
    spec_step debug s (PushBack i p) (upd s i (set_prs f (f_prs f ++ [p]))) true
| s_push_bad : forall i f p, nth_error s i = Some f -> ~ uniform (f_prs f ++ [p]) ->
    spec_step debug s (PushBack i p) s false
| s_set : forall i f (n : nat) p q, nth_error s i = Some f -> nth_error (f_prs f) n = Some q ->
    length (rextra p) = length (rextra q) ->
    spec_step debug s (SetRecord i (Z.of_nat n) p)
      (upd s i (set_prs f (firstn n (f_prs f) ++ p :: skipn (S n) (f_prs f)))) true
| s_set_bad : forall i f n p q, nth_error s i = Some f -> In q (f_prs f) ->
    length (rextra p) <> length (rextra q) -> spec_step debug s (SetRecord i n p) s false
| s_set_empty : forall i f n p, nth_error s i = Some f -> f_prs f = [] -> rextra p <> [] ->
    spec_step debug s (SetRecord i n p) s false
| s_set_range : forall i f n p, nth_error s i = Some f -> debug = true ->
    Z.of_nat (length (f_prs f)) <= n -> spec_step debug s (SetRecord i n p) s false
| s_set_all : forall i f prs, nth_error s i = Some f -> uniform prs ->
    spec_step debug s (SetRecords i prs) (upd s i (set_prs f prs)) true
| s_set_all_bad : forall i f prs, nth_error s i = Some f -> ~ uniform prs ->
    spec_step debug s (SetRecords i prs) s false
| s_move_in : forall i f prs, nth_error s i = Some f -> uniform prs ->
    spec_step debug s (MoveIn i prs) (upd s i (set_prs f prs)) true
| s_move_in_bad : forall i f prs, nth_error s i = Some f -> ~ uniform prs ->
    spec_step debug s (MoveIn i prs) s false
| s_move_out : forall i f, nth_error s i = Some f ->
    spec_step debug s (MoveOut i true) (upd s i (set_prs f [])) true
| s_look : forall i f, nth_error s i = Some f -> spec_step debug s (MoveOut i false) s true
| s_resize : forall i f k prs, nth_error s i = Some f ->
    (forall p, In p (f_prs f) -> Z.of_nat (length (rextra p)) < k -> k * 8 < 2 ^ 63) ->
    Forall2 (resized k) (f_prs f) prs ->
    spec_step debug s (Resize i k) (upd s i (set_prs f prs)) true
| s_resize_bad : forall i f k p, nth_error s i = Some f -> In p (f_prs f) ->
    Z.of_nat (length (rextra p)) < k -> 2 ^ 63 <= k * 8 ->
    spec_step debug s (Resize i k) s false
| s_swap : forall i j f g, nth_error s i = Some f -> nth_error s j = Some g ->
    spec_step debug s (Swap i j) (upd (upd s i g) j f) true
| s_assign : forall i j f g, nth_error s i = Some f -> nth_error s j = Some g ->
    spec_step debug s (Assign i j) (upd s i g) true
| s_setwkt : forall i f w, nth_error s i = Some f ->
    spec_step debug s (SetWkt i w)
      (upd s i (mk_file (f_major f) (f_minor f) w (f_compressed f) (f_prs f))) true
| s_setflag : forall i f c, nth_error s i = Some f ->
    spec_step debug s (SetCompressed i c)
      (upd s i (mk_file (f_major f) (f_minor f) (f_wkt f) c (f_prs f))) true
| s_none : forall o, touches_missing s o -> spec_step debug s o s true.
