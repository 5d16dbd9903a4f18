(** Model of the records of multipart geometries: construction, indexing, iteration,
    slicing, assignment, merging and spatial selection of karta/vector/geometry.py
    Multipoint, Multiline and Multipolygon.

    A part (a vertex, or the vertices of a line or polygon) is of an arbitrary type [P]; all
    geometries have one coordinate system.  A properties dictionary is the list of its
    pairs, and the last pair with a key counts ([dict_get]), so that [d.update(e)] is
    [d ++ e].  Positions are natural numbers; slices are given by the positions they
    select.  Iteration over a Python set of names has an unspecified order, which is an
    explicit argument. *)
From Coq Require Import String List Bool Arith.
From Verif Require Import Table_Model.
Import ListNotations.
Local Open Scope list_scope.

Section Model.
Variables P val : Type.
Variable vnone : val.

(** A dictionary of properties (geometry.py:32-45). *)
Definition dict : Type := list (string * val).
(** A Point, Line or Polygon: geometry.py:66-85. *)
Record member := mkM { mpart : P; mprops : dict }.
(** geometry.py:1181-1196 Multipart: [_vertices], [data], [properties]; [gens] are the
    rows of [data] that hold a generator instead of a tuple (geometry.py:1297). *)
Record multi := mkMulti { parts : list P; tbl : table val; props : dict; gens : list nat }.

(** The keyword argument [data]: not given, None, a dict of columns, or a Table.
    geometry.py:1184-1196, 1262, 1567. *)
Inductive data := Absent | DNone | DDict (d : list (string * list val)) | DTable (t : table val).

(** A dict of lists as the argument of [Table], table.py:42-54. *)
Definition columns (d : list (string * list val)) : res (table val) :=
  table_of_dict (map (fun kv => (fst kv, Vec (snd kv))) d).

(** geometry.py:1184-1196 [Multipart.__init__] for inputs that are not geometries. *)
Definition of_parts (ps : list P) (d : data) (pr : dict) : res multi :=
  let no_data := Ok (mkMulti ps (table_sized [] (List.length ps)) pr []) in
  match d with
  | Absent | DNone => no_data
  | DTable t => Ok (mkMulti ps t pr [])
  | DDict [] => no_data
  | DDict cols =>
    if forallb (fun kv => List.length (snd kv) =? List.length ps) cols
    then bind (columns cols) (fun t => Ok (mkMulti ps t pr []))
    else Err ValueError
  end.

(** geometry.py:1825-1831 [merge_properties]; [ord] is the order of the set of common
    keys.  A key that a dictionary does not have is a KeyError. *)
Definition merge_properties (ord : list string) (ds : list dict) : res (list (string * list val)) :=
  mapM (fun k => bind (mapM (fun d => match dict_get d k with Some v => Ok v | None => Err KeyError end) ds)
                      (fun vs => Ok (k, vs))) ord.

(** [Table(kwargs.get("data", {}))], geometry.py:1262, 1567; [Table(None)] without a size
    is a ValueError (table.py:25-28). *)
Definition base_table (d : data) : res (table val) :=
  match d with
  | Absent => Ok (mkT [] [])
  | DNone => Err ValueError
  | DDict cols => columns cols
  | DTable t => Ok t
  end.

(** geometry.py:1258-1263, 1563-1568: from geometries; without inputs the first branch
    (geometry.py:1256, 1561) is taken.  [ords] is the order of the field names of
    [data]. *)
Definition of_members (ord ords : list string) (ms : list member) (d : data) (pr : dict) : res multi :=
  match ms with
  | [] => of_parts [] d pr
  | _ =>
    bind (merge_properties ord (map mprops ms)) (fun cols =>
    bind (base_table d) (fun t =>
    bind (updated [] ords t (MDict cols)) (fun t' => Ok (mkMulti (map mpart ms) t' pr []))))
  end.

(** [self.d[i]], table.py:117-126, 225-229; a generator has no [d[j]]. *)
Definition record (m : multi) (i : nat) : res dict :=
  if existsb (Nat.eqb i) (gens m) then
    match fields (tbl m) with [] => Ok [] | _ => Err TypeError end
  else get (tbl m) i.

(** geometry.py:1272-1276, 1581-1585 [__getitem__] with an integer. *)
Definition getitem (m : multi) (i : nat) : res member :=
  bind (record m i) (fun d =>
    match nth_error (parts m) i with
    | None => Err IndexError
    | Some p => Ok (mkM p (d ++ props m))
    end).

(** [for part in m]: Python calls [__getitem__] with 0, 1, ... until an IndexError; there are
    not more calls than rows. geometry.py:1272-1276. *)
Fixpoint iterate_from (m : multi) (i fuel : nat) : res (list member) :=
  match fuel with
  | O => Ok []
  | S f =>
    match getitem m i with
    | Err IndexError => Ok []
    | Err e => Err e
    | Ok p => bind (iterate_from m (S i) f) (fun ps => Ok (p :: ps))
    end
  end.
(** Iteration by geometry.py:1272-1276 [__getitem__]. *)
Definition iterate (m : multi) : res (list member) := iterate_from m 0 (S (tlen (tbl m))).

(** The vertices or rows at the given positions. geometry.py:555-560, 1277-1281. *)
Definition take {A : Type} (l : list A) (ids : list nat) : res (list A) :=
  mapM (fun i => match nth_error l i with Some a => Ok a | None => Err IndexError end) ids.

(** geometry.py:1277-1281, 1586-1588 [__getitem__] with a slice: [pids] are the positions
    the slice selects among the vertices, [ids] those it selects among the rows.  A row
    that is a generator is a TypeError as soon as there is a field. *)
Definition slice (m : multi) (pids ids : list nat) : res multi :=
  if existsb (fun i => existsb (Nat.eqb i) (gens m)) ids && negb (List.length (fields (tbl m)) =? 0) then Err TypeError
  else
  bind (take (parts m) pids) (fun ps =>
  bind (get_slice (tbl m) ids) (fun d => of_parts ps (DDict d) (props m))).

(** geometry.py:555-560 [_subset]; [ord] is the order of the set [data.fields].  (The rows
    of a multipoint with generators are not modelled: [gens] must be empty.) *)
Definition subset (ord : list string) (m : multi) (ids : list nat) : res multi :=
  bind (take (parts m) ids) (fun ps =>
  bind (take (rows (tbl m)) ids) (fun rs =>
  bind (table_of_rows rs ord) (fun t => of_parts ps (DTable t) (props m)))).

(** geometry.py:1284-1291 [Multipoint.__setitem__] with a Point: the vertex is replaced
    before the row; [dict.get(field, None)] in the order [ord] of the set of fields. *)
Definition set_point (ord : list string) (m : multi) (i : nat) (p : member) : multi * option exn :=
  match list_set (parts m) i (mpart p) with
  | None => (m, Some IndexError)
  | Some ps =>
    let row := map (fun f => match dict_get (mprops p) f with Some v => v | None => vnone end) ord in
    match setitem (tbl m) i row with
    | (t, None) => (mkMulti ps t (props m) (filter (fun j => negb (j =? i)) (gens m)), None)
    | (_, Some e) => (mkMulti ps (tbl m) (props m) (gens m), Some e)
    end
  end.
(** geometry.py:1292-1297 [Multipoint.__setitem__] with a sequence: the vertex is replaced
    if the sequence has the right length ([Some p]; None if not) and the row becomes a
    generator (kept here in [gens]). *)
Definition set_vertex (m : multi) (i : nat) (p : option P) : multi * option exn :=
  let set_row ps :=
    if i <? tlen (tbl m) then (mkMulti ps (tbl m) (props m) (i :: gens m), None)
    else (mkMulti ps (tbl m) (props m) (gens m), Some IndexError) in
  match p with
  | None => set_row (parts m)
  | Some p => match list_set (parts m) i p with None => (m, Some IndexError) | Some ps => set_row ps end
  end.

(** geometry.py:1315-1345 [Multipoint.merge]; vertices of one rank. *)
Inductive item := IMulti (m : multi) | IPoint (p : member).
(** geometry.py:1315-1345: the vertices of an argument of [merge]. *)
Definition item_parts (x : item) : list P := match x with IMulti m => parts m | IPoint p => [mpart p] end.
(** geometry.py:1315-1345: the data or properties of an argument of [merge]. *)
Definition item_mapping (x : item) : mitem val := match x with IMulti m => ITable (tbl m) | IPoint p => IDict (mprops p) end.
(** geometry.py:1315-1345 [Multipoint.merge]. *)
Definition merge_items (ord : list string) (xs : list item) : res multi :=
  match xs with
  | [] => Err ValueError
  | _ => bind (merge vnone ord (map item_mapping xs)) (fun t =>
         of_parts (flat_map item_parts xs) (DTable t) [])
  end.

(** geometry.py:1472-1491 [Multiline.within_bbox], [touching_bbox] (and Multipolygon):
    [type(self)([self[i] for i in indices])]. *)
Definition select (ord : list string) (m : multi) (ids : list nat) : res multi :=
  bind (mapM (getitem m) ids) (fun ms => of_members ord [] ms Absent []).

(* ---- selection of the points of a Multipoint *)

(** [list.sort()] Sorting the candidates, geometry.py:1347-1405. *)
Fixpoint insert (n : nat) (l : list nat) : list nat :=
  match l with [] => [n] | a :: l' => if n <=? a then n :: l else a :: insert n l' end.
(** [list.sort()] of the candidates, geometry.py:1347-1405. *)
Definition isort (l : list nat) : list nat := fold_right insert [] l.

(** geometry.py:1365-1371, 1397-1402: the candidates whose member passes the test. *)
Fixpoint confirm (m : multi) (test : P -> res bool) (cands : list nat) : res (list nat) :=
  match cands with
  | [] => Ok []
  | i :: cands' =>
    bind (getitem m i) (fun p => bind (test (mpart p)) (fun b =>
    bind (confirm m test cands') (fun l => Ok (if b then i :: l else l))))
  end.
(** geometry.py:1373, 1387, 1404: enumerate the members and test them. *)
Fixpoint passing (test : P -> res bool) (i : nat) (ms : list member) : res (list nat) :=
  match ms with
  | [] => Ok []
  | p :: ms' => bind (test (mpart p)) (fun b => bind (passing test (S i) ms') (fun l => Ok (if b then i :: l else l)))
  end.
(** geometry.py:1373, 1387, 1404: all members are tested. *)
Definition enumerate (m : multi) (test : P -> res bool) : res (list nat) :=
  bind (iterate m) (passing test 0).

(** geometry.py:1380-1389 [within_bbox]: [search] is [quadtree.search_within] for the box,
    None without an index; [inside] is the test of the box. *)
Definition within_bbox (ord : list string) (m : multi) (search : option (list nat)) (inside : P -> bool) : res multi :=
  match search with
  | Some ids => subset ord m (isort ids)
  | None => bind (enumerate m (fun p => Ok (inside p))) (subset ord m)
  end.
(** geometry.py:1347-1376 [within_radius], 1391-1405 [within_polygon]: candidates from the
    index, confirmed by a test. *)
Definition within_test (ord : list string) (m : multi) (search : option (list nat)) (test : P -> res bool) : res multi :=
  match search with
  | Some cands => bind (confirm m test cands) (fun ids => subset ord m (isort ids))
  | None => bind (enumerate m test) (subset ord m)
  end.

End Model.

Arguments mkM {P val}. Arguments mpart {P val}. Arguments mprops {P val}.
Arguments mkMulti {P val}. Arguments parts {P val}. Arguments tbl {P val}.
Arguments props {P val}. Arguments gens {P val}.
Arguments Absent {val}. Arguments DNone {val}. Arguments DDict {val}. Arguments DTable {val}.
Arguments of_parts {P val}. Arguments of_members {P val}. Arguments record {P val}.
Arguments getitem {P val}. Arguments iterate {P val}. Arguments iterate_from {P val}.
Arguments slice {P val}. Arguments subset {P val}. Arguments set_point {P val}.
Arguments set_vertex {P val}. Arguments IMulti {P val}. Arguments IPoint {P val}.
Arguments merge_items {P val}. Arguments select {P val}. Arguments within_bbox {P val}.
Arguments within_test {P val}. Arguments item_parts {P val}. Arguments item_mapping {P val}.
Arguments confirm {P val}. Arguments passing {P val}. Arguments enumerate {P val}.
Arguments merge_properties {val}. Arguments base_table {val}. Arguments columns {val}.
