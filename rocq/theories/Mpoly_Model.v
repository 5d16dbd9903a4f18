(** Model of the parts of Multiline and Multipolygon: construction from polygons or rings,
    members, vertices, merging and affine transformation (karta/vector/geometry.py), for
    geometries of one coordinate system.  The records are those of [Multi_Model].
    A [CoordString] (of another package) is a list of vertices of one rank with a flag for
    rings; [CoordString(array)] and [asarray] are trusted to be inverse to each other. *)
From Coq Require Import String List ZArith QArith Bool Arith.
From Verif Require Import Table_Model Multi_Model Geom_Model.
Import ListNotations.
Local Open Scope list_scope.

(** Exceptions of the tables, of the geometries, and two of their own. They are raised by
    geometry.py:1459-1470, 1581-1639 and 1681-1798. *)
Inductive error := TableError (e : Table_Model.exn) | GeomError (e : Geom_Model.exn) | AttributeError | NameError.
(** What a method of geometry.py:1546-1798 does: it returns or raises. *)
Inductive got (A : Type) := Got (a : A) | Raised (e : error).
Arguments Got {A} a. Arguments Raised {A} e.
(** Python's sequencing, and loops that collect values. geometry.py:1546-1798. *)
Definition andthen {A B} (r : got A) (f : A -> got B) : got B := match r with Got a => f a | Raised e => Raised e end.
(** A list comprehension of geometry.py:1546-1798; the first exception ends it. *)
Fixpoint collect {A B} (f : A -> got B) (l : list A) : got (list B) :=
  match l with [] => Got [] | x :: l' => andthen (f x) (fun y => andthen (collect f l') (fun ys => Got (y :: ys))) end.
(** The outcomes of table.py, as geometry.py:1546-1798 passes them on. *)
Definition by_table {A} (r : Table_Model.res A) : got A :=
  match r with Table_Model.Ok a => Got a | Table_Model.Err e => Raised (TableError e) end.
(** The outcomes of the geometries, as geometry.py:1546-1798 passes them on. *)
Definition by_geom {A} (r : Geom_Model.res A) : got A :=
  match r with Geom_Model.Ok a => Got a | Geom_Model.Err e => Raised (GeomError e) end.

Section Model.
Variables val D C : Type.
Variable vnone : val.
(** A dictionary of properties (geometry.py:32-45). *)
Notation props := (list (string * val)).
(** A Line or Polygon (geometry.py:823-840, 975-998). *)
Notation geom := (geom props D C).

(** geometry.py:1684-1698: an element of [_vertices[i]] is a CoordString that is not a
    ring or, for the holes of a Polygon given to the constructor (1689-1690), that
    Polygon itself. *)
Inductive ring := Coords (v : verts) | Poly (g : geom).
(** A Multipolygon. geometry.py:1642-1705. *)
Definition mpoly : Type := multi (list ring) val.

(** geometry.py:1687-1691 *)
Definition part_of (g : geom) : list ring := Coords (gverts _ _ _ g) :: map Poly (gsubs _ _ _ g).
(** geometry.py:1681-1694, 1699-1703 [Multipolygon(polygons, data=, properties=)]; [ord]
    and [ords] are the orders of the sets of common properties and of fields. *)
Definition of_polygons (ord ords : list string) (gs : list geom) (d : data val) (pr : props) : Table_Model.res mpoly :=
  of_members ord ords (map (fun g => mkM (part_of g) (gprops _ _ _ g)) gs) d pr.
(** geometry.py:1695-1703 [Multipolygon(lists of rings, data=, properties=)] *)
Definition of_rings (l : list (list verts)) (d : data val) (pr : props) : Table_Model.res mpoly :=
  of_parts (map (map Coords) l) d pr.

(** [Polygon(r, properties=p, crs=c)], geometry.py:339-353, 989-997: a CoordString is kept
    with its flag; the Points of a Polygon give a ring. *)
Definition polygon_from (p : props) (c : C) (subs : list geom) (r : ring) : geom :=
  match r with
  | Coords v => Geom _ _ _ KPolygon v false subs p None c
  | Poly g => Geom _ _ _ KPolygon (gverts _ _ _ g) true subs p None c
  end.
(** geometry.py:1707-1715 [__getitem__] with an integer; [c] is the coordinate system. *)
Definition getpoly (c : C) (m : mpoly) (i : nat) : Table_Model.res geom :=
  Table_Model.bind (getitem m i) (fun q =>
    match mpart q with
    | [] => Table_Model.Err Table_Model.IndexError
    | r :: rs => Table_Model.Ok (polygon_from (mprops q) c (map (polygon_from (mprops q) c []) rs) r)
    end).
(** geometry.py:1581-1585 [Multiline.__getitem__] with an integer. *)
Definition getline (c : C) (m : multi verts val) (i : nat) : Table_Model.res geom :=
  Table_Model.bind (getitem m i) (fun q => Table_Model.Ok (make_line _ _ _ (mpart q) (mprops q) c)).

(** geometry.py:1794-1798 [Multipolygon.vertices()]: a Polygon has no [asarray]. *)
Definition array_of (r : ring) : got verts := match r with Coords v => Got v | Poly _ => Raised AttributeError end.
(** geometry.py:1794-1798 [vertices]. *)
Definition mvertices (m : mpoly) : got (list (list verts)) := collect (collect array_of) (parts m).

(** numpy's [arr.shape[1]] and [arr[:,:r]]; a rank is 2 or 3. geometry.py:1606-1639,
    1732-1769. *)
Definition rank (v : verts) : nat := match v with V2 _ => 2 | V3 _ => 3 end.
(** [arr[:,:r]], geometry.py:1606-1639. *)
Definition cut (r : nat) (v : verts) : verts := match v with V3 l => if r =? 2 then V2 (map fst l) else v | _ => v end.
(** Python's [min] and [max]; ValueError without items. geometry.py:1606-1639. *)
Definition min_rank (l : list verts) : got nat :=
  match l with [] => Raised (TableError Table_Model.ValueError) | v :: l' => Got (fold_left (fun a w => Nat.min a (rank w)) l' (rank v)) end.
(** geometry.py:1606-1639, the same for [max]. *)
Definition max_rank (l : list verts) : got nat :=
  match l with [] => Raised (TableError Table_Model.ValueError) | v :: l' => Got (fold_left (fun a w => Nat.max a (rank w)) l' (rank v)) end.

(** geometry.py:1606-1639 [Multiline.merge]; geometries of other types are passed over. *)
Inductive litem := LMulti (m : multi verts val) | LLine (g : geom) | LOther.
(** geometry.py:1606-1639: the vertices of an argument of [Multiline.merge]. *)
Definition litem_verts (x : litem) : list verts :=
  match x with LMulti m => parts m | LLine g => [gverts _ _ _ g] | LOther => [] end.
(** geometry.py:1606-1639: the data or properties of an argument of [Multiline.merge]. *)
Definition litem_mapping (x : litem) : list (mitem val) :=
  match x with LMulti m => [ITable (tbl m)] | LLine g => [IDict (gprops _ _ _ g)] | LOther => [] end.
(** geometry.py:1606-1639 [Multiline.merge]. *)
Definition merge_lines (ord : list string) (xs : list litem) : got (multi verts val) :=
  match xs with
  | [] => Raised (TableError Table_Model.ValueError)
  | _ =>
    let vs := flat_map litem_verts xs in
    andthen (min_rank vs) (fun lo => andthen (max_rank vs) (fun hi =>
    let vs := if lo =? hi then vs else map (cut lo) vs in
    andthen (by_table (merge vnone ord (flat_map litem_mapping xs))) (fun t => by_table (of_parts vs (DTable t) []))))
  end.

(** geometry.py:1732-1769 [Multipolygon.merge]: with different ranks the name [imin] is not
    defined (1766). *)
Inductive pitem := PMulti (m : mpoly) | PPoly (g : geom) | POther.
(** geometry.py:1732-1769: the vertices of an argument of [Multipolygon.merge]. *)
Definition pitem_verts (x : pitem) : got (list (list verts)) :=
  match x with
  | PMulti m => mvertices m
  | PPoly g => Got [gverts _ _ _ g :: map (gverts _ _ _) (gsubs _ _ _ g)]
  | POther => Got []
  end.
(** geometry.py:1732-1769: the data or properties of an argument of [Multipolygon.merge]. *)
Definition pitem_mapping (x : pitem) : list (mitem val) :=
  match x with PMulti m => [ITable (tbl m)] | PPoly g => [IDict (gprops _ _ _ g)] | POther => [] end.
(** geometry.py:1732-1769 [Multipolygon.merge]. *)
Definition merge_polygons (ord : list string) (xs : list pitem) : got mpoly :=
  match xs with
  | [] => Raised (TableError Table_Model.ValueError)
  | _ =>
    andthen (collect pitem_verts xs) (fun vss =>
    let vs := concat vss in
    andthen (min_rank (concat vs)) (fun lo => andthen (max_rank (concat vs)) (fun hi =>
    if lo =? hi then
      andthen (by_table (merge vnone ord (flat_map pitem_mapping xs))) (fun t => by_table (of_rings vs (DTable t) []))
    else Raised NameError)))
  end.

(** [for part in self], geometry.py:1468: [__getitem__] with 0, 1, ... until an IndexError;
    there are not more calls than rows. *)
Fixpoint members_from (get : nat -> Table_Model.res geom) (i fuel : nat) : got (list geom) :=
  match fuel with
  | O => Got []
  | S f =>
    match get i with
    | Table_Model.Err Table_Model.IndexError => Got []
    | Table_Model.Err e => Raised (TableError e)
    | Table_Model.Ok g => andthen (members_from get (S i) f) (fun gs => Got (g :: gs))
    end
  end.
(** geometry.py:1459-1470 [apply_transform]; the constructor of Multiline is at
    geometry.py:1560-1578. *)
Definition transform_lines (ord ords : list string) (c : C) (m : multi verts val) (M : matrix) : got (multi verts val) :=
  andthen (by_geom (complete M)) (fun N =>
  andthen (members_from (getline c m) 0 (S (tlen (tbl m)))) (fun gs =>
  andthen (collect (fun g => by_geom (apply_transform _ _ _ g N)) gs) (fun hs =>
  by_table (of_members ord ords (map (fun h => mkM (gverts _ _ _ h) (gprops _ _ _ h)) hs) (DTable (tbl m)) (Multi_Model.props m))))).
(** geometry.py:1459-1470 [apply_transform] of a Multipolygon. *)
Definition transform_polygons (ord ords : list string) (c : C) (m : mpoly) (M : matrix) : got mpoly :=
  andthen (by_geom (complete M)) (fun N =>
  andthen (members_from (getpoly c m) 0 (S (tlen (tbl m)))) (fun gs =>
  andthen (collect (fun g => by_geom (apply_transform _ _ _ g N)) gs) (fun hs =>
  by_table (of_polygons ord ords hs (DTable (tbl m)) (Multi_Model.props m))))).
End Model.
