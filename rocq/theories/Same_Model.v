(** Model of equality, hashing, membership and slicing of the geometries of
    karta/vector/geometry.py, and of the equality of their coordinate systems and tables.

    Coordinates are binary floating point numbers ([spec_float], with signed zeros,
    infinities and one NaN); a vertex is the list of its coordinates, a coordinate string
    (another package) the list of its vertices.  Property values are of an arbitrary type
    with a Boolean equality [veqb]; a dictionary is the list of its pairs, of which the last
    with a key counts.  Python's [hash] of strings, bytes and tuples are arbitrary functions
    to the integers; the bytes of an array are determined by the list of its numbers. *)
From Coq Require Import String List ZArith Bool Arith SpecFloat.
From Verif Require Import Table_Model Multi_Model.
From Verif Require Crs_Model Band_Model Band_IndexModel.
Import ListNotations.
Local Open Scope list_scope.

(** The numbers of a vertex (geometry.py:66-85, 334-354). *)
Definition vertex := list spec_float.

(** crs.py:99-300, a coordinate system object: its class, its identity (Python's [is]), its
    name, and what [ProjectedCRS.__eq__] looks at.  CartesianCRS has neither _proj nor
    _geod. *)
Inductive system :=
| Cartesian (id : nat)
| Geographical (id : nat) (name : string) (o : Crs_Model.crs_object)
| Projected (id : nat) (name : string) (o : Crs_Model.crs_object).
(** [self.crs == other.crs].  Only ProjectedCRS defines [__eq__] (crs.py:271-276); otherwise
    Python asks the other operand, and then compares identities. *)
Definition system_eqb (x y : system) : bool :=
  match x, y with
  | Projected _ _ a, Projected _ _ b => Crs_Model.crs_eqb a b
  | Projected _ _ a, Geographical _ _ b => Crs_Model.crs_eqb a b
  | Geographical _ _ a, Projected _ _ b => Crs_Model.crs_eqb b a
  | Geographical i _ _, Geographical j _ _ => Nat.eqb i j
  | Cartesian i, Cartesian j => Nat.eqb i j
  | _, _ => false
  end.
(** crs.py:125-126 [CRS.__str__]; crs.py:161, 223, 263-266 the names. *)
Definition system_str (x : system) : string :=
  match x with
  | Cartesian _ => "<CRS Cartesian>"
  | Geographical _ n _ | Projected _ n _ => ("<CRS " ++ n ++ ">")%string
  end.

(** Python's == of two lists or tuples whose elements are compared by [eqb]. geometry.py:91-97,
    table.py:83-84. *)
Fixpoint list_eqb {A} (eqb : A -> A -> bool) (u v : list A) : bool :=
  match u, v with
  | [], [] => true
  | a :: u', b :: v' => eqb a b && list_eqb eqb u' v'
  | _, _ => false
  end.
(** [np.equal(u, v)] reduced by [np.all], for coordinate strings with equally many vertices:
    arrays of n x 2 and n x 3 numbers cannot be broadcast.  (Two empty strings are taken to have
    one rank.) geometry.py:356-364, 1207-1215. *)
Definition arrays_equal (u v : list vertex) : res bool :=
  match u, v with
  | a :: _, b :: _ => if List.length a =? List.length b then Ok (list_eqb (list_eqb SFeqb) u v) else Err ValueError
  | _, _ => Ok true
  end.

(** geometry.py:346-354, 838, 993, 1269: the classes, and the attribute _geotype. *)
Inductive kind := Line | Polygon | Multipoint.
(** [==] of the classes, geometry.py:346-354. *)
Definition kind_eqb (a b : kind) : bool :=
  match a, b with Line, Line | Polygon, Polygon | Multipoint, Multipoint => true | _, _ => false end.
(** The attribute _geotype, geometry.py:838, 993, 1269. *)
Definition geotype (k : kind) : string :=
  match k with Line => "Line" | Polygon => "Polygon" | Multipoint => "Multipoint" end.

Section Model.
Variable val : Type.
Variable veqb : val -> val -> bool.

(** geometry.py:66-85 Point. *)
Record point := mkPoint { pvertex : vertex; pprops : dict val; pcrs : system }.
(** geometry.py:334-354, 975-998, 1233-1270: Line, Polygon (with sub-polygons) and
    Multipoint (with data). *)
Inductive geom := Geom (k : kind) (v : list vertex) (subs : list geom) (t : table val) (p : dict val) (c : system).
(** The class of a geometry, geometry.py:346-354. *)
Definition gkind (g : geom) := let 'Geom k _ _ _ _ _ := g in k.
(** The attribute _vertices, geometry.py:346-354. *)
Definition gverts (g : geom) := let 'Geom _ v _ _ _ _ := g in v.
(** The attribute subs, geometry.py:975-998. *)
Definition gsubs (g : geom) := let 'Geom _ _ s _ _ _ := g in s.
(** The attribute data, geometry.py:1184-1199. *)
Definition gdata (g : geom) := let 'Geom _ _ _ t _ _ := g in t.
(** The attribute properties, geometry.py:32-45. *)
Definition gprops (g : geom) := let 'Geom _ _ _ _ p _ := g in p.
(** The attribute crs, geometry.py:32-45. *)
Definition gcrs (g : geom) := let 'Geom _ _ _ _ _ c := g in c.

(** Python's == of dictionaries: the same keys with equal values. geometry.py:91-97, 356-364. *)
Definition dict_eqb (d e : dict val) : bool :=
  forallb (fun k => match dict_get d k, dict_get e k with
                    | Some a, Some b => veqb a b
                    | None, None => true
                    | _, _ => false
                    end) (map fst d ++ map fst e).
(** table.py:83-84 [Table.__eq__]. *)
Definition table_eqb (t u : table val) : bool :=
  list_eqb (list_eqb veqb) (rows t) (rows u) && list_eqb String.eqb (fields t) (fields u).

(** geometry.py:91-97 [Point.__eq__] with a Point.  (Tuples compare elements by identity
    first: a NaN that is one object equals itself, which is not modelled.) *)
Definition point_eqb (p q : point) : bool :=
  list_eqb SFeqb (pvertex p) (pvertex q) && dict_eqb (pprops p) (pprops q) && system_eqb (pcrs p) (pcrs q).

(** geometry.py:356-364 [MultiVertexBase.__eq__], of Line and Polygon, which makes a
    ValueError False, and 1203-1212 [Multipart.__eq__], which does not. *)
Definition geom_eq (g h : geom) : res bool :=
  if negb (kind_eqb (gkind g) (gkind h)) then Ok false
  else if negb (List.length (gverts g) =? List.length (gverts h)) then Ok false
  else
    let rest := dict_eqb (gprops g) (gprops h) && system_eqb (gcrs g) (gcrs h) in
    match gkind g, arrays_equal (gverts g) (gverts h) with
    | Multipoint, Ok b => Ok (b && table_eqb (gdata g) (gdata h) && rest)
    | Multipoint, Err e => Err e
    | _, Ok b => Ok (b && rest)
    | _, Err _ => Ok false
    end.

Section Hash.
Variable hash_str : string -> Z.
Variable hash_bytes : list spec_float -> Z.
Variable hash_tuple : list spec_float -> Z.
Local Open Scope Z_scope.
(** geometry.py:102-106 [Point.__hash__]: the number it returns (Python then reduces it to a
    machine word). *)
Definition point_hash (p : point) : Z :=
  let ht := hash_str "Point" in let hd := hash_tuple (pvertex p) in let hc := hash_str (system_str (pcrs p)) in
  ht + Z.shiftl hd 1 + hd + hc.
(** geometry.py:369-373 and 1217-1221 [__hash__] of Line, Polygon and Multipoint. *)
Definition geom_hash (g : geom) : Z :=
  let ht := hash_str (geotype (gkind g)) in let hd := hash_bytes (concat (gverts g)) in
  let hc := hash_str (system_str (gcrs g)) in
  ht + Z.shiftl hd 1 + hd + hc.
End Hash.
(** geometry.py:1217-1221 [__hash__] of Multiline and Multipolygon: [_vertices] is a list
    (geometry.py:1561-1571, 1695-1711), which has no method asarray. *)
Inductive hashed := Hash (z : Z) | AttributeError.
(** geometry.py:1217-1221 [__hash__] of Multiline and Multipolygon. *)
Definition multipart_hash (parts : list (list vertex)) : hashed := AttributeError.

(** geometry.py:1223-1227 [Multipart.__contains__] of a Multipoint: iterate over the members
    until one is equal. *)
Definition member_point (c : system) (m : member vertex val) : point := mkPoint (mpart m) (mprops m) c.
(** geometry.py:1223-1227 [__contains__]. *)
Definition contains (m : multi vertex val) (c : system) (q : point) : res bool :=
  bind (iterate m) (fun ms => Ok (existsb (fun p => point_eqb (member_point c p) q) ms)).

(** A key: an integer (of type int or np.int64), a slice, or anything else. geometry.py:375-383,
    1000-1007, 1272-1283. *)
Inductive key := Int (i : nat) | Slice (start stop step : option Z) | OtherKey.
(** What indexing gives. geometry.py:375-383, 1000-1007, 1272-1283. *)
Inductive item := APoint (p : point) | AGeom (g : geom) | Raise (e : exn).
(** The data of a Line or Polygon: none (geometry.py:823-840, 975-998). *)
Definition no_data : table val := mkT [] [].

(** [_vertices.slice(start, stop, stride)]: the vertices at the positions of [range(start, stop,
    stride)] (another package). geometry.py:375-383, 1000-1007, 1272-1283. *)
Definition vslice {A} (v : list A) (s e st : Z) : list A :=
  flat_map (fun i => match nth_error v (Z.to_nat i) with Some a => [a] | None => [] end) (Band_IndexModel.py_range s e st).
(** [key.indices(len(self._vertices))]; a step of zero is a ValueError. geometry.py:375-383,
    1000-1007, 1272-1283. *)
Definition indices (n : nat) (a b c : option Z) : option (Z * Z * Z) :=
  match Band_IndexModel.slice_indices (Z.of_nat n) a b c with Band_Model.Ok t => Some t | Band_Model.Err _ => None end.

(** geometry.py:375-383 [MultiVertexBase.__getitem__], integers from 0. *)
Definition base_getitem (g : geom) (k : key) : item :=
  match k with
  | Int i => match nth_error (gverts g) i with
             | Some v => APoint (mkPoint v (gprops g) (gcrs g))
             | None => Raise IndexError
             end
  | Slice a b c =>
      match indices (List.length (gverts g)) a b c with
      | None => Raise ValueError
      | Some (s, e, st) => AGeom (Geom (gkind g) (vslice (gverts g) s e st) [] no_data (gprops g) (gcrs g))
      end
  | OtherKey => Raise KeyError
  end.
(** geometry.py:1000-1007 [Polygon.__getitem__]. *)
Definition polygon_getitem (g : geom) (k : key) : item :=
  match k with
  | Slice a b c =>
      match indices (List.length (gverts g)) a b c with
      | None => Raise ValueError
      | Some (s, e, st) =>
          if negb (Z.of_nat (List.length (gverts g)) =? (e - s) / st)%Z
          then AGeom (Geom Line (vslice (gverts g) s e st) [] no_data (gprops g) (gcrs g))
          else base_getitem g k
      end
  | _ => base_getitem g k
  end.
(** geometry.py:1272-1283 [Multipoint.__getitem__] with a slice: the vertices as above, the
    rows by slicing the list of rows (table.py:117-124). *)
Definition multipoint_slice (m : multi vertex val) (a b c : option Z) : res (multi vertex val) :=
  match indices (List.length (parts m)) a b c, indices (tlen (tbl m)) a b c with
  | Some (s, e, st), Some (s', e', st') =>
      slice m (map Z.to_nat (Band_IndexModel.py_range s e st)) (map Z.to_nat (Band_IndexModel.py_range s' e' st'))
  | _, _ => Err ValueError
  end.
(** geometry.py:385-386 [__iter__] of Line and Polygon: a generator of [self[i]]. *)
Definition points (g : geom) : list item := map (fun i => base_getitem g (Int i)) (seq 0 (List.length (gverts g))).
End Model.

Arguments mkPoint {val}. Arguments pvertex {val}. Arguments pprops {val}. Arguments pcrs {val}.
Arguments Geom {val}. Arguments gkind {val}. Arguments gverts {val}. Arguments gsubs {val}. Arguments gdata {val}.
Arguments gprops {val}. Arguments gcrs {val}. Arguments dict_eqb {val}. Arguments table_eqb {val}.
Arguments point_eqb {val}. Arguments geom_eq {val}. Arguments point_hash {val}. Arguments geom_hash {val}.
Arguments contains {val}. Arguments member_point {val}. Arguments APoint {val}. Arguments AGeom {val}. Arguments Raise {val}.
Arguments base_getitem {val}. Arguments polygon_getitem {val}. Arguments multipoint_slice {val}. Arguments points {val}.
Arguments no_data {val}.
