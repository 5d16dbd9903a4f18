(** Model of GeoJSON output and input: karta/vector/_geojson.py, the GeoJSON functions of
    karta/vector/read.py and the parts of geometry.py and table.py they rest on.

    [V] is the type of a vertex.  The text and the package picogeojson are trusted to give
    back what was written, but for the direction of the rings of polygons, which
    picogeojson may turn ([wind]).  A CoordString is the list of its vertices. *)
From Coq Require Import String Ascii.
From Coq Require Import List Bool Arith ZArith.
Import ListNotations.
Open Scope list_scope.

(** JSON values, as Python holds them: numbers are integers here. What the GeoJSON functions
    (_geojson.py:23-103, read.py:60-134) store in properties and data. *)
Inductive jv : Type := JNull | JBool (b : bool) | JNum (z : Z) | JStr (s : string) | JList (l : list jv) | JObj (l : list (string * jv)).
(** A dictionary of properties, with the order of its keys (geometry.py:32-45). *)
Definition dict : Type := list (string * jv).
(** The exceptions of _geojson.py:23-103, read.py:60-134, table.py:10-134 and
    geometry.py:1022-1029, 1184-1199. *)
Inductive gj_error : Type := NameError | AttributeError | IndexError | KeyError | ValueError.
(** What a function of _geojson.py or read.py:60-134 does: it returns or raises. *)
Inductive outcome (A : Type) : Type := Ok (a : A) | Raise (e : gj_error).
Arguments Ok {A}. Arguments Raise {A}.

(** [d.get(k)], [d[k] = v] and [d.update(e)]: a key keeps its place in the order. Used for
    _geojson.py:63-70, read.py:104-134 and table.py:10-62. *)
Fixpoint get {A : Type} (k : string) (d : list (string * A)) : option A :=
  match d with [] => None | (k', v) :: d' => if String.eqb k k' then Some v else get k d' end.
(** [d[k] = v] (_geojson.py:63-70, read.py:104-134). *)
Fixpoint set {A : Type} (k : string) (v : A) (d : list (string * A)) : list (string * A) :=
  match d with [] => [(k, v)] | (k', v') :: d' => if String.eqb k k' then (k, v) :: d' else (k', v') :: set k v d' end.
(** [d.update(e)] (_geojson.py:63-70, read.py:104-134). *)
Definition update {A : Type} (d e : list (string * A)) : list (string * A) := fold_left (fun d kv => set (fst kv) (snd kv) d) e d.

(** [len(v)]; None for a TypeError. read.py:104-119 and table.py:10-62. *)
Definition pylen (v : jv) : option nat :=
  match v with JStr s => Some (String.length s) | JList l => Some (length l) | JObj l => Some (length l) | _ => None end.
(** What iterating over a value gives: letters, members or keys. table.py:10-62; a string. *)
Fixpoint letters (s : string) : list jv := match s with EmptyString => [] | String c s' => JStr (String c EmptyString) :: letters s' end.
(** What iterating over a column gives (table.py:10-62): letters, members or keys. *)
Definition items (v : jv) : list jv :=
  match v with JStr s => letters s | JList l => l | JObj l => map (fun kv => JStr (fst kv)) l | _ => [] end.

(** table.py: field names and rows. *)
Record table : Type := mkTable { fields : list string; rows : list (list jv) }.
(** [zip] of several lists: as long as the shortest. table.py:10-62; one column more. *)
Fixpoint zip_cons (c : list jv) (rs : list (list jv)) : list (list jv) :=
  match c, rs with x :: c', r :: rs' => (x :: r) :: zip_cons c' rs' | _, _ => [] end.
(** table.py:10-62, [zip] of the columns. *)
Fixpoint zip (cols : list (list jv)) : list (list jv) :=
  match cols with [] => [] | [c] => map (fun x => [x]) c | c :: cols' => zip_cons c (zip cols') end.
(** table.py:26-62 [Table(data)] for a dictionary: the first column tells whether the
    entries are vectors; a string counts as a scalar.  geometry.py:1188-1189: no data gives
    a table of [n] empty rows. *)
Definition make_table (cols : dict) (n : nat) : table :=
  match cols with
  | [] => mkTable [] (repeat [] n)
  | (_, JStr _) :: _ => mkTable (map fst cols) (map (fun kv => [snd kv]) cols)
  | _ => mkTable (map fst cols) (zip (map (fun kv => items (snd kv)) cols))
  end.
(** [tuple.index] and table.py:128-134 [getfield]. *)
Fixpoint index_of (f : string) (fs : list string) : option nat :=
  match fs with [] => None | g :: fs' => if String.eqb f g then Some 0 else option_map S (index_of f fs') end.
(** table.py:128-134, the entries of a column; a row that is too short is an IndexError. *)
Fixpoint column (i : nat) (rs : list (list jv)) : outcome (list jv) :=
  match rs with
  | [] => Ok []
  | r :: rs' => match nth_error r i with
                | None => Raise IndexError
                | Some v => match column i rs' with Ok c => Ok (v :: c) | Raise e => Raise e end
                end
  end.
(** table.py:128-134 [getfield]. *)
Definition getfield (t : table) (f : string) : outcome (list jv) :=
  match index_of f (fields t) with Some i => column i (rows t) | None => Raise KeyError end.

Section Model.
Variable V : Type.

(** A polygon's hole: a Polygon object, or the bare list of coordinates that the reader
    puts in its place (read.py:91-93). *)
Inductive sub : Type := SubPolygon (r : list V) | SubList (r : list V).
(** The vertices of the six kinds of geometry (geometry.py:66, 823, 975, 1233, 1546, 1664). *)
Inductive shape : Type :=
| Pt (v : V) | Ln (vs : list V) | Pg (ring : list V) (subs : list sub)
| MPt (vs : list V) | MLn (vss : list (list V)) | MPg (polys : list (list (list V))).
(** A geometry: vertices, properties and, for the multipart kinds, the table of data.
    geometry.py:32-45, 1184-1199. *)
Record geo : Type := mkGeo { verts : shape; props : dict; data : option table }.

(** GeoJSON geometries (RFC 7946), and the documents [read_geojson] takes. The geometries that
    _geojson.py:45-61 makes and read.py:71-101 takes. *)
Inductive gjgeom : Type :=
| GPoint (v : V) | GLineString (vs : list V) | GPolygon (rings : list (list V))
| GMultiPoint (vs : list V) | GMultiLineString (vss : list (list V)) | GMultiPolygon (polys : list (list (list V))).
(** The documents that read.py:60-134 [read_geojson] takes. *)
Inductive gjdoc : Type :=
| DGeometry (g : gjgeom)
| DGeometryCollection (gs : list gjdoc)
| DFeature (g : gjdoc) (p : dict)
| DFeatureCollection (fs : list (gjdoc * dict)).

(** geometry.py:1022-1029 and 1770-1781 [vertices_ring]; [vertices[0]] of an empty ring is an
    IndexError. *)
Definition close (r : list V) : outcome (list V) := match r with [] => Raise IndexError | v :: _ => Ok (r ++ [v]) end.
(** A list comprehension in _geojson.py:45-61 or read.py:60-134; the first exception ends it. *)
Fixpoint mapO {A B : Type} (f : A -> outcome B) (l : list A) : outcome (list B) :=
  match l with
  | [] => Ok []
  | x :: l' => match f x with Raise e => Raise e | Ok y => match mapO f l' with Ok ys => Ok (y :: ys) | Raise e => Raise e end end
  end.
(** utilities.py:13-22 [_as_nested_lists]: it looks at [part[0]] of every part, an IndexError for
    an empty one. *)
Definition nested {A : Type} (parts : list (list A)) : outcome (list (list A)) :=
  mapO (fun part => match part with [] => Raise IndexError | _ => Ok part end) parts.
(** _geojson.py:51-52 [sub.vertices()]: a bare list has no such method. *)
Definition sub_vertices (s : sub) : outcome (list V) := match s with SubPolygon r => Ok r | SubList _ => Raise AttributeError end.

(** _geojson.py:45-61: the coordinates. *)
Definition gj_coords (s : shape) : outcome gjgeom :=
  match s with
  | Pt v => Ok (GPoint v)
  | Ln vs => Ok (GLineString vs)
  | Pg r subs => match close r with
                 | Raise e => Raise e
                 | Ok r' => match mapO sub_vertices subs with Ok ss => Ok (GPolygon (r' :: ss)) | Raise e => Raise e end
                 end
  | MPt vs => Ok (GMultiPoint vs)
  | MLn vss => match nested vss with Ok q => Ok (GMultiLineString q) | Raise e => Raise e end
  | MPg ps => match mapO (mapO close) ps with
              | Ok q => match nested q with Ok r => Ok (GMultiPolygon r) | Raise e => Raise e end
              | Raise e => Raise e
              end
  end.
(** _geojson.py:63-66: the columns of the data. *)
Definition gj_data (d : option table) : outcome dict :=
  match d with
  | None => Ok []
  | Some t => mapO (fun f => match getfield t f with Ok c => Ok (f, JList c) | Raise e => Raise e end) (fields t)
  end.
(** _geojson.py:23-70 [_as_named_tuple]: the feature, and the properties dictionary of the
    geometry afterwards, which is the one that was updated.  Without a URN the name [geoms]
    is looked up, which is not defined. *)
Definition as_named_tuple (urn : option string) (g : geo) : outcome (gjgeom * dict * dict) :=
  match urn with
  | None => Raise NameError
  | Some _ =>
    match gj_coords (verts g) with
    | Raise e => Raise e
    | Ok c => match gj_data (data g) with
              | Raise e => Raise e
              | Ok d => let p := update (props g) d in Ok (c, p, p)
              end
    end
  end.
(** [self.vertices(crs=LonLatWGS84)] and the constructor of the same class
    (_geojson.py:91-98): the holes of a Polygon are not passed on; a Multipolygon's are. *)
Definition reproject (tr : V -> V) (s : shape) : shape :=
  match s with
  | Pt v => Pt (tr v)
  | Ln vs => Ln (map tr vs)
  | Pg r _ => Pg (map tr r) []
  | MPt vs => MPt (map tr vs)
  | MLn vss => MLn (map (map tr) vss)
  | MPg ps => MPg (map (map (map tr)) ps)
  end.
(** _geojson.py:72-103 [as_geojson]: [wgs84] says whether the geometry is in LonLatWGS84,
    [tr] reprojects to it.  The result is the feature and the geometry after the call: the
    properties are shared with the reprojected geometry. *)
Definition as_geojson (urn : option string) (force_wgs84 wgs84 : bool) (tr : V -> V) (g : geo) : outcome (gjgeom * dict * geo) :=
  let urn' := if force_wgs84 then match urn with None => Some "urn:ogc:def:crs:OGC:1.3:CRS84"%string | _ => urn end else urn in
  let g' := if force_wgs84 && negb wgs84 then mkGeo (reproject tr (verts g)) (props g) (data g) else g in
  match as_named_tuple urn' g' with
  | Raise e => Raise e
  | Ok (c, p, p') => Ok (c, p, mkGeo (verts g) p' (data g))
  end.

(** picogeojson turns rings; the first ring of a polygon is the outer one. Part of the
    serializer called at _geojson.py:99-103; external. *)
Definition turn_rings (wind : bool -> list V -> list V) (rings : list (list V)) : list (list V) :=
  match rings with [] => [] | r :: hs => wind true r :: map (wind false) hs end.
(** The geometry in the text written at _geojson.py:99-103, by the external serializer. *)
Definition written (wind : bool -> list V -> list V) (g : gjgeom) : gjgeom :=
  match g with
  | GPolygon rings => GPolygon (turn_rings wind rings)
  | GMultiPolygon ps => GMultiPolygon (map (turn_rings wind) ps)
  | _ => g
  end.

(* ---- reading *)
(** What [read_geojson] returns: a geometry, or a list of such results. read.py:60-69. *)
Inductive result : Type := RGeo (g : geo) | RList (l : list result).
(** geometry.py:1184-1199 [Multipart.__init__]: each column must be as long as the inputs. *)
Definition multipart (s : shape) (n : nat) (p d : dict) : outcome geo :=
  if forallb (fun kv => match pylen (snd kv) with Some m => Nat.eqb m n | None => false end) d
  then Ok (mkGeo s p (Some (make_table d n))) else Raise ValueError.
(** read.py:71-101 [convert_geometry]; [p] and [d] are the properties and data given. *)
Definition convert_geometry (g : gjgeom) (p d : dict) : outcome geo :=
  match g with
  | GPoint v => Ok (mkGeo (Pt v) (update p d) None)
  | GLineString vs => Ok (mkGeo (Ln vs) (update p d) None)
  | GPolygon [] => Raise IndexError
  | GPolygon (r :: hs) => Ok (mkGeo (Pg r (map SubList hs)) (update p d) None)
  | GMultiPoint vs => multipart (MPt vs) (length vs) p d
  | GMultiLineString vss => multipart (MLn vss) (length vss) p d
  | GMultiPolygon ps => multipart (MPg ps) (length ps) p d
  end.
(** read.py:104-119: the properties of a feature, divided; [n] parts. *)
Definition split_props (n : nat) (p : dict) : dict * dict :=
  fold_left (fun pd kv =>
    if match pylen (snd kv) with Some m => Nat.eqb m n | None => false end
    then (fst pd, set (fst kv) (snd kv) (snd pd)) else (set (fst kv) (snd kv) (fst pd), snd pd)) p ([], []).
(** read.py:104-119, the number of parts of the geometry of a feature. *)
Definition parts (g : gjdoc) : option nat :=
  match g with
  | DGeometry (GMultiPoint vs) => Some (length vs)
  | DGeometry (GMultiLineString vss) => Some (length vss)
  | DGeometry (GMultiPolygon ps) => Some (length ps)
  | _ => None
  end.
(** read.py:104-119, the properties and the data of a feature. *)
Definition feature_props (g : gjdoc) (p : dict) : dict * dict :=
  match parts g with Some n => split_props n p | None => (update [] p, []) end.
(** read.py:60-69, 103-134 [convert] and [convert_feature].  A feature of a collection is
    converted by [convert_feature] directly. *)
Fixpoint convert (g : gjdoc) (p d : dict) {struct g} : outcome result :=
  let many := fix many (l : list gjdoc) : outcome (list result) :=
    match l with
    | [] => Ok []
    | x :: l' => match convert x p d with Raise e => Raise e | Ok r => match many l' with Ok rs => Ok (r :: rs) | Raise e => Raise e end end
    end in
  let feats := fix feats (l : list (gjdoc * dict)) : outcome (list result) :=
    match l with
    | [] => Ok []
    | (x, q) :: l' =>
      match (let pd := feature_props x q in convert x (fst pd) (snd pd)) with
      | Raise e => Raise e
      | Ok r => match feats l' with Ok rs => Ok (r :: rs) | Raise e => Raise e end
      end
    end in
  match g with
  | DGeometry h => match convert_geometry h p d with Ok x => Ok (RGeo x) | Raise e => Raise e end
  | DGeometryCollection gs => match many gs with Ok rs => Ok (RList rs) | Raise e => Raise e end
  | DFeature x q => match (let pd := feature_props x q in convert x (fst pd) (snd pd)) with Ok r => Ok (RList [r]) | Raise e => Raise e end
  | DFeatureCollection fs => match feats fs with Ok rs => Ok (RList rs) | Raise e => Raise e end
  end.
(** read.py:52-69 [read_geojson]. *)
Definition read_geojson (g : gjdoc) : outcome result := convert g [] [].
(** A geometry written and read again. _geojson.py:72-103 and read.py:52-134. *)
Definition rewrite_geo (wind : bool -> list V -> list V) (g : geo) : outcome result :=
  match as_geojson None true true (fun v => v) g with
  | Raise e => Raise e
  | Ok (c, p, _) => read_geojson (DFeature (DGeometry (written wind c)) p)
  end.
End Model.
Arguments SubPolygon {V}. Arguments SubList {V}.
Arguments Pt {V}. Arguments Ln {V}. Arguments Pg {V}. Arguments MPt {V}. Arguments MLn {V}. Arguments MPg {V}.
Arguments mkGeo {V}. Arguments verts {V}. Arguments props {V}. Arguments data {V}.
Arguments GPoint {V}. Arguments GLineString {V}. Arguments GPolygon {V}. Arguments GMultiPoint {V}. Arguments GMultiLineString {V}. Arguments GMultiPolygon {V}.
Arguments DGeometry {V}. Arguments DGeometryCollection {V}. Arguments DFeature {V}. Arguments DFeatureCollection {V}.
Arguments RGeo {V}. Arguments RList {V}.
Arguments as_geojson {V}. Arguments read_geojson {V}. Arguments convert {V}. Arguments rewrite_geo {V}. Arguments written {V}.
Arguments parts {V}. Arguments feature_props {V}. Arguments convert_geometry {V}. Arguments close {V}. Arguments gj_coords {V}. Arguments as_named_tuple {V}. Arguments turn_rings {V}. Arguments reproject {V}. Arguments multipart {V}. Arguments sub_vertices {V}.
