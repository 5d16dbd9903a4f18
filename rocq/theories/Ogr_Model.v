(** Model of the exchange of geometries: [__geo_interface__] and [geomdict] of
    karta/vector/geometry.py, [from_shape] of read.py, and the geometries of shapefiles
    (_shp.py).  Attribute tables are modelled in Shp_Model.

    Numbers are exact rationals.  OGR is modelled as far as the code uses it: [AddPoint(x, y)]
    appends (x, y, 0); a collection takes only parts of its type; [CloseRings] repeats the
    first vertex of a ring that does not end with it; a file of one of the six layer types of
    OGRTYPES, which are two-dimensional, keeps geometries of its type without the third
    coordinate; [GetPoints] of a two-dimensional geometry gives pairs, [GetPoint] always
    triples.  (The driver itself stores a collection of one part as that part, and nothing
    for an empty geometry, which is not modelled.) *)
From Coq Require Import String Ascii List Bool Arith QArith.
From Verif Require Geom_Model Crs_Model.
Import ListNotations.
Local Open Scope nat_scope.
Local Open Scope list_scope.

(** The exceptions of _shp.py:106-345, read.py:18-47 and utilities.py:13-22. *)
Inductive error : Type := IndexError | KeyError | TypeError | ValueError.
(** What a function of _shp.py or read.py does: it returns or raises. *)
Inductive outcome (A : Type) : Type := Ok (a : A) | Raise (e : error).
Arguments Ok {A}. Arguments Raise {A}.
(** Sequencing in _shp.py and read.py: an exception ends the call. *)
Definition andthen {A B} (r : outcome A) (f : A -> outcome B) : outcome B := match r with Ok a => f a | Raise e => Raise e end.
(** A list comprehension of read.py:167-190; the first exception ends it. *)
Fixpoint each {A B} (f : A -> outcome B) (l : list A) : outcome (list B) :=
  match l with [] => Ok [] | x :: l' => andthen (f x) (fun y => andthen (each f l') (fun ys => Ok (y :: ys))) end.

(** A vertex of rank 2 or 3 (Geom_Model). geometry.py:66-85. *)
Notation vertex := Geom_Model.coord.
(** [pt[0]], _shp.py:296-345. *)
Definition vx (v : vertex) : Q := match v with Geom_Model.C2 x _ | Geom_Model.C3 x _ _ => x end.
(** [pt[1]], _shp.py:296-345. *)
Definition vy (v : vertex) : Q := match v with Geom_Model.C2 _ y | Geom_Model.C3 _ y _ => y end.

(** The coordinates of the six kinds of geometry: geometry.py:66-85, 823-840, 975-998,
    1233-1270, 1546-1579, 1664-1711.  A polygon has an outline and sub-polygons, which are
    taken to be without sub-polygons of their own; the rings of a multipolygon are coordinate
    strings. *)
Inductive shape : Type :=
| Pt (v : vertex) | Ln (vs : list vertex) | Pg (ring : list vertex) (subs : list (list vertex))
| MPt (vs : list vertex) | MLn (vss : list (list vertex)) | MPg (polys : list (list (list vertex))).

Section Model.
Variables val data : Type.
Variable vtext : string -> val.   (* a text as the value of a property *)
(** A dictionary of properties (geometry.py:32-45). *)
Definition dict : Type := list (string * val).
(** A geometry: coordinates, properties, the data of the multipart kinds (None if there are no
    fields) and the proj.4 text of its system, [crs.get_proj4()]. geometry.py:32-45,
    1184-1199. *)
Record geo : Type := mkGeo { gshape : shape; gprops : dict; gdata : option data; gproj4 : string }.

(** [d.copy()] followed by [d[k] = v] for a dictionary. read.py:18-47. *)
Fixpoint set (k : string) (v : val) (d : dict) : dict :=
  match d with [] => [(k, v)] | (k', v') :: d' => if String.eqb k k' then (k, v) :: d' else (k', v') :: set k v d' end.
(** [d[k]] of a dictionary, read.py:18-47. *)
Fixpoint get (k : string) (d : dict) : option val :=
  match d with [] => None | (k', v) :: d' => if String.eqb k k' then Some v else get k d' end.

(** geometry.py:1022-1028 and 1772-1783 [vertices_ring]. *)
Definition close (r : list vertex) : outcome (list vertex) := match r with [] => Raise IndexError | v :: _ => Ok (r ++ [v]) end.
(** utilities.py:13-22 [_as_nested_lists] of coordinate strings, or of lists of rings: the
    part is asked for its first member. *)
Definition nested {A : Type} (l : list A) : outcome (list A) := match l with [] => Raise IndexError | _ => Ok l end.
(** A dictionary with type and coordinates; the box is left out. geometry.py:111-121. *)
Inductive gi : Type :=
| GPoint (v : vertex) | GLineString (vs : list vertex) | GPolygon (rings : list (list vertex))
| GMultiPoint (vs : list vertex) | GMultiLineString (vss : list (list vertex)) | GMultiPolygon (polys : list (list (list vertex))).
(** geometry.py:119-121, 854-858, 1030-1036, 1299-1303, 1591-1595, 1720-1724 [geomdict]. *)
Definition geomdict (s : shape) : outcome gi :=
  match s with
  | Pt v => Ok (GPoint v)
  | Ln vs => Ok (GLineString vs)
  | Pg r subs => andthen (close r) (fun c => andthen (each close subs) (fun cs => Ok (GPolygon (c :: cs))))
  | MPt vs => Ok (GMultiPoint vs)
  | MLn vss => andthen (each nested vss) (fun l => Ok (GMultiLineString l))
  | MPg ps => andthen (each (each close) ps) (fun l => andthen (each nested l) (fun l => Ok (GMultiPolygon l)))
  end.
(** geometry.py:111-117, 846-852, 1013-1019, 1305-1311, 1597-1602, 1726-1731
    [__geo_interface__]: a Feature.  Multiline and Multipolygon give the system only. *)
Definition geo_interface (g : geo) : outcome (gi * dict) :=
  let p := match gshape g with MLn _ | MPg _ => [] | _ => gprops g end in
  andthen (geomdict (gshape g)) (fun d => Ok (d, set "_karta_proj4"%string (vtext (gproj4 g)) p)).

(** read.py:23-47 [_from_shape] of a dictionary that is not a Feature; the system is the
    default of geometry.py:35 (Cartesian, whose text is empty, crs.py:165). *)
Definition from_gi (d : gi) (p : dict) : outcome geo :=
  match d with
  | GPoint v => Ok (mkGeo (Pt v) p None ""%string)
  | GLineString vs => Ok (mkGeo (Ln vs) p None ""%string)
  | GPolygon [] => Raise IndexError
  | GPolygon (c :: cs) => Ok (mkGeo (Pg c cs) p None ""%string)
  | GMultiPoint vs => Ok (mkGeo (MPt vs) p None ""%string)
  | GMultiLineString l => Ok (mkGeo (MLn l) p None ""%string)
  | GMultiPolygon l => Ok (mkGeo (MPg l) p None ""%string)
  end.
(** read.py:18-29 [from_shape(obj, properties)]. *)
Definition from_shape (g : geo) (properties : option dict) : outcome geo :=
  andthen (geo_interface g) (fun f => from_gi (fst f) (snd f)).

(* ---- shapefiles *)
(** The coordinates of a point of OGR, _shp.py:296-345. *)
Definition triple : Type := Q * Q * Q.
(** OGR geometries; a collection has the number of its type (4, 5, 6). What _shp.py:296-345
    makes. *)
Inductive ogr : Type :=
| OPoint (p : triple) | OLine (ps : list triple) | OPolygon (rings : list (list triple)) | OMulti (t : nat) (parts : list ogr).
(** [AddPoint(pt[0], pt[1])] _shp.py:296-345; the third number is zero. *)
Definition flat (v : vertex) : triple := (vx v, vy v, 0%Q).
(** [geom.AddGeometry(g)] of a collection: an error code, which nobody looks at, and no change
    if the part has not the right type. _shp.py:319-345. *)
Definition takes (t : nat) (g : ogr) : bool :=
  match t, g with 4%nat, OPoint _ => true | 5%nat, OLine _ => true | 6%nat, OPolygon _ => true | _, _ => false end.
(** [geom.AddGeometry(g)], _shp.py:319-345. *)
Definition add_geometry (c : ogr) (g : ogr) : ogr :=
  match c with OMulti t parts => if takes t g then OMulti t (parts ++ [g]) else c | _ => c end.
(** [CloseRings()] of one ring. _shp.py:308-317, 334-345. *)
Definition triple_eqb (a b : triple) : bool :=
  Qeq_bool (fst (fst a)) (fst (fst b)) && Qeq_bool (snd (fst a)) (snd (fst b)) && Qeq_bool (snd a) (snd b).
(** [CloseRings()] of one ring, _shp.py:308-317, 334-345. *)
Definition close_ring (r : list triple) : list triple :=
  match r with [] => [] | v :: _ => if triple_eqb v (last r v) then r else r ++ [v] end.
(** _shp.py:296-345 [ogr_asPoint], ..., [ogr_asMultiPolygon]. *)
Definition as_line (vs : list vertex) : ogr := OLine (map flat vs).
(** _shp.py:308-317 [ogr_asPolygon]. *)
Definition as_polygon (rings : list (list vertex)) : ogr := OPolygon (map close_ring (map (map flat) rings)).
(** _shp.py:296-345, one case for each function. *)
Definition as_ogr (d : gi) : ogr :=
  match d with
  | GPoint v => OPoint (flat v)
  | GLineString vs => as_line vs
  | GPolygon rings => as_polygon rings
  | GMultiPoint vs => fold_left add_geometry (map (fun v => OPoint (flat v)) vs) (OMulti 4 [])
  | GMultiLineString l => fold_left add_geometry (map as_line l) (OMulti 5 [])
  | GMultiPolygon l => fold_left add_geometry (map as_polygon l) (OMulti 5 [])
  end.

(** [GetPoints()] of a two-dimensional geometry. _shp.py:100-144. *)
Definition pair (p : triple) : vertex := Geom_Model.C2 (fst (fst p)) (snd (fst p)).
(** _shp.py:100-104 [ogr_get_polygon_points]. *)
Definition polygon_points (rings : list (list triple)) : list (list vertex) := map (fun r => removelast (map pair r)) rings.
(** _shp.py:106-144 [ogr_read_geometry]; [GetPoint()] gives a triple, whose third number the
    file does not keep. *)
Definition line_of (g : ogr) : list vertex := match g with OLine ps => map pair ps | OPoint p => [pair p] | _ => [] end.
(** _shp.py:100-104, the rings of a part of a MultiPolygon. *)
Definition rings_of (g : ogr) : list (list vertex) := match g with OPolygon rs => polygon_points rs | _ => [] end.
(** _shp.py:106-144 [ogr_read_geometry]. *)
Definition read_geometry (g : ogr) : outcome gi :=
  match g with
  | OPoint p => Ok (GPoint (Geom_Model.C3 (fst (fst p)) (snd (fst p)) 0))
  | OLine ps => Ok (GLineString (map pair ps))
  | OPolygon rs => Ok (GPolygon (polygon_points rs))
  | OMulti 4 parts => andthen (each (fun q => match line_of q with [] => Raise IndexError | v :: _ => Ok v end) parts) (fun l => Ok (GMultiPoint l))
  | OMulti 5 parts => Ok (GMultiLineString (map line_of parts))
  | OMulti 6 parts => Ok (GMultiPolygon (map rings_of parts))
  | OMulti _ _ => Raise TypeError
  end.

(** [s.replace(old, new)] for a non-empty [old]; [skip] letters belong to an occurrence.
    _shp.py:192-197, crs.py:148-150. *)
Fixpoint replace_from (old new : string) (skip : nat) (s : string) : string :=
  match s with
  | EmptyString => EmptyString
  | String c s' =>
    match skip with
    | S k => replace_from old new k s'
    | O => if String.prefix old s then (new ++ replace_from old new (String.length old - 1) s')%string
           else String c (replace_from old new 0 s')
    end
  end.
(** [s.replace(old, new)], _shp.py:192-197, crs.py:148-150. *)
Definition replace (old new s : string) : string := replace_from old new 0 s.
(** _shp.py:192-197: the text of the layer. *)
Definition layer_text (p : string) : string :=
  let t := replace "latlon"%string "latlong"%string (replace "lonlat"%string "longlat"%string p) in
  if String.length t =? 0 then "+proj=longlat +datum=WGS84"%string else t.
(** crs.py:148-150, the text that [get_wkt] hands to osr. *)
Definition wkt_source (p : string) : string := replace "lonlat"%string "longlat"%string (replace "latlon"%string "latlong"%string p).

(** A file: the text of its system and the geometries of its features; the attributes are those
    of Shp_Model. What _shp.py:180-249 writes. *)
Record file : Type := mkFile { ftext : string; ffeatures : list ogr }.
(** _shp.py:180-249 [ogr_write], 362-363 [write_shapefile]; the geometries are taken to be
    of one kind, the one of the layer; without any [objs[0]] is an IndexError. *)
Definition write_shapefile (gs : list geo) : outcome file :=
  andthen (each geo_interface gs) (fun fs =>
  match gs with
  | [] => Raise IndexError
  | g :: _ => Ok (mkFile (layer_text (gproj4 g)) (map (fun f => as_ogr (fst f)) fs))
  end).
(** read.py:167-190 [ogr_read_shapefile]: the geometries, with the attributes [p] of all
    features; every one gets the system of the layer, here as the text it was made with
    ([parse_srs] below is what is made of the layer's). *)
Definition read_shapefile (p : dict) (f : file) : outcome (list geo) :=
  each (fun o => andthen (read_geometry o) (fun d => andthen (from_gi d p) (fun g =>
    Ok (mkGeo (gshape g) (gprops g) (gdata g) (ftext f))))) (ffeatures f).
End Model.
Arguments mkGeo {val data}. Arguments gshape {val data}. Arguments gprops {val data}. Arguments gdata {val data}. Arguments gproj4 {val data}.
Arguments set {val}. Arguments get {val}. Arguments geo_interface {val data}. Arguments from_gi {val data}. Arguments from_shape {val data}.
Arguments write_shapefile {val data}. Arguments read_shapefile {val data}.

(** What [ogr_parse_srs] asks a layer's system for: [IsGeographic], [GetSemiMajor],
    [GetInvFlattening] (zero for a sphere), [ExportToProj4] and [GetAttrValue('PROJCS')].
    read.py:192-207. *)
Record srs : Type := mkSrs { is_geographic : bool; semi_major : Q; inv_flattening : Q; export : string; projcs : option string }.
(** A system as karta makes it: ellipsoid, proj.4 text and name. What read.py:192-207
    returns. *)
Definition system : Type := Crs_Model.ellipsoid * string * option string.
(** read.py:192-207 [ogr_parse_srs] of a layer with a system, with crs.py:215-222
    [GeographicalCRS(spheroid, name)] and 257-268 [ProjectedCRS(proj, name)]; [show] is the
    text of a number in [format], [float] reads one. *)
Definition parse_srs (float : string -> option Q) (show : Q -> string) (r : srs) : Crs_Model.outcome system :=
  if is_geographic r then
    if Qeq_bool (inv_flattening r) 0 then Crs_Model.Raise Crs_Model.ZeroDivisionError
    else
      match Crs_Model.geographical_crs float ("+a=" ++ show (semi_major r) ++ " +f=" ++ show (1 / inv_flattening r)%Q) "+datum=WGS84" with
      | Crs_Model.Raise e => Crs_Model.Raise e
      | Crs_Model.Ok (e, text) => Crs_Model.Ok (e, text, projcs r)
      end
  else
    match Crs_Model.parse_ellipsoid float (export r) with
    | Crs_Model.Raise e => Crs_Model.Raise e
    | Crs_Model.Ok e => Crs_Model.Ok (e, export r, match projcs r with Some n => Some n | None => Some (export r) end)
    end%string.
