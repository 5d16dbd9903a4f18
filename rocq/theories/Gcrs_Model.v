(** Model of the coordinate systems of GeoJSON text: the [crs] member that _geojson.py writes and
    the system that [read_geojson] of karta/vector/read.py gives to what it reads.  Coordinates,
    properties and data are those of Gjs_Model.  [C] is the type of coordinate systems; [ceq] is
    their [==], [tr] the transformation of a vertex from one system to another (pyproj,
    external). *)
From Coq Require Import String List Bool.
From Verif Require Import Gjs_Model.
Import ListNotations.
Local Open Scope string_scope.

(** The [crs] member of a document (_geojson.py:5-15): a name, or a link with an address and a
    type.  Links are made by [crs_from_karta] (_geojson.py:8-15), which is never called: line 43
    looks up [geoms], which is not defined, before. *)
Inductive member : Type := Named (urn : string) | Linked (href type : string).
(** _geojson.py:5-6 [crs_from_urn]. *)
Definition crs_from_urn (urn : string) : member := Named urn.
Section Systems.
Variables V C : Type.
Variable ceq : C -> C -> bool.
Variable wgs84 : C.
Variable tr : C -> C -> V -> V.

(** A geometry and its system, geometry.py:32-45. *)
Record placed : Type := mkPlaced { system : C; what : geo V }.
(** The text that [as_geojson] makes: a feature with a crs member. _geojson.py:23-103. *)
Record text : Type := mkText { label : member; coordinates : gjgeom V; properties : dict }.

(** _geojson.py:88-89 the URN used if none is given. *)
Definition urn_used (urn : option string) (force : bool) : option string :=
  match urn with
  | Some u => Some u
  | None => if force then Some "urn:ogc:def:crs:OGC:1.3:CRS84" else None
  end.
(** _geojson.py:72-103 [as_geojson(urn=urn, force_wgs84=force)]: the text and the geometry
    afterwards.  The [crs] member is made before anything else (_geojson.py:40-43); without a
    URN that is a NameError, in [as_named_tuple]. *)
Definition as_geojson_text (urn : option string) (force : bool) (g : placed) : outcome (text * placed) :=
  match as_geojson urn force (ceq (system g) wgs84) (tr (system g) wgs84) (what g), urn_used urn force with
  | Raise e, _ => Raise e
  | Ok _, None => Raise NameError
  | Ok (c, p, g'), Some u => Ok (mkText (crs_from_urn u) c p, mkPlaced (system g) g')
  end.

(** What [read_geojson] returns, with the systems. read.py:60-69. *)
Inductive found : Type := Found (p : placed) | Several (l : list found).
(** The keyword argument [crs] of the constructors called at read.py:71-101: every geometry gets
    the system given. *)
Fixpoint with_system (crs : C) (r : result V) : found :=
  match r with RGeo g => Found (mkPlaced crs g) | RList l => Several (map (with_system crs) l) end.
(** A document with the crs member at its top. read.py:131-134. *)
Definition document : Type := (option member * gjdoc V)%type.
(** read.py:52-134 [read_geojson(f, crs=crs)]; the crs member is not looked at. *)
Definition read_geojson_in (crs : C) (d : document) : outcome found :=
  match read_geojson (snd d) with Ok r => Ok (with_system crs r) | Raise e => Raise e end.
(** The text as a document; [wind] is what the serializer does to rings (external).
    _geojson.py:99-103. *)
Definition document_of (wind : bool -> list V -> list V) (t : text) : document :=
  (Some (label t), DFeature (DGeometry (written wind (coordinates t))) (properties t)).
End Systems.
Arguments mkPlaced {V C}. Arguments system {V C}. Arguments what {V C}.
Arguments mkText {V}. Arguments label {V}. Arguments coordinates {V}. Arguments properties {V}.
Arguments as_geojson_text {V C}. Arguments Found {V C}. Arguments Several {V C}. Arguments with_system {V C}.
Arguments read_geojson_in {V C}. Arguments document_of {V}.
