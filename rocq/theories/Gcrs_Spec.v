(** What the property of the coordinate systems of GeoJSON text is stated with. *)
From Coq Require Import String List.
From Verif Require Import Gjs_Model Gcrs_Model.
Import ListNotations.

(** The positions in a GeoJSON geometry. *)
Definition positions {V : Type} (g : gjgeom V) : list V :=
  match g with
  | GPoint v => [v]
  | GLineString l | GMultiPoint l => l
  | GPolygon ll | GMultiLineString ll => concat ll
  | GMultiPolygon lll => concat (map (@concat V) lll)
  end.
(** The vertices of a hole. *)
Definition of_sub {V : Type} (s : sub V) : list V := match s with SubPolygon r => r | SubList r => r end.
(** The vertices of a geometry. *)
Definition vertices {V : Type} (s : shape V) : list V :=
  match s with
  | Pt v => [v]
  | Ln l | MPt l => l
  | Pg r subs => r ++ concat (map of_sub subs)
  | MLn ll => concat ll
  | MPg lll => concat (map (@concat V) lll)
  end.
(** Every position of [c] is a vertex of [s], moved by [f]. *)
Definition shows {V : Type} (f : V -> V) (c : gjgeom V) (s : shape V) : Prop :=
  forall x, In x (positions c) -> exists v, In v (vertices s) /\ x = f v.
(** Every vertex of [s], moved by [f], is a position of [c]. *)
Definition shows_all {V : Type} (f : V -> V) (c : gjgeom V) (s : shape V) : Prop :=
  forall v, In v (vertices s) -> In (f v) (positions c).
(** A text tells the truth about the geometry [g] if its label names a system and its positions
    are those of vertices of [g] in that system. *)
Definition truthful {V C : Type} (denotes : string -> option C) (tr : C -> C -> V -> V) (g : placed V C) (t : text V) : Prop :=
  exists u c, label t = Named u /\ denotes u = Some c /\ shows (tr (system g) c) (coordinates t) (verts (what g)).
(** A geometry is among those found. *)
Inductive among {V C : Type} (p : placed V C) : found V C -> Prop :=
| among_found : among p (Found p)
| among_several : forall l r, In r l -> among p r -> among p (Several l).
(** What is found is what was read, in order and nested alike, all of it in [crs]. *)
Inductive placed_in {V C : Type} (crs : C) : result V -> found V C -> Prop :=
| placed_one : forall g, placed_in crs (RGeo g) (Found (mkPlaced crs g))
| placed_list : forall l m, Forall2 (placed_in crs) l m -> placed_in crs (RList l) (Several m).
