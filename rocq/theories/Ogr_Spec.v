(** What the properties of the exchange of geometries are stated with. *)
From Coq Require Import String List QArith.
From Verif Require Geom_Model Geom_Spec Crs_Spec.
From Verif Require Import Ogr_Model.
Import ListNotations.

(** A ring and the same ring with its first vertex repeated at the end. *)
Definition closes (r r' : list vertex) : Prop := exists v l, r = v :: l /\ r' = v :: l ++ [v].
(** A vertex without its third coordinate. *)
Definition level (v : vertex) : vertex := Geom_Model.C2 (vx v) (vy v).
(** A geometry without third coordinates. *)
Definition level_shape (s : shape) : shape :=
  match s with
  | Pt v => Pt (level v) | Ln vs => Ln (map level vs) | Pg r subs => Pg (map level r) (map (map level) subs)
  | MPt vs => MPt (map level vs) | MLn l => MLn (map (map level) l) | MPg l => MPg (map (map (map level)) l)
  end.
(** A geometry all of whose vertices have two coordinates. *)
Definition flat_shape (s : shape) : Prop := level_shape s = s.
(** Every ring and every part has a vertex. *)
Definition filled (s : shape) : Prop :=
  match s with
  | Pt _ => True | Ln vs | MPt vs => vs <> [] | Pg r subs => Forall (fun l => l <> []) (r :: subs)
  | MLn l => l <> [] /\ Forall (fun l => l <> []) l | MPg l => l <> [] /\ Forall (fun p => p <> [] /\ Forall (fun l => l <> []) p) l
  end.
(** Two rings have the same signed area, with which [Polygon.area] is computed (C26). *)
Definition same_area (r r' : list vertex) : Prop := forall o,
  Geom_Spec.signed_area o (map (fun v => (vx v, vy v)) r') == Geom_Spec.signed_area o (map (fun v => (vx v, vy v)) r).
(** The kinds of geometry whose vertices form no rings. *)
Definition without_rings (s : shape) : Prop := match s with Pg _ _ | MPg _ => False | _ => True end.
(** The kinds that keep their properties in [__geo_interface__]. *)
Definition with_properties (s : shape) : Prop := match s with MLn _ | MPg _ => False | _ => True end.
(** The kinds that a shapefile keeps. *)
Definition storable (s : shape) : Prop := match s with Pt _ | MPg _ => False | _ => True end.
(** Texts of numbers: no white space, no equals sign, no name of an ellipsoid or datum, and read back. *)
Definition readable (float : string -> option Q) (show : Q -> string) (q : Q) : Prop :=
  Crs_Spec.value (show q) /\ ~ Crs_Spec.occurs "+ellps"%string (show q) /\ ~ Crs_Spec.occurs "+datum"%string (show q) /\ float (show q) = Some q.
