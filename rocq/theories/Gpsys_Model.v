(** Model of the coordinate systems in karta/vector/_gpx.py and the GPX functions of read.py, on
    the documents of Gpx_Model.  [C] is the type of coordinate systems. *)
From Coq Require Import String List QArith.
From Verif Require Import Gpx_Model.
Import ListNotations.

Section Systems.
Variable C : Type.
Variable wgs84 : C.

(** A geometry and its system, as the methods of _gpx.py:183-286 take it. *)
Definition placed : Type := (C * source)%type.
(** _gpx.py:197-261 [add_track]: [line.vertices()] without a system (line 245) gives the vertices in
    the geometry's own. *)
Definition add_track_of (show : Q -> string) (ss : list placed) (attributes : tdict) (g : gpx) : gout gpx :=
  add_track show (map snd ss) attributes g.
(** _gpx.py:183-195 [add_waypoint] of a Point: [waypoint.vertex()] (line 193), in its own system. *)
Definition add_waypoint_of (s : C) (v : pos) (props : tdict) (g : gpx) : gpx := add_waypoint v props g.
(** _gpx.py:263-286 [add_route]: [route.vertices()] (line 279), in its own system. *)
Definition add_route_of (s : placed) (g : gpx) : gout gpx := add_route (snd s) g.
(** read.py:218-233 [read_gpx_tracks]: every line is in LonLatWGS84 (line 230). *)
Definition read_tracks_of (x : xml) : gout (list (list (C * (list pos * tdict)))) :=
  match read_gpx_tracks x with GOk l => GOk (map (map (fun line => (wgs84, line))) l) | GRaise e => GRaise e end.
End Systems.
Arguments add_track_of {C}. Arguments add_waypoint_of {C}. Arguments add_route_of {C}. Arguments read_tracks_of {C}.
