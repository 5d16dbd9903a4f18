(** Vocabulary for areas on an ellipsoid of revolution. *)
From Coq Require Import List ZArith Reals.
From Coquelicot Require Import Coquelicot.
From Verif Require Import Sphere_Spec Geod_Spec.
Open Scope R_scope.

(** The area between the equator and the reduced latitude beta, per radian of longitude: the
    parallel has radius a cos v, the meridian ellipse (a cos v, b sin v). *)
Definition zone (a b beta : R) : R := RInt (fun v => a * cos v * sqrt (a ^ 2 * sin v ^ 2 + b ^ 2 * cos v ^ 2)) 0 beta.
(** How fast the longitude grows along a geodesic, per radian of its great circle. *)
Definition growth (a b S C s : R) : R := S / (1 - (C * sin s) ^ 2) - lag a b S C s.
(** The area between the equator and a geodesic between the arcs s1 and s2 of its great circle,
    positive for northern geodesics that run to the east. *)
Definition area_below (a b S C s1 s2 : R) : R := RInt (fun s => zone a b (asin (C * sin s)) * growth a b S C s) s1 s2.
(** A geodesic, as in Geod_Spec, no longer than half a turn around its great circle, with that
    area. *)
Definition geodesic_over (a b l1 p1 l2 p2 A : R) : Prop :=
  exists S C s1 s2 o1 o2 b1 b2 a1 a2,
    S ^ 2 + C ^ 2 = 1 /\ reduced_latitude a b p1 b1 /\ reduced_latitude a b p2 b2 /\
    on_circle S C s1 o1 b1 a1 /\ on_circle S C s2 o2 b2 a2 /\ s1 <= s2 <= s1 + PI /\
    congr (l2 - l1) (o2 - o1 - RInt (lag a b S C) s1 s2) /\ A = area_below a b S C s1 s2.

(** The edges of a ring, the last one back to the first vertex. *)
Definition ring_edges (l : list (R * R)) : list ((R * R) * (R * R)) :=
  match l with nil => nil | cons p r => combine l (r ++ cons p nil) end.
(** A is the area between the equator and an edge: a geodesic that ends within tol of the second
    vertex (in longitude), or a part of the equator.  Vertices are longitudes and latitudes in
    degrees. *)
Definition edge_over (a b tol : R) (e : (R * R) * (R * R)) (A : R) : Prop :=
  let '((x1, y1), (x2, y2)) := e in
  (y1 = 0 /\ y2 = 0 /\ A = 0) \/
  exists dl, Rabs dl <= tol /\ geodesic_over a b (rad x1) (rad y1) (rad x2 + dl) (rad y2) A.
Definition total (l : list R) : R := fold_right Rplus 0 l.
