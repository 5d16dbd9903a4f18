(** Properties of the geodesic functions on ellipsoids (C94, C95). *)
From Coq Require Import List ZArith Reals Lra Lia Bool.
From Coquelicot Require Import Coquelicot.
From Verif Require Import Sphere_Spec Sphere_Proofs Geod_Model Geod_Spec Geod_Forward Geod_Accurate Geod_Symm
  Geod_Answer Geod_Round Geod_More Geod_Equator Geod_Cases.
Import ListNotations.
Open Scope R_scope.

(** C94.  On a sphere the destination is the point reached along the great circle, and the way
    back leads to the start. *)
Theorem C94_sphere_partial : forall flat r x y az d, 0 < r -> -90 < y < 90 ->
  -1 < snd (travel (rad x) (rad y) (rad az) (d / r)) < 1 ->
  exists x2 y2 baz, forward flat r r x y az d = (x2, y2, baz) /\
    -180 <= x2 < 180 /\ -90 < y2 < 90 /\ -180 <= baz < 180 /\
    pos x2 y2 = travel (rad x) (rad y) (rad az) (d / r) /\ travel (rad x2) (rad y2) (rad baz) (d / r) = pos x y.
Proof. exact forward_sphere. Qed.
Print Assumptions C94_sphere_partial.

(** On an ellipsoid of third flattening n the destination is on the geodesic, up to the seventh
    power of n times the length travelled in distance and the sixth power in longitude; n is
    0.0017 for the Earth. *)
Theorem C94_ellipsoid_partial : forall flat a b x y az d, 0 < a -> 0 < b -> Rabs (third a b) <= 1 / 10 -> -90 < y < 90 ->
  misses_poles a b (rad y) (rad az) d (700 * (b + Rabs d) * Rabs (third a b) ^ 7) ->
  exists x2 y2 baz, forward flat a b x y az d = (x2, y2, baz) /\ -180 <= x2 < 180 /\ -90 < y2 < 90 /\ -180 <= baz < 180 /\
    exists d' l2, geodesic a b (rad x) (rad y) (rad az) l2 (rad y2) (rad baz + PI) d' /\
      Rabs (d' - d) <= 700 * (b + Rabs d) * Rabs (third a b) ^ 7 /\
      Rabs (l2 - rad x2) <= 40 * Rabs ((a - b) / a) * (1 + Rabs d / b) * Rabs (third a b) ^ 6.
Proof. exact forward_ellipsoid. Qed.
Print Assumptions C94_ellipsoid_partial.
Example C94_ellipsoid_applies : 0 < 298 /\ 0 < 297 /\ -90 < 10 < 90 /\
  misses_poles 298 297 (rad 10) (rad 30) 100 (700 * (297 + Rabs 100) * Rabs (third 298 297) ^ 7).
Proof. do 3 (split; [lra|]). exact misses_example. Qed.

(** Clairaut's relation holds exactly on every ellipsoid, for every length. *)
Theorem C94_clairaut : forall flat a b x y az d, 0 < a -> 0 < b -> -90 < y < 90 -> sin (rad az) <> 0 ->
  exists x2 y2 baz b1 b2, forward flat a b x y az d = (x2, y2, baz) /\ -180 <= x2 < 180 /\ -90 < y2 < 90 /\ -180 <= baz < 180 /\
    reduced_latitude a b (rad y) b1 /\ reduced_latitude a b (rad y2) b2 /\ cos b2 * sin (rad baz + PI) = cos b1 * sin (rad az).
Proof. exact forward_clairaut. Qed.
Print Assumptions C94_clairaut.

(** Along the equator the answer is exact. *)
Theorem C94_equator : forall flat a b x az d, 0 < a -> 0 < b -> az = 90 \/ az = -90 ->
  exists x2 baz, forward flat a b x 0 az d = (x2, 0, baz) /\ -180 <= x2 < 180 /\ -180 <= baz < 180 /\
    geodesic a b (rad x) 0 (rad az) (rad x2) 0 (rad baz + PI) d /\ congr (rad x2) (rad x + (if Rlt_dec 0 az then 1 else -1) * (d / a)).
Proof. exact forward_equator. Qed.
Print Assumptions C94_equator.

(** The geodesics of the specification are great circles if the ellipsoid is a sphere. *)
Theorem C94_great_circles : forall r l1 p1 a1 l2 p2 a2 d, 0 < r -> geodesic r r l1 p1 a1 l2 p2 a2 d ->
  travel l1 p1 a1 (d / r) = upos l2 p2 /\ travel l2 p2 (a2 + PI) (d / r) = upos l1 p1.
Proof. exact geodesic_round. Qed.
Print Assumptions C94_great_circles.

(** Finding: the azimuth of [ellipsoidal_forward] is documented in radians and taken in degrees;
    PI / 2 on the unit sphere does not lead along the equator. *)
Theorem C94_radians_refuted : forall flat, exists x2 y2 baz, forward flat 1 1 0 0 (PI / 2) 1 = (x2, y2, baz) /\
  pos x2 y2 <> travel (rad 0) (rad 0) (PI / 2) 1.
Proof. exact in_degrees. Qed.
Print Assumptions C94_radians_refuted.

(** C95.  If [ellipsoidal_inverse] returns without the warning that it has not converged, there
    is a geodesic with the returned directions from the first point to one within the tolerance
    of the second (in longitude), and its length is the one returned. *)
Theorem C95_geodesic_partial : forall flat a b x1 y1 x2 y2 tol az baz s, 0 < a -> 0 < b -> Rabs (third a b) <= 1 / 10 ->
  -90 < y1 < 90 -> -90 < y2 < 90 -> ~ (y1 = 0 /\ y2 = 0) -> 0 <= tol ->
  congd x1 x2 \/ (forall k, tol < Rabs (rad (x2 - x1 + 360 * IZR k))) ->
  inverse flat a b x1 y1 x2 y2 tol = Done (az, baz, s, false) ->
  -180 <= az < 180 /\ -180 <= baz < 180 /\
  exists dl d, geodesic a b (rad x1) (rad y1) (rad az) (rad x2 + dl) (rad y2) (rad baz + PI) d /\
    Rabs dl <= tol + 1 / 1000000000000 + 140 * Rabs ((a - b) / a) * Rabs (third a b) ^ 6 /\
    Rabs (s - d) <= 68 * b * Rabs (third a b) ^ 7 /\ 0 <= d <= PI * Rmax a b.
Proof. exact inverse_geodesic. Qed.
Print Assumptions C95_geodesic_partial.
Example C95_geodesic_applies : forall flat, exists az baz s, inverse flat 298 297 10 20 10 50 (1 / 1000000000000) = Done (az, baz, s, false).
Proof. exact short_arc. Qed.
Example C95_oblique : forall flat, exists az baz s, inverse flat 1 1 10 20 50 (-40) (1 / 1000000000000) = Done (az, baz, s, false).
Proof. exact oblique_arc. Qed.

(** Along meridians, also over a pole, it always returns. *)
Theorem C95_meridian_partial : forall flat a b x1 y1 x2 y2 tol, 0 < a -> 0 < b -> Rabs (third a b) <= 1 / 10 ->
  -90 < y1 < 90 -> -90 < y2 < 90 -> ~ (y1 = 0 /\ y2 = 0) -> congd x2 x1 \/ congd x2 (x1 + 180) ->
  exists az baz s, inverse flat a b x1 y1 x2 y2 tol = Done (az, baz, s, false) /\ -180 <= az < 180 /\ -180 <= baz < 180 /\
  exists d, geodesic a b (rad x1) (rad y1) (rad az) (rad x2) (rad y2) (rad baz + PI) d /\
    Rabs (s - d) <= 68 * b * Rabs (third a b) ^ 7 /\ 0 <= d <= geodesic_length a b 1 0 PI.
Proof. exact inverse_meridian. Qed.
Print Assumptions C95_meridian_partial.

(** On a sphere it returns the great circle distance and both directions, if the latitudes do
    not nearly cancel and the longitudes are not nearly opposite (half a degree), and along
    meridians. *)
Theorem C95_sphere_partial : forall flat r x1 y1 x2 y2 tol, 0 < r -> -90 < y1 < 90 -> -90 < y2 < 90 -> 0 <= tol -> ~ (y1 = 0 /\ y2 = 0) ->
  congd x2 x1 \/ congd x2 (x1 + 180) \/
  (87 / 10000 < Rabs (rad y1 + rad y2) /\ exists t, congd (x2 - x1) t /\ Rabs (rad t) < PI - 87 / 10000) ->
  exists az baz s, inverse flat r r x1 y1 x2 y2 tol = Done (az, baz, s, false) /\ -180 <= az < 180 /\ -180 <= baz < 180 /\
    central_angle (pos x1 y1) (pos x2 y2) (s / r) /\
    travel (rad x1) (rad y1) (rad az) (s / r) = pos x2 y2 /\ travel (rad x2) (rad y2) (rad baz) (s / r) = pos x1 y1.
Proof. exact inverse_sphere. Qed.
Print Assumptions C95_sphere_partial.

(** Along the equator the answer is an exact geodesic. *)
Theorem C95_equator_partial : forall flat a b x1 x2 tol, 0 < a -> 0 < b -> Rabs (x1 - x2) <= 180 ->
  exists az baz s, inverse flat a b x1 0 x2 0 tol = Done (az, baz, s, false) /\ -180 <= az < 180 /\ -180 <= baz < 180 /\ 0 <= s <= PI * a /\
    geodesic a b (rad x1) 0 (rad az) (rad x2) 0 (rad baz + PI) s.
Proof. exact inverse_equator. Qed.
Print Assumptions C95_equator_partial.

(** The distance is that of the exchanged points, as are exceptions and warnings; *)
Theorem C95_symmetric : forall flat a b x1 y1 x2 y2 tol,
  match inverse flat a b x2 y2 x1 y1 tol, inverse flat a b x1 y1 x2 y2 tol with
  | Done (_, _, s, w), Done (_, _, s', w') => s = s' /\ w = w'
  | Raises e, Raises e' => e = e'
  | _, _ => False
  end.
Proof. exact symmetric_cases. Qed.
Print Assumptions C95_symmetric.
(** and the directions are exchanged. *)
Theorem C95_directions_partial : forall flat a b x1 y1 x2 y2 tol az baz s w,
  Rabs y1 <> Rabs y2 -> ~ congd x1 x2 -> ~ congd x1 (x2 + 180) ->
  inverse flat a b x1 y1 x2 y2 tol = Done (az, baz, s, w) -> inverse flat a b x2 y2 x1 y1 tol = Done (baz, az, s, w).
Proof. exact exchanged_case. Qed.
Print Assumptions C95_directions_partial.

(** Finding: on a sphere, the distance between two points whose latitudes differ only in sign
    raises ZeroDivisionError, as it does between points of nearly opposite longitudes. *)
Theorem C95_sphere_refuted : forall flat, inverse flat 1 1 0 (-10) 20 10 (1 / 1000000000000) = Raises ZeroDivisionError.
Proof. exact mirrored_fails. Qed.
Print Assumptions C95_sphere_refuted.
Theorem C95_sphere_fails : forall flat r x1 y1 x2 y2 tol, 0 < r -> -90 < y1 < 90 -> -90 < y2 < 90 -> ~ (y1 = 0 /\ y2 = 0) ->
  (exists t, congd (x2 - x1) t /\ 0 < Rabs t /\ Rabs (rad t) <= PI - 1 / 1000000000000 /\ (Rabs (rad y1 + rad y2) <= 87 / 10000 \/ PI - 87 / 10000 <= Rabs (rad t))) ->
  inverse flat r r x1 y1 x2 y2 tol = Raises ZeroDivisionError.
Proof. exact sphere_fails. Qed.
Print Assumptions C95_sphere_fails.

(** Finding: on an oblate ellipsoid the distance to a point of exactly the opposite latitude and
    nearly the opposite longitude raises ValueError (the square root of a negative number). *)
Theorem C95_opposite_refuted : forall flat, inverse flat 298 297 0 45 (1799 / 10) (-45) (1 / 1000000000000) = Raises ValueError.
Proof. exact opposite_fails. Qed.
Print Assumptions C95_opposite_refuted.

(** Finding: between opposite points of the equator of an oblate ellipsoid the length of the
    equator is returned, although the way over a pole is shorter. *)
Theorem C95_shortest_refuted : forall flat a b tol, 0 < b -> b < a -> exists az baz s, inverse flat a b 0 0 180 0 tol = Done (az, baz, s, false) /\
  exists az' az2 d, geodesic a b (rad 0) (rad 0) az' (rad 180) (rad 0) az2 d /\ 0 <= d < s.
Proof. exact not_shortest. Qed.
Print Assumptions C95_shortest_refuted.
