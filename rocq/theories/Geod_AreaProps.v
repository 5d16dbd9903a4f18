(** Properties of areas on ellipsoids (C96, C97). *)
From Coq Require Import List Reals Lra.
From Coquelicot Require Import Coquelicot.
From Verif Require Import GeomR_Model Sphere_Spec Geod_Spec Geod_AreaSpec Geod_Model Geod_Area Geod_Near Geod_AreaEdge Geod_AreaPoly Geod_AreaLow Geod_AreaFind.
Import ListNotations.
Open Scope R_scope.

(** C96.  The area of a ring does not depend on the direction in which it is given, *)
Theorem C96_direction : forall flat a b l v, polygon_area flat a b (rev l) = Done v <-> polygon_area flat a b l = Done v.
Proof. exact polygon_rev_iff. Qed.
Print Assumptions C96_direction.
(** nor on the vertex with which it starts. *)
Theorem C96_start : forall flat a b l m v, polygon_area flat a b (m ++ l) = Done v <-> polygon_area flat a b (l ++ m) = Done v.
Proof. exact polygon_rotate_iff. Qed.
Print Assumptions C96_start.
Example C96_answers : forall flat, exists v, polygon_area flat 1 (1 - 1 / 100000000000000) [(0, 0); (60, 0); (20, 40)] = Done v.
Proof. exact triangle_answers. Qed.
(** Back along an edge the area is taken away that was added, *)
Theorem C96_back : forall flat a b x1 y1 x2 y2 v, area_edge flat a b x1 y1 x2 y2 = Done v <-> area_edge flat a b x2 y2 x1 y1 = Done (- v).
Proof. exact area_back_iff. Qed.
Print Assumptions C96_back.
(** edges along a meridian have no area, *)
Theorem C96_meridian : forall flat a b x1 y1 x2 y2 v, congd x1 x2 -> area_edge flat a b x1 y1 x2 y2 = Done v -> v = 0.
Proof. exact area_meridian_zero. Qed.
Print Assumptions C96_meridian.
(** nor have those along the equator. *)
Theorem C96_equator : forall flat a b x1 x2 v, area_edge flat a b x1 0 x2 0 = Done v -> v = 0.
Proof. exact area_equator_zero. Qed.
Print Assumptions C96_equator.
Example C96_edges_answer : forall flat, (exists v, area_edge flat 1 (1 - 1 / 100000000000000) 30 (-10) 30 10 = Done v) /\
  (exists v, area_edge flat 1 (1 - 1 / 100000000000000) 0 0 60 0 = Done v) /\
  (exists v, area_edge flat 1 (1 - 1 / 100000000000000) 60 0 20 40 = Done v).
Proof. exact edges_answer. Qed.

(** Finding: [_canonical_configuration] turns both latitudes to the south and [ellipsoidal_area]
    forgets it, so that an edge in the south has the same area as its mirror image in the north
    and a rectangle about the equator has none. *)
Theorem C96_balanced_refuted : (forall flat a b w h v, 0 < w -> polygon_area flat a b [(0, - h); (w, - h); (w, h); (0, h)] = Done v -> v = 0) /\
  forall flat, polygon_area flat 1 (1 - 1 / 100000000000000) [(0, -10); (30, -10); (30, 10); (0, 10)] = Done 0.
Proof. exact balanced_example. Qed.
Print Assumptions C96_balanced_refuted.

(** Finding: on a prolate ellipsoid (b > a) the square root of the squared eccentricity raises
    ValueError, whatever the polygon. *)
Theorem C96_prolate_refuted : forall flat a b l, 0 < a -> a < b -> l <> [] -> exists e, polygon_area flat a b l = Raises e.
Proof. exact polygon_prolate. Qed.
Print Assumptions C96_prolate_refuted.
Example C96_prolate_applies : 0 < 1 /\ 1 < 2 /\ [(0, 0); (60, 0); (20, 40)] <> [].
Proof. split; [lra|]. split; [lra|]. discriminate. Qed.

(** C97.  Below a geodesic between two latitudes that are not mirror images, the area of an edge
    is that between the geodesic and the equator, up to the sixth power of the eccentricity: for
    every edge for which the inverse problem is solved without a warning there is a geodesic that
    starts at the first vertex and ends within 2e-12 radians (and the error of the series) of the
    second. *)
Theorem C97_edge : forall flat a b x1 y1 x2 y2 az baz s, 0 < b -> b < a -> Rabs (third a b) <= 1 / 10 -> -90 < y1 < 90 -> -90 < y2 < 90 -> y1 + y2 <> 0 ->
  1 / 1000000000 <= Rabs (x2 - x1) <= 180 - 1 / 1000000000 -> inverse flat a b x1 y1 x2 y2 (1 / 1000000000000) = Done (az, baz, s, false) ->
  let ep := (a ^ 2 - b ^ 2) / b ^ 2 in let err := b ^ 2 * ep ^ 6 * (10 / 9009 + 512 / 3003 * ep) in
  exists v dl A, area_edge flat a b x1 y1 x2 y2 = Done v /\ geodesic_over a b (rad x1) (rad y1) (rad x2 + dl) (rad y2) A /\
    Rabs dl <= 2 / 1000000000000 + 140 * Rabs (flattening a b) * Rabs (third a b) ^ 6 /\
    (y1 + y2 < 0 -> Rabs (v - A) <= err) /\ (0 < y1 + y2 -> Rabs (v + A) <= err).
Proof. exact area_edge_over. Qed.
Print Assumptions C97_edge.
(** The area of a polygon in one hemisphere is the sum of the areas between its edges and the
    equator, up to that error for each edge. *)
Theorem C97_polygon : forall flat a b l, 0 < b -> b < a -> Rabs (third a b) <= 1 / 10 ->
  (forall p, In p l -> 0 <= snd p < 90) \/ (forall p, In p l -> -90 < snd p <= 0) ->
  (forall e, In e (ring_edges l) -> let '((x1, y1), (x2, y2)) := e in
    x1 = x2 \/ (y1 = 0 /\ y2 = 0) \/
    (1 / 1000000000 <= Rabs (x2 - x1) <= 180 - 1 / 1000000000 /\ exists az baz s, inverse flat a b x1 y1 x2 y2 (1 / 1000000000000) = Done (az, baz, s, false))) ->
  let ep := (a ^ 2 - b ^ 2) / b ^ 2 in let err := b ^ 2 * ep ^ 6 * (10 / 9009 + 512 / 3003 * ep) in
  exists v As, polygon_area flat a b l = Done v /\
    Forall2 (edge_over a b (2 / 1000000000000 + 140 * Rabs (flattening a b) * Rabs (third a b) ^ 6)) (ring_edges l) As /\
    Rabs (v - Rabs (total As)) <= INR (length l) * err.
Proof. exact polygon_value. Qed.
Print Assumptions C97_polygon.
Example C97_polygon_applies : let b := 1 - 1 / 100000000000000 in let l := [(0, 10); (60, 20); (20, 40)] in
  0 < b /\ b < 1 /\ Rabs (third 1 b) <= 1 / 10 /\ (forall p, In p l -> 0 <= snd p < 90) /\
  forall flat e, In e (ring_edges l) -> let '((x1, y1), (x2, y2)) := e in
    x1 = x2 \/ (y1 = 0 /\ y2 = 0) \/
    (1 / 1000000000 <= Rabs (x2 - x1) <= 180 - 1 / 1000000000 /\ exists az baz s, inverse flat 1 b x1 y1 x2 y2 (1 / 1000000000000) = Done (az, baz, s, false)).
Proof.
  cbv zeta. destruct near_oblate as (N1 & N2 & N3). split; [exact N1|]. split; [exact N2|]. split; [exact N3|].
  split; [exact (proj1 (triangle_applies 0))|]. intros flat. exact (proj2 (triangle_applies flat)).
Qed.
(** On the Earth that is less than a hundredth of a square metre for each edge, and geodesics end
    within 3e-12 radians (0.02 mm) of the vertex. *)
Theorem C97_earth : forall b, 6356752 <= b <= 6356753 -> let a := 6378137 in let ep := (a ^ 2 - b ^ 2) / b ^ 2 in
  b ^ 2 * ep ^ 6 * (10 / 9009 + 512 / 3003 * ep) <= 1 / 100 /\ 2 / 1000000000000 + 140 * Rabs (flattening a b) * Rabs (third a b) ^ 6 <= 3 / 1000000000000.
Proof. exact earth_errors. Qed.
Print Assumptions C97_earth.
(** The specification: the longitude along an eastward geodesic grows by the integral of [growth], *)
Theorem C97_growth : forall a b S C s1 s2 o1 o2 be1 be2 al1 al2, 0 < b -> b < a -> 0 < S -> S ^ 2 + C ^ 2 = 1 -> 0 < cos be1 -> 0 < cos be2 ->
  on_circle S C s1 o1 be1 al1 -> on_circle S C s2 o2 be2 al2 -> congr (o2 - o1 - RInt (lag a b S C) s1 s2) (RInt (growth a b S C) s1 s2).
Proof. exact over_growth. Qed.
Print Assumptions C97_growth.
(** and an eastward geodesic beyond latitude p0 has at least the area below the parallel through
    p0 of the inscribed sphere under it. *)
Theorem C97_low : forall a b l1 p1 l2 p2 A p0, 0 < b -> b < a -> geodesic_over a b l1 p1 l2 p2 A -> 0 < l2 - l1 < PI -> 0 < p0 -> p0 <= p1 -> p0 <= p2 ->
  b ^ 2 * sin p0 * (l2 - l1) <= A.
Proof. exact over_low. Qed.
Print Assumptions C97_low.
Example C97_low_applies : forall flat, let b := 1 - 1 / 100000000000000 in exists v dl A, area_edge flat 1 b 0 30 30 30 = Done v /\
  geodesic_over 1 b (rad 0) (rad 30) (rad 30 + dl) (rad 30) A /\ 12 / 100 <= A /\ Rabs (v + A) <= 1 / 1000000.
Proof. intros flat. cbv zeta. destruct (thirty flat 0 30) as (v & dl & A & V & G & _ & L & B); [lra|]. exists v, dl, A. auto. Qed.

(** Finding: the two halves of a rectangle about the equator cancel, although its area is not
    zero. *)
Theorem C97_balanced_refuted : let b := 1 - 1 / 100000000000000 in forall flat,
  polygon_area flat 1 b [(0, -30); (30, -30); (30, 30); (0, 30)] = Done 0 /\
  exists As, Forall2 (edge_over 1 b (2 / 1000000000000 + 140 * Rabs (flattening 1 b) * Rabs (third 1 b) ^ 6)) (ring_edges [(0, -30); (30, -30); (30, 30); (0, 30)]) As /\
    24 / 100 <= Rabs (total As).
Proof. exact balanced_true. Qed.
Print Assumptions C97_balanced_refuted.

(** Finding: whether an edge runs east or west is decided by comparing the longitudes as they are
    given, so that the area of a polygon across the date line depends on whether longitudes go
    beyond 180 degrees; with the usual range the area of this one is zero. *)
Theorem C97_dateline_refuted : let b := 1 - 1 / 100000000000000 in forall flat, exists v, 23 / 100 <= v /\
  polygon_area flat 1 b [(160, 0); (190, 0); (190, 30); (175, 30); (160, 30)] = Done v /\
  polygon_area flat 1 b [(160, 0); (-170, 0); (-170, 30); (175, 30); (160, 30)] = Done 0.
Proof. exact dateline_area. Qed.
Print Assumptions C97_dateline_refuted.

(** Finding: one coefficient of the series is 90/9009 instead of 80/9009, so that the error is of
    the sixth power of the eccentricity instead of the seventh: here it is more than ten times
    what the series of that order leaves (with 80/9009 the error is at most
    128/3003 b^2 ep^7 per radian of the great circle). *)
Theorem C97_coefficient_refuted : exists a b p1 p2 al, 0 < b /\ b < a /\ forall flat, exists v l A, area_canonical flat a b p1 p2 al = Done v /\ geodesic_over a b 0 p1 l p2 A /\
  10 * (128 / 3003 * b ^ 2 * ((a ^ 2 - b ^ 2) / b ^ 2) ^ 7 * PI) < Rabs (v - A).
Proof. exact coefficient. Qed.
Print Assumptions C97_coefficient_refuted.
