(** Properties of nearest positions on geodesics (C100). *)
From Coq Require Import List Reals Bool Arith Lra Lia.
From Verif Require Import Sphere_Spec GeomR_Model Arc_Model Arc_Spec Arc_Proofs Arc_Sphere Arc_Line.
Import ListNotations.
Open Scope R_scope.

(** C100.  On any ellipsoid: if the distance from the point first falls and then rises along
    the geodesic from e0 to e1, the search ends and gives the distance of the position it
    returns, which is on the geodesic; no position of the edge is nearer by more than the
    tolerance and a ten-millionth of the edge. *)
Theorem C100_edge_partial :
  forall fwd inv pt e0 e1 tol n az baz L, inv (fst e0) (snd e0) (fst e1) (snd e1) = (az, baz, L) ->
  0 <= L -> 0 < tol -> (0 < n)%nat -> L <= tol * 2 ^ n ->
  let D := distance_along fwd inv pt e0 az in
  one_valley D (L + / 10000000 * L) -> lipschitz D (L + / 10000000 * L) ->
  exists q d f, pt_nearest_proj fwd inv pt e0 e1 tol n = Found q d /\ 0 <= f <= L /\ d = D f /\
    (q = e0 /\ f = 0 \/ q = e1 /\ f = L \/ q = fst (fwd (fst e0) (snd e0) az f)) /\
    forall s, 0 <= s <= L -> d <= D s + (tol + / 10000000 * L).
Proof. exact near_ok. Qed.
Print Assumptions C100_edge_partial.

(** Whatever the distances, the search ends with the distance of a position of the edge. *)
Theorem C100_ends :
  forall fwd inv pt e0 e1 tol n az baz L, inv (fst e0) (snd e0) (fst e1) (snd e1) = (az, baz, L) ->
  0 <= L -> 0 < tol -> (0 < n)%nat -> L <= tol * 2 ^ n ->
  exists q d f, pt_nearest_proj fwd inv pt e0 e1 tol n = Found q d /\ 0 <= f <= L /\
    d = distance_along fwd inv pt e0 az f /\
    (q = e0 /\ f = 0 \/ q = e1 /\ f = L \/ q = fst (fwd (fst e0) (snd e0) az f)).
Proof. exact near_total. Qed.
Print Assumptions C100_ends.

(** On spheres: for lines of any number of edges whose vertices are within a quarter of the
    circumference of the point, [shortest_distance_to] and [nearest_on_boundary] give the
    distance and a position of the great circle arcs, and no position of any arc is nearer by
    more than a centimetre and a ten-millionth of the longest edge (radius in metres). *)
Theorem C100_sphere_partial :
  forall r K fwd inv pt, 0 < r -> K <= 1 / 100 * 2 ^ 100 ->
  forall l, (2 <= length l)%nat -> (forall a b, consecutive l a b -> fair_edge r K fwd inv pt a b) ->
  let q := pos (fst pt) (snd pt) in
  exists x p, nearest_to_point_geog fwd inv l pt = Some (x, Some p) /\
    (exists a b, consecutive l a b /\ on_arc3 (pos (fst a) (snd a)) (pos (fst b) (snd b)) (pos (fst p) (snd p))) /\
    central_angle (pos (fst p) (snd p)) q (x / r) /\
    forall a b c t, consecutive l a b -> on_arc3 (pos (fst a) (snd a)) (pos (fst b) (snd b)) c -> central_angle c q t ->
      x <= r * t + (1 / 100 + / 10000000 * K).
Proof. exact line_near. Qed.
Print Assumptions C100_sphere_partial.

(** Both methods give what is found. *)
Theorem C100_methods : forall fwd inv l pt x p, nearest_to_point_geog fwd inv l pt = Some (x, Some p) ->
  shortest_distance_geog fwd inv l pt = Some x /\ nearest_on_boundary_geog fwd inv l pt = Some p.
Proof.
  intros fwd inv l pt x p E. unfold shortest_distance_geog, nearest_on_boundary_geog. rewrite E. split; reflexivity.
Qed.
Print Assumptions C100_methods.

(** A point at 60 degrees north of one end of a sixth of the equator meets the hypotheses. *)
Example C100_nonvacuous : forall r, 0 < r -> fair_edge r (r * (PI / 3)) (eq_fwd r) (eq_inv r) (0, 60) (0, 0) (60, 0).
Proof. exact quarter_edge. Qed.

(** Finding: the distance along an arc may first rise and then fall.  From 160 W the search on
    the equator from 0 to 90 E gives the first end, at 160 degrees, although the second end is
    at 110 degrees: over five thousand kilometres nearer on the Earth. *)
Theorem C100_farther_refuted : forall r, 0 < r ->
  (exists az L, on_sphere r (eq_fwd r) (eq_inv r) (-160, 0) (0, 0) (90, 0) az L) /\
  nearest_to_point_geog (eq_fwd r) (eq_inv r) [(0, 0); (90, 0)] (-160, 0) = Some (r * (8 * PI / 9), Some (0, 0)) /\
  on_arc3 (pos 0 0) (pos 90 0) (pos 90 0) /\ central_angle (pos 90 0) (pos (-160) 0) (11 * PI / 18).
Proof.
  intros r Hr. split; [exists 90, (r * rad (90 - 0)); apply eq_arc; lra|]. split; [exact (far_first r Hr) | exact near_second].
Qed.
Print Assumptions C100_farther_refuted.

(** Finding: with fewer than two vertices the distance is -1. *)
Theorem C100_short_refuted : forall fwd inv l pt, (length l < 2)%nat -> shortest_distance_geog fwd inv l pt = Some (-1).
Proof. intros fwd inv [|a [|b l]] pt L; cbn [length] in L; [reflexivity | reflexivity | lia]. Qed.
Print Assumptions C100_short_refuted.
