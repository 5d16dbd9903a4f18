(** C38 (radians), C48, C72 - C76: the plane as a reference system and the sphere. *)
From Coq Require Import List ZArith Reals.
From Coquelicot Require Import Coquelicot.
From Coq Require Import Lra.
From Verif Require Import Geom_Model GeomR_Model GeomR_Spec GeomR_Proofs Sphere_Model Sphere_Spec Sphere_AreaSpec Sphere_Proofs Sphere_Dist Sphere_Bnd Sphere_Area Sphere_Inter.
Import ListNotations.
Open Scope R_scope.

(** C38: the normalised angles in radians. *)
Theorem C38_unroll_rad : forall x, 0 <= unroll_rad x < 2 * PI /\ congr x (unroll_rad x).
Proof. exact unroll_rad_spec. Qed.
Print Assumptions C38_unroll_rad.
Theorem C38_reduce_rad : forall x, - PI <= reduce_rad x < PI /\ congr x (reduce_rad x).
Proof. exact reduce_rad_spec. Qed.
Print Assumptions C38_reduce_rad.
Theorem C38_unroll_rad_normal : forall x y, 0 <= y < 2 * PI -> congr x y -> unroll_rad x = y.
Proof. exact unroll_rad_unique. Qed.
Print Assumptions C38_unroll_rad_normal.
Theorem C38_reduce_rad_normal : forall x y, - PI <= y < PI -> congr x y -> reduce_rad x = y.
Proof. exact reduce_rad_unique. Qed.
Print Assumptions C38_reduce_rad_normal.
(** Over the reals [isbetween_circular] is membership of the shorter way, opposite ends apart. *)
Theorem C38_between_real : forall x x0 x1, isbetween_circularr x x0 x1 = true <-> lon_between x x0 x1.
Proof. exact between_spec. Qed.
Print Assumptions C38_between_real.
Example C38_between_real_example : lon_between (-175) 170 (-170) /\ congr (5 * PI) (- PI) /\ - PI <= - PI < PI.
Proof.
  pose proof PI_RGT_0. split; [|split; [|lra]].
  - exists 15, 20. split; [lra|]. split; [lra|]. left. split; exists (-1)%Z; lra.
  - exists 3%Z. lra.
Qed.

(** C48: the planar reference system. *)
Theorem C48_forward : forall x y az d, exists x2 y2 baz, cart_forward x y az d = (x2, y2, baz) /\
  bearing (x, y) (x2, y2) d az /\ 0 <= baz < 360 /\ congd (az + 180) baz.
Proof. exact forward_spec. Qed.
Print Assumptions C48_forward.
Theorem C48_inverse : forall x1 y1 x2 y2, exists az baz d, cart_inverse x1 y1 x2 y2 = (az, baz, d) /\
  d = edist (x1, y1) (x2, y2) /\ bearing (x1, y1) (x2, y2) d az /\ bearing (x2, y2) (x1, y1) d baz /\
  ((x1, y1) <> (x2, y2) -> -180 < az <= 180) /\ 0 <= baz < 360.
Proof. exact inverse_spec. Qed.
Print Assumptions C48_inverse.
Theorem C48_round_trip : forall x y az d, 0 < d -> exists x2 y2 baz az' baz',
  cart_forward x y az d = (x2, y2, baz) /\ cart_inverse x y x2 y2 = (az', baz', d) /\ congd az az' /\ baz' = baz.
Proof. exact there_and_back. Qed.
Print Assumptions C48_round_trip.
Theorem C48_distance : forall x y az d, exists x2 y2 baz az' baz',
  cart_forward x y az d = (x2, y2, baz) /\ cart_inverse x y x2 y2 = (az', baz', Rabs d).
Proof. exact there_distance. Qed.
Print Assumptions C48_distance.
Example C48_example : (1, 2) <> (4, 6) /\ edist (1, 2) (4, 6) = 5 /\ 0 < 5.
Proof.
  split; [intros E; injection E; lra|]. split; [|lra]. unfold edist. cbn [fst snd].
  replace (_ + _) with (5 * 5) by ring. apply sqrt_square. lra.
Qed.

(** C72: the area of a polygon on the sphere, as the area between its edges and the equator. *)
Theorem C72_area_partial : forall flat r (l : list (R * R)) As,
  (List.Forall (fun p => 0 <= snd p < 90) l \/ List.Forall (fun p => -90 < snd p <= 0) l) ->
  List.Forall edge_ok (ring_edges l) -> Forall2 (fun e A => area_under (fst e) (snd e) A) (ring_edges l) As ->
  polygon_area_sph flat r l = r * r * Rabs (total As).
Proof. exact ring_area. Qed.
Print Assumptions C72_area_partial.
Theorem C72_area_exists : forall l : list (R * R), List.Forall (fun p => -90 < snd p < 90) l -> List.Forall edge_ok (ring_edges l) ->
  exists As, Forall2 (fun e A => area_under (fst e) (snd e) A) (ring_edges l) As.
Proof. exact ring_area_exists. Qed.
Print Assumptions C72_area_exists.
Example C72_area_example : List.Forall (fun p : R * R => 0 <= snd p < 90) [(0, 10); (20, 15); (5, 40)] /\
  List.Forall edge_ok (ring_edges [(0, 10); (20, 15); (5, 40)]).
Proof.
  split; [repeat (constructor; [cbn; lra|]); constructor|]. cbn [ring_edges edges_from].
  repeat (constructor; [unfold edge_ok; cbn; lra|]). constructor.
Qed.
(** One edge, on either side. *)
Theorem C72_edge_north : forall flat r p q A, 0 <= snd p < 90 -> 0 <= snd q < 90 -> -180 < fst q - fst p < 180 -> area_under p q A ->
  spherical_area flat r (fst p) (snd p) (fst q) (snd q) = - (r * r * A).
Proof. exact edge_north. Qed.
Print Assumptions C72_edge_north.
Theorem C72_edge_south : forall flat r p q A, -90 < snd p <= 0 -> -90 < snd q <= 0 -> -180 < fst q - fst p < 180 -> area_under p q A ->
  spherical_area flat r (fst p) (snd p) (fst q) (snd q) = r * r * A.
Proof. exact edge_south. Qed.
Print Assumptions C72_edge_south.
(** A polygon across the equator: the parts on the two sides are subtracted. *)
Theorem C72_equator_refuted : forall flat r w h, 0 < w < 180 -> 0 < h < 90 ->
  polygon_area_sph flat r [(0, - h); (w, - h); (w, h); (0, h)] = 0 /\
  exists As, Forall2 (fun e A => area_under (fst e) (snd e) A) (ring_edges [(0, - h); (w, - h); (w, h); (0, h)]) As /\ 0 < Rabs (total As).
Proof. intros flat r w h W H. exact (conj (balanced_rectangle flat r w h W H) (balanced_true w h W H)). Qed.
Print Assumptions C72_equator_refuted.

(** C73: bounding latitudes of a great circle segment. *)
Theorem C73_bounds_partial : forall p q lon lat lo hi, -90 < snd p < 90 -> -90 < snd q < 90 -> -90 <= lat <= 90 ->
  samesphere (snd p) (snd q) \/ fst p = fst q ->
  bndlat_sph p q = Some (lo, hi) -> on_arc3 (pos (fst p) (snd p)) (pos (fst q) (snd q)) (pos lon lat) -> lo <= lat <= hi.
Proof. exact bnd_same. Qed.
Print Assumptions C73_bounds_partial.
Theorem C73_attained : forall p q lo hi, -90 < snd p < 90 -> -90 < snd q < 90 -> -180 < fst q - fst p < 180 ->
  bndlat_sph p q = Some (lo, hi) ->
  (exists w, on_arc3 (pos (fst p) (snd p)) (pos (fst q) (snd q)) w /\ snd w = sin (rad lo)) /\
  (exists w, on_arc3 (pos (fst p) (snd p)) (pos (fst q) (snd q)) w /\ snd w = sin (rad hi)).
Proof. exact bnd_tight. Qed.
Print Assumptions C73_attained.
(** There is an answer unless the ends are the same. *)
Theorem C73_answers : forall p q, bndlat_sph p q = None <-> p = q.
Proof. exact bnd_answers. Qed.
Print Assumptions C73_answers.
Example C73_example : samesphere 10 40 /\ (exists lo hi, bndlat_sph (0, 10) (100, 40) = Some (lo, hi)) /\
  on_arc3 (pos 0 10) (pos 100 40) (pos 0 10).
Proof.
  split; [left; lra|]. split.
  - destruct (bndlat_sph (0, 10) (100, 40)) as [[lo hi]|] eqn:E; [exists lo, hi; reflexivity|].
    apply bnd_answers in E. injection E. lra.
  - apply arc_ends; apply upos_unit.
Qed.
Theorem C73_across_refuted : bndlat_sph (0, -30) (150, 60) = Some (-30, 60) /\
  exists w, on_arc3 (pos 0 (-30)) (pos 150 60) w /\ sin (rad 60) < snd w.
Proof. exact bnd_across. Qed.
Print Assumptions C73_across_refuted.

(** C74: spherical to Cartesian coordinates and back. *)
Theorem C74_to_cartesian : forall lon lat, sph2cart lon lat = pos lon lat.
Proof. exact sph2cart_pos. Qed.
Print Assumptions C74_to_cartesian.
Theorem C74_round_trip_partial : forall lon lat, -180 < lon <= 180 -> -90 < lat < 90 ->
  0 <= sin (rad lat) \/ Rabs (sin (rad lat)) <= 1 / 10000 ->
  0 <= cos (rad lon) \/ 1 / 10000 < Rabs (cos (rad lat) * cos (rad lon)) ->
  cart2sph (sph2cart lon lat) = Some (lon, lat).
Proof. exact round_trip. Qed.
Print Assumptions C74_round_trip_partial.
Example C74_example : 0 <= sin (rad 30) /\ 0 <= cos (rad 60).
Proof. rewrite rad_30, rad_60, sin_PI6, cos_PI3. lra. Qed.
Theorem C74_direction_partial : forall x y z, Rabs z <= 1 / 10000 \/ 0 < z -> 1 / 10000 < Rabs x \/ 0 <= x -> x <> 0 \/ y <> 0 ->
  exists lon lat, cart2sph (x, y, z) = Some (lon, lat) /\ (x, y, z) = vscale (sqrt (x * x + y * y + z * z)) (pos lon lat) /\
  -180 < lon <= 180 /\ -90 < lat < 90.
Proof. exact cart2sph_spec. Qed.
Print Assumptions C74_direction_partial.
Theorem C74_south_refuted : cart2sph (sph2cart 0 (-45)) = Some (0, 135).
Proof. exact south_wrong. Qed.
Print Assumptions C74_south_refuted.
Theorem C74_pole_refuted : cart2sph (sph2cart 0 90) = None.
Proof. exact pole_raises. Qed.
Print Assumptions C74_pole_refuted.

(** C75: distances and azimuths on the sphere. *)
Theorem C75_distance : forall l1 p1 l2 p2, central_angle (upos l1 p1) (upos l2 p2) (sphere_distance l1 p1 l2 p2).
Proof. exact distance_angle. Qed.
Print Assumptions C75_distance.
Theorem C75_segment_distance : forall p q, dist_sph p q = sphere_distance (rad (fst p)) (rad (snd p)) (rad (fst q)) (rad (snd q)).
Proof. exact dist_sph_eq. Qed.
Print Assumptions C75_segment_distance.
Theorem C75_metric : forall l1 p1 l2 p2 l3 p3,
  sphere_distance l1 p1 l2 p2 = sphere_distance l2 p2 l1 p1 /\
  (sphere_distance l1 p1 l2 p2 = 0 <-> upos l1 p1 = upos l2 p2) /\
  sphere_distance l1 p1 l3 p3 <= sphere_distance l1 p1 l2 p2 + sphere_distance l2 p2 l3 p3.
Proof. exact distance_metric. Qed.
Print Assumptions C75_metric.
Theorem C75_azimuth : forall lon1 lat1 lon2 lat2 d, -90 < lat2 < 90 -> central_angle (pos lon1 lat1) (pos lon2 lat2) d ->
  travel (rad lon1) (rad lat1) (sphere_azimuth lon1 lat1 lon2 lat2) d = pos lon2 lat2.
Proof. exact azimuth_travel. Qed.
Print Assumptions C75_azimuth.
Example C75_example : central_angle (pos 0 0) (pos 0 60) (PI / 3).
Proof.
  pose proof PI_RGT_0. split; [lra|]. unfold pos. rewrite upos_dot, rad_0, rad_60, Rminus_0_r, cos_0, sin_0. ring.
Qed.

(** C76: intersections of great circle segments. *)
Theorem C76_sound_partial : forall a b c d, -90 < snd a < 90 -> -90 < snd b < 90 -> -90 < snd c < 90 -> -90 < snd d < 90 ->
  apart a b -> apart c d -> good_crossing (crossing a b c d) -> forall q, intersection_spherical a b c d = Point_ q ->
  -90 < snd q < 90 /\ on_arc3 (pos (fst a) (snd a)) (pos (fst b) (snd b)) (pos (fst q) (snd q)) /\
  on_arc3 (pos (fst c) (snd c)) (pos (fst d) (snd d)) (pos (fst q) (snd q)).
Proof. exact intersection_sound. Qed.
Print Assumptions C76_sound_partial.
Theorem C76_complete_partial : forall a b c d, -90 < snd a < 90 -> -90 < snd b < 90 -> -90 < snd c < 90 -> -90 < snd d < 90 ->
  apart a b -> apart c d -> good_crossing (crossing a b c d) -> forall p,
  on_arc3 (pos (fst a) (snd a)) (pos (fst b) (snd b)) p -> on_arc3 (pos (fst c) (snd c)) (pos (fst d) (snd d)) p ->
  exists q, intersection_spherical a b c d = Point_ q /\ pos (fst q) (snd q) = p.
Proof. exact intersection_complete. Qed.
Print Assumptions C76_complete_partial.
Example C76_example : apart (-45, 0) (90, 45) /\ apart (45, 45) (-45, 45) /\ good_crossing (crossing (-45, 0) (90, 45) (45, 45) (-45, 45)).
Proof. exact good_example. Qed.
(** If the computed direction (not necessarily the crossing itself) points south, whatever
    is returned is not a latitude. *)
Theorem C76_south_refuted : forall a b c d q, snd (crossing a b c d) < - (1 / 10000) ->
  intersection_spherical a b c d = Point_ q -> 90 < Rabs (snd q).
Proof. exact south_latitude. Qed.
Print Assumptions C76_south_refuted.
Theorem C76_south_example_refuted : exists q, intersection_spherical (-45, 0) (90, -45) (-45, -45) (45, -45) = Point_ q /\ 90 < snd q /\
  exists p, on_arc3 (pos (-45) 0) (pos 90 (-45)) p /\ on_arc3 (pos (-45) (-45)) (pos 45 (-45)) p.
Proof. exact south_crossing. Qed.
Print Assumptions C76_south_example_refuted.
Theorem C76_southward_refuted : (forall lon hi lo c d q, lo < hi -> intersection_spherical (lon, hi) (lon, lo) c d <> Point_ q) /\
  on_arc3 (pos 0 45) (pos 0 (-45)) (pos 0 0) /\ on_arc3 (pos (-45) 0) (pos 45 0) (pos 0 0).
Proof. exact (conj southward_nothing southward_meets). Qed.
Print Assumptions C76_southward_refuted.
Theorem C76_short_refuted : intersection_spherical (1349 / 10, 0) (1351 / 10, 0) (135, - (1 / 10)) (135, 1 / 10) = NoIntersection /\
  exists p, on_arc3 (pos (1349 / 10) 0) (pos (1351 / 10) 0) p /\ on_arc3 (pos 135 (- (1 / 10))) (pos 135 (1 / 10)) p.
Proof. exact short_crossing. Qed.
Print Assumptions C76_short_refuted.
