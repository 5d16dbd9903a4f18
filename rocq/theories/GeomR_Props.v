(** Properties of distances, azimuths, rotation, lengths, nearest points and
    points along lines (C27, C31, C32, C64, C65, C66, C67, C68). *)
From Coq Require Import List ZArith Reals Bool Arith Lia Lra.
From Verif Require Import Geom_Model GeomR_Model GeomR_Spec GeomR_Proofs GeomR_More GeomR_Points GeomR_Examples GeomR_Stretch.
Import ListNotations.
Open Scope R_scope.

(** C27: rotation turns every vertex about the origin given, keeps distances, adds
    up, and a full turn does nothing. *)
Theorem C27_rotate : forall th o p, turned o th p (rotate th (fst o) (snd o) (fst p) (snd p)).
Proof. exact rotate_turned. Qed.
Print Assumptions C27_rotate.
Theorem C27_turned_determines : forall o th p q q', turned o th p q -> turned o th p q' -> q = q'.
Proof. exact turned_unique. Qed.
Print Assumptions C27_turned_determines.
Theorem C27_rotate_isometry : forall th o p q,
  edist (rotate th (fst o) (snd o) (fst p) (snd p)) (rotate th (fst o) (snd o) (fst q) (snd q)) = edist p q.
Proof. exact rotate_isometry. Qed.
Print Assumptions C27_rotate_isometry.
Theorem C27_rotate_compose : forall a b o p, let q := rotate a (fst o) (snd o) (fst p) (snd p) in
  rotate b (fst o) (snd o) (fst q) (snd q) = rotate (a + b) (fst o) (snd o) (fst p) (snd p).
Proof. exact rotate_add. Qed.
Print Assumptions C27_rotate_compose.
Theorem C27_rotate_full_turn : forall k o p, rotate (360 * IZR k) (fst o) (snd o) (fst p) (snd p) = p.
Proof. exact rotate_full. Qed.
Print Assumptions C27_rotate_full_turn.
Example C27_rotate_example : rotate 90 1 1 3 1 = (1, 3).
Proof. exact rotate_90. Qed.

(** C32: lengths. *)
Theorem C32_length : forall l ring, l <> [] -> length_c l ring = Ok (if ring then ring_len l else line_len l).
Proof. exact length_spec. Qed.
Print Assumptions C32_length.
Theorem C32_perimeter : forall l subs, l <> [] ->
  perimeter l subs = Ok (ring_len l + fold_right Rplus 0 subs) /\ perimeter l [] = length_c l true.
Proof. exact (fun l s N => conj (perimeter_spec l s N) (perimeter_length l N)). Qed.
Print Assumptions C32_perimeter.
Theorem C32_length_additive : forall l b m, line_len (l ++ b :: m) = line_len (l ++ [b]) + line_len (b :: m).
Proof. exact line_len_app. Qed.
Print Assumptions C32_length_additive.
Theorem C32_length_reversed : forall l, line_len (rev l) = line_len l.
Proof. exact line_len_rev. Qed.
Print Assumptions C32_length_reversed.
Theorem C32_length_rotated : forall th o l, let f p := rotate th (fst o) (snd o) (fst p) (snd p) in
  line_len (map f l) = line_len l /\ ring_len (map f l) = ring_len l.
Proof. exact (fun th o l => conj (line_len_map _ l (rotate_isometry th o)) (ring_len_map _ l (rotate_isometry th o))). Qed.
Print Assumptions C32_length_rotated.
Theorem C32_cumulength : forall l, l <> [] -> planar l -> exists cs, cumulength l = Ok cs /\ length cs = length l /\
  forall i, (i < length l)%nat -> nth i cs 0 = line_len (map hp (firstn (S i) l)).
Proof. exact cumulength_spec. Qed.
Print Assumptions C32_cumulength.
Theorem C32_displacement : forall a l b, planar (a :: l) -> nth_error (a :: l) (length l) = Some b ->
  displacement (a :: l) = Ok (edist (hp a) (hp b)).
Proof. exact displacement_spec. Qed.
Print Assumptions C32_displacement.
Theorem C32_displacement_shortest : forall l d, planar l -> displacement l = Ok d -> d <= line_len (map hp l).
Proof. exact displacement_le. Qed.
Print Assumptions C32_displacement_shortest.
Example C32_length_example : length_c [(0, 0); (3, 4); (3, 0)] true = Ok 12 /\
  cumulength (map flatp [(0, 0); (3, 4); (3, 0)]) = Ok [0; 5; 9].
Proof. exact length_345. Qed.
(** With a third coordinate the last cumulative length is not the length. *)
Theorem C32_cumulength_3d_refuted : exists l cs, l <> [] /\ cumulength l = Ok cs /\
  length_c (map hp l) false <> Ok (last cs 0).
Proof. exact cumulength_3d. Qed.
Print Assumptions C32_cumulength_3d_refuted.

(** C64: azimuth and walk. *)
Theorem C64_distance : forall p q,
  distance p q = match rz p, rz q with
                 | Some z, Some z' => edist3 (hp p) (hp q) z z'
                 | _, _ => edist (hp p) (hp q)
                 end.
Proof. exact distance_spec. Qed.
Print Assumptions C64_distance.
Theorem C64_azimuth : forall p q,
  (hp p = hp q -> azimuth p q = None) /\
  (hp p <> hp q -> exists az, azimuth p q = Some az /\ -180 <= az < 180 /\
     bearing (hp p) (hp q) (edist (hp p) (hp q)) az).
Proof. exact (fun p q => conj (azimuth_none p q) (azimuth_some p q)). Qed.
Print Assumptions C64_azimuth.
Theorem C64_walk : forall p d az,
  bearing (hp p) (hp (walk p d az)) d az /\ distance p (walk p d az) = Rabs d.
Proof. exact (fun p d az => conj (proj2 (walk_bearing p d az)) (walk_distance p d az)). Qed.
Print Assumptions C64_walk.
Theorem C64_azimuth_of_walk : forall p d az, 0 < d -> exists k : Z,
  azimuth p (walk p d az) = Some (az + 360 * IZR k) /\ -180 <= az + 360 * IZR k < 180.
Proof. exact walk_azimuth. Qed.
Print Assumptions C64_azimuth_of_walk.
Theorem C64_walk_there : forall p q, hp p <> hp q -> exists az, azimuth p q = Some az /\
  hp (walk p (edist (hp p) (hp q)) az) = hp q.
Proof. exact walk_there. Qed.
Print Assumptions C64_walk_there.
Theorem C64_azimuth_back : forall p q a b, azimuth p q = Some a -> azimuth q p = Some b -> b = a - 180 \/ b = a + 180.
Proof. exact azimuth_back. Qed.
Print Assumptions C64_azimuth_back.
Example C64_azimuth_example : azimuth (flatp (0, 0)) (flatp (5, 0)) = Some 90 /\ azimuth (flatp (1, 1)) (flatp (1, 9)) = Some 0.
Proof. exact azimuth_east_north. Qed.
(** Walking drops the third coordinate, even for a distance of zero. *)
Theorem C64_walk_3d_refuted : exists p, rz p <> None /\ rz (walk p 0 0) = None.
Proof. exists (mkRP 0 0 (Some 5)). split; [discriminate|reflexivity]. Qed.
Print Assumptions C64_walk_3d_refuted.
(** In geographical systems points of different longitudes have the azimuth that the system gives from
    the first to the second (the direction towards the second: C71, C95); there is none exactly for
    different points of one longitude. *)
Theorem C64_geographical_partial : forall (inv : rpt -> rpt -> R) p q,
  (fst p <> fst q -> azimuth_geog inv p q = Some (inv p q)) /\
  (azimuth_geog inv p q = None <-> fst p = fst q /\ snd p <> snd q).
Proof. exact azimuth_geog_spec. Qed.
Print Assumptions C64_geographical_partial.
Example C64_geographical_example : azimuth_geog (fun p q => fst q) (1, 5) (2, 7) = Some 2.
Proof. destruct (azimuth_geog_spec (fun p q => fst q) (1, 5) (2, 7)) as [-> _]; [reflexivity | cbn; lra]. Qed.
(** In geographical systems, two different points of one meridian have no azimuth,
    and equal points have one: the test is the wrong way round. *)
Theorem C64_geographical_meridian_refuted : forall inv : rpt -> rpt -> R,
  exists p q, p <> q /\ azimuth_geog inv p q = None /\ azimuth_geog inv p p <> None.
Proof. exact meridian. Qed.
Print Assumptions C64_geographical_meridian_refuted.

(** C31: nearest points.  [regular a b]: different ends, and the segment is not both
    horizontal and shorter than 1e-4. *)
Theorem C31_segment_partial : forall p a b, regular a b -> exists q d, pt_nearest_planar p a b = Ok (q, d) /\
  on_segment a b q /\ d = edist p q /\ forall r, on_segment a b r -> d <= edist p r.
Proof. exact pt_nearest_spec. Qed.
Print Assumptions C31_segment_partial.
Theorem C31_line_partial : forall l p, regular_path l -> (2 <= length l)%nat -> exists d q,
  nearest_to_point l p = Ok (d, Some q) /\
  on_path l q /\ d = edist p q /\ forall r, on_path l r -> d <= edist p r.
Proof. exact nearest_line. Qed.
Print Assumptions C31_line_partial.
Example C31_line_example : regular_path [(0, 0); (4, 0); (4, 4)].
Proof. exact regular_example. Qed.
Theorem C31_too_short : forall l p, (length l < 2)%nat -> nearest_to_point l p = Ok (-1, None).
Proof. exact nearest_to_short. Qed.
Print Assumptions C31_too_short.
(** A repeated vertex raises, whatever the point. *)
Theorem C31_repeated_vertex_refuted : forall p a, nearest_to_point [a; a] p = Err ZeroDivisionError.
Proof. exact nearest_repeated. Qed.
Print Assumptions C31_repeated_vertex_refuted.
(** A short horizontal segment: the answer is not on it. *)
Theorem C31_short_horizontal_refuted : exists p a b q d, a <> b /\ pt_nearest_planar p a b = Ok (q, d) /\ ~ on_segment a b q.
Proof. exact short_horizontal. Qed.
Print Assumptions C31_short_horizontal_refuted.
(** A polygon: the closing edge is left out, though it is a segment of the ring. *)
Theorem C31_closing_edge_refuted : exists l p d q r, nearest_to_point l p = Ok (d, Some q) /\
  on_segment (last l (0, 0)) (hd (0, 0) l) r /\ edist p r < d.
Proof. exact closing_edge. Qed.
Print Assumptions C31_closing_edge_refuted.

(** C67: within_distance asks every segment to be near. *)
Theorem C67_within_distance_partial : forall l p d, regular_path l -> exists b, within_distance l p d = Ok b /\
  (b = true <-> forall l1 u v l2, l = l1 ++ u :: v :: l2 -> exists q, on_segment u v q /\ edist p q <= d).
Proof. exact within_distance_spec. Qed.
Print Assumptions C67_within_distance_partial.
Theorem C67_sound : forall l p d, regular_path l -> (2 <= length l)%nat ->
  within_distance l p d = Ok true -> exists q, on_path l q /\ edist p q <= d.
Proof. exact within_distance_sound. Qed.
Print Assumptions C67_sound.
Theorem C67_within_distance_refuted : exists l p d q, regular_path l /\ on_path l q /\ edist p q <= d /\
  within_distance l p d = Ok false.
Proof. exact within_all_wrong. Qed.
Print Assumptions C67_within_distance_refuted.

(** C68: the nearest vertex is the first of the nearest ones. *)
Theorem C68_nearest_vertex : forall l p, l <> [] -> exists k v, nearest_vertex l p = Ok k /\ nth_error l k = Some v /\
  (forall j w, nth_error l j = Some w -> distance p v <= distance p w) /\
  (forall j w, (j < k)%nat -> nth_error l j = Some w -> distance p v < distance p w).
Proof. exact nearest_vertex_spec. Qed.
Print Assumptions C68_nearest_vertex.

(** C65: equally spaced points. *)
Theorem C65_to_npoints_partial : forall l n, planar l -> (2 <= length l)%nat -> (2 <= n)%nat ->
  1 / 100000000 <= line_len (map hp l) / INR (n - 1) ->
  let h := map hp l in let L := line_len h in
  exists pts, (forall fuel, (n + length l <= fuel)%nat -> to_npoints fuel l (Z.of_nat n) = Some (Ok pts)) /\ length pts = n /\
    (forall i v, (i < n - 1)%nat -> nth_error pts i = Some v -> at_length h (INR i * (L / INR (n - 1))) (hp v)) /\
    (exists v s, nth_error pts (n - 1) = Some v /\ at_length h s (hp v) /\ L - 1 / 100000000 <= s <= L).
Proof. exact to_npoints_spec. Qed.
Print Assumptions C65_to_npoints_partial.
Example C65_example : let l := map flatp [(0, 0); (3, 4); (3, 0)] in
  planar l /\ 1 / 100000000 <= line_len (map hp l) / INR (4 - 1).
Proof. exact npoints_example. Qed.
Theorem C65_one_point_refuted : forall fuel a b l, to_npoints fuel (a :: b :: l) 1 = Some (Err ZeroDivisionError).
Proof. exact to_npoints_one. Qed.
Print Assumptions C65_one_point_refuted.
(** A line of length zero gives one point, not n. *)
Theorem C65_zero_length_refuted : exists l, length l = 2%nat /\ forall fuel, (1 <= fuel)%nat ->
  exists pts, to_npoints fuel l 5 = Some (Ok pts) /\ length pts = 1%nat.
Proof. exact npoints_zero_length. Qed.
Print Assumptions C65_zero_length_refuted.

(** C66: points at a given spacing; proved for a single segment. *)
Theorem C66_to_points_partial : forall a b dx K, rz a = None -> rz b = None -> 0 < dx ->
  let D := edist (hp a) (hp b) in 0 < D -> INR K * dx <= D < INR (S K) * dx ->
  forall fuel, (K + 2 <= fuel)%nat -> exists pts, to_points fuel [a; b] dx = Some (Ok pts) /\ length pts = S K /\
    forall i v, nth_error pts i = Some v -> hp v = lerp (hp a) (hp b) (INR i * dx / D).
Proof. exact to_points_segment. Qed.
Print Assumptions C66_to_points_partial.
(** Lines of any number of segments none of which is shorter than dx: the i-th point is reached after a length i dx,
    round corners, and the last one is less than dx before the end. *)
Theorem C66_long_segments_partial : forall l dx K, planar l -> (2 <= length l)%nat -> 0 < dx ->
  (forall l1 a b l2, l = l1 ++ a :: b :: l2 -> dx <= edist (hp a) (hp b)) ->
  INR K * dx <= line_len (map hp l) < INR (S K) * dx ->
  forall fuel, (K + 2 <= fuel)%nat -> exists pts, to_points fuel l dx = Some (Ok pts) /\ length pts = S K /\
    forall i v, nth_error pts i = Some v -> at_length (map hp l) (INR i * dx) (hp v).
Proof. exact to_points_long. Qed.
Print Assumptions C66_long_segments_partial.
Example C66_long_segments_example : let l := map flatp [(0, 0); (3, 4); (3, 0)] in
  planar l /\ (forall l1 a b l2, l = l1 ++ a :: b :: l2 -> 3 <= edist (hp a) (hp b)) /\
  INR 3 * 3 <= line_len (map hp l) < INR 4 * 3.
Proof. exact long_example. Qed.
(** A line of any length made of segments shorter than dx yields its first vertex only. *)
Theorem C66_short_segments_refuted : forall l a dx fuel, planar (a :: l) -> (2 <= fuel)%nat ->
  (forall l1 u v l2, a :: l = l1 ++ u :: v :: l2 -> 0 < edist (hp u) (hp v) < dx) ->
  to_points fuel (a :: l) dx = Some (Ok [a]).
Proof. exact to_points_short. Qed.
Print Assumptions C66_short_segments_refuted.
Example C66_short_segments_example : let l := map flatp [(0, 0); (6, 0); (12, 0); (18, 0); (24, 0); (30, 0)] in
  planar l /\ line_len (map hp l) = 30 /\
  forall l1 u v l2, l = l1 ++ u :: v :: l2 -> 0 < edist (hp u) (hp v) < 10.
Proof. exact short_example. Qed.
Theorem C66_zero_spacing_refuted : forall fuel a b, rz a = None -> rz b = None -> hp a <> hp b -> to_points fuel [a; b] 0 = None.
Proof. exact to_points_zero. Qed.
Print Assumptions C66_zero_spacing_refuted.
