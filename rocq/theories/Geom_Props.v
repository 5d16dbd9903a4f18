(** Properties of boxes, areas, transformations, segments, orientation and
    centroids of planar geometries (C25, C26, C27, C32, C63). *)
From Coq Require Import List ZArith QArith Qabs Lqa Bool Arith Lia.
From Verif Require Import Geom_Model Geom_Spec Geom_Proofs Geom_More Geom_Convert.
Import ListNotations.
Open Scope Q_scope.

Notation U := unit.
Definition line_of (l : list pt) : geom U U U := make_line U U U (V2 l) tt tt.
Definition poly_of (l : list pt) (s : list (geom U U U)) : geom U U U := make_polygon U U U (V2 l) s tt tt.
Definition square (a : Q) : list pt := [(0, 0); (a, 0); (a, a); (0, a)].

(** C25: the box is the smallest one around the vertices. *)
Theorem C25_bbox_tight : forall P D C (g : geom P D C), xys (gverts _ _ _ g) <> [] ->
  exists x0 y0 x1 y1, bbox P D C g = Some (x0, y0, x1, y1) /\ extent P D C g = Some (x0, x1, y0, y1) /\
    tight_box x0 y0 x1 y1 (xys (gverts _ _ _ g)).
Proof. exact bbox_spec. Qed.
Print Assumptions C25_bbox_tight.
Example C25_bbox_example : bbox U U U (line_of [(1, 5); (-2, 7); (3, 6)]) = Some (-2, 5, 3, 7).
Proof. reflexivity. Qed.

Theorem C25_multipart_bbox_tight : forall (parts : list (list pt)) bbs, parts <> [] ->
  Forall2 (fun l b => bbox_c l = Some b) parts bbs ->
  exists x0 y0 x1 y1, multi_bbox bbs = Ok (x0, y0, x1, y1) /\ tight_box x0 y0 x1 y1 (concat parts).
Proof. exact multi_bbox_spec. Qed.
Print Assumptions C25_multipart_bbox_tight.
Example C25_multipart_example : exists bbs,
  Forall2 (fun l b => bbox_c l = Some b) [[(1, 5); (-2, 7)]; [(4, 0)]] bbs /\ multi_bbox bbs = Ok (-2, 0, 4, 7).
Proof. eexists. split; [repeat constructor|reflexivity]. Qed.

(** Boxes overlap exactly if they share a point. *)
Theorem C25_overlap : forall P D C (g h : geom P D C) x0 y0 x1 y1 a0 b0 a1 b1,
  tight_box x0 y0 x1 y1 (xys (gverts _ _ _ g)) -> tight_box a0 b0 a1 b1 (xys (gverts _ _ _ h)) ->
  (bbox_overlap P D C g h = true <-> exists p, covers x0 y0 x1 y1 p /\ covers a0 b0 a1 b1 p).
Proof. exact overlap_spec. Qed.
Print Assumptions C25_overlap.
Example C25_overlap_example : bbox_overlap U U U (line_of [(0, 0); (2, 2)]) (line_of [(2, 2); (3, 9)]) = true /\
  bbox_overlap U U U (line_of [(0, 0); (2, 2)]) (line_of [(1, 3); (2, 4)]) = false.
Proof. split; reflexivity. Qed.

(** C26: the area is the absolute sum of signed triangles with any corner [o],
    less the areas of the sub-polygons. *)
Theorem C26_area : forall P D C (g : geom P D C) o, xys (gverts _ _ _ g) <> [] ->
  forall ls, mapM (area P D C) (gsubs _ _ _ g) = Ok ls ->
  exists a, area P D C g = Ok a /\
    a == Qabs (signed_area o (xys (gverts _ _ _ g))) - fold_right Qplus 0 ls.
Proof. exact area_spec. Qed.
Print Assumptions C26_area.
Example C26_area_example : exists a, area U U U (poly_of (square 4) [poly_of (square 1) []]) = Ok a /\ a == 15.
Proof. eexists. split; [vm_compute; reflexivity|reflexivity]. Qed.
(** Sums of signed triangles do not depend on the corner or the first vertex,
    change sign under reversal, scale with the determinant of an affine map, and
    are additive when a polygon is cut along a line between two vertices. *)
Theorem C26_signed_area : forall o,
  (forall o' l, signed_area o l == signed_area o' l) /\
  (forall l m, signed_area o (l ++ m) == signed_area o (m ++ l)) /\
  (forall l, signed_area o (rev l) == - signed_area o l) /\
  (forall a b c d e f l, signed_area o (map (affine a b c d e f) l) == (a * e - b * d) * signed_area o l) /\
  (forall a l b m, signed_area o (a :: l ++ b :: m) == signed_area o (a :: l ++ [b]) + signed_area o (b :: m ++ [a])) /\
  (forall a b c, signed_area o [a; b; c] == tri a b c).
Proof.
  exact (fun o => conj (signed_area_any o) (conj (signed_rotate o) (conj (signed_rev o) (conj (signed_affine o)
    (conj (signed_cut o) (signed_tri o)))))).
Qed.
Print Assumptions C26_signed_area.
(** So the area of a polygon without sub-polygons is not negative and does not
    depend on the first vertex or the orientation. *)
Theorem C26_area_invariant : forall P D C (g h : geom P D C) l m x, gsubs _ _ _ g = [] -> gsubs _ _ _ h = [] ->
  xys (gverts _ _ _ g) = l ++ m -> area P D C g = Ok x ->
  xys (gverts _ _ _ h) = m ++ l \/ xys (gverts _ _ _ h) = rev (l ++ m) ->
  0 <= x /\ exists y, area P D C h = Ok y /\ y == x.
Proof. exact area_invariant. Qed.
Print Assumptions C26_area_invariant.
Example C26_area_invariant_example : exists x, area U U U (poly_of [(0, 0); (3, 1); (2, 5); (1, 1)] []) = Ok x /\
  x == 5 /\ exists y, area U U U (poly_of [(2, 5); (1, 1); (0, 0); (3, 1)] []) = Ok y /\ y == x.
Proof. eexists. split; [vm_compute; reflexivity|]. split; [reflexivity|]. eexists. split; [vm_compute; reflexivity|reflexivity]. Qed.
Theorem C26_area_transform : forall P D C (g h : geom P D C) a b c d e f x, gsubs _ _ _ g = [] ->
  apply_transform P D C g (M23 a b c d e f) = Ok h -> area P D C g = Ok x ->
  exists y, area P D C h = Ok y /\ y == Qabs (a * e - b * d) * x.
Proof. exact area_transform. Qed.
Print Assumptions C26_area_transform.
Example C26_area_transform_example : exists h y, apply_transform U U U (poly_of (square 2) []) (M23 2 1 7 0 3 8) = Ok h /\
  area U U U h = Ok y /\ y == 24.
Proof. do 2 eexists. split; [vm_compute; reflexivity|]. split; [vm_compute; reflexivity|reflexivity]. Qed.
(** With sub-polygons the area changes when a polygon is moved: they are lost. *)
Theorem C26_moved_holes_refuted : exists g h x y, gkind U U U g = KPolygon /\ shift U U U g [1; 0] = Ok h /\
  area U U U g = Ok x /\ area U U U h = Ok y /\ ~ x == y.
Proof.
  exists (poly_of (square 4) [poly_of (square 1) []]). do 3 eexists. split; [reflexivity|].
  split; [vm_compute; reflexivity|]. split; [vm_compute; reflexivity|]. split; [vm_compute; reflexivity|].
  vm_compute. discriminate.
Qed.
Print Assumptions C26_moved_holes_refuted.

(** C27: transformations act on every vertex and keep the rest (not sub-polygons). *)
Theorem C27_apply_transform_partial : forall P D C (g : geom P D C) a b c d e f, xys (gverts _ _ _ g) <> [] ->
  exists h, apply_transform P D C g (M23 a b c d e f) = Ok h /\
    gkind _ _ _ h = gkind _ _ _ g /\ gprops _ _ _ h = gprops _ _ _ g /\ gcrs _ _ _ h = gcrs _ _ _ g /\
    (gkind _ _ _ g = KMultipoint -> gdata _ _ _ h = gdata _ _ _ g) /\ gsubs _ _ _ h = [] /\
    Forall2 same (xys (gverts _ _ _ h)) (map (affine a b c d e f) (xys (gverts _ _ _ g))) /\
    match gverts _ _ _ g, gverts _ _ _ h with
    | V2 _, V2 _ => True
    | V3 l, V3 m => Forall2 (fun p q => snd p == snd q) m l
    | _, _ => False
    end.
Proof. exact transform2. Qed.
Print Assumptions C27_apply_transform_partial.
Theorem C27_apply_transform_3d : forall P D C (g : geom P D C) l a1 a2 a3 a4 a5 a6 a7 a8 a9 a10 a11 a12,
  gverts _ _ _ g = V3 l -> l <> [] ->
  exists h m, apply_transform P D C g (M34 a1 a2 a3 a4 a5 a6 a7 a8 a9 a10 a11 a12) = Ok h /\
    gkind _ _ _ h = gkind _ _ _ g /\ gprops _ _ _ h = gprops _ _ _ g /\ gcrs _ _ _ h = gcrs _ _ _ g /\
    (gkind _ _ _ g = KMultipoint -> gdata _ _ _ h = gdata _ _ _ g) /\ gsubs _ _ _ h = [] /\ gverts _ _ _ h = V3 m /\
    Forall2 same3 m (map (affine3 a1 a2 a3 a4 a5 a6 a7 a8 a9 a10 a11 a12) l).
Proof. exact transform3. Qed.
Print Assumptions C27_apply_transform_3d.
Theorem C27_apply_transform_flat : forall P D C (g : geom P D C) l a1 a2 a3 a4 a5 a6 a7 a8 a9 a10 a11 a12,
  gverts _ _ _ g = V2 l -> l <> [] ->
  exists h m, apply_transform P D C g (M34 a1 a2 a3 a4 a5 a6 a7 a8 a9 a10 a11 a12) = Ok h /\
    gkind _ _ _ h = gkind _ _ _ g /\ gverts _ _ _ h = V2 m /\ Forall2 same m (map (affine a1 a2 a4 a5 a6 a8) l).
Proof. exact transform3_flat. Qed.
Print Assumptions C27_apply_transform_flat.
Theorem C27_invalid : forall P D C (g : geom P D C) M,
  (xys (gverts _ _ _ g) = [] -> apply_transform P D C g M = Err ValueError) /\
  apply_transform P D C g Mother = Err ValueError.
Proof. exact transform_errors. Qed.
Print Assumptions C27_invalid.
Theorem C27_compose : forall P D C (g : geom P D C) a b c d e f a' b' c' d' e' f', xys (gverts _ _ _ g) <> [] ->
  exists h h' k, apply_transform P D C g (M23 a b c d e f) = Ok h /\
    apply_transform P D C h (M23 a' b' c' d' e' f') = Ok h' /\
    apply_transform P D C g (M23 (a' * a + b' * d) (a' * b + b' * e) (a' * c + b' * f + c')
                                 (d' * a + e' * d) (d' * b + e' * e) (d' * c + e' * f + f')) = Ok k /\
    Forall2 same (xys (gverts _ _ _ h')) (xys (gverts _ _ _ k)) /\
    gkind _ _ _ h' = gkind _ _ _ k /\ gprops _ _ _ h' = gprops _ _ _ k /\ gcrs _ _ _ h' = gcrs _ _ _ k /\
    Forall2 same (xys (gverts _ _ _ h'))
      (map (fun p => affine a' b' c' d' e' f' (affine a b c d e f p)) (xys (gverts _ _ _ g))).
Proof. exact transform_compose. Qed.
Print Assumptions C27_compose.
Example C27_compose_example : xys (gverts U U U (line_of [(1, 2); (3, 4)])) <> [] /\
  exists h, apply_transform U U U (line_of [(1, 2); (3, 4)]) (M23 0 (-1) 5 1 0 0) = Ok h /\
    Forall2 same (xys (gverts U U U h)) [(3, 1); (1, 3)].
Proof. split; [discriminate|]. eexists. split; [vm_compute; reflexivity|]. repeat constructor. Qed.
Theorem C27_shift : forall P D C (g : geom P D C) u v, xys (gverts _ _ _ g) <> [] ->
  exists h, shift P D C g [u; v] = Ok h /\ gkind _ _ _ h = gkind _ _ _ g /\ gprops _ _ _ h = gprops _ _ _ g /\
    gcrs _ _ _ h = gcrs _ _ _ g /\ (gkind _ _ _ g = KMultipoint -> gdata _ _ _ h = gdata _ _ _ g) /\
    Forall2 same (xys (gverts _ _ _ h)) (map (translate u v) (xys (gverts _ _ _ g))).
Proof. exact shift_spec. Qed.
Print Assumptions C27_shift.
Theorem C27_shift_back : forall P D C (g : geom P D C) u v, xys (gverts _ _ _ g) <> [] ->
  exists h h', shift P D C g [u; v] = Ok h /\ shift P D C h [- u; - v] = Ok h' /\
    gkind _ _ _ h' = gkind _ _ _ g /\ gprops _ _ _ h' = gprops _ _ _ g /\ gcrs _ _ _ h' = gcrs _ _ _ g /\
    (gkind _ _ _ g = KMultipoint -> gdata _ _ _ h' = gdata _ _ _ g) /\
    Forall2 same (xys (gverts _ _ _ h')) (xys (gverts _ _ _ g)).
Proof. exact shift_back. Qed.
Print Assumptions C27_shift_back.
Theorem C27_point_shift : forall P C (p : point P C) u v, exists q r,
  point_shift P C p [u; v] = Ok q /\ point_transform P C p (M23 1 0 u 0 1 v) = Ok r /\
  pprops P C q = pprops P C p /\ pcrs P C q = pcrs P C p /\ pprops P C r = pprops P C p /\ pcrs P C r = pcrs P C p /\
  match pcoord P C p, pcoord P C q, pcoord P C r with
  | C2 x y, C2 a b, C2 a' b' => a == x + u /\ b == y + v /\ a' == a /\ b' == b
  | C3 x y z, C3 a b c, C3 a' b' c' => a == x + u /\ b == y + v /\ c == z /\ a' == a /\ b' == b /\ c' == c
  | _, _, _ => False
  end.
Proof. exact point_shift_transform. Qed.
Print Assumptions C27_point_shift.
Theorem C27_point_transform : forall P C (p : point P C) a b c d e f, exists r,
  point_transform P C p (M23 a b c d e f) = Ok r /\ pprops P C r = pprops P C p /\ pcrs P C r = pcrs P C p /\
  match pcoord P C p, pcoord P C r with
  | C2 x y, C2 x' y' => same (x', y') (affine a b c d e f (x, y))
  | C3 x y z, C3 x' y' z' => same (x', y') (affine a b c d e f (x, y)) /\ z' == z
  | _, _ => False
  end.
Proof. exact point_transform_spec. Qed.
Print Assumptions C27_point_transform.
Theorem C27_point_transform_3d : forall P C (p : point P C) a1 a2 a3 a4 a5 a6 a7 a8 a9 a10 a11 a12, exists r,
  point_transform P C p (M34 a1 a2 a3 a4 a5 a6 a7 a8 a9 a10 a11 a12) = Ok r /\
  pprops P C r = pprops P C p /\ pcrs P C r = pcrs P C p /\
  match pcoord P C p, pcoord P C r with
  | C2 x y, C2 x' y' => same (x', y') (affine a1 a2 a4 a5 a6 a8 (x, y))
  | C3 x y z, C3 x' y' z' => same3 (x', y', z') (affine3 a1 a2 a3 a4 a5 a6 a7 a8 a9 a10 a11 a12 (x, y, z))
  | _, _ => False
  end.
Proof. exact point_transform3. Qed.
Print Assumptions C27_point_transform_3d.
(** The full statement fails for polygons with sub-polygons. *)
Theorem C27_subs_lost_refuted : exists g h, gsubs U U U g <> [] /\ shift U U U g [0; 0] = Ok h /\ gsubs U U U h = [].
Proof.
  exists (poly_of (square 4) [poly_of (square 1) []]). eexists. split; [discriminate|].
  split; [vm_compute; reflexivity|reflexivity].
Qed.
Print Assumptions C27_subs_lost_refuted.

(** C32: segments. *)
Theorem C32_line_segments : forall P D C (g : geom P D C), gkind _ _ _ g <> KPolygon ->
  exists ss, segments P D C g = Ok ss /\ length ss = (nverts (gverts _ _ _ g) - 1)%nat /\
    forall i s, nth_error ss i = Some s -> seg_of P D C g s i (S i).
Proof. exact line_segments. Qed.
Print Assumptions C32_line_segments.
Theorem C32_polygon_segments : forall P D C (g : geom P D C), gkind _ _ _ g = KPolygon -> (0 < nverts (gverts _ _ _ g))%nat ->
  exists ss, segments P D C g = Ok ss /\ length ss = nverts (gverts _ _ _ g) /\
    forall i s, nth_error ss i = Some s ->
      seg_of P D C g s i (if (S i =? nverts (gverts _ _ _ g))%nat then 0%nat else S i).
Proof. exact polygon_segments. Qed.
Print Assumptions C32_polygon_segments.
Theorem C32_empty_polygon : forall P D C (g : geom P D C), gkind _ _ _ g = KPolygon -> nverts (gverts _ _ _ g) = 0%nat ->
  segments P D C g = Err IndexError.
Proof. exact polygon_segments_empty. Qed.
Print Assumptions C32_empty_polygon.
Theorem C32_line_tuples : forall P D C (g : geom P D C) i a b, gkind _ _ _ g <> KPolygon ->
  (nth_error (segment_tuples P D C g) i = Some (a, b) <-> path_edge (xys (gverts _ _ _ g)) i a b).
Proof. exact line_tuples. Qed.
Print Assumptions C32_line_tuples.
Theorem C32_polygon_tuples : forall P D C (g : geom P D C) i a b, gkind _ _ _ g = KPolygon ->
  (nth_error (segment_tuples P D C g) i = Some (a, b) <->
   (i < nverts (gverts _ _ _ g))%nat /\
   ring_edge (xys (gverts _ _ _ g)) (if (i =? 0)%nat then nverts (gverts _ _ _ g) - 1 else i - 1)%nat a b).
Proof. exact polygon_tuples. Qed.
Print Assumptions C32_polygon_tuples.
(** The outline of a polygon as a line: its vertices and the first again, so the steps of the
    line are the sides of the polygon; properties and crs are kept. *)
Theorem C32_to_line : forall P D C (g : geom P D C), (0 < nverts (gverts _ _ _ g))%nat -> exists h, to_line P D C g = Ok h /\
  gkind _ _ _ h = KLine /\ gsubs _ _ _ h = [] /\ gprops _ _ _ h = gprops _ _ _ g /\ gcrs _ _ _ h = gcrs _ _ _ g /\ gdata _ _ _ h = None /\
  nverts (gverts _ _ _ h) = S (nverts (gverts _ _ _ g)) /\
  (forall i, nth_v (gverts _ _ _ h) i = if Nat.eqb i (nverts (gverts _ _ _ g)) then nth_v (gverts _ _ _ g) 0 else nth_v (gverts _ _ _ g) i) /\
  (forall i a b, path_edge (xys (gverts _ _ _ h)) i a b <-> ring_edge (xys (gverts _ _ _ g)) i a b).
Proof. exact to_line_ok. Qed.
Print Assumptions C32_to_line.
Theorem C32_to_polygon : forall P D C (g : geom P D C), let h := to_polygon P D C g in
  gkind _ _ _ h = KPolygon /\ gverts _ _ _ h = gverts _ _ _ g /\ gsubs _ _ _ h = [] /\ gprops _ _ _ h = gprops _ _ _ g /\
  gcrs _ _ _ h = gcrs _ _ _ g /\ gdata _ _ _ h = None.
Proof. exact to_polygon_ok. Qed.
Print Assumptions C32_to_polygon.
(** A polygon made into a line and back is never the same: it has its first vertex twice. *)
Theorem C32_line_and_back_refuted : forall P D C (g h : geom P D C), to_line P D C g = Ok h ->
  nverts (gverts _ _ _ (to_polygon P D C h)) = S (nverts (gverts _ _ _ g)).
Proof. exact to_line_polygon. Qed.
Print Assumptions C32_line_and_back_refuted.
Example C32_to_line_example : exists h, to_line U U U (poly_of [(0, 0); (1, 0); (0, 1)] []) = Ok h /\
  gverts U U U h = V2 [(0, 0); (1, 0); (0, 1); (0, 0)].
Proof. eexists. split; reflexivity. Qed.
Example C32_segments_example : exists ss, segments U U U (poly_of [(0, 0); (1, 0); (0, 1)] []) = Ok ss /\
  map (gverts U U U) ss = [V2 [(0, 0); (1, 0)]; V2 [(1, 0); (0, 1)]; V2 [(0, 1); (0, 0)]] /\
  segment_tuples U U U (poly_of [(0, 0); (1, 0); (0, 1)] []) =
    [((0, 1), (0, 0)); ((0, 0), (1, 0)); ((1, 0), (0, 1))].
Proof. eexists. split; [reflexivity|]. split; reflexivity. Qed.

(** C63: orientation and centroid. *)
Theorem C63_isclockwise : forall P D C (g : geom P D C) o, gkind _ _ _ g = KPolygon ->
  (isclockwise P D C g = true <-> signed_area o (xys (gverts _ _ _ g)) < 0).
Proof. exact isclockwise_spec. Qed.
Print Assumptions C63_isclockwise.
Theorem C63_centroid : forall P D C (g : geom P D C) o, ~ signed_area o (xys (gverts _ _ _ g)) == 0 ->
  exists cx cy, centroid P D C g = Ok (cx, cy) /\
    cx * signed_area o (xys (gverts _ _ _ g)) == moment_x o (xys (gverts _ _ _ g)) /\
    cy * signed_area o (xys (gverts _ _ _ g)) == moment_y o (xys (gverts _ _ _ g)).
Proof. exact centroid_spec. Qed.
Print Assumptions C63_centroid.
Example C63_example : ~ signed_area (7, 8) (square 4) == 0 /\
  isclockwise U U U (poly_of (square 4) []) = false /\ isclockwise U U U (poly_of (rev (square 4)) []) = true /\
  exists cx cy, centroid U U U (poly_of (square 4) []) = Ok (cx, cy) /\ cx == 2 /\ cy == 2.
Proof.
  split; [vm_compute; discriminate|]. split; [reflexivity|]. split; [reflexivity|].
  do 2 eexists. split; [vm_compute; reflexivity|]. split; reflexivity.
Qed.
