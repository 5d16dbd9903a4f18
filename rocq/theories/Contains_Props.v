(** C30: points in polygons, in the plane. *)
From Coq Require Import List ZArith QArith.
From Verif Require Import Geom_Model Geom_Spec Inter_Spec Contains_Model Contains_Spec Contains_Proofs Contains_Winding Contains_Inside.
Import ListNotations.

(** Off the boundary: the outer ring winds round the point and no sub-polygon has it. *)
Theorem C30_contains_partial : forall (P D C : Type) (g : geom P D C) (p : pt), rings P D C g -> off_edges P D C p g ->
  exists b, contains P D C g p = Ok b /\ (b = true <-> region P D C p g).
Proof. exact contains_spec. Qed.
Print Assumptions C30_contains_partial.
(** The winding number is well defined. *)
Theorem C30_winding_number : forall (p : pt) (l : list pt), off p l -> exists w, winding p l w /\ forall w', winding p l w' -> w' = w.
Proof. exact (fun p l O => ex_intro _ (count p l) (conj (count_winding p l O) (fun w' W => winding_unique p l w' (count p l) O W (count_winding p l O)))). Qed.
Print Assumptions C30_winding_number.
Example C30_contains_example : rings unit unit unit donut /\
  off_edges unit unit unit (1 # 2, 1 # 3) donut /\ contains unit unit unit donut (1 # 2, 1 # 3) = Ok true /\
  off_edges unit unit unit (2, 5 # 2) donut /\ contains unit unit unit donut (2, 5 # 2) = Ok false /\
  off_edges unit unit unit (1, 5) donut /\ contains unit unit unit donut (5, 1 # 2) = Ok false.
Proof. exact donut_ok. Qed.

(** The following hold for every point, on the boundary too. *)
Theorem C30_answers : forall (P D C : Type) (g : geom P D C), rings P D C g -> forall p, exists b, contains P D C g p = Ok b.
Proof. exact rings_always. Qed.
Print Assumptions C30_answers.
Theorem C30_not_ring : forall (P D C : Type) (g : geom P D C) (p : pt), gring P D C g = false -> contains P D C g p = Err TypeError.
Proof. exact contains_not_ring. Qed.
Print Assumptions C30_not_ring.
Theorem C30_start_vertex : forall (P D C : Type) (g h : geom P D C) (p : pt) l m,
  gring P D C g = true -> gring P D C h = true -> gsubs P D C g = [] -> gsubs P D C h = [] ->
  xys (gverts P D C g) = l ++ m -> xys (gverts P D C h) = m ++ l -> contains P D C g p = contains P D C h p.
Proof. exact contains_rotated. Qed.
Print Assumptions C30_start_vertex.
Theorem C30_reversed : forall (P D C : Type) (g h : geom P D C) (p : pt),
  gring P D C g = true -> gring P D C h = true -> gsubs P D C g = [] -> gsubs P D C h = [] ->
  xys (gverts P D C h) = rev (xys (gverts P D C g)) -> contains P D C g p = contains P D C h p.
Proof. exact contains_reversed. Qed.
Print Assumptions C30_reversed.
(** Polygon(vertices, subs=...) contains the points that the vertices wind round and that are in none of
    the sub-polygons (off the edges). *)
Theorem C30_holes_partial : forall (P D C : Type) (v : verts) (subs : list (geom P D C)) pr c p,
  Forall (rings P D C) subs -> off p (xys v) -> Forall (off_edges P D C p) subs ->
  exists b, contains P D C (make_polygon P D C v subs pr c) p = Ok b /\
  (b = true <-> (exists w, winding p (xys v) w /\ w <> 0%Z) /\ forall s, In s subs -> ~ region P D C p s).
Proof. exact made_contains. Qed.
Print Assumptions C30_holes_partial.
(** A contained point is in the bounding box, and not on its upper or right side. *)
Theorem C30_bbox : forall (P D C : Type) (g : geom P D C) (p : pt) x0 y0 x1 y1, tight_box x0 y0 x1 y1 (xys (gverts P D C g)) ->
  contains P D C g p = Ok true -> (x0 <= fst p < x1)%Q /\ (y0 <= snd p < y1)%Q.
Proof. exact contains_bbox. Qed.
Print Assumptions C30_bbox.
(** A contained point that is on no edge is strictly inside the bounding box. *)
Theorem C30_inside : forall (P D C : Type) (g : geom P D C) (p : pt) x0 y0 x1 y1, off_edges P D C p g ->
  tight_box x0 y0 x1 y1 (xys (gverts P D C g)) ->
  contains P D C g p = Ok true -> (x0 < fst p < x1)%Q /\ (y0 < snd p < y1)%Q.
Proof. exact contains_inside. Qed.
Print Assumptions C30_inside.
(** Of every line through it, it has vertices on both sides (take -al, -be for the other one): it is
    inside the convex hull. *)
Theorem C30_both_sides : forall (P D C : Type) (g : geom P D C) (p : pt) al be, off_edges P D C p g -> (~ (al == 0 /\ be == 0))%Q ->
  contains P D C g p = Ok true ->
  exists q, In q (xys (gverts P D C g)) /\ (al * fst q + be * snd q < al * fst p + be * snd p)%Q.
Proof. exact contains_both_sides. Qed.
Print Assumptions C30_both_sides.
(** On the same side of all edges, as in a convex ring: inside. *)
Theorem C30_convex : forall (P D C : Type) (g : geom P D C) (p : pt), gring P D C g = true -> gsubs P D C g = [] ->
  xys (gverts P D C g) <> [] ->
  (forall i a b, ring_edge (xys (gverts P D C g)) i a b -> left_of p a b) \/
  (forall i a b, ring_edge (xys (gverts P D C g)) i a b -> right_of p a b) -> contains P D C g p = Ok true.
Proof. exact contains_left. Qed.
Print Assumptions C30_convex.
Example C30_convex_example : forall i a b, ring_edge (xys (gverts unit unit unit (square 0 4 []))) i a b -> left_of (1, 2) a b.
Proof. exact square_left. Qed.
(** Two polygons joined along an edge: a point outside one is in the union exactly if in
    the other, so no point of a common edge is lost or counted twice. *)
Theorem C30_joined : forall (P D C : Type) (g h u : geom P D C) (p a : pt) l b m,
  gring P D C g = true -> gring P D C h = true -> gring P D C u = true ->
  gsubs P D C g = [] -> gsubs P D C h = [] -> gsubs P D C u = [] ->
  xys (gverts P D C g) = a :: l ++ [b] -> xys (gverts P D C h) = b :: m ++ [a] -> xys (gverts P D C u) = a :: l ++ b :: m ->
  (contains P D C g p = Ok false -> contains P D C u p = contains P D C h p) /\
  (contains P D C h p = Ok false -> contains P D C u p = contains P D C g p).
Proof. exact contains_joined. Qed.
Print Assumptions C30_joined.
Theorem C30_sub_polygon : forall (P D C : Type) (g : geom P D C) (p : pt) s, rings P D C g -> In s (gsubs P D C g) ->
  contains P D C s p = Ok true -> contains P D C g p = Ok false.
Proof. exact contains_hole. Qed.
Print Assumptions C30_sub_polygon.
Example C30_sub_polygon_example : In (square 1 3 []) (gsubs unit unit unit donut) /\ contains unit unit unit (square 1 3 []) (2, 5 # 2) = Ok true.
Proof. split; [left; reflexivity|vm_compute; reflexivity]. Qed.
(** "True if inside or on the boundary": some boundary points are in, others are not. *)
Theorem C30_boundary_refuted : exists g p q e f, rings unit unit unit g /\ edge_of (xys (gverts unit unit unit g)) true e /\ on_seg e p /\
  edge_of (xys (gverts unit unit unit g)) true f /\ on_seg f q /\
  contains unit unit unit g p = Ok true /\ contains unit unit unit g q = Ok false.
Proof. exact boundary. Qed.
Print Assumptions C30_boundary_refuted.
