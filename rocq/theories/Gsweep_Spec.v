(** Vocabulary for intersections of lines of great circle arcs. *)
From Coq Require Import List Reals.
From Verif Require Import Sphere_Spec.
Import ListNotations.
Open Scope R_scope.

(** The positions of the edge from [fst e] to [snd e], and edges that share a position. *)
Definition on_edge (e : (R * R) * (R * R)) (p : v3) : Prop :=
  on_arc3 (pos (fst (fst e)) (snd (fst e))) (pos (fst (snd e)) (snd (snd e))) p.
Definition meet (e f : (R * R) * (R * R)) : Prop := exists p, on_edge e p /\ on_edge f p.
(** [e] is the edge number [i] of a line, or of a ring. *)
Definition edge_at (l : list (R * R)) (ring : bool) (i : nat) (e : (R * R) * (R * R)) : Prop :=
  (nth_error l i = Some (fst e) /\ nth_error l (S i) = Some (snd e)) \/
  (ring = true /\ S i = length l /\ nth_error l i = Some (fst e) /\ nth_error l 0 = Some (snd e)).
Definition edge_of (l : list (R * R)) (ring : bool) (e : (R * R) * (R * R)) : Prop := exists i, edge_at l ring i e.
(** Positions other than the poles and the date line. *)
Definition inner (p : R * R) : Prop := -180 < fst p < 180 /\ -90 < snd p < 90.
(** Edges other than on a meridian or over the date line. *)
Definition plain (e : (R * R) * (R * R)) : Prop :=
  inner (fst e) /\ inner (snd e) /\ fst (fst e) <> fst (snd e) /\ -180 < fst (snd e) - fst (fst e) < 180.
(** The direction in which the circles of two edges cross. *)
Definition crossing_of (e f : (R * R) * (R * R)) : v3 := crossing (fst e) (snd e) (fst f) (snd f).
(** Where the code finds its longitude: where it is not too short (as for short edges) or
    points away from the meridian 0. *)
Definition resolved (e f : (R * R) * (R * R)) : Prop :=
  1 / 100000000 < Rabs (fst (fst (crossing_of e f))) \/ fst (fst (crossing_of e f)) <= 0.
(** Two edges on the same great circle. *)
Definition same_circle (e f : (R * R) * (R * R)) : Prop := crossing_of e f = (0, 0, 0).
(** All longitudes rise along the line, or all fall. *)
Definition eastward (l : list (R * R)) : Prop :=
  forall i j p q, (i < j)%nat -> nth_error l i = Some p -> nth_error l j = Some q -> fst p < fst q.
Definition westward (l : list (R * R)) : Prop :=
  forall i j p q, (i < j)%nat -> nth_error l i = Some p -> nth_error l j = Some q -> fst q < fst p.
(** The easternmost vertex of one line is the westernmost of the other. *)
Definition end_to_end (a b : list (R * R)) : Prop :=
  exists p, In p a /\ In p b /\ (forall q, In q a -> fst q <= fst p) /\ (forall q, In q b -> fst p <= fst q).
(** Edges on a meridian; the vertices of other edges are as above. *)
Definition upright (e : (R * R) * (R * R)) : Prop := fst (fst e) = fst (snd e).
Definition regular (e : (R * R) * (R * R)) : Prop := plain e \/ (upright e /\ inner (fst e) /\ inner (snd e)).
(** The axis of the circle of an edge, and where the code finds the longitude at which it
    crosses a meridian. *)
Definition axis (e : (R * R) * (R * R)) : v3 := vprod (pos (fst (fst e)) (snd (fst e))) (pos (fst (snd e)) (snd (snd e))).
Definition resolved_at (e : (R * R) * (R * R)) (x : R) : Prop :=
  1 / 100000000 < Rabs (snd (axis e) * cos (rad x)) \/ snd (axis e) * cos (rad x) <= 0.
(** No edge occurs twice; longitudes 360 degrees apart are the same. *)
Definition no_repeat (l : list (R * R)) (ring : bool) : Prop :=
  forall i j e f, edge_at l ring i e -> edge_at l ring j f ->
    congd (fst (fst e)) (fst (fst f)) -> snd (fst e) = snd (fst f) -> congd (fst (snd e)) (fst (snd f)) -> snd (snd e) = snd (snd f) -> i = j.
(** Edges within one hemisphere, or on a meridian; over them the boxes are right. *)
Definition one_side (e : (R * R) * (R * R)) : Prop := samesphere (snd (fst e)) (snd (snd e)) \/ upright e.
(** A line always eastward or always westward, off the poles and the date line, of short
    enough edges. *)
Definition steady (l : list (R * R)) : Prop :=
  (eastward l \/ westward l) /\ (forall p, In p l -> inner p) /\
  (forall e, edge_of l false e -> -180 < fst (snd e) - fst (fst e) < 180).
(** The edges of two lines lie on different circles, whose crossing the code resolves. *)
Definition apart (a b : list (R * R)) : Prop :=
  forall e f, edge_of a false e -> edge_of b false f -> resolved e f /\ resolved f e /\ ~ same_circle e f.
(** [y] is the latitude of the edge at longitude [x]. *)
Definition latitude_at (e : (R * R) * (R * R)) (x y : R) : Prop := -90 < y < 90 /\ on_edge e (pos x y).
(** Heights, as the sweep uses them, that are the latitudes of the edges. *)
Definition accurate (height : (R * R) * (R * R) -> R -> option R) : Prop :=
  forall e x, plain e -> (fst (fst e) <= x <= fst (snd e) \/ fst (snd e) <= x <= fst (fst e)) -> exists y, height e x = Some y /\ latitude_at e x y.
