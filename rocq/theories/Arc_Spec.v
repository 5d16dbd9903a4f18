(** Positions along geodesics and distances from them, independently of the search. *)
From Coq Require Import List Reals.
From Verif Require Import Sphere_Spec.
Open Scope R_scope.

(** A function on [0, b] that first does not rise and then rises strictly (or only one of
    the two): its least value is at the bottom of a valley. *)
Definition one_valley (D : R -> R) (b : R) : Prop :=
  exists m, 0 <= m <= b /\
    (forall s t, 0 <= s -> s <= t -> t <= m -> D t <= D s) /\
    (forall s t, m <= s -> s < t -> t <= b -> D s < D t).
(** Moving along a geodesic by some length changes a distance by no more. *)
Definition lipschitz (D : R -> R) (b : R) : Prop :=
  forall s t, 0 <= s -> s <= t -> t <= b -> Rabs (D t - D s) <= t - s.

(** [D f] is the distance of the point [pt] from the position at the distance [f] on the
    geodesic that [inv] gives from e0 to e1. *)
Definition distance_along (fwd inv : R -> R -> R -> R -> R * R * R) (pt e0 : R * R) (az f : R) : R :=
  let q := fwd (fst e0) (snd e0) az f in
  snd (inv (fst (fst q)) (snd (fst q)) (fst pt) (snd pt)).

(** The geodesics are great circles of a sphere of radius r: on the arc from e0 to e1 and a
    ten-millionth beyond, [fwd] travels along it and [inv] gives distances. *)
Record on_sphere (r : R) (fwd inv : R -> R -> R -> R -> R * R * R) (pt e0 e1 : R * R) (az L : R) : Prop := {
  s_inverse : exists baz, inv (fst e0) (snd e0) (fst e1) (snd e1) = (az, baz, L);
  s_length : central_angle (pos (fst e0) (snd e0)) (pos (fst e1) (snd e1)) (L / r);
  s_end : travel (rad (fst e0)) (rad (snd e0)) (rad az) (L / r) = pos (fst e1) (snd e1);
  s_forward : forall f, 0 <= f <= L + / 10000000 * L ->
     let q := fwd (fst e0) (snd e0) az f in
     pos (fst (fst q)) (snd (fst q)) = travel (rad (fst e0)) (rad (snd e0)) (rad az) (f / r);
  s_distance : forall f, 0 <= f <= L + / 10000000 * L ->
     let q := fwd (fst e0) (snd e0) az f in
     central_angle (pos (fst (fst q)) (snd (fst q))) (pos (fst pt) (snd pt))
       (snd (inv (fst (fst q)) (snd (fst q)) (fst pt) (snd pt)) / r) }.
(** An edge for which the search is right: the geodesic is the great circle arc, no longer
    than K, and both ends are within a quarter of the circumference of the point (the second
    by a ten-millionth of the edge). *)
Definition fair_edge (r K : R) (fwd inv : R -> R -> R -> R -> R * R * R) (pt e0 e1 : R * R) : Prop :=
  exists az L a0 a1, on_sphere r fwd inv pt e0 e1 az L /\ L <= K /\ L + / 10000000 * L < PI * r /\
    central_angle (pos (fst e0) (snd e0)) (pos (fst pt) (snd pt)) a0 /\ a0 <= PI / 2 /\
    central_angle (pos (fst e1) (snd e1)) (pos (fst pt) (snd pt)) a1 /\ a1 + / 10000000 * L / r <= PI / 2.
(** a and b are consecutive vertices. *)
Definition consecutive {A} (l : list A) (a b : A) : Prop := exists l1 l2, l = (l1 ++ a :: b :: l2)%list.
