(** What the properties of convex hulls on the sphere are stated with. *)
From Coq Require Import List Reals.
From Verif Require Import Sphere_Spec Hull_Spec.
Import ListNotations.
Open Scope R_scope.

(** Six times the volume spanned by three positions (longitude and latitude in degrees):
    positive if c is to the left of the great circle from a to b. *)
Definition place (a : R * R) : v3 := pos (fst a) (snd a).
Definition turn (a b c : R * R) : R := dot (place a) (vprod (place b) (place c)).

Definition convex_on_sphere (hs : list (R * R)) : Prop :=
  forall i j k a b c, (i < j)%nat -> (j < k)%nat -> nth_error hs i = Some a -> nth_error hs j = Some b -> nth_error hs k = Some c ->
    0 <= turn a b c.
Definition enclosed_on_sphere (hs : list (R * R)) (v : R * R) : Prop := forall a b, In (a, b) (ring_edges hs) -> 0 <= turn a b v.

(** Different positions between the poles, within less than 180 degrees of longitude, as the
    longitudes are given. *)
Definition within_half (vs : list (R * R)) : Prop :=
  NoDup vs /\ (forall v, In v vs -> -90 < snd v < 90) /\ (forall v w, In v vs -> In w vs -> fst w - fst v < 180).
(** Not all on one great circle. *)
Definition not_one_circle (vs : list (R * R)) : Prop := exists a b c, In a vs /\ In b vs /\ In c vs /\ turn a b c <> 0.
(** v is on the great circle from a through b, on the far side of b. *)
Definition beyond_on_sphere (a b v : R * R) : Prop :=
  exists s t, 0 < s /\ 0 < t /\ place v = vadd (vscale (- s) (place a)) (vscale t (place b)).
(** The first of the vertices from west to east, the northern one if there are several. *)
Definition westmost_of (vs : list (R * R)) (p : R * R) : Prop :=
  In p vs /\ forall v, In v vs -> fst p < fst v \/ (fst p = fst v /\ snd v <= snd p).
(** There are two more vertices on the edge that leaves p. *)
Definition two_on_first_arc (vs : list (R * R)) (p a b : R * R) : Prop :=
  In a vs /\ In b vs /\ a <> p /\ b <> p /\ a <> b /\ turn p a b = 0 /\ forall v, In v vs -> 0 <= turn p a v.
