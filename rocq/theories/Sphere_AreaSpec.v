(** Areas on the unit sphere: the signed area between a great circle segment and the
    equator is the integral of the sine of the latitude over the longitude. *)
From Coq Require Import List Reals.
From Coquelicot Require Import Coquelicot.
From Verif Require Import Sphere_Spec.
Import ListNotations.
Open Scope R_scope.

(** [phi x] is the latitude, at longitude [x], of the great circle through two positions
    given in degrees, for the longitudes between them. *)
Definition latitude_along (p q : R * R) (phi : R -> R) : Prop :=
  forall x, Rmin (rad (fst p)) (rad (fst q)) <= x <= Rmax (rad (fst p)) (rad (fst q)) ->
    - (PI / 2) < phi x < PI / 2 /\ dot (vprod (pos (fst p) (snd p)) (pos (fst q) (snd q))) (upos x (phi x)) = 0.
(** The area between the segment and the equator: positive for a northern segment that runs
    to the east. *)
Definition area_under (p q : R * R) (A : R) : Prop :=
  exists phi, latitude_along p q phi /\ is_RInt (fun x => sin (phi x)) (rad (fst p)) (rad (fst q)) A.
(** The edges of a ring, with the closing one. *)
Fixpoint edges_from (first p : R * R) (l : list (R * R)) : list ((R * R) * (R * R)) :=
  match l with [] => [(p, first)] | q :: l' => (p, q) :: edges_from first q l' end.
Definition ring_edges (l : list (R * R)) : list ((R * R) * (R * R)) :=
  match l with [] => [] | p :: l' => edges_from p p l' end.
Fixpoint total (l : list R) : R := match l with [] => 0 | a :: l' => a + total l' end.
(** An edge that spans less than half a turn of longitude, as given. *)
Definition edge_ok (e : (R * R) * (R * R)) : Prop := -180 < fst (snd e) - fst (fst e) < 180.
