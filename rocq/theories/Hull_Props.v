(** Theorems on convex hulls in the plane (C36). *)
From Coq Require Import List QArith Reals Lqa.
From Verif Require Import Hull_Model Hull_Spec Hull_Main Hull_Azimuth.
Import ListNotations.
Open Scope Q_scope.

(** C36, the vertices of the hull are vertices of the input: also on the sphere, and for any
    input. *)
Theorem C36_vertices : (forall vs hs, plane_hull vs = Ok hs -> incl hs vs) /\ (forall vs hs, sphere_hull vs = Ok hs -> incl hs vs).
Proof. exact (conj (hull_any _ _ _ _ _ _ _ _ _ _ _) (hull_any _ _ _ _ _ _ _ _ _ _ _)). Qed.
Print Assumptions C36_vertices.

(** C36, the part that holds of all vertices that are not on one line (with vertices at one
    place, or several on one line): there is a hull, it starts at the leftmost vertex, it is
    convex, and it encloses all the vertices but some that are on the continuation of its
    first edge. *)
Theorem C36_plane_partial : forall vs, not_collinear vs -> exists p s r, plane_hull vs = Ok (p :: s :: r) /\
  incl (p :: s :: r) vs /\ leftmost_of vs p /\ convex (p :: s :: r) /\
  (forall v, In v vs -> enclosed (p :: s :: r) v \/ beyond p s v) /\
  ((forall a b, ~ two_on_first_edge vs p a b) -> forall v, In v vs -> enclosed (p :: s :: r) v).
Proof. exact hull_main. Qed.
Print Assumptions C36_plane_partial.
Definition diamond : list (Q * Q) := [(1, 1); (2, 0); (0, 1); (2, 2); (2, 1); (3, 1); (0, 1); (2, 2)].
Example C36_plane_partial_ex : not_collinear diamond /\ plane_hull diamond = Ok [(0, 1); (2, 0); (3, 1); (2, 2); (0, 1)].
Proof. split; [| vm_compute; reflexivity]. exists (2, 0), (0, 1), (2, 2). repeat split; cbn; auto 8. unfold orient. cbn. lra. Qed.

(** C36 in full, for vertices of which no two others are on the edge that leaves the leftmost
    one *)
Theorem C36_clear_partial : forall vs, not_collinear vs -> (forall p a b, leftmost_of vs p -> ~ two_on_first_edge vs p a b) ->
  exists hs, plane_hull vs = Ok hs /\ incl hs vs /\ convex hs /\ forall v, In v vs -> enclosed hs v.
Proof. exact hull_clear. Qed.
Print Assumptions C36_clear_partial.
(** and for vertices no three of which are on one line. *)
Theorem C36_general_partial : forall vs, (3 <= length vs)%nat -> general_position vs ->
  exists hs, plane_hull vs = Ok hs /\ incl hs vs /\ convex hs /\ forall v, In v vs -> enclosed hs v.
Proof. exact hull_general. Qed.
Print Assumptions C36_general_partial.
Definition four : list (Q * Q) := [(0, 0); (4, 1); (1, 3); (2, 1)].
Example C36_general_partial_ex : general_position four.
Proof.
  intros i j k a b c IJ JK A B C. assert (k < length four)%nat as K by (apply nth_error_Some; rewrite C; discriminate). cbn in K.
  destruct i as [| [| [| [| i]]]], j as [| [| [| [| j]]]], k as [| [| [| [| k]]]]; try (exfalso; Lia.lia);
    cbn in A, B, C; injection A as <-; injection B as <-; injection C as <-; unfold orient; cbn; lra.
Qed.

(** C36 refuted: of the nine points of a square grid, given row by row from below, the hull
    does not enclose the corner (0, 0). *)
Definition grid : list (Q * Q) := [(0, 0); (1, 0); (2, 0); (0, 1); (1, 1); (2, 1); (0, 2); (1, 2); (2, 2)].
Theorem C36_refuted : not_collinear grid /\ exists hs, plane_hull grid = Ok hs /\ In (0, 0) grid /\ ~ enclosed hs (0, 0).
Proof.
  split; [exists (0, 0), (1, 0), (0, 1); repeat split; cbn; auto 8; unfold orient; cbn; lra |].
  eexists. split; [vm_compute; reflexivity |]. split; [left; reflexivity |].
  intros H. assert (0 <= orient (0, 1) (1, 0) (0, 0)) as X by (apply H; cbn; auto 8). unfold orient in X. cbn in X. lra.
Qed.
Print Assumptions C36_refuted.

(** Vertices on one line: one place, and two places one of which comes three times, raise
    an error. *)
Theorem C36_collinear_refuted : plane_hull [(1, 1)] = Raise IndexError /\ plane_hull [(0, 0); (1, 1); (0, 0); (0, 0)] = Raise IndexError.
Proof. split; vm_compute; reflexivity. Qed.
Print Assumptions C36_collinear_refuted.

(** The order of the angles in the model is that of the azimuths in the code. *)
Theorem C36_azimuth : forall vs p a b, leftmost_of vs p -> In a vs -> In b vs ->
  (angle_lt (angle_of p a) (angle_of p b) = true <-> (real_angle p a < real_angle p b)%R) /\
  (angle_eq (angle_of p a) (angle_of p b) = true <-> real_angle p a = real_angle p b).
Proof. exact azimuth_order. Qed.
Print Assumptions C36_azimuth.
