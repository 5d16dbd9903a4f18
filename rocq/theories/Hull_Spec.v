(** What the properties of convex hulls are stated with. *)
From Coq Require Import List QArith.
Import ListNotations.
Open Scope Q_scope.

(** Twice the signed area of the triangle a, b, c: positive if c is to the left of the line
    from a to b. *)
Definition orient (a b c : Q * Q) : Q := (fst b - fst a) * (snd c - snd a) - (snd b - snd a) * (fst c - fst a).

(** The edges of a closed ring. *)
Definition ring_edges {A : Type} (l : list A) : list (A * A) :=
  match l with [] => [] | h :: t => combine l (t ++ [h]) end.

(** A convex ring: no three of its vertices, taken in order, turn right. *)
Definition convex (hs : list (Q * Q)) : Prop :=
  forall i j k a b c, (i < j)%nat -> (j < k)%nat -> nth_error hs i = Some a -> nth_error hs j = Some b -> nth_error hs k = Some c ->
    0 <= orient a b c.
(** A vertex in or on a convex ring: to the right of no edge. *)
Definition enclosed (hs : list (Q * Q)) (v : Q * Q) : Prop := forall a b, In (a, b) (ring_edges hs) -> 0 <= orient a b v.

(** There are three vertices that are not on one line. *)
Definition not_collinear (vs : list (Q * Q)) : Prop := exists a b c, In a vs /\ In b vs /\ In c vs /\ ~ orient a b c == 0.
(** No three vertices are on one line; in particular, no two are at the same place. *)
Definition general_position (vs : list (Q * Q)) : Prop :=
  forall i j k a b c, (i < j)%nat -> (j < k)%nat -> nth_error vs i = Some a -> nth_error vs j = Some b -> nth_error vs k = Some c ->
    ~ orient a b c == 0.
(** v is on the line from a through b, on the far side of b. *)
Definition beyond (a b v : Q * Q) : Prop := exists t, 1 < t /\ fst v == fst a + t * (fst b - fst a) /\ snd v == snd a + t * (snd b - snd a).
(** The first of the vertices from left to right, the upper one if there are several. *)
Definition leftmost_of (vs : list (Q * Q)) (p : Q * Q) : Prop :=
  In p vs /\ forall v, In v vs -> fst p < fst v \/ (fst p == fst v /\ snd v <= snd p).
(** p and two more vertices a and b, all at different places, are on one line that has no
    vertex on its right: there are two vertices on the edge that leaves p. *)
Definition two_on_first_edge (vs : list (Q * Q)) (p a b : Q * Q) : Prop :=
  In a vs /\ In b vs /\
  ~ (fst a == fst p /\ snd a == snd p) /\ ~ (fst b == fst p /\ snd b == snd p) /\ ~ (fst a == fst b /\ snd a == snd b) /\
  orient p a b == 0 /\ forall v, In v vs -> 0 <= orient p a v.
