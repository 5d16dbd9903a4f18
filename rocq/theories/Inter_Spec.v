(** Vocabulary for the intersection properties. *)
From Coq Require Import List ZArith QArith.
From Verif Require Import Geom_Spec.
Import ListNotations.
Open Scope Q_scope.

(** The point at fraction [t] of the way from [a] to [b]; points of a segment. *)
Definition along (a b : pt) (t : Q) : pt := (fst a + t * (fst b - fst a), snd a + t * (snd b - snd a)).
Definition on_seg (e : pt * pt) (p : pt) : Prop := exists t, 0 <= t <= 1 /\ same p (along (fst e) (snd e) t).
(** Points of a segment other than its first end. *)
Definition on_seg' (e : pt * pt) (p : pt) : Prop := exists t, 0 < t <= 1 /\ same p (along (fst e) (snd e) t).
(** Two segments share a point. *)
Definition meet (e f : pt * pt) : Prop := exists p, on_seg e p /\ on_seg f p.
Definition direction (e : pt * pt) : pt := (fst (snd e) - fst (fst e), snd (snd e) - snd (fst e)).
Definition parallel (e f : pt * pt) : Prop :=
  fst (direction e) * snd (direction f) == snd (direction e) * fst (direction f).
(** [e] is the edge number [i] of the coordinate string [l], a ring or not. *)
Definition edge_at (l : list pt) (ring : bool) (i : nat) (e : pt * pt) : Prop :=
  path_edge l i (fst e) (snd e) \/
  (ring = true /\ S i = length l /\ nth_error l i = Some (fst e) /\ nth_error l 0 = Some (snd e)).
Definition edge_of (l : list pt) (ring : bool) (e : pt * pt) : Prop := exists i, edge_at l ring i e.
(** Two edges with the same ends in the same direction. *)
Definition same_edge (e f : pt * pt) : Prop := same (fst e) (fst f) /\ same (snd e) (snd f).
Definition upright (e : pt * pt) : Prop := fst (fst e) == fst (snd e).
(** No edge occurs twice (vertical edges may). *)
Definition no_repeat (l : list pt) (ring : bool) : Prop :=
  forall i j e f, edge_at l ring i e -> edge_at l ring j f -> same_edge e f -> ~ upright e -> i = j.

(** General position: the geometries touch themselves only where two edges share a
    vertex, and no vertex of one lies on the other. *)
Definition end_of (e : pt * pt) (p : pt) : Prop := same p (fst e) \/ same p (snd e).
Definition simple_path (l : list pt) (ring : bool) : Prop :=
  (forall i j e f p, edge_at l ring i e -> edge_at l ring j f -> i <> j -> on_seg e p -> on_seg f p -> end_of e p /\ end_of f p) /\
  (forall i j k e f g p, edge_at l ring i e -> edge_at l ring j f -> edge_at l ring k g -> i <> j -> j <> k -> i <> k ->
     end_of e p -> end_of f p -> end_of g p -> False).
Definition proper (a : list pt) (ra : bool) (b : list pt) (rb : bool) : Prop :=
  forall e f p, edge_of a ra e -> edge_of b rb f -> on_seg e p -> on_seg f p -> ~ end_of e p /\ ~ end_of f p.
