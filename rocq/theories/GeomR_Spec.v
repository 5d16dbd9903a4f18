(** Vocabulary for the measuring properties: Euclidean distance, length of a path,
    points on a segment, points at a given length along a path, compass bearings. *)
From Coq Require Import List ZArith Reals.
From Verif Require Import GeomR_Model.
Import ListNotations.
Open Scope R_scope.

(** The horizontal position of a vertex; lines of vertices of rank 2. *)
Definition hp (p : rp) : rpt := (rx p, ry p).
Definition planar (l : list rp) := Forall (fun p => rz p = None) l.
Definition edist (a b : rpt) : R := sqrt ((fst a - fst b)^2 + (snd a - snd b)^2).
Definition edist3 (a b : rpt) (za zb : R) : R := sqrt ((fst a - fst b)^2 + (snd a - snd b)^2 + (za - zb)^2).
(** Length of a path and of a ring. *)
Fixpoint path_len (a : rpt) (l : list rpt) : R :=
  match l with [] => 0 | b :: l' => edist a b + path_len b l' end.
Definition line_len (l : list rpt) : R := match l with [] => 0 | a :: l' => path_len a l' end.
Definition ring_len (l : list rpt) : R := match l with [] => 0 | a :: l' => path_len a (l' ++ [a]) end.
(** The point at fraction [t] of the way from [a] to [b]. *)
Definition lerp (a b : rpt) (t : R) : rpt := (fst a + t * (fst b - fst a), snd a + t * (snd b - snd a)).
Definition on_segment (a b p : rpt) : Prop := exists t, 0 <= t <= 1 /\ p = lerp a b t.
(** [p] lies on some edge of the path [l]. *)
Definition on_path (l : list rpt) (p : rpt) : Prop :=
  exists l1 a b l2, l = l1 ++ a :: b :: l2 /\ on_segment a b p.
(** [p] is reached after following the path [l] for a length [s]. *)
Definition at_length (l : list rpt) (s : R) (p : rpt) : Prop :=
  exists l1 a b l2 t, l = l1 ++ a :: b :: l2 /\ 0 <= t <= 1 /\ p = lerp a b t /\
    s = line_len (l1 ++ [a]) + t * edist a b.
(** [q] lies at distance [d] from [p] in the compass direction [az] (degrees
    clockwise from north). *)
Definition bearing (p q : rpt) (d az : R) : Prop :=
  fst q = fst p + d * sin (az * PI / 180) /\ snd q = snd p + d * cos (az * PI / 180).
(** [q] is [p] turned counterclockwise by [th] degrees about [o]: polar
    coordinates around [o] keep the radius and gain the angle. *)
Definition turned (o : rpt) (th : R) (p q : rpt) : Prop :=
  forall r phi, p = (fst o + r * cos phi, snd o + r * sin phi) ->
    q = (fst o + r * cos (phi + th * PI / 180), snd o + r * sin (phi + th * PI / 180)).
(** The segment has some length, and is not both horizontal and shorter than 1e-4. *)
Definition regular (a b : rpt) : Prop := 1 / 10000 <= Rabs (fst a - fst b) \/ snd a <> snd b.
Definition regular_path (l : list rpt) : Prop := forall l1 a b l2, l = l1 ++ a :: b :: l2 -> regular a b.
(** [q] is, of the points in [on], one nearest to [p], and [d] the distance. *)
Definition nearest (on : rpt -> Prop) (p q : rpt) (d : R) : Prop :=
  on q /\ d = edist p q /\ forall r, on r -> d <= edist p r.
