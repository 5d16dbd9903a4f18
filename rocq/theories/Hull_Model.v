(** Model of the convex hull: karta/vector/convexhull.pyx and geometry.py:600-613.

    The algorithm is the same for the plane and the sphere; it is written once, for any
    azimuth (a value with an order), distance and test of the side.  A CoordString that is a
    ring has its first vertex once more at the end (convexhull.pyx:22-23); the list of
    vertices given here includes it. *)
From Coq Require Import List Bool Arith QArith Reals.
From Verif Require Import Geom_Model GeomR_Model Sphere_Model.
Import ListNotations.

(** The exceptions of convexhull.pyx:18-148. *)
Inductive hull_error : Type := IndexError | OutOfBounds.
(** What [convexhull] does: it returns or raises (convexhull.pyx:18-148). *)
Inductive outcome (A : Type) : Type := Ok (a : A) | Raise (e : hull_error).
Arguments Ok {A}. Arguments Raise {A}.

Section Hull.
(** A vertex, an azimuth. *)
Variables pt key : Type.
Variable origin : pt.
(** [a.x < b.x], [a.x == b.x], [a.y > b.y]. *)
Variables xlt xeq yabove : pt -> pt -> bool.
(** [M_PI_2 - azimuth(p, q)] and the comparisons of two such numbers. *)
Variable az : pt -> pt -> key.
Variables klt keq : key -> key -> bool.
(** [dist2(p, a) > dist2(p, b)]. *)
Variable farther : pt -> pt -> pt -> bool.
(** convexhull.pyx:6-16 [isleft], [isleft_sph]. *)
Variable isleft : pt -> pt -> pt -> bool.

(** [cs.getX(i)], [cs.getY(i)]; only used with indices of vertices. convexhull.pyx:18-148. *)
Definition at_ (vs : list pt) (i : nat) : pt := nth i vs origin.

(** convexhull.pyx:19-35, 85-101. *)
Definition leftmost (vs : list pt) : nat :=
  fold_left (fun l i =>
    if xlt (at_ vs i) (at_ vs l) then i
    else if xeq (at_ vs i) (at_ vs l) && yabove (at_ vs i) (at_ vs l) then i else l)
    (seq 1 (length vs - 1)) 0%nat.

(** [list.sort()] of pairs (azimuth, index). convexhull.pyx:44-48, 110-114. *)
Definition pair_le (a b : key * nat) : bool := klt (fst a) (fst b) || (keq (fst a) (fst b) && Nat.leb (snd a) (snd b)).
(** The sorting of convexhull.pyx:44-48, 110-114: insertion into a sorted list. *)
Fixpoint insert (a : key * nat) (l : list (key * nat)) : list (key * nat) :=
  match l with [] => [a] | b :: l' => if pair_le a b then a :: l else b :: insert a l' end.
(** [list.sort()] (convexhull.pyx:44-48, 110-114). *)
Definition sort (l : list (key * nat)) : list (key * nat) := fold_right insert [] l.

(** convexhull.pyx:37-48, 103-114. *)
Definition by_azimuth (vs : list pt) (l : nat) : list (key * nat) :=
  sort (map (fun i => (az (at_ vs l) (at_ vs i), i)) (filter (fun i => negb (Nat.eqb i l)) (seq 0 (length vs)))).

(** convexhull.pyx:50-65, 116-131: [i] is the position in the sorted list, [klast] the azimuth
    at [last_idx], [prev] and [acc] the last entry of [indices] and the others, reversed.
    [lastpt] becomes the vertex with the number [last_idx], a position in the sorted list. *)
Fixpoint drop_duplicates (vs : list pt) (p0 : pt) (s : list (key * nat)) (i : nat) (klast : key) (lastpt : pt) (prev : nat) (acc : list nat) : list nat :=
  match s with
  | [] => rev (prev :: acc)
  | (k, j) :: s' =>
    if keq k klast then
      if farther p0 (at_ vs j) lastpt then drop_duplicates vs p0 s' (S i) k (at_ vs i) j acc
      else drop_duplicates vs p0 s' (S i) klast lastpt prev acc
    else drop_duplicates vs p0 s' (S i) klast lastpt j (prev :: acc)
  end.

(** convexhull.pyx:75-82, 141-148: the stack has the last index first. *)
Fixpoint pops (vs : list pt) (stack : list nat) (i : nat) : outcome (list nat) :=
  match stack with
  | b :: ((a :: _) as rest) => if isleft (at_ vs a) (at_ vs b) (at_ vs i) then Ok stack else pops vs rest i
  | _ => Raise IndexError
  end.
(** convexhull.pyx:67-82, 133-148, the loop over the sorted vertices. *)
Fixpoint scan (vs : list pt) (stack : list nat) (is : list nat) : outcome (list nat) :=
  match is with
  | [] => Ok (rev stack)
  | i :: is' => match pops vs stack i with Raise e => Raise e | Ok st => scan vs (i :: st) is' end
  end.

(** convexhull.pyx:18-82 [convexhull], 84-148 [convexhull_sph].  Without vertices [getX] is
    called out of bounds; with one vertex [azimuth_indices\[0\]] is an IndexError. *)
Definition hull_indices (vs : list pt) : outcome (list nat) :=
  match vs with
  | [] => Raise OutOfBounds
  | _ =>
    let l := leftmost vs in
    match by_azimuth vs l with
    | [] => Raise IndexError
    | (k, j) :: s =>
      match drop_duplicates vs (at_ vs l) s 1 k (at_ vs l) j [] with
      | [i] => Ok [l; i]
      | i0 :: i1 :: is => scan vs [i1; i0; l] is
      | [] => Raise IndexError
      end
    end
  end.
(** geometry.py:600-613 [convex_hull]: the vertices of the polygon. *)
Definition hull (vs : list pt) : outcome (list pt) :=
  match hull_indices vs with Ok is => Ok (map (at_ vs) is) | Raise e => Raise e end.
End Hull.

(* ---- the plane *)
Open Scope Q_scope.
(** A vertex in the plane (convexhull.pyx:18-82), with exact coordinates. *)
Notation qpt := (Q * Q)%type.
(** C's [a < b] (convexhull.pyx:18-82). *)
Definition qlt (a b : Q) : bool := negb (Qle_bool b a).
(** [M_PI_2 - atan2(dx, dy)] for dx >= 0 is the angle with the tangent dy/dx, and minus or
    plus pi/2 if dx is 0; atan2(0, 0) is 0, so the angle of a vertex at the same place is
    pi/2.  It is represented by the tangent.  (vectorgeo.pyx:165-167; for the leftmost vertex
    dx is never negative.  [C36_azimuth] shows that the order is the same.) *)
Inductive angle : Type := Down | Slope (t : Q) | Up.
(** convexhull.pyx:37-48, the azimuth of one vertex from another. *)
Definition angle_of (p q : qpt) : angle :=
  let dx := fst q - fst p in let dy := snd q - snd p in
  if qlt 0 dx then Slope (dy / dx) else if qlt dy 0 then Down else Up.
(** [<] of azimuths (convexhull.pyx:37-65). *)
Definition angle_lt (a b : angle) : bool :=
  match a, b with
  | Down, Down => false | Down, _ => true
  | Slope s, Slope t => qlt s t | Slope _, Up => true
  | _, _ => false
  end.
(** [==] of azimuths (convexhull.pyx:50-65). *)
Definition angle_eq (a b : angle) : bool :=
  match a, b with Down, Down => true | Slope s, Slope t => Qeq_bool s t | Up, Up => true | _, _ => false end.
(** vectorgeo.pyx:36-37 [dist2], squared. *)
Definition dist2sq (p q : qpt) : Q := (fst p - fst q) * (fst p - fst q) + (snd p - snd q) * (snd p - snd q).
(** convexhull.pyx:9. *)
Definition isleft_plane (p0 p1 p2 : qpt) : bool :=
  qlt 0 ((fst p1 - fst p0) * (snd p2 - snd p0) - (snd p1 - snd p0) * (fst p2 - fst p0)).
(** convexhull.pyx:18-82 and geometry.py:600-613, over the plane. *)
Definition plane_hull (vs : list qpt) : outcome (list qpt) :=
  hull qpt angle (0, 0) (fun a b => qlt (fst a) (fst b)) (fun a b => Qeq_bool (fst a) (fst b)) (fun a b => qlt (snd b) (snd a))
    angle_of angle_lt angle_eq (fun p a b => qlt (dist2sq p b) (dist2sq p a)) isleft_plane vs.

Close Scope Q_scope.
(* ---- the sphere *)
Open Scope R_scope.
(** convexhull.pyx:11-16 [isleft_sph]. *)
Definition isleft_sphere (p0 p1 p2 : rpt) : bool :=
  let a := sphere_azimuth (fst p1) (snd p1) (fst p2) (snd p2) in
  let a0 := sphere_azimuth (fst p1) (snd p1) (fst p0) (snd p0) in
  rlt 0 (pymod (a - a0 + PI) (2 * PI) - PI).
(** convexhull.pyx:84-148, over the reals. *)
Definition sphere_hull (vs : list rpt) : outcome (list rpt) :=
  hull rpt R (0, 0)%R (fun a b => rlt (fst a) (fst b)) (fun a b => req (fst a) (fst b)) (fun a b => rlt (snd b) (snd a))
    (fun p q => PI / 2 - sphere_azimuth (fst p) (snd p) (fst q) (snd q))%R rlt req
    (fun p a b => rlt (dist_sph p b) (dist_sph p a)) isleft_sphere vs.
