(** Model of [intersects], [intersections] and [contains] of karta/vector/geometry.py for geometries
    in different coordinate systems, on Inter_Model and Contains_Model.  [tr a b] is
    [a.transform(b, x, y)] of crs.py:245-246, 297-298 (pyproj, external), taken to succeed.  Systems
    are projected or Cartesian; vertices have two coordinates. *)
From Coq Require Import List ZArith QArith Bool.
From Verif Require Import Geom_Model Inter_Model Contains_Model.
Import ListNotations.

Section Systems.
Variables (C : Type) (eqb : C -> C -> bool) (tr : C -> C -> Q * Q -> Q * Q).

(** geometry.py:135-140 [vertex(crs)] and 447-453, 635-641 the vertices of [bbox(crs)]: unchanged in
    the same system. *)
Definition vertex_in (own asked : C) (p : Q * Q) : Q * Q := if eqb asked own then p else tr own asked p.
(** geometry.py:678-696 [a.intersects(b)], [a] in the system [s] and [b] in [c].  The boxes are both
    in [s] (690), the vertices compared are the numbers of each geometry (694). *)
Definition intersects_in (fuel : nat) (s : C) (a : list (Q * Q)) (ra : bool) (c : C) (b : list (Q * Q)) (rb : bool) : out bool :=
  match bbox_c a, bbox_c (map (vertex_in c s) b) with
  | Some b0, Some b1 => if bboxes_overlap b0 b1 then intersects fuel a ra b rb else Ret false
  | _, _ => intersects fuel a ra b rb
  end.
(** geometry.py:698-723 [a.intersections(b)]: the numbers of each geometry (712), the points are in
    the system of [a] (715). *)
Definition intersections_in (s : C) (a : list (Q * Q)) (ra : bool) (c : C) (b : list (Q * Q)) (rb keep : bool) : C * list (Q * Q) :=
  (s, geom_intersections a ra b rb keep).
(** geometry.py:1156-1174 [poly.contains(point)], the point in the system [c], the polygon and its
    holes in [s]. *)
Definition contains_in {P D K : Type} (s : C) (g : geom P D K) (c : C) (p : Q * Q) : res bool :=
  contains P D K g (vertex_in c s p).
End Systems.
