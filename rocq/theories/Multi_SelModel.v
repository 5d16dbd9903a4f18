(** Model of Multipoint.within_bbox, within_radius and within_polygon with their index
    (karta/vector/geometry.py:1347-1405).  [xy] takes the first two coordinates of a vertex.
    The point or polygon of the query has the coordinate system of the multipoint. *)
From Coq Require Import String List Bool QArith Reals.
From Verif Require Import Table_Model Multi_Model QuadTree_Model QuadTree_Spec Geom_Model Contains_Model Sphere_Model.
Import ListNotations.

Section Select.
Variables P val num : Type.
Variable ltb : num -> num -> bool.
Variable xy : P -> num * num.

(** geometry.py:1388: [bbox[0] < pt.x < bbox[2] and bbox[1] < pt.y < bbox[3]]. *)
Definition inside (q : QuadTree_Model.bbox num) (p : num * num) : bool :=
  (ltb (xmin q) (fst p) && ltb (fst p) (xmax q)) && (ltb (ymin q) (snd p) && ltb (snd p) (ymax q)).
(** geometry.py:1380-1389 [within_bbox]; [qt] is [self.quadtree], None without one. *)
Definition mp_within_bbox (ord : list string) (m : multi P val) (qt : option (qtree num)) (q : QuadTree_Model.bbox num)
  : Table_Model.res (multi P val) :=
  within_bbox ord m (option_map (fun t => search_within ltb t q) qt) (fun p => inside q (xy p)).
End Select.

(** geometry.py:1347-1376 [within_radius]; [dist] is [point.distance]. *)
Definition mp_within_radius {P val} (xy : P -> R * R) (dist : R * R -> R * R -> R) (ord : list string) (m : multi P val)
  (qt : option (qtree R)) (c : R * R) (r : R) : Table_Model.res (multi P val) :=
  within_test ord m
    (option_map (fun t => search_within rlt t (mkBbox (fst c - r) (snd c - r) (fst c + r) (snd c + r))%R) qt)
    (fun p => Table_Model.Ok (rlt (dist c (xy p)) r)).
(** geometry.py:289-293 [Point.distance] without a z coordinate, not geographical. *)
Definition flat_distance (p q : R * R) : R := plane_distance (fst p) (snd p) (fst q) (snd q).

(** geometry.py:1391-1405 [within_polygon], not geographical.  An error of [contains] is a
    TypeError (the polygon is not a ring); a polygon without vertices has no bounding box
    (it is NaN in the code). *)
Definition mp_within_polygon {P val A B C} (xy : P -> Q * Q) (ord : list string) (m : multi P val)
  (qt : option (qtree Q)) (g : geom A B C) : Table_Model.res (multi P val) :=
  let test p := match contains A B C g (xy p) with Geom_Model.Ok b => Table_Model.Ok b | Geom_Model.Err _ => Table_Model.Err Table_Model.TypeError end in
  match Geom_Model.bbox A B C g with
  | None => Table_Model.Err Table_Model.ValueError
  | Some (x0, y0, x1, y1) =>
    within_test ord m (option_map (fun t => search_within Qltb t (mkBbox x0 y0 x1 y1)) qt) test
  end.
