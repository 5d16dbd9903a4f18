(** Specification vocabulary for the spatial selection of points. *)
From Coq Require Import List ZArith QArith Reals.
From Verif Require Import QuadTree_Model QuadTree_Spec Sphere_Model.

(** The point lies strictly inside the box. *)
Definition in_box {num : Type} (ltb : num -> num -> bool) (q : bbox num) (p : num * num) : Prop :=
  ltb (xmin q) (fst p) = true /\ ltb (fst p) (xmax q) = true /\ ltb (ymin q) (snd p) = true /\ ltb (snd p) (ymax q) = true.

(** [qt] is the quadtree with leaf capacity 50 (geometry.py:1268) built over these vertices. *)
Definition index_over {P num : Type} (ltb eqb : num -> num -> bool) (mid : num -> num -> num) (xy : P -> num * num)
  (l : list P) (qt : qtree num) : Prop :=
  exists fuel bb, encloses ltb bb (map xy l) /\ build ltb eqb mid fuel 50 bb (numbers (map xy l)) = Ok qt.

(** The distance in metres along the great circle between two positions in degrees, on the
    sphere of radius 6370997 m (crs.py:353 SphericalEarth). *)
Definition earth_distance (p q : R * R) : R :=
  (6370997 * sphere_distance (radians (fst p)) (radians (snd p)) (radians (fst q)) (radians (snd q)))%R.
