(** Model of the methods of RegularGrid that take or give regions in another coordinate system
    (karta/raster/grid.py): [extent] and [bbox] with [crs], [clip] with [crs]; and of sums of
    grids in different systems.  Coordinates are exact rationals; [tr] is [a.transform(b, x, y)]
    of crs.py:245-246, 297-298 (pyproj, external).  [data_extent] with [crs] is not modelled. *)
From Coq Require Import List ZArith QArith Bool.
From Verif Require Import Band_Model Band_IndexModel Grid_Model.
Import ListNotations.

(** The smallest and largest coordinates of four points. grid.py:383-386, 540-543. *)
Definition around (p q r s : Q * Q) : Q * Q * Q * Q :=
  (qmin (qmin (qmin (fst p) (fst q)) (fst r)) (fst s), qmax (qmax (qmax (fst p) (fst q)) (fst r)) (fst s),
   qmin (qmin (qmin (snd p) (snd q)) (snd r)) (snd s), qmax (qmax (qmax (snd p) (snd q)) (snd r)) (snd s)).
(** grid.py:342-387 [extent(reference, crs=crs)] with a system that is not the grid's.  The corners
    (x0, y0) to (x1, y1) are taken in the order of the extent, on which the smallest and largest
    do not depend. *)
Definition extent_in (tr : Q * Q -> Q * Q) (T : transform) (ny nx : Z) (center : bool) : Q * Q * Q * Q :=
  let '(a, b, c, d) := extent T ny nx center in
  around (tr (a, c)) (tr (a, d)) (tr (b, c)) (tr (b, d)).
(** grid.py:338-340 [bbox(crs=crs)]. *)
Definition bbox_in (tr : Q * Q -> Q * Q) (T : transform) (ny nx : Z) : Q * Q * Q * Q :=
  let '(a, b, c, d) := extent_in tr T ny nx false in (a, c, b, d).
(** grid.py:525-562 [clip(xmin, xmax, ymin, ymax, crs=crs)]: the box is replaced by the box around
    its four corners in the grid's system (537-543). *)
Definition clip_in {V : Type} (junk : Z -> Z -> V) (v0 : V) (tr : Q * Q -> Q * Q) (g : grid V) (xmin xmax ymin ymax : Q) : res (grid V) :=
  let '(a, b, c, d) := around (tr (xmin, ymin)) (tr (xmin, ymax)) (tr (xmax, ymin)) (tr (xmax, ymax)) in
  clip junk v0 g a b c d.
(** grid.py:196-222 [__add__] and [__sub__] of grids with their systems: the structures compared
    (220-222) are transforms and sizes, the system is that of the first. *)
Definition combine_in {V C : Type} (junk : Z -> Z -> V) (v0 : V) (op : V -> V -> V) (g h : C * grid V) : res (C * grid V) :=
  bind (combine_grids junk v0 op (snd g) (snd h)) (fun r => Ok (fst g, r)).
