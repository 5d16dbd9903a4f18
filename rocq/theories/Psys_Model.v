(** Model of the selection of the points of a Multipoint by a Point or Polygon in another coordinate
    system, with and without an index: [within_radius] and [within_polygon] of
    karta/vector/geometry.py:1349-1405, as the numbers of the points selected.  Systems are projected
    or Cartesian, [tr a b] is [a.transform(b, x, y)] (pyproj, external), taken to succeed; the polygon
    is a ring without holes, vertices have two coordinates, and doubles are exact rationals. *)
From Coq Require Import List ZArith QArith Bool.
From Verif Require Import Geom_Model Inter_Model Contains_Model Isys_Model.
Import ListNotations.

Section Systems.
Variables (C : Type) (eqb : C -> C -> bool) (tr : C -> C -> Q * Q -> Q * Q).

(** quadtree.h:379-387 [iswithin]; the box as (xmin, ymin, xmax, ymax). *)
Definition strictly (b : Q * Q * Q * Q) (p : Q * Q) : bool :=
  let '(x0, y0, x1, y1) := b in ltq x0 (fst p) && ltq (fst p) x1 && (ltq y0 (snd p) && ltq (snd p) y1).
(** The numbers of the points that pass a test, in order: the loops of geometry.py:1369-1376 and
    1397-1404. *)
Definition passing (test : Q * Q -> bool) (pts : list (Q * Q)) : list nat :=
  filter (fun i => match nth_error pts i with Some p => test p | None => false end) (seq 0 (length pts)).
(** geometry.py:260-314 [point.distance(member) < radius], 1371, 1375 and 571-574: the member in the system of
    the point, and squares compared. *)
Definition near (c : C) (p : Q * Q) (r : Q) (s : C) (q : Q * Q) : bool :=
  let '(x, y) := vertex_in C eqb tr s c q in
  ltq 0 r && ltq ((x - fst p) * (x - fst p) + (y - snd p) * (y - snd p)) (r * r).
(** geometry.py:1349-1377 [within_radius(point, radius)] of a Multipoint in [s] and a point in [c].  The
    index (1267, 1364-1368) holds the numbers of the members and is searched with those of the point;
    QuadTree.search_within gives the numbers of the points strictly in the box (C05), which are
    sorted (1373). *)
Definition within_radius_in (index : bool) (s : C) (pts : list (Q * Q)) (c : C) (p : Q * Q) (r : Q) : list nat :=
  if index then passing (fun q => strictly (fst p - r, snd p - r, fst p + r, snd p + r) q && near c p r s q) pts
  else passing (near c p r s) pts.
(** geometry.py:1156-1174 [poly.contains(point)], the point in [s] and the ring in [c]; a ring does
    not raise. *)
Definition has_point (c : C) (ring : list (Q * Q)) (s : C) (q : Q * Q) : bool :=
  match contains_c (vertex_in C eqb tr s c q) ring true with Ok b => b | Err _ => false end.
(** geometry.py:1391-1405 [within_polygon(poly)] of a Multipoint in [s] and a polygon in [c]: the index
    is searched with the box of the transformed vertices (1395-1396).  Without vertices that box is
    not a number, and nothing is in it. *)
Definition within_polygon_in (index : bool) (s : C) (pts : list (Q * Q)) (c : C) (ring : list (Q * Q)) : list nat :=
  if index then
    passing (fun q => match bbox_c (map (vertex_in C eqb tr c s) ring) with Some b => strictly b q | None => false end
                      && has_point c ring s q) pts
  else passing (has_point c ring s) pts.
End Systems.
