(** Model of masking a grid by polygons: [mask_by_poly] and [mask_poly] of
    karta/raster/grid.py.  Coordinates are exact rationals, polygons are planar ones of
    Geom_Model in the coordinate system of the grid, grids and bands are those of Grid_Model
    and Band_Model. *)
From Coq Require Import List ZArith QArith Bool.
From Verif Require Import Geom_Model.
From Verif Require Import Band_Model Band_IndexModel Grid_Model.
Import ListNotations.
Open Scope Z_scope.

(** Python's [a < b]. grid.py:1324-1377. *)
Definition qlt (a b : Q) : bool := negb (Qle_bool b a).
(** What an int8 of numpy holds after an overflow (grid.py:1322, 1369, 1377). *)
Definition wrap8 (z : Z) : Z := (z + 128) mod 256 - 128.

(** grid.py:1324-1331: the index of the southernmost vertex, the westernmost of those. *)
Fixpoint lowest (l : list (Q * Q)) (i : nat) (best : Q * Q) (ibest : nat) : nat :=
  match l with
  | [] => ibest
  | (x, y) :: l' =>
      if qlt y (snd best) || (Qeq_bool y (snd best) && qlt x (fst best))
      then lowest l' (S i) (x, y) i else lowest l' (S i) best ibest
  end.

Section MaskPoly.
Variables ny nx : Z.

(** grid.py:1339-1346: the transform with positive resolution. *)
Definition north_east (T : transform) : transform :=
  mkT (if qlt (dx T) 0 then x0 T + inject_Z nx * dx T else x0 T)%Q
      (if qlt (dy T) 0 then y0 T + inject_Z ny * dy T else y0 T)%Q
      (if qlt (dx T) 0 then - dx T else dx T)%Q (if qlt (dy T) 0 then - dy T else dy T)%Q (sx T) (sy T).
(** grid.py:1348-1349 and 1357-1358: the row and column of a vertex. *)
Definition row_of (T : transform) (p : Q * Q) : Z :=
  rint ((snd p - y0 T - sy T / dx T * (fst p - x0 T)) / (dy T - sy T * sx T / dx T))%Q.
(** grid.py:1348-1349 and 1357-1358: the column of a vertex. *)
Definition col_of (T : transform) (p : Q * Q) : Z :=
  rint ((fst p - x0 T - sx T / dy T * (snd p - y0 T)) / (dx T - sx T * sy T / dy T))%Q.
(** One of the divisors in these lines is zero. grid.py:1348-1349, 1357-1358. *)
Definition no_index (T : transform) : bool :=
  Qeq_bool (dx T) 0 || Qeq_bool (dy T) 0 || Qeq_bool (dy T - sy T * sx T / dx T) 0 ||
  Qeq_bool (dx T - sx T * sy T / dy T) 0.
(** grid.py:1360-1377: whether a row is in the mask. *)
Definition in_rows (i : Z) : bool := (0 <=? i) && (i <? ny).
(** grid.py:1365-1369 and 1373-1377: add [d] to the cells of row [i] from column [j] on. *)
Definition mark (m : Z -> Z -> Z) (i j d : Z) : Z -> Z -> Z :=
  if in_rows i && (j <? nx)
  then fun r c => if (r =? i) && (Z.max 0 j <=? c) then wrap8 (m r c + d) else m r c
  else m.
(** grid.py:1360-1377, the edge from [a] to [b].  The row and column of [a] are those that
    the previous turn of the loop kept (1379-1382). *)
Definition mask_edge (T : transform) (m : Z -> Z -> Z) (a b : Q * Q) : Geom_Model.res (Z -> Z -> Z) :=
  let i0 := row_of T a in let j0 := col_of T a in
  let i1 := row_of T b in let j1 := col_of T b in
  let '(xa, ya) := a in let '(xb, yb) := b in
  if (in_rows i0 && in_rows i1) || negb (Qeq_bool yb ya) then
    if qlt ya yb then
      Geom_Model.Ok (fold_left (fun m i => mark m i (rint (inject_Z (i - i0) * (xb - xa) / (yb - ya) + inject_Z j0)%Q) 1)
                    (zrange i0 i1) m)
    else if Qeq_bool yb ya && existsb in_rows (zrange i1 i0) then Geom_Model.Err Geom_Model.ZeroDivisionError
    else
      Geom_Model.Ok (fold_left (fun m i => mark m i (rint (inject_Z (i - i1) * (xb - xa) / (yb - ya) + inject_Z j1)%Q) (-1))
                    (zrange i1 i0) m)
  else Geom_Model.Ok m.
(** grid.py:1351-1382: the loop over the edges. *)
Fixpoint mask_loop (T : transform) (m : Z -> Z -> Z) (a : Q * Q) (l : list (Q * Q)) : Geom_Model.res (Z -> Z -> Z) :=
  match l with
  | [] => Geom_Model.Ok m
  | b :: l' => Geom_Model.bind (mask_edge T m a b) (fun m' => mask_loop T m' b l')
  end.
(** grid.py:1304-1384 [mask_poly]. *)
Definition mask_poly (l : list (Q * Q)) (T : transform) : Geom_Model.res (Z -> Z -> bool) :=
  match l with
  | [] => Geom_Model.Err Geom_Model.IndexError
  | v :: l' =>
      let n := length l in
      let k := lowest l' 1 v 0 in
      let T := north_east T in
      if no_index T then Geom_Model.Err Geom_Model.ZeroDivisionError
      else
        Geom_Model.bind (mask_loop T (fun _ _ => 0) (nth k l v) (map (fun el => nth ((el + k) mod n) l v) (seq 1 n)))
          (fun m => Geom_Model.Ok (fun i j => negb (m i j =? 0)))
  end.
End MaskPoly.

Section MaskGrid.
Variables P D C V : Type.
Variable junk : Z -> Z -> V.
Variable v0 : V.
(** A Polygon (geometry.py:975-998), as grid.py:619-668 takes it. *)
Notation poly := (geom P D C).

(** The argument of [mask_by_poly]: a polygon, a multipolygon (its members), a list or tuple, or
    anything else. grid.py:619-644. *)
Inductive shape := Poly (p : poly) | MultiPoly (l : list poly) | Shapes (l : list shape) | Other.
(** grid.py:633-644 [unpack_multipolygons]; other objects are passed over. *)
Fixpoint unpack (s : shape) : list poly :=
  match s with
  | Poly p => [p]
  | MultiPoly l => l
  | Shapes l => flat_map unpack l
  | Other => []
  end.
(** grid.py:650-653: the coordinates of a polygon, clockwise. *)
Definition clockwise_coords (p : poly) : list (Q * Q) :=
  if isclockwise P D C p then xys (gverts P D C p) else rev (xys (gverts P D C p)).
(** grid.py:647-656: the union of the masks. *)
Fixpoint union_mask (ny nx : Z) (T : transform) (m : Z -> Z -> bool) (l : list poly) : Geom_Model.res (Z -> Z -> bool) :=
  match l with
  | [] => Geom_Model.Ok m
  | p :: l' =>
      Geom_Model.bind (mask_poly ny nx (clockwise_coords p) T) (fun m' => union_mask ny nx T (fun i j => m i j || m' i j) l')
  end.

(** Exceptions of either model. What grid.py:619-668 [mask_by_poly] raises. *)
Inductive outcome (A : Type) := Done (a : A) | MaskErr (e : Geom_Model.exn) | GridErr (e : exn).
Arguments Done {A}. Arguments MaskErr {A}. Arguments GridErr {A}.
(** The outcomes of the model of grid.py:212-217 as outcomes of grid.py:619-668. *)
Definition of_res {A} (r : res A) : outcome A := match r with Ok a => Done a | Err e => GridErr e end.

(** grid.py:665-668, a new grid. *)
Definition where_mask (g : grid V) (m : Z -> Z -> bool) : res (grid V) :=
  bind (getitem junk (gbands g) (KeyTuple [full; full; full])) (fun a =>
  make_grid junk v0 ClsComp (gT g)
    (mkN (shp a) (fun idx => match idx with
                             | [i; j; k] => if m i j then elt a [i; j; k] else gnodata g
                             | _ => gnodata g end)) (gnodata g)).
(** grid.py:658-663, in place: the bands from number [k] on. *)
Fixpoint mask_bands (bands : list (band V)) (nodata : V) (m : Z -> Z -> bool) (ks : list Z) : list (band V) * option exn :=
  match ks with
  | [] => (bands, None)
  | k :: ks' =>
      match getitem junk bands (KeyTuple [full; full; KInt k]) with
      | Err e => (bands, Some e)
      | Ok a =>
          match setitem bands (KeyTuple [full; full; KInt k]) true
                  (mkN (shp a) (fun idx => match idx with
                                           | [i; j] => if m i j then elt a [i; j] else nodata
                                           | _ => nodata end)) with
          | (bands', None) => mask_bands bands' nodata m ks'
          | (bands', Some e) => (bands', Some e)
          end
      end
  end.
(** grid.py:619-668 [mask_by_poly]. *)
Definition mask_by_poly (g : grid V) (polys : shape) (inplace : bool) : outcome (grid V) :=
  let (ny, nx) := gsize g in
  match union_mask ny nx (gT g) (fun _ _ => false) (unpack polys) with
  | Geom_Model.Err e => MaskErr e
  | Geom_Model.Ok m =>
      if inplace then
        match mask_bands (gbands g) (gnodata g) m (zrange 0 (Z.of_nat (length (gbands g)))) with
        | (bands, None) => Done (mkG (gT g) bands (gcls g) (gnodata g))
        | (_, Some e) => GridErr e
        end
      else of_res (where_mask g m)
  end.
End MaskGrid.
Arguments Poly {P D C}. Arguments MultiPoly {P D C}. Arguments Shapes {P D C}. Arguments Other {P D C}.
Arguments Done {A}. Arguments MaskErr {A}. Arguments GridErr {A}.
Arguments unpack {P D C}. Arguments union_mask {P D C}. Arguments mask_by_poly {P D C V}. Arguments clockwise_coords {P D C}.
Arguments where_mask {V}. Arguments mask_bands {V}.
