(** Model of the methods of RegularGrid that sample a grid at the cells of another transform:
    [_resample_transform], [_align_origin] and [resample] with the method 'linear'
    (karta/raster/grid.py).  [resample] with the method 'nearest' is in GridSample_Model. *)
From Coq Require Import List ZArith QArith Qround Bool.
From Verif Require Import Band_Model Band_IndexModel Grid_Model GridSample_Model.
Import ListNotations.
Open Scope Z_scope.

(** The keyword [method] (grid.py:670, 696, 724): 'nearest', 'linear' or something else. *)
Inductive method := Nearest | Linear | Other.

(** grid.py:684-694 and 747-760: the coordinates of the ny x nx cells of [tnew], sampled with
    [sample] (whose result has one row per band), and the grid of the result.  The arrays of
    coordinates have two axes if there are several rows and several columns, otherwise one; a
    result with two axes is taken for a plane, one with three is transposed. *)
Definition onto {V} (junk : Z -> Z -> V) (v0 : V) (sample : list (Q * Q) -> res (Z * (Z -> Z -> V)))
    (nodata : V) (tnew : transform) (ny nx : Z) : res (grid V) :=
  bind (coord_getitem tnew ny nx full full) (fun xy =>
  match shp xy with
  | [a; b] =>
      bind (sample (map (fun p => elt xy [fst p; snd p]) (cells a b))) (fun d =>
      make_grid junk v0 ClsComp tnew
        (mkN [a; b; fst d] (fun idx => match idx with [i; j; k] => snd d k (i * b + j) | _ => v0 end)) nodata)
  | [a] =>
      bind (sample (map (fun i => elt xy [i]) (zrange 0 a))) (fun d =>
      make_grid junk v0 ClsComp tnew
        (mkN [fst d; a] (fun idx => match idx with [i; j] => snd d i j | _ => v0 end)) nodata)
  | _ => Err ValueError
  end).
(** [self.sample_nearest(X, Y)], grid.py:687, 752: the number of bands and the values. *)
Definition by_nearest {V} (junk : Z -> Z -> V) (g : grid V) (pts : list (Q * Q)) : res (Z * (Z -> Z -> V)) :=
  bind (sample_nearest junk g pts) (fun d => Ok (nrow d, at_ d)).
(** [self.sample_bilinear(X, Y)], grid.py:689, 754: the number of bands and the values. *)
Definition by_linear (junk : Z -> Z -> fl) (g : grid fl) (dt : dtype) (pts : list (Q * Q)) : res (Z * (Z -> Z -> fl)) :=
  bind (sample_bilinear junk g dt pts) (fun rows =>
  Ok (Z.of_nat (length rows), fun k p => nth (Z.to_nat p) (nth (Z.to_nat k) rows []) None)).
(** The two methods, grid.py:686-691 and 751-756; any other is a NotImplementedError. *)
Definition sampling (junk : Z -> Z -> fl) (g : grid fl) (dt : dtype) (m : method) (pts : list (Q * Q)) : res (Z * (Z -> Z -> fl)) :=
  match m with
  | Nearest => by_nearest junk g pts
  | Linear => by_linear junk g dt pts
  | Other => Err NotImplementedError
  end.

(** grid.py:670-694 [_resample_transform]. *)
Definition resample_transform (junk : Z -> Z -> fl) (g : grid fl) (dt : dtype) (tnew : transform) (m : method) : res (grid fl) :=
  let (ny, nx) := gsize g in onto junk (Some 0%Q) (sampling junk g dt m) (gnodata g) tnew ny nx.
(** grid.py:696-722 [_align_origin]; [round] is Python's, which rounds halves to even numbers. *)
Definition align_origin (junk : Z -> Z -> fl) (g : grid fl) (dt : dtype) (x y : Q) (m : method) : res (grid fl) :=
  if Qeq_bool x 0 || Qeq_bool y 0 then Err ZeroDivisionError
  else
    let T := gT g in
    resample_transform junk g dt
      (mkT (x * inject_Z (rint (x0 T / x))) (y * inject_Z (rint (y0 T / y))) (dx T) (dy T) (sx T) (sy T)) m.
(** grid.py:724-760 [resample]. *)
Definition resample (junk : Z -> Z -> fl) (g : grid fl) (dt : dtype) (dx' dy' : Q) (m : method) : res (grid fl) :=
  if Qle_bool dx' 0 || Qle_bool dy' 0 then Err ValueError
  else
    let T := gT g in
    let (h, w) := gsize g in
    let '(xmin, xmax, ymin, ymax) := extent T h w true in
    let ny := Qfloor ((ymax - ymin) / dy')%Q + 1 in
    let nx := Qfloor ((xmax - xmin) / dx')%Q + 1 in
    let tnew := mkT (xmin - half * dx' - half * sx T) (ymin - half * dy' - half * sy T) dx' dy' (sx T) (sy T) in
    onto junk (Some 0%Q) (sampling junk g dt m) (gnodata g) tnew ny nx.
