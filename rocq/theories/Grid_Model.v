(** Model of RegularGrid, karta/raster/grid.py: georeferencing, extents, masks,
    chunks, clipping and resizing.

    Coordinates and transform entries are exact rationals; rounding of floating
    point arithmetic is not modelled.  Pixel values are an arbitrary type [V];
    bands and their indexing are those of Band_Model and Band_IndexModel.  The
    coordinate system of a grid is not modelled: every method is modelled for
    [crs=None]. *)
From Coq Require Import List ZArith QArith Qround Qabs Bool.
From Verif Require Import Band_Model Band_IndexModel.
Import ListNotations.
Open Scope Z_scope.

(** grid.py:86-112: the six numbers of a transform. *)
Record transform := mkT { x0 : Q; y0 : Q; dx : Q; dy : Q; sx : Q; sy : Q }.

(** The number 0.5 of grid.py:258-387 and coordgen.py:51-65. *)
Definition half : Q := 1 # 2.

(** Python's [min] and [max] of two numbers. grid.py:342-387. *)
Definition qmin (a b : Q) : Q := if Qle_bool a b then a else b.
(** Python's [max] of two numbers (grid.py:342-387). *)
Definition qmax (a b : Q) : Q := if Qle_bool b a then a else b.

(** grid.py:762-786 [positions] with crfuncs.pyx:11-33 [get_positions_vec] for
    one point.  [None]: a divisor is zero and the C code yields inf or nan. *)
Definition positions (T : transform) (x y : Q) : option (Q * Q) :=
  let det := (dx T * dy T - sx T * sy T)%Q in
  if Qeq_bool det 0 || Qeq_bool (dy T) 0 then None
  else
    let j_ := ((dy T * x - dy T * x0 T + sx T * y0 T - sx T * y) / det)%Q in
    let i_ := ((y - y0 T - j_ * sy T) / dy T)%Q in
    Some ((i_ - half)%Q, (j_ - half)%Q).

(** [np.round]: to the nearest integer, ties to the even one. grid.py:788-801. *)
Definition rint (q : Q) : Z :=
  let f := Qfloor q in
  let r := (q - inject_Z f)%Q in
  if Qle_bool half r
  then if Qle_bool r half then (if Z.even f then f else f + 1) else f + 1
  else f.

(** grid.py:788-801 [_indices], one point.  Converting nan to int32 gives an
    unspecified integer on the C side; it is reported as None. *)
Definition indices_ (T : transform) (x y : Q) : option (Z * Z) :=
  match positions T x y with
  | Some (i, j) => Some (rint i, rint j)
  | None => None
  end.

(** coordgen.py:51-65 [CoordinateGenerator.__getitem__] without change of
    coordinate system, for keys made of integers and slices. *)
Definition coord_x (T : transform) (i j : Z) : Q :=
  (x0 T + inject_Z j * dx T + inject_Z i * sx T + half * dx T + half * sx T)%Q.
(** coordgen.py:51-65, the second coordinate. *)
Definition coord_y (T : transform) (i j : Z) : Q :=
  (y0 T + inject_Z i * dy T + inject_Z j * sy T + half * dy T + half * sy T)%Q.
(** coordgen.py:51-65, both coordinates of a cell. *)
Definition coord (T : transform) (i j : Z) : Q * Q := (coord_x T i j, coord_y T i j).

(** coordgen.py:55-58, the rows or columns a part of a key stands for. *)
Definition coord_axis (n : Z) (it : kitem) : res (Z + list Z) :=
  match it with
  | KInt z => Ok (inl z)
  | KSlice a b c => bind (slice_indices n a b c) (fun t =>
      let '(s, e, st) := t in Ok (inr (py_range s e st)))
  | KOther => Err TypeError
  end.

(** An entry of the arrays of coordgen.py:51-65. *)
Definition nthz (l : list Z) (i : Z) : Z := nth (Z.to_nat i) l 0.
(** The length of the arrays of coordgen.py:51-65. *)
Definition len (l : list Z) : Z := Z.of_nat (length l).

(** The pair of arrays (x_, y_) as one array of pairs. coordgen.py:51-65
    [CoordinateGenerator.__getitem__]. *)
Definition coord_getitem (T : transform) (ny nx : Z) (ki kj : kitem) : res (nd (Q * Q)) :=
  bind (coord_axis ny ki) (fun ai =>
  bind (coord_axis nx kj) (fun aj =>
  match ai, aj with
  | inl i, inl j => Ok (mkN [] (fun _ => coord T i j))
  | inl i, inr lj => Ok (mkN [len lj] (fun idx => coord T i (nthz lj (hd 0 idx))))
  | inr li, inl j => Ok (mkN [len li] (fun idx => coord T (nthz li (hd 0 idx)) j))
  | inr li, inr lj =>
      if (1 <? len li) && (1 <? len lj)
      then Ok (mkN [len li; len lj]
             (fun idx => match idx with
                         | [a; b] => coord T (nthz li a) (nthz lj b)
                         | _ => coord T 0 0
                         end))
      else (* numpy broadcasting of two 1-D arrays *)
        if fits (len li) (len lj)
        then Ok (mkN [len lj] (fun idx =>
               coord T (nthz li (pick (len li) (hd 0 idx))) (nthz lj (hd 0 idx))))
        else if fits (len lj) (len li)
        then Ok (mkN [len li] (fun idx =>
               coord T (nthz li (hd 0 idx)) (nthz lj (pick (len lj) (hd 0 idx)))))
        else Err ValueError
  end)).

(** grid.py:299-308 [center_coords]. *)
Definition center_coords (T : transform) (ny nx : Z) : arr (Q * Q) :=
  mkA ny nx (fun i j =>
    ((x0 T + (inject_Z j + half) * dx T + (inject_Z i + half) * sx T)%Q,
     (y0 T + (inject_Z i + half) * dy T + (inject_Z j + half) * sy T)%Q)).

(** grid.py:310-320 [vertex_coords]: the loop leaves the last row of the
    [np.empty] arrays ([junk]) unwritten. *)
Definition vertex_coords (junk : Z -> Z -> Q * Q) (T : transform) (ny nx : Z) : arr (Q * Q) :=
  mkA (ny + 1) (nx + 1) (fun i j =>
    if i <? ny
    then ((x0 T + inject_Z j * dx T + inject_Z i * sx T)%Q,
          (y0 T + inject_Z i * dy T + inject_Z j * sy T)%Q)
    else junk i j).

(** grid.py:258-264 [center_llref]. *)
Definition center_llref (T : transform) : Q * Q :=
  ((x0 T + half * (dx T + sx T))%Q, (y0 T + half * (dy T + sy T))%Q).

(** grid.py:365 [sgn]. *)
Definition sgn (a : Q) : Q := if Qeq_bool a 0 then 0%Q else (a / Qabs a)%Q.

(** grid.py:342-387 [extent]; the flag tells 'center' (true) from 'edge'. *)
Definition extent (T : transform) (ny nx : Z) (center : bool) : Q * Q * Q * Q :=
  let '(xa, ya) := if center then center_llref T else (x0 T, y0 T) in
  let n := if center then -1 else 0 in
  let kx := inject_Z (nx + n) in
  let ky := inject_Z (ny + n) in
  let x1 := if Qeq_bool (sgn (dx T)) (sgn (sx T))
            then (xa + dx T * kx + sx T * ky)%Q else (xa + dx T * kx - sx T * ky)%Q in
  let y1 := if Qeq_bool (sgn (dy T)) (sgn (sy T))
            then (ya + dy T * ky + sy T * kx)%Q else (ya + dy T * ky - sy T * kx)%Q in
  (qmin xa x1, qmax xa x1, qmin ya y1, qmax ya y1).

(** grid.py:338-340 [bbox]. *)
Definition bbox (T : transform) (ny nx : Z) : Q * Q * Q * Q :=
  let '(a, b, c, d) := extent T ny nx false in (a, c, b, d).

(** The band classes a grid can be built with (grid.py:152-157). *)
Inductive bclass := ClsSimple | ClsComp.

Section Grid.
Variable V : Type.
Variable junk : Z -> Z -> V.      (* contents of np.empty arrays *)
Variable v0 : V.                  (* the number 0, default initval *)

(** [cls(size, dtype)] and [cls(size, dtype, initval=v)]: band.py:228-234 and
    249-280 with the default chunk size. *)
Definition new_band (cls : bclass) (h w : Z) (init : option V) : res (band V) :=
  match cls with
  | ClsSimple =>
      match init with
      | None => bind (np_empty junk h w) (fun a => Ok (BSimple a))
      | Some v => bind (np_full h w v) (fun a => Ok (BSimple a))
      end
  | ClsComp => Ok (BComp (cb_init h w 256 256 (match init with None => v0 | Some v => v end)))
  end.

(** [band.setblock] (band.py:322-352) as a statement in grid.py; an exception ends the
    method. *)
Definition setblock_ (b : band V) (yoff xoff : Z) (a : arr V) : res (band V) :=
  match setblock b yoff xoff a with
  | (b', None) => Ok b'
  | (_, Some e) => Err e
  end.

(** A RegularGrid: transform, bands, band class and nodata value. grid.py:114-194. *)
Record grid := mkG { gT : transform; gbands : list (band V); gcls : bclass; gnodata : V }.

(** grid.py:231-233 [size]. *)
Definition gsize (g : grid) : Z * Z :=
  match gbands g with b :: _ => bsize b | [] => (0, 0) end.

(** grid.py:114-194 [__init__] with [values]. *)
Definition make_grid (cls : bclass) (T : transform) (values : nd V) (nodata : V) : res grid :=
  let plane h w f := bind (new_band cls h w None) (fun b => setblock_ b 0 0 (mkA h w f)) in
  bind (match shp values with
        | [h; w] => bind (plane h w (fun i j => elt values [i; j])) (fun b => Ok [b])
        | [h; w; n] => mapM (fun k => plane h w (fun i j => elt values [i; j; k])) (zrange 0 n)
        | _ => Err ValueError
        end) (fun bands => Ok (mkG T bands cls nodata)).

(** A slice a:b of a key. grid.py:479-562. *)
Definition sl (a b : Z) : kitem := KSlice (Some a) (Some b) None.
(** The slice [:] of grid.py:465-472. *)
Definition full : kitem := KSlice None None None.

(** grid.py:515-517 and 559-561: the transform moved to row i0, column j0. *)
Definition shift_T (T : transform) (i0 j0 : Z) : transform :=
  mkT (x0 T + inject_Z j0 * dx T + inject_Z i0 * sx T)
      (y0 T + inject_Z i0 * dy T + inject_Z j0 * sy T) (dx T) (dy T) (sx T) (sy T).

(** grid.py:515-522: the chunk yielded at (i0, j0). *)
Definition chunk_grid (g : grid) (size : Z * Z) (i0 j0 : Z) : res grid :=
  bind (getitem junk (gbands g)
          (KeyTuple [sl i0 (i0 + snd size); sl j0 (j0 + fst size)])) (fun v =>
  make_grid ClsComp (shift_T (gT g) i0 j0) v (gnodata g)).

(** grid.py:479-523 [aschunks], collected into a list.  [None]: the loop has
    not ended after [fuel] chunks. *)
Fixpoint chunk_loop (fuel : nat) (g : grid) (size overlap : Z * Z) (i0 j0 : Z)
  : option (res (list grid)) :=
  match fuel with
  | O => None
  | S fuel' =>
      let (ny, nx) := gsize g in
      let '(i0, j0) := if nx <=? j0 then (i0 + (snd size - snd overlap), 0) else (i0, j0) in
      if ny <=? i0 then Some (Ok [])
      else match chunk_grid g size i0 j0 with
           | Err e => Some (Err e)
           | Ok c =>
               match chunk_loop fuel' g size overlap i0 (j0 + (fst size - fst overlap)) with
               | None => None
               | Some (Err e) => Some (Err e)
               | Some (Ok l) => Some (Ok (c :: l))
               end
           end
  end.

(** grid.py:479-523 [aschunks]. *)
Definition aschunks (fuel : nat) (g : grid) (size overlap : Z * Z) : option (res (list grid)) :=
  let (ny, nx) := gsize g in
  let size := if (fst size =? -1) && (snd size =? -1) then (nx / 4, ny / 4) else size in
  chunk_loop fuel g size overlap 0 0.

(** grid.py:525-562 [clip]; int() of nan or inf raises. *)
Definition clip (g : grid) (xmin xmax ymin ymax : Q) : res grid :=
  let T := gT g in
  match positions T xmin ymin, positions T xmax ymin,
        positions T xmin ymax, positions T xmax ymax with
  | Some ll, Some lr, Some ul, Some ur =>
      let mn f := qmin (qmin (qmin (f ll) (f lr)) (f ul)) (f ur) in
      let mx f := qmax (qmax (qmax (f ll) (f lr)) (f ul)) (f ur) in
      let i0 := Qceiling (mn fst) in
      let i1 := Qfloor (mx fst) + 1 in
      let j0 := Qceiling (mn snd) in
      let j1 := Qfloor (mx snd) + 1 in
      bind (getitem junk (gbands g) (KeyTuple [sl i0 i1; sl j0 j1])) (fun v =>
      make_grid ClsComp (shift_T T i0 j0) v (gnodata g))
  | _, _, _, _ => Err ValueError
  end.

(** grid.py:576-581 [_round]. *)
Definition round_ (a : Q) : Z :=
  let r := (a - inject_Z (Qfloor a))%Q in
  if Qle_bool r half then Qfloor a else Qfloor a + 1.

(** grid.py:564-617 [resize]. *)
Definition resize (g : grid) (bbn : Q * Q * Q * Q) : res grid :=
  let T := gT g in
  let (ny, nx) := gsize g in
  let '(b0, b1, b2, b3) := bbox T ny nx in
  let '(n0, n1, n2, n3) := bbn in
  if Qeq_bool (dx T) 0 || Qeq_bool (dy T) 0 then Err ZeroDivisionError
  else
    let n2 := (n0 + dx T * inject_Z (Qceiling ((n2 - n0) / dx T)))%Q in
    let n3 := (n1 + dy T * inject_Z (Qceiling ((n3 - n1) / dy T)))%Q in
    let nxnew := round_ ((n2 - n0) / dx T)%Q in
    let nynew := round_ ((n3 - n1) / dy T)%Q in
    let j0new := Z.max 0 (round_ ((b0 - n0) / dx T)%Q) in
    let i0new := Z.max 0 (round_ ((b1 - n1) / dy T)%Q) in
    let j0 := Z.max 0 (round_ ((n0 - b0) / dx T)%Q) in
    let j1 := Z.min nx (round_ ((n2 - b0) / dx T)%Q) in
    let i0 := Z.max 0 (round_ ((n1 - b1) / dy T)%Q) in
    let i1 := Z.min ny (round_ ((n3 - b1) / dy T)%Q) in
    bind (mapM (fun b =>
            bind (new_band (gcls g) nynew nxnew (Some (gnodata g))) (fun nb =>
            bind (getblock junk b i0 j0 (i1 - i0) (j1 - j0)) (fun blk =>
            setblock_ nb i0new j0new blk))) (gbands g)) (fun bands =>
    Ok (mkG (mkT n0 n1 (dx T) (dy T) (sx T) (sy T)) bands (gcls g) (gnodata g))).

(** Valid data (grid.py:468-471): [isnan] and numpy's == on pixel values. *)
Variable isnan : V -> bool.
Variable veq : V -> V -> bool.
(** grid.py:465-472, whether a value is not the nodata value. *)
Definition isdata (nodata v : V) : bool :=
  if isnan nodata then negb (isnan v) else negb (veq v nodata).

(** grid.py:465-472 [data_mask_full], as the mask and 474-477 [data_mask]. *)
Definition data_mask_full (g : grid) : res mask :=
  let (ny, nx) := gsize g in
  let nb := Z.of_nat (length (gbands g)) in
  bind (mapM (fun k => getitem junk (gbands g) (KeyTuple [full; full; KInt k])) (zrange 0 nb))
       (fun planes =>
  Ok (Mask3 ny nx nb (fun y x k =>
        match nth_error planes (Z.to_nat k) with
        | Some p => isdata (gnodata g) (elt p [y; x])
        | None => false
        end))).
(** grid.py:474-477 [data_mask]. *)
Definition data_mask (g : grid) : res mask :=
  bind (data_mask_full g) (fun m =>
  match m with
  | Mask3 h w nb f => Ok (Mask2 h w (fun y x => forallb (f y x) (zrange 0 nb)))
  | _ => Err ValueError
  end).

(** grid.py:243-256 [set_nodata_value]. *)
Definition set_nodata_value (g : grid) (val : V) : grid * option exn :=
  match data_mask_full g, getitem junk (gbands g) (KeyTuple [full; full; full]) with
  | Ok (Mask3 _ _ _ f), Ok a =>
      let w := mkN (shp a) (fun idx => match idx with
                 | [i; j; k] => if f i j k then elt a [i; j; k] else val
                 | _ => val end) in
      match setitem (gbands g) (KeyTuple [full; full; full]) true w with
      | (bands, None) => (mkG (gT g) bands (gcls g) val, None)
      | (bands, Some e) => (mkG (gT g) bands (gcls g) (gnodata g), Some e)
      end
  | Err e, _ => (g, Some e)
  | _, Err e => (g, Some e)
  | _, _ => (g, Some ValueError)
  end.

(** grid.py:54-78 [apply] (the grid modified in place, or its copy). *)
Definition apply (g : grid) (func : list V -> list V) : grid * option exn :=
  match data_mask_full g with
  | Err e => (g, Some e)
  | Ok m =>
      match get_mask junk (gbands g) m with
      | Err e => (g, Some e)
      | Ok (inl _) => (g, Some ValueError)
      | Ok (inr vs) =>
          let (bands, e) := set_mask junk (gbands g) m (M1 (func vs)) in
          (mkG (gT g) bands (gcls g) (gnodata g), e)
      end
  end.

(** grid.py:196-221 [__add__] and [__sub__] with [op] on two values; grids of
    different structure raise ValueError.  The two stacks are required to have
    the same number of bands (numpy would broadcast a single band). *)
Definition T_eqb (S T : transform) : bool :=
  Qeq_bool (x0 S) (x0 T) && Qeq_bool (y0 S) (y0 T) && Qeq_bool (dx S) (dx T)
  && Qeq_bool (dy S) (dy T) && Qeq_bool (sx S) (sx T) && Qeq_bool (sy S) (sy T).
(** grid.py:196-222 [__add__] and [__sub__]. *)
Definition combine_grids (op : V -> V -> V) (g h : grid) : res grid :=
  if T_eqb (gT g) (gT h) && (fst (gsize g) =? fst (gsize h)) && (snd (gsize g) =? snd (gsize h))
     && Nat.eqb (length (gbands g)) (length (gbands h))
  then bind (getitem junk (gbands g) (KeyTuple [full; full])) (fun a =>
       bind (getitem junk (gbands h) (KeyTuple [full; full])) (fun b =>
       make_grid ClsComp (gT g) (mkN (shp a) (fun idx => op (elt a idx) (elt b idx))) (gnodata g)))
  else Err ValueError.
End Grid.
Arguments mkG {V}. Arguments gT {V}. Arguments gbands {V}. Arguments gcls {V}.
Arguments gnodata {V}. Arguments gsize {V}. Arguments make_grid {V}. Arguments new_band {V}.
Arguments setblock_ {V}. Arguments chunk_grid {V}. Arguments chunk_loop {V}.
Arguments aschunks {V}. Arguments clip {V}. Arguments resize {V}. Arguments isdata {V}.
Arguments data_mask_full {V}. Arguments data_mask {V}. Arguments set_nodata_value {V}.
Arguments apply {V}. Arguments combine_grids {V}.
