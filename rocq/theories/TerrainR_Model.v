(** Model of karta/raster/misc.py: slope, aspect, normalised potential vectors
    and hillshade.  Heights are exact rationals or nan as in Terrain_Model; square
    roots, angles and shades are real numbers or nan. *)
From Coq Require Import List ZArith QArith Qreals Reals Bool.
From Verif Require Import Band_Model Band_IndexModel Grid_Model GridSample_Model Terrain_Model.
Import ListNotations.
Open Scope Z_scope.

(** The floats of misc.py as real numbers, None for nan. *)
Notation rl := (option R).
(** The extrapolation of [np.pad], misc.py:17-18. *)
Definition rsub2 (a b : rl) : rl :=      (* 2 * a - b *)
  match a, b with Some p, Some q => Some (2 * p - q)%R | _, _ => None end.

(** misc.py:17, 141: [np.sqrt(Ddx*Ddx + Ddy*Ddy)]. *)
Definition norm2 (a b : R) : R := sqrt (a * a + b * b).
(** Elementwise functions of misc.py:17-52, 141: nan gives nan. *)
Definition lift2 (f : R -> R -> R) (a b : fl) : rl :=
  match a, b with Some p, Some q => Some (f (Q2R p) (Q2R q)) | _, _ => None end.
(** Elementwise functions of two arrays, misc.py:17-52, 141. *)
Definition zip2 (f : R -> R -> R) (a b : arr fl) : arr rl :=
  mkA (nrow a) (ncol a) (fun i j => lift2 f (at_ a i j) (at_ b i j)).

(** [np.pad(a, ((1, 1), (1, 1)), "reflect", reflect_type="odd")], one axis after the other: the
    value beyond the edge e is 2 e - (its inner neighbour); an axis of length one is extended by
    its only value; an empty one is an error. misc.py:18. *)
Definition pad_odd (n : Z) (f : Z -> rl) (i : Z) : rl :=
  if n =? 1 then f 0
  else if i =? 0 then rsub2 (f 0) (f 1)
  else if i =? n + 1 then rsub2 (f (n - 1)) (f (n - 2))
  else f (i - 1).
(** [np.pad] of a matrix, misc.py:18. *)
Definition pad_reflect (a : arr rl) : res (arr rl) :=
  if (nrow a =? 0) || (ncol a =? 0) then Err ValueError
  else Ok (mkA (nrow a + 2) (ncol a + 2) (fun i j =>
             pad_odd (ncol a) (fun j' => pad_odd (nrow a) (fun i' => at_ a i' j') i) j)).

(** misc.py:8-18 [_slope]. *)
Definition slope_ (D : arr fl) (resx resy : Q) : res (arr rl) :=
  pad_reflect (zip2 norm2 (ddx D resx) (ddy D resy)).

(** [np.arctan2]; at (0, 0) the result depends on the signs of the zeros: [flat]. *)
Section Atan2.
Variable flat : R.
(** [np.arctan2], misc.py:51. *)
Definition atan2 (y x : R) : R :=
  if Rlt_dec 0 x then atan (y / x)
  else if Rlt_dec x 0 then if Rle_dec 0 y then (atan (y / x) + PI)%R else (atan (y / x) - PI)%R
  else if Rlt_dec 0 y then (PI / 2)%R
  else if Rlt_dec y 0 then (- (PI / 2))%R
  else flat.
End Atan2.

(** misc.py:43-52 [_aspect]. *)
Definition aspect_ (flat : R) (D : arr fl) (resx resy : Q) : arr rl :=
  pad_nan None 1 1 (zip2 (fun a b => atan2 flat b (- a)) (ddx D resx) (ddy D resy)).

(** The values of a matrix that are not nan, and their maximum. [.max()] at misc.py:142-143. *)
Definition numbers (a : arr rl) : list R :=
  flat_map (fun i => flat_map (fun j => match at_ a i j with Some r => [r] | None => [] end)
                              (zrange 0 (ncol a))) (zrange 0 (nrow a)).
(** [.max()] at misc.py:142-143. *)
Definition rmax (l : list R) : res R :=
  match l with [] => Err ValueError | r :: l' => Ok (fold_left Rmax l' r) end.
(** Division by a real; by zero it gives nan or an infinity, here nan. misc.py:142-145. *)
Definition rdiv (a : fl) (m : R) : rl :=
  match a with
  | Some p => if Req_EM_T m 0 then None else Some (Q2R p / m)%R
  | None => None
  end.

(** misc.py:132-145 [_normed_potential_vectors]. *)
Definition normed_ (D : arr fl) (resx resy : Q) : res (arr rl * arr rl) :=
  let gx := ddx D resx in
  let gy := ddy D resy in
  bind (rmax (numbers (zip2 norm2 gx gy))) (fun m =>
  let scaled (a : arr fl) := mkA (nrow a) (ncol a) (fun i j => rdiv (at_ a i j) m) in
  Ok (pad_nan None 1 1 (scaled gx), pad_nan None 1 1 (scaled gy))).

Section TerrainR.
Variable junk : Z -> Z -> fl.
Variable junkr : Z -> Z -> rl.
(** [RegularGrid(grid.transform, values, nodata_value=nan)], misc.py:40-41, 70-71, 163-165,
    205-206. *)
Definition resultr (g : grid fl) (a : arr rl) : res (grid rl) :=
  make_grid junkr (Some 0%R) ClsComp (gT g) (nd_of None a) None.

(** misc.py:20-41 [slope]. *)
Definition slope (g : grid fl) (band : Z) : res (grid rl) :=
  if skewed g then Err NotImplementedError
  else bind (masked_band junk g band) (fun D =>
       bind (slope_ D (dx (gT g)) (dy (gT g))) (resultr g)).

(** misc.py:54-71 [aspect]. *)
Definition aspect (flat : R) (g : grid fl) (band : Z) : res (grid rl) :=
  if skewed g then Err NotImplementedError
  else bind (masked_band junk g band) (fun D =>
       resultr g (aspect_ flat D (dx (gT g)) (dy (gT g)))).

(** misc.py:147-165 [normed_potential_vectors]. *)
Definition normed_potential_vectors (g : grid fl) (band : Z) : res (grid rl * grid rl) :=
  if skewed g then Err NotImplementedError
  else bind (masked_band junk g band) (fun D =>
       bind (normed_ D (dx (gT g)) (dy (gT g))) (fun uv =>
       bind (resultr g (fst uv)) (fun u => bind (resultr g (snd uv)) (fun v => Ok (u, v))))).

(** misc.py:188-201: the shade of a cell with derivatives [a] and [b]: the cross
    product w of (resx, 0, a) and (0, resy, b), made a unit vector, times the
    light direction s.  [resx] and [resy] are not both zero, so w is not zero. *)
Definition shade (azimuth elevation resx resy a b : R) : R :=
  let w1 := (0 * b - a * resy)%R in
  let w2 := (a * 0 - resx * b)%R in
  let w3 := (resx * resy - 0 * 0)%R in
  let n := sqrt (w1 * w1 + w2 * w2 + w3 * w3) in
  let s1 := cos (azimuth * PI / 180) in
  let s2 := sin (azimuth * PI / 180) in
  let s3 := sin (elevation * PI / 180) in
  (w1 / n * s1 + w2 / n * s2 + w3 / n * s3)%R.

(** misc.py:167-206 [hillshade].  [pct] stands for [np.percentile(.., [2, 98])],
    which fails for an empty list. *)
Definition hillshade (pct : list R -> R * R) (azimuth elevation : R) (g : grid fl) (band : Z) : res (grid rl) :=
  bind (gradient junk g band) (fun gxy =>
  bind (bind (getitem junk (gbands (fst gxy)) (KeyTuple [full; full; KInt 0])) arr_of) (fun a =>
  bind (bind (getitem junk (gbands (snd gxy)) (KeyTuple [full; full; KInt 0])) arr_of) (fun b =>
  let dprod := zip2 (shade azimuth elevation (Q2R (dx (gT g))) (Q2R (dy (gT g)))) a b in
  match numbers dprod with
  | [] => Err IndexError
  | l => let (lo, hi) := pct l in
         resultr g (mkA (nrow dprod) (ncol dprod) (fun i j =>
           match at_ dprod i j with
           | Some r => Some (Rmin (Rmax r lo) hi)
           | None => None
           end))
  end))).
End TerrainR.
