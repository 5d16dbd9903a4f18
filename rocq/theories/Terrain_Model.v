(** Model of karta/raster/misc.py: gradient and divergence.  Numbers are exact
    rationals and nan; the conversion to float32 (misc.py:98) and rounding are not
    modelled, nor the infinities that a resolution of zero would give (they are
    nan here). *)
From Coq Require Import List ZArith QArith Bool.
From Verif Require Import Band_Model Band_IndexModel Grid_Model GridSample_Model.
Import ListNotations.
Open Scope Z_scope.

(** Elementwise arithmetic with nan. misc.py:76-79. *)
Definition fsub (a b : fl) : fl := fadd a (fscale b (-1)).
(** Division by a number, misc.py:76-79; by zero it gives nan or an infinity, here nan. *)
Definition fdiv (a : fl) (q : Q) : fl := if Qeq_bool q 0 then None else fscale a (/ q).

(** The views D[1:-1,2:], D[:-2,2:] and so on (misc.py:76-79): [di] and [dj] are
    where they begin.  They have two rows and columns less than [D], or none. *)
Definition less2 (n : Z) : Z := Z.max 0 (n - 2).
(** A view of misc.py:76-79. *)
Definition view {V} (D : arr V) (di dj : Z) : Z -> Z -> V := fun i j => at_ D (i + di) (j + dj).

(** misc.py:76-77 and 78-79 (the same expressions in 13-16, 47-50 and 137-140). *)
Definition ddx (D : arr fl) (resx : Q) : arr fl :=
  mkA (less2 (nrow D)) (less2 (ncol D)) (fun i j =>
    fdiv (fsub (fadd (fadd (fscale (view D 1 2 i j) 2) (view D 0 2 i j)) (view D 2 2 i j))
               (fadd (fadd (fscale (view D 1 0 i j) 2) (view D 0 0 i j)) (view D 2 0 i j)))
         (8 * resx)).
(** misc.py:78-79. *)
Definition ddy (D : arr fl) (resy : Q) : arr fl :=
  mkA (less2 (nrow D)) (less2 (ncol D)) (fun i j =>
    fdiv (fsub (fadd (fadd (fscale (view D 2 1 i j) 2) (view D 2 2 i j)) (view D 2 0 i j))
               (fadd (fadd (fscale (view D 0 1 i j) 2) (view D 0 0 i j)) (view D 0 2 i j)))
         (8 * resy)).

(** [np.pad(a, ((r, r), (c, c)), "constant", constant_values=nan)]. misc.py:51-52, 80-81. *)
Definition pad_nan {V} (nan : V) (r c : Z) (a : arr V) : arr V :=
  mkA (nrow a + 2 * r) (ncol a + 2 * c) (fun i j =>
    if (r <=? i) && (i <? r + nrow a) && (c <=? j) && (j <? c + ncol a)
    then at_ a (i - r) (j - c) else nan).

(** misc.py:73-81 [_grad]. *)
Definition grad_ (D : arr fl) (resx resy : Q) : arr fl * arr fl :=
  (pad_nan None 1 1 (ddx D resx), pad_nan None 1 1 (ddy D resy)).

(** The two-dimensional array of an indexing result, and back. misc.py:39, 69, 98. *)
Definition arr_of {V} (a : nd V) : res (arr V) :=
  match shp a with
  | [h; w] => Ok (mkA h w (fun i j => elt a [i; j]))
  | _ => Err ValueError
  end.
(** An array given to RegularGrid, misc.py:40, 70, 99-101. *)
Definition nd_of {V} (d : V) (a : arr V) : nd V :=
  mkN [nrow a; ncol a] (fun idx => match idx with [i; j] => at_ a i j | _ => d end).

Section Terrain.
Variable junk : Z -> Z -> fl.

(** misc.py:39, 69, 98, 162: [np.where(grid.data_mask, grid[:,:,band], nan)]. *)
Definition masked_band (g : grid fl) (band : Z) : res (arr fl) :=
  bind (data_mask junk fnan feq g) (fun m =>
  bind (getitem junk (gbands g) (KeyTuple [full; full; KInt band])) (fun v =>
  bind (arr_of v) (fun a =>
  match m with
  | Mask2 h w f => Ok (mkA (nrow a) (ncol a) (fun i j => if f i j then at_ a i j else None))
  | _ => Err ValueError
  end))).

(** [grid.skew != (0, 0)], misc.py:37, 67, 96. *)
Definition skewed (g : grid fl) : bool :=
  negb (Qeq_bool (sx (gT g)) 0 && Qeq_bool (sy (gT g)) 0).
(** [RegularGrid(grid.transform, values, nodata_value=nan)]. misc.py:40-41, 70-71, 99-101. *)
Definition result (g : grid fl) (a : arr fl) : res (grid fl) :=
  make_grid junk (Some 0%Q) ClsComp (gT g) (nd_of None a) None.

(** misc.py:83-101 [gradient]. *)
Definition gradient (g : grid fl) (band : Z) : res (grid fl * grid fl) :=
  if skewed g then Err NotImplementedError
  else
    bind (masked_band g band) (fun D =>
    let '(gx, gy) := grad_ D (dx (gT g)) (dy (gT g)) in
    bind (result g gx) (fun a => bind (result g gy) (fun b => Ok (a, b)))).

(** numpy's [a + b] for two-dimensional arrays with broadcasting. misc.py:103-109. *)
Definition bdim (m n : Z) : res Z :=
  if m =? n then Ok m else if m =? 1 then Ok n else if n =? 1 then Ok m else Err ValueError.
(** The sum of two arrays, misc.py:103-109. *)
Definition plus_ (a b : arr fl) : res (arr fl) :=
  bind (bdim (nrow a) (nrow b)) (fun h => bind (bdim (ncol a) (ncol b)) (fun w =>
  let at1 (c : arr fl) i j := at_ c (if nrow c =? 1 then 0 else i) (if ncol c =? 1 then 0 else j) in
  Ok (mkA h w (fun i j => fadd (at1 a i j) (at1 b i j))))).

(** misc.py:103-109 [_div]. *)
Definition div_ (U V : arr fl) (resx resy : Q) : res (arr fl) :=
  let dUdx := mkA (nrow U) (less2 (ncol U)) (fun i j =>
                fdiv (fsub (view U 0 2 i j) (view U 0 0 i j)) (2 * resx)) in
  let dVdy := mkA (less2 (nrow V)) (ncol V) (fun i j =>
                fdiv (fsub (view V 2 0 i j) (view V 0 0 i j)) (2 * resy)) in
  plus_ (pad_nan None 0 1 dUdx) (pad_nan None 1 0 dVdy).

(** misc.py:111-130 [divergence]. *)
Definition divergence (g : grid fl) (b0 b1 : Z) : res (grid fl) :=
  if skewed g then Err NotImplementedError
  else
    bind (bind (getitem junk (gbands g) (KeyTuple [full; full; KInt b0])) arr_of) (fun U =>
    bind (bind (getitem junk (gbands g) (KeyTuple [full; full; KInt b1])) arr_of) (fun V =>
    bind (div_ U V (dx (gT g)) (dy (gT g))) (fun d => result g d))).
End Terrain.
