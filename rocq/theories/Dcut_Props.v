(** Pieces of grids in doubles (C110). *)
From Coq Require Import List ZArith QArith Qabs Lia.
From Flocq Require Import Core IEEE754.BinarySingleNaN.
From Verif Require Import Dbl_Model Dbl_Spec Dbl_Proofs Dcut_Model Dcut_Spec Dcut_Proofs Dcut_Clip Dcut_Fit Dcut_Find Dcut_Own.
Import ListNotations.
Open Scope Q_scope.

(** In a grid laid out in whole units (or quarters, or any 2^e) clipping takes exactly
    the rows and columns whose centres are in the box, its border included. *)
Theorem C110_clip : forall e T (xmin xmax ymin ymax : double), metric e T ->
  raster 26 e xmin -> raster 26 e xmax -> raster 26 e ymin -> raster 26 e ymax ->
  value xmin <= value xmax -> value ymin <= value ymax ->
  exists i0 i1 j0 j1, clip_window T xmin xmax ymin ymax = Some (i0, i1, j0, j1) /\
    (forall n, (i0 <= n < i1)%Z <-> value ymin <= row_centre T n /\ row_centre T n <= value ymax) /\
    (forall n, (j0 <= n < j1)%Z <-> value xmin <= col_centre T n /\ col_centre T n <= value xmax).
Proof. exact clip_exact. Qed.
Print Assumptions C110_clip.
(** Its pieces begin exactly where they should, *)
Theorem C110_piece : forall e T i j, metric e T -> (Z.abs i <= 2 ^ 25)%Z -> (Z.abs j <= 2 ^ 25)%Z ->
  value (x0 (piece T i j)) == value (x0 T) + inject_Z j * value (dx T) /\
  value (y0 (piece T i j)) == value (y0 T) + inject_Z i * value (dy T).
Proof. exact piece_exact. Qed.
Print Assumptions C110_piece.
(** and fit each other: merging does not refuse them. *)
Theorem C110_fit : forall e T i j k l, metric e T ->
  (Z.abs i <= 2 ^ 25)%Z -> (Z.abs j <= 2 ^ 25)%Z -> (Z.abs k <= 2 ^ 25)%Z -> (Z.abs l <= 2 ^ 25)%Z ->
  misplaced (piece T i j) (piece T k l) = false.
Proof. exact pieces_fit. Qed.
Print Assumptions C110_fit.
(** Clipping it to the extent of its own centres leaves all of it, if the cells are an even
    number of units wide and high. *)
Theorem C110_own_extent : forall e T ny nx, metric e T -> raster 25 (e + 1) (dx T) -> raster 25 (e + 1) (dy T) ->
  0 < value (dx T) -> 0 < value (dy T) -> (1 <= ny <= 2 ^ 25)%Z -> (1 <= nx <= 2 ^ 25)%Z ->
  value (x0 T) + inject_Z nx * value (dx T) <= Qpower 2 (26 + e) -> value (y0 T) + inject_Z ny * value (dy T) <= Qpower 2 (26 + e) ->
  (let '(a, b, c, d) := centre_extent T ny nx in clip_window T a b c d) = Some (0, ny, 0, nx)%Z.
Proof. exact own_extent_exact. Qed.
Print Assumptions C110_own_extent.
Example C110_own_extent_example : let T := mkT (D 500000 0) (D 4650000 0) (D 30 0) (D 30 0) zero zero in
  metric (-2) T /\ raster 25 (-1) (dx T) /\ raster 25 (-1) (dy T) /\
  value (x0 T) + inject_Z 6000 * value (dx T) <= Qpower 2 24 /\ value (y0 T) + inject_Z 7000 * value (dy T) <= Qpower 2 24.
Proof. exact up_example. Qed.
Example C110_metric_example : metric (-2) utm /\ raster 26 (-2) (D 500021 0) /\
  clip_window utm (D 500015 0) (D 500045 0) (D 4649922 0) (D 4649985 0) = Some (0, 3, 0, 2)%Z /\
  misplaced (piece utm 1 2) (piece utm 7 5) = false.
Proof. exact utm_example. Qed.

(** In any grid that is not rotated: centres further inside the box than the margin of
    rounding errors are taken, and those further outside are not. *)
Theorem C110_clip_partial : forall T (xmin xmax ymin ymax : double), plain T ->
  upto 300 xmin -> upto 300 xmax -> upto 300 ymin -> upto 300 ymax ->
  exists i0 i1 j0 j1, clip_window T xmin xmax ymin ymax = Some (i0, i1, j0, j1) /\
    (forall n, value ymin + margin (value ymin) (value (y0 T)) (value (dy T)) <= row_centre T n ->
       row_centre T n <= value ymax - margin (value ymax) (value (y0 T)) (value (dy T)) -> (i0 <= n < i1)%Z) /\
    (forall n, value xmin + margin (value xmin) (value (x0 T)) (value (dx T)) <= col_centre T n ->
       col_centre T n <= value xmax - margin (value xmax) (value (x0 T)) (value (dx T)) -> (j0 <= n < j1)%Z) /\
    (forall n, (i0 <= n < i1)%Z -> value ymin <= value ymax ->
       value ymin - (margin (value ymin) (value (y0 T)) (value (dy T)) + margin (value ymax) (value (y0 T)) (value (dy T))) <= row_centre T n /\
       row_centre T n <= value ymax + (margin (value ymin) (value (y0 T)) (value (dy T)) + margin (value ymax) (value (y0 T)) (value (dy T)))) /\
    (forall n, (j0 <= n < j1)%Z -> value xmin <= value xmax ->
       value xmin - (margin (value xmin) (value (x0 T)) (value (dx T)) + margin (value xmax) (value (x0 T)) (value (dx T))) <= col_centre T n /\
       col_centre T n <= value xmax + (margin (value xmin) (value (x0 T)) (value (dx T)) + margin (value xmax) (value (x0 T)) (value (dx T)))).
Proof. exact clip_near. Qed.
Print Assumptions C110_clip_partial.
(** Pieces begin within that margin of where they should. *)
Theorem C110_piece_partial : forall T i j, plain T -> int32 i -> int32 j ->
  Qabs (value (x0 (piece T i j)) - (value (x0 T) + inject_Z j * value (dx T))) <= margin (inject_Z j * value (dx T)) (value (x0 T)) (value (dx T)) /\
  Qabs (value (y0 (piece T i j)) - (value (y0 T) + inject_Z i * value (dy T))) <= margin (inject_Z i * value (dy T)) (value (y0 T)) (value (dy T)).
Proof. exact piece_near. Qed.
Print Assumptions C110_piece_partial.
(** Grids that merging does not refuse are a whole number of cells apart, but for
    rounding errors, if they are no more than 2^50 cells apart. *)
Theorem C110_accepted_partial : forall T S, plain T -> upto 300 (x0 S) -> upto 300 (y0 S) ->
  Qabs (value (x0 S) - value (x0 T)) <= Qpower 2 50 * Qabs (value (dx T)) ->
  Qabs (value (y0 S) - value (y0 T)) <= Qpower 2 50 * Qabs (value (dy T)) -> misplaced T S = false ->
  exists i j,
  Qabs (value (x0 S) - value (x0 T) - inject_Z j * value (dx T)) <= Qpower 2 (-48) * Qabs (value (dx T)) + Qpower 2 (-51) * Qabs (value (x0 S) - value (x0 T)) /\
  Qabs (value (y0 S) - value (y0 T) - inject_Z i * value (dy T)) <= Qpower 2 (-48) * Qabs (value (dy T)) + Qpower 2 (-51) * Qabs (value (y0 S) - value (y0 T)).
Proof. exact accepted_near. Qed.
Print Assumptions C110_accepted_partial.
Example C110_plain_example : plain tenth /\ upto 300 (x0 (piece tenth 3 5)) /\ misplaced tenth (piece tenth 5 5) = false /\
  clip_window tenth (D 500000 0) (D 500001 0) (D 500000 0) (D 500001 0) = Some (0, 10, 0, 10)%Z.
Proof. exact tenth_example. Qed.

(** Finding: clipping a grid to the extent of its own centres loses rows and columns. A
    grid of two rows and columns at (500000, 500000) with cells of 0.1 has no column left. *)
Theorem C110_own_extent_refuted : exists T, plain T /\
  (let '(a, b, c, d) := centre_extent T 2 2 in clip_window T a b c d) = Some (0, 1, 1, 1)%Z.
Proof. exact own_extent. Qed.
Print Assumptions C110_own_extent_refuted.
(** Finding: merging refuses the pieces of a grid: those that begin in columns 0 and 1 of a
    grid at 10 with cells of 0.1. *)
Theorem C110_pieces_refuted : exists T, plain T /\ misplaced (piece T 0 0) (piece T 0 1) = true.
Proof. exact pieces_refused. Qed.
Print Assumptions C110_pieces_refuted.
(** Finding: merging accepts grids that are half a cell apart, if they are 2^53 cells apart. *)
Theorem C110_half_cell_refuted : exists T S n, plain T /\ plain S /\ misplaced T S = false /\
  value (x0 S) - value (x0 T) == (inject_Z n + (1 # 2)) * value (dx T).
Proof. exact half_cell. Qed.
Print Assumptions C110_half_cell_refuted.
