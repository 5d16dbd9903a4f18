(** Model of cutting pieces out of a grid, and of the test whether grids fit
    together, in doubles (see Dbl_Model.v for the arithmetic). *)
From Coq Require Import List ZArith Bool.
From Flocq Require Import Core IEEE754.BinarySingleNaN.
From Verif Require Import Dbl_Model.
Import ListNotations.
Open Scope Z_scope.

(** [int(np.ceil(a))], grid.py:553 and 555; it raises for infinities and NaN. *)
Definition ceil (a : double) : option Z :=
  let r := Bnearbyint mode_UP a in if is_finite r then Some (Btrunc r) else None.
(** [int(np.floor(a))], grid.py:554 and 556. *)
Definition floor (a : double) : option Z :=
  let r := Bnearbyint mode_DN a in if is_finite r then Some (Btrunc r) else None.
(** Python's [min] of two doubles: the second only if it is less (grid.py:553). *)
Definition pmin (a b : double) : double := if dlt b a then b else a.
(** Python's [max] of two doubles: the second only if it is more (grid.py:554). *)
Definition pmax (a b : double) : double := if dlt a b then b else a.
(** [min] of four (grid.py:553 and 555). *)
Definition pmin4 (a b c d : double) : double := pmin (pmin (pmin a b) c) d.
(** [max] of four (grid.py:554 and 556). *)
Definition pmax4 (a b c d : double) : double := pmax (pmax (pmax a b) c) d.

(** grid.py:545-556 [clip] without [crs]: the rows i0 to i1 - 1 and columns j0 to
    j1 - 1 that it takes, as (i0, i1, j0, j1). *)
Definition clip_window (T : transform) (xmin xmax ymin ymax : double) : option (Z * Z * Z * Z) :=
  let (ill, jll) := positions T xmin ymin in
  let (ilr, jlr) := positions T xmax ymin in
  let (iul, jul) := positions T xmin ymax in
  let (iur, jur) := positions T xmax ymax in
  match ceil (pmin4 ill ilr iul iur), floor (pmax4 ill ilr iul iur),
        ceil (pmin4 jll jlr jul jur), floor (pmax4 jll jlr jul jur) with
  | Some i0, Some i1, Some j0, Some j1 => Some (i0, i1 + 1, j0, j1 + 1)
  | _, _, _, _ => None
  end.

(** grid.py:559-561 and 515-517: the transform of the piece of a grid that begins
    in row i0 and column j0 ([clip] and [aschunks]). *)
Definition piece (T : transform) (i0 j0 : Z) : transform :=
  mkT (dadd (dadd (x0 T) (dmul (of_int j0) (dx T))) (dmul (of_int i0) (sx T)))
      (dadd (dadd (y0 T) (dmul (of_int i0) (dy T))) (dmul (of_int j0) (sy T)))
      (dx T) (dy T) (sx T) (sy T).

(** The literal 1e-15 (grid.py:1173 and 1175). *)
Definition tolerance : double := binary_normalize 53 1024 _ _ mode_NE 5070602400912918 (-102) false.
(** Python's [a % 1] of a double: the remainder towards zero, and one more if that is
    negative (grid.py:1173 and 1175). *)
Definition mod1 (a : double) : double :=
  let r := dsub a (of_int (Btrunc a)) in
  if dlt r zero then dadd r (of_int 1) else r.
(** grid.py:1170-1176: [merge] finds a grid not to be an integer translation from
    the first. *)
Definition misplaced (T S : transform) : bool :=
  dlt tolerance (mod1 (ddiv (dsub (x0 S) (x0 T)) (dx T))) ||
  dlt tolerance (mod1 (ddiv (dsub (y0 S) (y0 T)) (dy T))).

(** grid.py:258-264, 352-377 [extent('center')] of a grid that is not rotated and has
    positive cell sizes: (xmin, xmax, ymin, ymax). *)
Definition centre_extent (T : transform) (ny nx : Z) : double * double * double * double :=
  let a := dadd (x0 T) (dmul half (dadd (dx T) (sx T))) in
  let b := dadd (y0 T) (dmul half (dadd (dy T) (sy T))) in
  (a, dsub (dadd a (dmul (dx T) (of_int (nx - 1)))) (dmul (sx T) (of_int (ny - 1))),
   b, dsub (dadd b (dmul (dy T) (of_int (ny - 1)))) (dmul (sy T) (of_int (nx - 1)))).
