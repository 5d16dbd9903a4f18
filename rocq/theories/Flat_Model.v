(** Model of the aspect of one cell, karta/raster/misc.py, in the numbers of the code: elevations are
    IEEE 754 binary32 numbers (misc.py:69) and arctan2 is given by signs where both arguments are zero.
    The terrain functions on whole grids are in TerrainR_Model.v, over the reals. *)
From Coq Require Import ZArith Reals Bool.
From Flocq Require Import Core IEEE754.BinarySingleNaN.
From Verif Require Import Dbl_Model Ftree_Model TerrainR_Model.
Open Scope Z_scope.

(** Addition of float32 numbers (misc.py:46-49). *)
Definition fadd (a b : single) : single := Bplus mode_NE a b.
(** The integer 2 as a float32 (misc.py:46-49). *)
Definition ftwo : single := binary_normalize 24 128 _ _ mode_NE 2 0 false.
(** [8.0 * res] (misc.py:47,49): a product of doubles, rounded to float32 as operand of the division. *)
Definition spacing (res : double) : single :=
  to_single (Bmult mode_NE (binary_normalize 53 1024 _ _ mode_NE 8 0 false) res).
(** The two differences of misc.py:46-49 at row i, column j. *)
Definition cell_dx (D : Z -> Z -> single) (res : double) (i j : Z) : single :=
  fdiv (fsub (fadd (fadd (fmul ftwo (D i (j + 1))) (D (i - 1) (j + 1))) (D (i + 1) (j + 1)))
             (fadd (fadd (fmul ftwo (D i (j - 1))) (D (i - 1) (j - 1))) (D (i + 1) (j - 1))))
       (spacing res).
(** misc.py:48-49. *)
Definition cell_dy (D : Z -> Z -> single) (res : double) (i j : Z) : single :=
  fdiv (fsub (fadd (fadd (fmul ftwo (D (i + 1) j)) (D (i + 1) (j + 1))) (D (i + 1) (j - 1)))
             (fadd (fadd (fmul ftwo (D (i - 1) j)) (D (i - 1) (j - 1))) (D (i - 1) (j + 1))))
       (spacing res).
(** numpy.arctan2 (misc.py:50) as a real number, before it is rounded; NaN is None.  Where both
    arguments are zero their signs decide, as in the C standard (annex F.10.1.4); [inf] stands for the
    values at infinities. *)
Definition arctan2 (inf : single -> single -> option R) (y x : single) : option R :=
  match y, x with
  | B754_nan, _ => None
  | _, B754_nan => None
  | B754_infinity _, _ => inf y x
  | _, B754_infinity _ => inf y x
  | B754_zero sy, B754_zero sx => Some (if sx then (if sy then - PI else PI)%R else 0%R)
  | _, _ => Some (TerrainR_Model.atan2 0 (B2R y) (B2R x))
  end.
(** misc.py:42-52 [_aspect], one cell that is not on the border. *)
Definition cell_aspect inf (D : Z -> Z -> single) (resx resy : double) (i j : Z) : option R :=
  arctan2 inf (cell_dy D resy i j) (Bopp (cell_dx D resx i j)).
