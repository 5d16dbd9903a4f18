(** Pieces of grids in doubles: when they are the right ones. *)
From Coq Require Import List ZArith QArith Qabs.
From Flocq Require Import Core IEEE754.BinarySingleNaN.
From Verif Require Import Dbl_Model Dbl_Spec.
Open Scope Q_scope.

(** A grid that is not rotated, whose origin and cell sizes are multiples of 2^e, at
    most 2^26 of them (such as metres, or quarters of a metre). *)
Definition metric (e : Z) (T : transform) : Prop :=
  (-200 <= e <= 150)%Z /\ raster 26 e (x0 T) /\ raster 26 e (y0 T) /\ raster 26 e (dx T) /\ raster 26 e (dy T) /\
  ~ value (dx T) == 0 /\ ~ value (dy T) == 0 /\ nought (sx T) /\ nought (sy T).

(** The exact coordinates of the centres of row and column [n]. *)
Definition row_centre (T : transform) (n : Z) : Q := value (y0 T) + (inject_Z n + (1 # 2)) * value (dy T).
Definition col_centre (T : transform) (n : Z) : Q := value (x0 T) + (inject_Z n + (1 # 2)) * value (dx T).
(** The rounding errors made for a coordinate [a] in a grid with origin [o] and cell size [d]. *)
Definition margin (a o d : Q) : Q := Qpower 2 (-50) * (Qabs d + Qabs a + Qabs o).
