(** The aspect of flat ground (C56), in float32 numbers. *)
From Coq Require Import ZArith Reals Bool.
From Flocq Require Import Core IEEE754.BinarySingleNaN.
From Verif Require Import Dbl_Model Ftree_Model Flat_Model Flat_Proofs Flat_Sign.
Open Scope Z_scope.

(** Finding: flat ground has an aspect.  If the eight cells around a cell have one height, and four times
    that height is a float32 number, the aspect is pi (west), or -pi if the row spacing is negative: the same as
    that of a slope falling to the west. *)
Theorem C56_flat_refuted : forall inf D rx ry i j v,
  (forall a b, Z.abs (a - i) <= 1 -> Z.abs (b - j) <= 1 -> (a, b) <> (i, j) -> D a b = v) ->
  is_finite (fourfold v) = true -> is_finite_strict (spacing rx) = true -> is_finite_strict (spacing ry) = true ->
  Bsign rx = false ->
  cell_aspect inf D rx ry i j = Some (if Bsign ry then - PI else PI)%R.
Proof. exact flat_signs. Qed.
Print Assumptions C56_flat_refuted.
(** Heights of 1000 in cells of 30 by 30, and of 30 by -30. *)
Definition f1000 : single := binary_normalize 24 128 _ _ mode_NE 1000 0 false.
Definition d30 : double := binary_normalize 53 1024 _ _ mode_NE 30 0 false.
Example C56_flat_example :
  is_finite (fourfold f1000) = true /\ is_finite_strict (spacing d30) = true /\
  Bsign d30 = false /\ is_finite_strict (spacing (Bopp d30)) = true /\ Bsign (Bopp d30) = true.
Proof. vm_compute. repeat split. Qed.
(** The same over the reals for a slope falling to the west. *)
Theorem C56_west_slope : forall inf D rx ry i j, let w := cell_dx D rx i j in
  is_finite_strict w = true -> Bsign w = false -> cell_dy D ry i j = B754_zero false ->
  cell_aspect inf D rx ry i j = Some PI.
Proof. exact west_slope. Qed.
Print Assumptions C56_west_slope.
