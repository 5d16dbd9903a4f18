(** Specification of sampling a grid at the cells of another transform. *)
From Coq Require Import List ZArith QArith Qabs.
From Verif Require Import Band_Model Grid_Model Grid_Spec GridSample_Model GridSample_Spec.
Open Scope Z_scope.

(** [v] is the value of a cell that contains [p], or nodata if that cell is not in the grid. *)
Definition shown {V} (T : transform) (f : Z -> Z -> V) (H W : Z) (nodata : V) (p : Q * Q) (v : V) : Prop :=
  exists c, in_cell T p c /\ (in_grid H W c -> v = f (fst c) (snd c)) /\ (~ in_grid H W c -> v = nodata).
(** [a] is a multiple of [x], and no farther from [b] than half of [x]. *)
Definition nearest_multiple (x b a : Q) : Prop :=
  (exists k, a == inject_Z k * x)%Q /\ (Qabs (a - b) <= (1 # 2) * Qabs x)%Q.
(** The transforms differ in their anchors only. *)
Definition same_cells (T T' : transform) : Prop :=
  dx T' = dx T /\ dy T' = dy T /\ sx T' = sx T /\ sy T' = sy T.
(** Rows and columns run along the axes, in either direction. *)
Definition unskewed (T : transform) : Prop :=
  (~ dx T == 0 /\ ~ dy T == 0 /\ sx T == 0 /\ sy T == 0)%Q.
