(** What the R-tree searches should answer, said of boxes alone. *)
From Coq Require Import List ZArith QArith.
From Verif Require Import RTree_Model.
Import ListNotations.
Open Scope Q_scope.

(** [b] lies in [q], edges included. *)
Definition lies_in (q b : bb) : Prop :=
  xmin q <= xmin b /\ xmax b <= xmax q /\ ymin q <= ymin b /\ ymax b <= ymax q.
(** Some point is strictly inside both boxes. *)
Definition inside (b : bb) (x y : Q) : Prop := xmin b < x /\ x < xmax b /\ ymin b < y /\ y < ymax b.
Definition interiors_meet (q b : bb) : Prop := exists x y, inside q x y /\ inside b x y.
(** Some point is in both boxes, edges included. *)
Definition in_box (b : bb) (x y : Q) : Prop := xmin b <= x /\ x <= xmax b /\ ymin b <= y /\ y <= ymax b.
Definition boxes_meet (q b : bb) : Prop := exists x y, in_box q x y /\ in_box b x y.

(** The i-th box, for an index returned by a search. *)
Definition is_box (l : list bb) (i : Z) (b : bb) : Prop :=
  (0 <= i)%Z /\ nth_error l (Z.to_nat i) = Some b.

(** No box has its range of x, or its range of y, in that of another: as with boxes of one
    size no two of which are in the same column or row. *)
Definition staggered (l : list bb) : Prop :=
  forall i j b c, i <> j -> nth_error l i = Some b -> nth_error l j = Some c ->
  ~ (xmin c <= xmin b /\ xmax b <= xmax c) /\ ~ (ymin c <= ymin b /\ ymax b <= ymax c).
