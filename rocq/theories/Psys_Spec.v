(** What the property of selections by points and polygons in other systems is stated with. *)
From Coq Require Import List ZArith QArith.
Open Scope Q_scope.

(** [q] is closer to [p] than [r]. *)
Definition closer (p q : Q * Q) (r : Q) : Prop :=
  0 < r /\ (fst q - fst p) * (fst q - fst p) + (snd q - snd p) * (snd q - snd p) < r * r.
(** [q] is inside a box, off its sides. *)
Definition inside (x0 y0 x1 y1 : Q) (q : Q * Q) : Prop := x0 < fst q < x1 /\ y0 < snd q < y1.
