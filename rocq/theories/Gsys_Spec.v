(** What the property of regions in other systems is stated with. *)
From Coq Require Import List ZArith QArith.
From Verif Require Import Grid_Model Grid_Spec.
Open Scope Q_scope.

(** A transformation of coordinates that keeps straight lines. *)
Definition affine (tr : Q * Q -> Q * Q) : Prop :=
  exists a b c d e f, forall p, peq (tr p) (a * fst p + b * snd p + c, d * fst p + e * snd p + f).
(** The box (xmin, xmax, ymin, ymax) has the point. *)
Definition holds (bx : Q * Q * Q * Q) (p : Q * Q) : Prop := let '(a, b, c, d) := bx in in_box a b c d p.
