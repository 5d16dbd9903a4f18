(** What the property of positions in other systems is stated with. *)
From Coq Require Import List ZArith QArith Bool.
From Verif Require Import Grid_Model.

(** Comparison decides the systems, and a transformation to the same system changes nothing. *)
Definition systems {C : Type} (eqb : C -> C -> bool) (tr : C -> C -> Q * Q -> Q * Q) : Prop :=
  (forall a b, eqb a b = true <-> a = b) /\ forall a p, tr a a p = p.
