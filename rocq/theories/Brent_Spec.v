(** What the root finder's properties are stated with. *)
From Coq Require Import Reals.
Open Scope R_scope.

(** Increasing throughout [lo, hi], or decreasing throughout it (not necessarily strictly). *)
Definition monotone_on (f : R -> R) (lo hi : R) : Prop :=
  (forall x y, lo <= x -> x <= y -> y <= hi -> f x <= f y) \/ (forall x y, lo <= x -> x <= y -> y <= hi -> f y <= f x).
