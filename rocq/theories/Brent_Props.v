(** C40: the bracketing root finder. *)
From Coq Require Import Reals Lra.
From Verif Require Import Sphere_Model Brent_Model Brent_Spec Brent_Proofs Brent_Term.
Open Scope R_scope.

(** ValueError exactly when the ends have the same sign. *)
Theorem C40_not_bracketed : forall f a b tol, fzero_brent a b f tol = NotBracketed <-> 0 < f a * f b.
Proof. exact brent_not_bracketed. Qed.
Print Assumptions C40_not_bracketed.
Theorem C40_no_division : forall f a b tol, fzero_brent a b f tol <> ZeroDivision.
Proof. exact brent_no_division. Qed.
Print Assumptions C40_no_division.
Theorem C40_sound : forall f a b tol x, fzero_brent a b f tol = Root x ->
  Rmin a b <= x <= Rmax a b /\
  (f x = 0 \/ exists y, Rmin a b <= y <= Rmax a b /\ Rabs (x - y) < tol /\ f x * f y < 0).
Proof. exact brent_sound. Qed.
Print Assumptions C40_sound.
(** For a continuous function: a root, or closer than tol to one. *)
Theorem C40_continuous : forall f a b tol x, (forall z, Rmin a b <= z <= Rmax a b -> continuity_pt f z) ->
  fzero_brent a b f tol = Root x -> exists z, Rmin a b <= z <= Rmax a b /\ f z = 0 /\ (x = z \/ Rabs (x - z) < tol).
Proof. exact brent_continuous. Qed.
Print Assumptions C40_continuous.
(** Monotone functions: an answer within the 1000 passes, for brackets and tolerances not
    too far apart. *)
Theorem C40_returns : forall f a b tol j m, monotone_on f (Rmin a b) (Rmax a b) -> f a * f b <= 0 ->
  Rabs (b - a) < 2 ^ j * (1 / 10000000000) -> (3 / 4) ^ m * Rabs (b - a) < tol -> ((m + 1) * (2 * j + 1) + 1 <= 1000)%nat ->
  exists x, fzero_brent a b f tol = Root x.
Proof. exact brent_returns. Qed.
Print Assumptions C40_returns.
(** RuntimeError is raised when nothing satisfies the request. *)
Theorem C40_exhausted : forall f a b tol, tol <= 0 -> (forall x, f x <> 0) -> f a * f b < 0 -> fzero_brent a b f tol = TooManyIterations.
Proof. exact brent_exhausted. Qed.
Print Assumptions C40_exhausted.
Example C40_example : exists x, fzero_brent 0 2 (fun x => x * x - 2) (1 / 10) = Root x /\ Rabs (x - sqrt 2) < 1 / 10.
Proof. exact square_root_example. Qed.
Example C40_exhausted_example : let f := fun x => if Rlt_dec x 0 then -1 else 1 in (forall x, f x <> 0) /\ f (-1) * f 1 < 0.
Proof. cbv zeta. split; [intros x; destruct (Rlt_dec x 0); lra|]. destruct (Rlt_dec (-1) 0), (Rlt_dec 1 0); lra. Qed.
