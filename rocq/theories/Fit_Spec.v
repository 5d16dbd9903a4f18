(** What a best affine map between control points is, independently of the code. *)
From Coq Require Import List QArith Bool.
From Verif Require Import Geom_Spec.
Import ListNotations.
Local Open Scope Q_scope.

(** The six numbers of an affine map; [affine] is that of the specification of geometries. *)
Definition six : Type := (Q * Q * Q * Q * Q * Q)%type.
Definition image (m : six) (p : Q * Q) : Q * Q := let '(a, b, c, d, e, f) := m in affine a b c d e f p.
(** The sum of the squared distances of the images from their targets. *)
Fixpoint misfit (m : six) (from to : list (Q * Q)) : Q :=
  match from, to with
  | p :: ps, q :: qs =>
      (fst (image m p) - fst q) * (fst (image m p) - fst q) + (snd (image m p) - snd q) * (snd (image m p) - snd q)
      + misfit m ps qs
  | _, _ => 0
  end.
(** No affine map fits better. *)
Definition best (m : six) (from to : list (Q * Q)) : Prop := forall m', misfit m from to <= misfit m' from to.
Definition same6 (m n : six) : Prop :=
  let '(a, b, c, d, e, f) := m in let '(a', b', c', d', e', f') := n in
  a == a' /\ b == b' /\ c == c' /\ d == d' /\ e == e' /\ f == f'.
(** Three of the points are not on one line. *)
Definition spread (l : list (Q * Q)) : Prop :=
  exists o p q, In o l /\ In p l /\ In q l /\ ~ tri o p q == 0.

(** What a least squares solver does: of all vectors with as many entries as the matrix has
    columns it gives one with the smallest sum of squared residuals. *)
Fixpoint dotp (u v : list Q) : Q :=
  match u, v with a :: u', b :: v' => a * b + dotp u' v' | _, _ => 0 end.
Fixpoint residual (rows : list (list Q)) (rhs m : list Q) : Q :=
  match rows, rhs with
  | r :: rs, y :: ys => (dotp r m - y) * (dotp r m - y) + residual rs ys m
  | _, _ => 0
  end.
Definition least_squares (n : nat) (rows : list (list Q)) (rhs m : list Q) : Prop :=
  length m = n /\ forall m', length m' = n -> residual rows rhs m <= residual rows rhs m'.
(** The solver answers this system, of six unknowns, with a least squares solution. *)
Definition answers (lstsq : list (list Q) -> list Q -> option (list Q)) (rows : list (list Q)) (rhs : list Q) : Prop :=
  exists m, lstsq rows rhs = Some m /\ least_squares 6 rows rhs m.
