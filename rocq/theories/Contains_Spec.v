(** Vocabulary for point-in-polygon properties: the winding number as a sum of angles. *)
From Coq Require Import List ZArith QArith Reals Qreals.
From Verif Require Import Geom_Model Geom_Spec Inter_Spec.
Import ListNotations.

Definition qx (p : Q * Q) : R := Q2R (fst p).
Definition qy (p : Q * Q) : R := Q2R (snd p).
(** Seen from [p], going straight from [a] to [b] turns by the angle [t], less than
    half a turn either way, positive counterclockwise. *)
Definition turn (p a b : Q * Q) (t : R) : Prop :=
  (- PI < t < PI)%R /\
  exists r, (0 < r)%R /\
  (qx b - qx p = r * (cos t * (qx a - qx p) - sin t * (qy a - qy p)))%R /\
  (qy b - qy p = r * (sin t * (qx a - qx p) + cos t * (qy a - qy p)))%R.
Fixpoint total (ts : list R) : R := match ts with [] => 0%R | t :: ts' => (t + total ts')%R end.
(** Going once round the ring [l] turns [w] times round [p]. *)
Definition winding (p : Q * Q) (l : list (Q * Q)) (w : Z) : Prop :=
  exists ts, length ts = length l /\
  (forall i a b t, ring_edge l i a b -> nth_error ts i = Some t -> turn p a b t) /\
  total ts = (2 * PI * IZR w)%R.
(** [p] is on no edge of the ring. *)
Definition off (p : Q * Q) (l : list (Q * Q)) : Prop := forall e, edge_of l true e -> ~ on_seg e p.
(** [p] is strictly to the left (right) of every edge. *)
Definition left_of (p a b : Q * Q) : Prop := (0 < tri p a b)%Q.
Definition right_of (p a b : Q * Q) : Prop := (tri p a b < 0)%Q.

Section Poly.
Variables P D C : Type.
(** The polygon and its sub-polygons are rings. *)
Fixpoint rings (g : geom P D C) : Prop :=
  match g with
  | Geom _ _ _ _ _ ring subs _ _ _ =>
      ring = true /\ (fix all l := match l with [] => True | s :: l' => rings s /\ all l' end) subs
  end.
(** The point is on no edge of the polygon and its sub-polygons. *)
Fixpoint off_edges (p : Q * Q) (g : geom P D C) : Prop :=
  match g with
  | Geom _ _ _ _ v _ subs _ _ _ =>
      off p (xys v) /\ (fix all l := match l with [] => True | s :: l' => off_edges p s /\ all l' end) subs
  end.
(** The outer ring winds round the point, and the point is in no sub-polygon. *)
Fixpoint region (p : Q * Q) (g : geom P D C) : Prop :=
  match g with
  | Geom _ _ _ _ v _ subs _ _ _ =>
      (exists w, winding p (xys v) w /\ w <> 0%Z) /\
      (fix none l := match l with [] => True | s :: l' => ~ region p s /\ none l' end) subs
  end.
End Poly.
