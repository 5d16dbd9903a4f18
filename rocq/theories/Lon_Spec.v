(** Vocabulary for longitudes and angles in degrees. *)
From Coq Require Import List ZArith QArith.
From Verif Require Import Geom_Spec.
Import ListNotations.
Open Scope Q_scope.

(** Equal up to full turns. *)
Definition cong (x y : Q) : Prop := exists k : Z, x == y + 360 * inject_Z k.
(** [d] is the angle from [x0] to [x1] the short way round. *)
Definition short_way (x0 x1 d : Q) : Prop := cong x1 (x0 + d) /\ - (180) < d /\ d < 180.
(** [x] is passed when going from [x0] to [x1] the short way round. *)
Definition on_arc (x x0 x1 : Q) : Prop := exists d t, short_way x0 x1 d /\ 0 <= t <= 1 /\ cong x (x0 + t * d).
(** Going from [x0] to [x1], both in [-180, 180), the short way passes the 180th meridian. *)
Definition passes_180 (x0 x1 : Q) : Prop := 180 < x1 - x0 \/ 180 < x0 - x1.
Definition lon_ok (x : Q) : Prop := - (180) <= x /\ x < 180.
(** [x] is in the longitude range from [west] east to [east]. *)
Definition in_range (west east x : Q) : Prop :=
  (west <= east /\ west <= x /\ x <= east) \/ (east < west /\ (west <= x \/ x <= east)).
(** Number of edges of a ring of numbers from [a] with a property, counted with [f]. *)
Fixpoint chain_sum {A} (f : A -> A -> Z) (a : A) (l : list A) : Z :=
  match l with [] => 0%Z | b :: l' => (f a b + chain_sum f b l')%Z end.
Definition ring_total {A} (f : A -> A -> Z) (l : list A) : Z :=
  match l with [] => 0%Z | v :: l' => chain_sum f v (l' ++ [v]) end.
(** +1 for passing the 180th meridian eastwards, -1 westwards, for longitudes in [-180, 180). *)
Definition crossing (x0 x1 : Q) : Z :=
  if Qlt_le_dec 180 (x0 - x1) then 1%Z else if Qlt_le_dec 180 (x1 - x0) then (-1)%Z else 0%Z.
