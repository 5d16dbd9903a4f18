(** What the searches in floats should answer, said of the doubles given. *)
From Coq Require Import List ZArith QArith Qabs.
From Flocq Require Import Core IEEE754.BinarySingleNaN.
From Verif Require Import Dbl_Model Dbl_Spec Ftree_Model.
Import ListNotations.
Open Scope Q_scope.

(** The i-th box, for an index returned by a search. *)
Definition is_dbox (l : list dbox) (i : Z) (b : dbox) : Prop :=
  (0 <= i)%Z /\ nth_error l (Z.to_nat i) = Some b.
(** The four coordinates all have a property. *)
Definition each (P : double -> Prop) (b : dbox) : Prop := P (bx0 b) /\ P (by0 b) /\ P (bx1 b) /\ P (by1 b).
(** Not NaN; infinities are allowed. *)
Definition number (a : double) : Prop := is_nan a = false.
(** Python's comparisons. *)
Definition lt (a b : double) : Prop := dlt a b = true.
Definition le (a b : double) : Prop := dle a b = true.

(** The interiors of two boxes meet: in both directions each box begins before
    it ends, and before the other one ends. *)
Definition overlap (q b : dbox) : Prop :=
  (lt (bx0 q) (bx1 q) /\ lt (bx0 b) (bx1 b) /\ lt (bx0 q) (bx1 b) /\ lt (bx0 b) (bx1 q)) /\
  (lt (by0 q) (by1 q) /\ lt (by0 b) (by1 b) /\ lt (by0 q) (by1 b) /\ lt (by0 b) (by1 q)).
(** [b] begins after [q], in both directions. *)
Definition begins_in (q b : dbox) : Prop := lt (bx0 q) (bx0 b) /\ lt (by0 q) (by0 b).
(** [b] ends no later than [q], in both directions. *)
Definition ends_in (q b : dbox) : Prop := le (bx1 b) (bx1 q) /\ le (by1 b) (by1 q).

(** How far two numbers can be moved together by rounding them to 24 digits. *)
Definition blur (a b : double) : Q := (Qabs (value a) + Qabs (value b)) * Qpower 2 (-24) + Qpower 2 (-149).
(** [b] is no more than that above [a], or is more than that above [a]. *)
Definition barely_above (a b : double) : Prop := value b <= value a + blur a b.
Definition well_above (a b : double) : Prop := value a + blur a b < value b.
(** The same with a margin of 2^-69 besides. *)
Definition far_above (a b : double) : Prop := value a + blur a b + Qpower 2 (-69) < value b.
(** The interiors of two boxes meet, by more than that. *)
Definition overlap_well (q b : dbox) : Prop :=
  (far_above (bx0 q) (bx1 q) /\ far_above (bx0 b) (bx1 b) /\ far_above (bx0 q) (bx1 b) /\ far_above (bx0 b) (bx1 q)) /\
  (far_above (by0 q) (by1 q) /\ far_above (by0 b) (by1 b) /\ far_above (by0 q) (by1 b) /\ far_above (by0 b) (by1 q)).

(** The number that a float stands for. *)
Definition svalue (a : single) : Q :=
  match a with
  | B754_finite s m e _ => inject_Z (if s then Z.neg m else Z.pos m) * Qpower 2 e
  | _ => 0
  end.
(** A float that is a double rounded to 24 digits, more or less. *)
Definition close_to (a : double) (s : single) : Prop :=
  is_finite s = true /\ Qabs (svalue s - value a) <= Qabs (value a) * Qpower 2 (-24) + Qpower 2 (-150).
(** The float is no more than that above, or below, the double. *)
Definition not_above (s : single) (a : double) : Prop :=
  svalue s <= value a + (Qabs (value a) * Qpower 2 (-24) + Qpower 2 (-150)).
Definition not_below (s : single) (a : double) : Prop :=
  value a - (Qabs (value a) * Qpower 2 (-24) + Qpower 2 (-150)) <= svalue s.
