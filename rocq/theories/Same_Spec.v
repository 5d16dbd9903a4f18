(** Specification vocabulary for equality and slices of geometries. *)
From Coq Require Import String List ZArith Bool Arith SpecFloat.
From Verif Require Import Table_Model Multi_Model Same_Model.
From Verif Require Crs_Model Crs_Spec Band_IndexModel Band_IndexSpec.
Import ListNotations.

Definition number (x : spec_float) : Prop := x <> S754_nan.
Definition zero (x : spec_float) : Prop := exists s, x = S754_zero s.
(** One number: the two zeros are one. *)
Definition one_number (x y : spec_float) : Prop := number x /\ (x = y \/ zero x /\ zero y).
Definition one_vertex (u v : vertex) : Prop := Forall2 one_number u v.
Definition one_path (u v : list vertex) : Prop := Forall2 one_vertex u v.
Definition no_nan (v : list vertex) : Prop := Forall (Forall number) v.

(** A Boolean equality of values that is an equivalence, such as that of numbers and
    strings. *)
Definition equivalence {A} (eqb : A -> A -> bool) : Prop :=
  (forall x, eqb x x = true) /\ (forall x y, eqb x y = true -> eqb y x = true) /\
  (forall x y z, eqb x y = true -> eqb y z = true -> eqb x z = true).

(** The same keys with equal values. *)
Definition one_value {val} (veqb : val -> val -> bool) (a b : option val) : Prop :=
  match a, b with Some x, Some y => veqb x y = true | None, None => True | _, _ => False end.
Definition one_dict {val} (veqb : val -> val -> bool) (d e : dict val) : Prop :=
  forall k, one_value veqb (dict_get d k) (dict_get e k).
(** The same field names in the same order and equal rows. *)
Definition one_table {val} (veqb : val -> val -> bool) (t u : table val) : Prop :=
  fields t = fields u /\ Forall2 (Forall2 (fun a b => veqb a b = true)) (rows t) (rows u).

(** The same object, or the same text of the system and of its geodesic in one projected
    system and another system. *)
Definition projected (x : system) : Prop := match x with Projected _ _ _ => True | _ => False end.
Definition object_of (x : system) : option Crs_Model.crs_object :=
  match x with Cartesian _ => None | Geographical _ _ o | Projected _ _ o => Some o end.
Definition same_object (x y : system) : Prop :=
  match x, y with
  | Cartesian i, Cartesian j => i = j
  | Geographical i _ _, Geographical j _ _ => i = j
  | _, _ => False
  end.
Definition same_text (x y : system) : Prop :=
  exists a b s i, object_of x = Some a /\ object_of y = Some b /\
    Crs_Model.srs a = Some s /\ Crs_Model.srs b = Some s /\
    Crs_Model.initstring a = Some i /\ Crs_Model.initstring b = Some i.
Definition one_system (x y : system) : Prop := same_object x y \/ (projected x \/ projected y) /\ same_text x y.
(** A system as the constructors make it: with both attributes and their texts. *)
Definition complete (x : system) : Prop :=
  match object_of x with None => True | Some o => Crs_Spec.complete_crs o end.
(** Systems of one class. *)
Definition one_class (x y : system) : Prop := projected x <-> projected y.

(** Vertices of one rank. *)
Definition of_rank (r : nat) (v : list vertex) : Prop := Forall (fun u => List.length u = r) v.

(** The elements of a list at given positions, as Python's slices take them. *)
Definition taken {A} (l r : list A) (ids : list Z) : Prop :=
  List.length r = List.length ids /\
  forall j i, nth_error ids j = Some i -> (0 <= i)%Z /\ nth_error r j = nth_error l (Z.to_nat i) /\ nth_error r j <> None.
