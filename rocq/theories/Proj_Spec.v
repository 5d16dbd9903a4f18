(** What coordinates in several systems mean, independently of the code: [place c p] is where
    the coordinates p of the system c are.  Nothing is assumed about places. *)
From Coq Require Import List QArith Bool.
From Verif Require Geom_Model.
From Verif Require Import Proj_Model.
Import ListNotations.

(** The coordinate systems agree about places: equal systems are the same, identical ones are
    equal, and a transformation gives coordinates of the same place. *)
Record faithful {C W : Type} (place : C -> Q * Q -> W) (is_same eqb : C -> C -> bool)
    (transform : C -> C -> outcome (Q * Q -> Q * Q)) : Prop := {
  f_equal_places : forall c d, eqb c d = true -> forall p, place c p = place d p;
  f_identical : forall c d, is_same c d = true -> eqb c d = true;
  f_transform : forall c d f, transform c d = Ok f -> forall p, place d (f p) = place c p }.

(** Where the vertices of a string are, and where points are, in order. *)
Definition places {C W} (place : C -> Q * Q -> W) (c : C) (v : verts) : list W := map (place c) (Geom_Model.xys v).
Definition point_place {C W} (place : C -> Q * Q -> W) (p : coord * C) : W := place (snd p) (xy (fst p)).
(** The system in which coordinates are asked for. *)
Definition asked {C} (own : C) (crs : option C) : C := match crs with Some c => c | None => own end.
(** A transformation to that system is to be had. *)
Definition reachable {C} (eqb : C -> C -> bool) (transform : C -> C -> outcome (Q * Q -> Q * Q)) (own : C) (crs : option C) : Prop :=
  match crs with None => True | Some c => eqb c own = true \/ exists f, transform own c = Ok f end.
Definition flat (v : verts) : Prop := match v with Geom_Model.V2 _ => True | _ => False end.
Definition flat_point (p : coord) : Prop := match p with Geom_Model.C2 _ _ => True | _ => False end.
