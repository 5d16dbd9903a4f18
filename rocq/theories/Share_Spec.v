(** What can be seen of a geometry, and which geometries are related. *)
From Coq Require Import String.
From Coq Require Import List Arith Bool.
From Verif Require Import Share_Model.
Import ListNotations.
Open Scope nat_scope.

Section Spec.
Variables (V : Type) (none : V) (C : Type) (order : list string -> list string).
Notation state := (state V C).
Notation op := (op V C).
Notation step := (step none order).

(** Class, coordinates, properties and data of the j-th geometry. *)
Definition look (s : state) (j : nat) : option (kind * list (list C) * dict V * option (content V)) :=
  option_map (fun g => (kd g, coords_of s g, props_of s g, data_of s g)) (nth_error (geoms s) j).
(** The same, one by one. *)
Definition kind_at (s : state) (j : nat) : option kind := option_map kd (nth_error (geoms s) j).
Definition coords_at (s : state) (j : nat) : option (list (list C)) := option_map (coords_of s) (nth_error (geoms s) j).
Definition props_at (s : state) (j : nat) : option (dict V) := option_map (props_of s) (nth_error (geoms s) j).
Definition data_at (s : state) (j : nat) : option (option (content V)) := option_map (data_of s) (nth_error (geoms s) j).

(** The geometry that a step is meant to change; none if it makes a new one. *)
Definition receiver (o : op) : option nat :=
  match o with
  | SetProp i _ _ | SetField i _ _ | SetRow i _ _ | DelRow i _ | ExtendData i _
  | SetItem i _ _ | SetCoord i _ _ | ExtendLine i _ => Some i
  | _ => None
  end.

(** The geometry whose properties the new one has in common: that of a transformed,
    shortened or converted geometry, of the line or polygon of a vertex, of a
    polygon with its centroid, and of the geometry named in properties=g.properties. *)
Definition same_properties (s : state) (o : op) : option nat :=
  match o with
  | Make _ _ (PropsOf j) _ | Collect _ (PropsOf j) => Some j
  | Move i _ | Subset i _ | ToPolygon i | ToLine i | Centroid i _ => Some i
  | Member i _ => match kind_at s i with Some k => if multi k then None else Some i | None => None end
  | _ => None
  end.
(** The geometry whose data the new one has in common: that of a transformed
    multipoint, and that named in data=g.data or data=Table(g.data). *)
Definition same_data (s : state) (o : op) : option nat :=
  match o with
  | Make k _ _ (DataOf j) | Make k _ _ (TableOf j) => if multi k then Some j else None
  | Move i _ => match kind_at s i with Some Multipoint => Some i | _ => None end
  | _ => None
  end.
(** The geometry whose Table the new one holds: as before, without data=Table(g.data). *)
Definition same_table (s : state) (o : op) : option nat :=
  match o with
  | Make k _ _ (DataOf j) => if multi k then Some j else None
  | Move i _ => match kind_at s i with Some Multipoint => Some i | _ => None end
  | _ => None
  end.

(** Along a history, every geometry gets a family: that of the geometry it has
    something in common with, or a new one (its own number). *)
Fixpoint families (from : state -> op -> option nat) (s : state) (os : list op) (acc : list nat) : list nat :=
  match os with
  | [] => acc
  | o :: os' =>
      let s' := fst (step s o) in
      families from s' os'
        (if length (geoms s) <? length (geoms s')
         then acc ++ [match from s o with Some j => nth j acc 0 | None => length acc end]
         else acc)
  end.
Definition property_families (os : list op) : list nat := families same_properties start os [].
Definition data_families (os : list op) : list nat := families same_data start os [].
Definition table_families (os : list op) : list nat := families same_table start os [].
End Spec.
Arguments look {V C} s j. Arguments kind_at {V C} s j. Arguments coords_at {V C} s j.
Arguments props_at {V C} s j. Arguments data_at {V C} s j. Arguments same_table {V C} s o.
Arguments table_families {V} none {C} order os. Arguments receiver {V C} o. Arguments same_properties {V C} s o.
Arguments same_data {V C} s o. Arguments families {V} none {C} order from s os acc.
Arguments property_families {V} none {C} order os. Arguments data_families {V} none {C} order os.
