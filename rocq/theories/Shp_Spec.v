(** What the properties of shapefile attributes are stated with. *)
From Coq Require Import List Bool Arith ZArith String Ascii.
From Verif Require Import Shp_Model.
Import ListNotations.
Open Scope string_scope.

(** The attributes to be exported: those every object has, except karta's own. *)
Definition exported (objs : list dict) (k : string) : Prop :=
  (forall o, In o objs -> In k (map fst o)) /\ String.prefix "_karta" k = false.
(** An order in which Python's set may give them. *)
Definition key_order (objs : list dict) (keys : list string) : Prop :=
  NoDup keys /\ forall k, In k keys <-> exported objs k.
(** An object's value under a key. *)
Definition has (o : dict) (k : string) (v : pyval) : Prop := get k o = Some v.
(** The type of a value; none for complex numbers, None and other objects. *)
Definition typed (v : pyval) : Prop := exists t, ogr_get_fieldtype v = Ok t.
(** No value is an empty list (or a list that begins with one). *)
Fixpoint starts_empty (v : pyval) : bool :=
  match v with VList [] => true | VList (x :: _) => starts_empty x | _ => false end.
Definition no_empty (objs : list dict) : Prop := forall o k v, In o objs -> In (k, v) o -> starts_empty v = false.
