(** Specification vocabulary for the records of multipart geometries. *)
From Coq Require Import String List Arith Sorted.
From Verif Require Import Table_Model Table_Spec Multi_Model.
Import ListNotations.

(** One record per part: as many rows as parts, each with one value per field, and the
    field names are distinct. *)
Definition one_record_each {P val} (m : multi P val) : Prop :=
  tlen (tbl m) = List.length (parts m) /\ rectangular (tbl m) /\ NoDup (fields (tbl m)) /\ gens m = [].

(** The value field [k] has in row [i] of the table, if there is such a field. *)
Definition cell {P val} (m : multi P val) (i : nat) (k : string) (v : option val) : Prop :=
  (exists vs, getfield (tbl m) k = Ok vs /\ nth_error vs i = v) \/ (~ In k (fields (tbl m)) /\ v = None).

(** Two dictionaries with the same entries. *)
Definition same_entries {val} (d e : list (string * val)) : Prop := forall k, dict_get d k = dict_get e k.
(** Two members with the same coordinates and the same properties. *)
Definition same_member {P val} (p q : member P val) : Prop := mpart p = mpart q /\ same_entries (mprops p) (mprops q).

(** All the members have property [k]. *)
Definition common {P val} (ms : list (member P val)) (k : string) : Prop := forall p, In p ms -> In k (map fst (mprops p)).

(** [ids] are the positions, in increasing order, of the elements of [l] with property [Q]. *)
Definition positions {A} (Q : A -> Prop) (l : list A) (ids : list nat) : Prop :=
  StronglySorted lt ids /\ forall i, In i ids <-> exists a, nth_error l i = Some a /\ Q a.

(** [r] is [m] restricted to the members at [ids], in that order. *)
Definition restricted {P val} (m r : multi P val) (ids : list nat) : Prop :=
  one_record_each r /\ List.length (parts r) = List.length ids /\
  forall j i, nth_error ids j = Some i ->
    exists p q, getitem m i = Ok p /\ getitem r j = Ok q /\ same_member p q.
