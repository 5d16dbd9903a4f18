(** Specification vocabulary for the metadata table properties. *)
From Coq Require Import List String.
From Verif Require Import Table_Model.
Import ListNotations.

(** Every row has one value per field. *)
Definition rectangular {val} (t : table val) : Prop :=
  Forall (fun r => List.length r = List.length (fields t)) (rows t).

(** [ord] is an iteration order of the set of the elements of [l]. *)
Definition set_order (ord l : list string) : Prop :=
  NoDup ord /\ forall f, In f ord <-> In f l.

(** [ord] is an iteration order of the intersection of several sets. *)
Definition intersection_order (ord : list string) (ls : list (list string)) : Prop :=
  NoDup ord /\ forall f, In f ord <-> forall l, In l ls -> In f l.

(** The cells a merged mapping contributes to the column [f]. *)
Definition contributes {val} (f : string) (m : mitem val) (col : list val) : Prop :=
  match m with
  | ITable t => getfield t f = Ok col
  | IDict d => exists v, dict_get d f = Some v /\ col = [v]
  end.

Definition item_ok {val} (m : mitem val) : Prop :=
  match m with ITable t => rectangular t | IDict _ => True end.
