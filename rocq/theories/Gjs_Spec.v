(** What the properties of GeoJSON are stated with. *)
From Coq Require Import String Ascii.
From Coq Require Import List Bool Arith ZArith.
From Verif Require Import Gjs_Model.
Import ListNotations.
Open Scope list_scope.

(** A Python dictionary has every key once. *)
Definition is_dict {A : Type} (d : list (string * A)) : Prop := NoDup (map fst d).
(** A table of [n] rows, each as long as the fields. *)
Definition is_table (t : table) (n : nat) : Prop :=
  NoDup (fields t) /\ length (rows t) = n /\ forall r, In r (rows t) -> length r = length (fields t).
(** Two dictionaries with the same values. *)
Definition same_dict {A : Type} (d e : list (string * A)) : Prop := forall k, get k d = get k e.
(** Two tables with the same columns and as many rows. *)
Definition same_table (t u : table) : Prop := length (rows t) = length (rows u) /\ forall k, getfield t k = getfield u k.
(** The number of parts of a GeoJSON geometry that has parts. *)
Definition count {V : Type} (g : gjgeom V) : option nat :=
  match g with GMultiPoint l => Some (length l) | GMultiLineString l => Some (length l) | GMultiPolygon l => Some (length l) | _ => None end.
(** picogeojson turns a ring round or leaves it. *)
Definition turns {V : Type} (wind : bool -> list V -> list V) : Prop := forall b r, wind b r = r \/ wind b r = rev r.
