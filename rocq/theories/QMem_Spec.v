(** Specification vocabulary for the memory of the quadtree. *)
From Coq Require Import List Bool.
From Verif Require Import QuadTree_Model QMem_Model.
Import ListNotations.

(** Memory with nothing allocated. *)
Definition empty {num} : heap num := mkH 0 (fun _ => None).

(** The blocks allocated and not freed. *)
Definition live {num} (h : heap num) : list nat :=
  filter (fun a => match at_ h a with Some _ => true | None => false end) (seq 0 (next h)).
