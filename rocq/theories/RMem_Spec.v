(** What is asked of the memory of an index. *)
From Coq Require Import List ZArith.
From Verif Require Import RTree_Model RMem_Model.
Import ListNotations.

(** How many nodes of a tree have nodes below them. *)
Definition inner_nodes (h : heap) : nat := length (filter (fun a => negb (leaf (snd h a))) (seq 0 (fst h))).
