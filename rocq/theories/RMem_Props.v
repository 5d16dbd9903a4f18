(** Property C105: the memory of an RTree. *)
From Coq Require Import List ZArith QArith Lia.
From Verif Require Import RTree_Model RTree_Spec RMem_Model RMem_Spec RMem_Proofs.
Import ListNotations.

(** A row of unit boxes. *)
Definition rowm (n : nat) : list bb :=
  map (fun i => mkB (inject_Z (2 * Z.of_nat i)) 0 (inject_Z (2 * Z.of_nat i + 1)) 1) (seq 0 n).
Definition everywhere : bb := mkB (-9) (-9) 999 999.

(** C105.  An index of any boxes is made, searched any number of times and
    dropped.  [t] is its tree, [r] the boxes and leaves that dropping it visits.
    Dropping frees only blocks that were allocated for this index.  It returns
    exactly if no box and no leaf is visited twice.  Then the answers are those
    of the searches, and the blocks still allocated are those that were
    allocated (four for each node, one for each box and each query) and are not
    freed in the visit of a box (its block) or of a leaf (three blocks). *)
Theorem C105_balance_partial : forall M l qs fb fs ff,
  (4 <= M)%nat -> (length l < fb)%nat -> (S M ^ length l <= fs)%nat -> (length l < ff)%nat ->
  exists t r al, rtree M fb l = Ret t /\ rt_free ff (fst t) (snd t) = Ret r /\
    map Ret al = map (answer fs t) qs /\
    incl (flat_map freed r) (tree_blocks (fst t) (length l)) /\
    (forall a, In (inr a) r -> leaf (snd (fst t) a) = true) /\
    (NoDup r -> exists live, session M fb fs ff (map Some l) qs = Ret (Some al, live) /\ NoDup live /\
       (length live + length (flat_map freed r) = 4 * fst (fst t) + length l + length qs)%nat /\
       forall b, In b live <->
         (In b (tree_blocks (fst t) (length l)) \/ exists k, b = Query k /\ (k < length qs)%nat) /\
         ~ In b (flat_map freed r)) /\
    (~ NoDup r -> session M fb fs ff (map Some l) qs = Crash).
Proof. intros M l qs fb fs ff H1 H2 H3 H4. exact (whole M l fb fs ff H1 H2 H3 H4 qs). Qed.
Print Assumptions C105_balance_partial.
Example C105_balance_not_vacuous :
  (do t <- rtree 4 9 (rowm 6); do r <- rt_free 9 (fst t) (snd t); Ret (fst (fst t), r)) =
  Ret (3%nat, [inl 4; inl 3; inl 5; inr 0%nat; inl 0; inl 2; inl 1; inr 1%nat]%Z).
Proof. vm_compute. reflexivity. Qed.

(** C105.  With no more boxes than maxchildren, exactly one block of the index
    stays (the array of children of its only node) and one for each search. *)
Theorem C105_unsplit_partial : forall M l qs fb fs ff,
  (4 <= M)%nat -> (length l <= M)%nat -> (length l < fb)%nat -> (S M ^ length l <= fs)%nat -> (length l < ff)%nat ->
  exists al live, session M fb fs ff (map Some l) qs = Ret (Some al, live) /\ NoDup live /\
    forall b, In b live <-> b = Children 0 \/ exists k, b = Query k /\ (k < length qs)%nat.
Proof. intros M l qs fb fs ff. exact (unsplit_left M l fb fs ff qs). Qed.
Print Assumptions C105_unsplit_partial.
Example C105_unsplit_not_vacuous :
  session 4 9 9 9 (map Some (rowm 3)) [Within everywhere (-1); Overlapping everywhere (-1)] =
  Ret (Some [[2; 1; 0]; [2; 1; 0]]%Z, [Query 1; Query 0; Children 0]).
Proof. vm_compute. reflexivity. Qed.

(** Finding: no index ever gives back all its memory when it is dropped: the
    array of children of every node, the three other blocks of every inner node
    and the box of every query stay allocated, whatever the geometries. *)
Theorem C105_leak_refuted : forall M l qs fb fs ff t ans live,
  (4 <= M)%nat -> (length l < fb)%nat -> (S M ^ length l <= fs)%nat -> (length l < ff)%nat ->
  rtree M fb l = Ret t -> session M fb fs ff (map Some l) qs = Ret (ans, live) ->
  (fst (fst t) + 3 * inner_nodes (fst t) + length qs <= length live)%nat /\ (1 <= fst (fst t))%nat.
Proof. intros M l qs fb fs ff t ans live. exact (left_over M l fb fs ff qs t ans live). Qed.
Print Assumptions C105_leak_refuted.
Example C105_leak_not_vacuous : exists t live,
  rtree 4 9 (rowm 6) = Ret t /\ inner_nodes (fst t) = 1%nat /\
  session 4 9 99 9 (map Some (rowm 6)) [Within everywhere (-1)] = Ret (Some [[5; 3; 4; 1; 2; 0]%Z], live) /\
  length live = 7%nat.
Proof.
  eexists; eexists. split; [vm_compute; reflexivity |]. split; [vm_compute; reflexivity |].
  split; vm_compute; reflexivity.
Qed.

(** Finding: when the constructor raises AttributeError because a geometry has
    no bbox, nothing is given back: four blocks for each node made so far and
    one for each geometry before the offending one. *)
Theorem C105_raised_refuted : forall M pre post qs fb fs ff, (4 <= M)%nat -> (length pre < fb)%nat ->
  exists t live, rtree M fb pre = Ret t /\
    session M fb fs ff (map Some pre ++ None :: post) qs = Ret (None, live) /\
    length live = (4 * fst (fst t) + length pre)%nat /\ (1 <= fst (fst t))%nat.
Proof. intros M pre post qs fb fs ff. exact (raised_left M pre post fb fs ff qs). Qed.
Print Assumptions C105_raised_refuted.
Example C105_raised_not_vacuous : exists live,
  session 4 9 9 9 (map Some (rowm 5) ++ [None]) [] = Ret (None, live) /\ length live = 17%nat.
Proof. eexists. vm_compute. split; reflexivity. Qed.

(** Finding: dropping an index of 51 equal boxes frees a block twice, which
    ends the process. *)
Theorem C105_twice_refuted : exists l, length l = 51%nat /\ session 50 99 99 9 (map Some l) [] = Crash.
Proof. exists (repeat (mkB 0 0 1 1) 51). split; vm_compute; reflexivity. Qed.
Print Assumptions C105_twice_refuted.
