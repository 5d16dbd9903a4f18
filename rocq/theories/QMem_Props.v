(** Property C102: the memory of a QuadTree. *)
From Coq Require Import List ZArith Bool QArith Lia.
From Verif Require Import QuadTree_Model QuadTree_Spec QuadTree_Proofs QuadTree_Termination QuadTree_Order
  QMem_Model QMem_Spec QMem_Build.
Import ListNotations.

(** C102. Built, searched any number of times and dropped, a QuadTree never
    touches memory that is not its own or freed before ([Done], not [Bad]),
    answers what the search of C01 answers, and at the end nothing is
    allocated except two blocks for each search made. *)
Theorem C102_quadtree_memory_partial :
  forall (num : Type) (ltb eqb : num -> num -> bool) (mid : num -> num -> num) (cap : Z),
  coordinate_laws ltb eqb mid ->
  forall (fuel : nat) (bb : bbox num) (pts : list (num * num)) qt,
  encloses ltb bb pts ->
  build ltb eqb mid fuel cap bb (numbers pts) = Ok qt ->
  exists d0, forall d, (d0 <= d)%nat -> forall qs, exists h,
    life ltb eqb mid cap fuel d bb (numbers pts) qs empty = Done (inr (map (search_within ltb qt) qs)) h /\
    length (live h) = (2 * length qs)%nat.
Proof. exact @life_sim. Qed.
Print Assumptions C102_quadtree_memory_partial.

(** C102, total form over the rationals: for every capacity from two on and
    every list of points; without searches everything is freed. *)
Theorem C102_quadtree_memory_rational :
  forall (cap : Z) (bb : bbox Q) (pts : list (Q * Q)),
  (2 <= cap)%Z -> encloses Qltb bb pts ->
  exists fuel d0, forall d, (d0 <= d)%nat -> exists h,
    life Qltb Qeq_bool Qmid cap fuel d bb (numbers pts) [] empty = Done (inr []) h /\ live h = [].
Proof.
  intros cap bb pts C2 EN. destruct (build_terminates cap bb pts C2 EN) as (f & K). destruct (K f (le_n f)) as (qt & E).
  exists f. destruct (life_sim _ _ _ cap Q_laws f bb pts qt EN E) as (d0 & LS). exists d0. intros d Hd.
  destruct (LS d Hd []) as (h & R & LE). exists h. split; [exact R|]. now apply length_zero_iff_nil.
Qed.
Print Assumptions C102_quadtree_memory_rational.

(** C102, the exception: when a coordinate is NaN, all that was built before
    is freed. *)
Theorem C102_quadtree_nan_memory :
  forall (num : Type) (ltb eqb : num -> num -> bool) (mid : num -> num -> num) (cap : Z),
  coordinate_laws ltb eqb mid ->
  forall (fuel : nat) (bb : bbox num) (pre : list (num * num)) qt x y rest,
  x = PNaN \/ y = PNaN -> encloses ltb bb pre ->
  build ltb eqb mid fuel cap bb (numbers pre) = Ok qt ->
  exists d0, forall d, (d0 <= d)%nat -> forall qs, exists h,
    life ltb eqb mid cap fuel d bb (numbers pre ++ (x, y) :: rest) qs empty = Done (inl (length pre)) h /\
    live h = [].
Proof.
  intros num ltb eqb mid cap L fuel bb pre qt x y rest NA EN E.
  exact (life_nan ltb eqb mid cap L fuel bb pre qt x y rest NA EN E).
Qed.
Print Assumptions C102_quadtree_nan_memory.

Definition mem_pts : list (Q * Q) :=
  [(0, 0); (1, 1); (1, 1); (3, 1); (4, 4); (1, 3); (5#4, 5#4); (9#8, 9#8)]%Q.
Definition mem_bb : bbox Q := mkBbox 0%Q 0%Q 4%Q 4%Q.
(** A tree of depth three with a duplicate, searched twice. *)
Example C102_nonvacuous :
  coordinate_laws Qltb Qeq_bool Qmid /\ encloses Qltb mem_bb mem_pts /\
  (exists qt, Qbuild 10 2 mem_bb (numbers mem_pts) = Ok qt) /\
  match life Qltb Qeq_bool Qmid 2 10 40 mem_bb (numbers mem_pts) [mkBbox 0 0 2 2; mkBbox 2 0 4 4]%Q empty with
  | Done r h => r = inr [[6; 7; 2; 1]; [3]]%nat /\ length (live h) = 4%nat
  | _ => False
  end.
Proof.
  split; [exact Q_laws|]. split.
  - intros x y H. cbn in H.
    repeat (destruct H as [H|H]; [injection H as <- <-; vm_compute; auto|]).
    destruct H.
  - split; [eexists; vm_compute; reflexivity|]. vm_compute. auto.
Qed.

(** Finding: the pool of results of a search is never destroyed
    (quadtree.pyx:119-131), so the memory lost grows without bound with the
    number of searches and dropping the tree does not give it back. *)
Theorem C102_search_memory_refuted :
  forall n : nat, exists (bb : bbox Q) (pts : list (Q * Q)) (qs : list (bbox Q)) fuel d r h,
    encloses Qltb bb pts /\
    life Qltb Qeq_bool Qmid 2 fuel d bb (numbers pts) qs empty = Done r h /\ (n <= length (live h))%nat.
Proof.
  intros n. destruct C102_nonvacuous as (L & EN & (qt & E) & _).
  destruct (life_sim _ _ _ 2%Z L 10 mem_bb mem_pts qt EN E) as (d0 & K).
  destruct (K d0 (le_n d0) (repeat mem_bb n)) as (h & R & LE).
  exists mem_bb, mem_pts, (repeat mem_bb n), 10%nat, d0, (inr (map (search_within Qltb qt) (repeat mem_bb n))), h.
  split; [exact EN|]. split; [exact R|]. rewrite LE, repeat_length. lia.
Qed.
Print Assumptions C102_search_memory_refuted.

(** Finding: with IEEE doubles (the points of C01_doubles_refuted) the memory
    error is real: a freed leaf is used again, whatever the depth allowed. *)
Theorem C102_doubles_refuted :
  exists (bb : bbox dbl) (pts : list (dbl * dbl)), encloses dlt bb pts /\
  forall fuel d, life dlt deq dmid 2 (5 + fuel) (9 + d) bb (numbers pts) [] empty = Bad.
Proof.
  exists close_box, close_points. split; [exact close_box_encloses|]. intros fuel d. vm_compute. reflexivity.
Qed.
Print Assumptions C102_doubles_refuted.
