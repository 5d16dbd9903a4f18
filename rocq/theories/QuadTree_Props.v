(** Properties C01, C02 and C03: the QuadTree spatial index. *)
From Coq Require Import List ZArith Bool QArith Lia Permutation.
From Verif Require Import QuadTree_Model QuadTree_Spec QuadTree_Proofs
  QuadTree_Termination QuadTree_Order.
Import ListNotations.

(** C01. For every list of points, capacity and query box, a constructed
    QuadTree's search_within returns exactly the indices of the points
    strictly inside the box, each once.  [bb] is points.bbox(). *)
Theorem C01_quadtree_search_exact :
  forall (num : Type) (ltb eqb : num -> num -> bool) (mid : num -> num -> num),
  coordinate_laws ltb eqb mid ->
  forall (fuel : nat) (cap : Z) (bb : bbox num) (pts : list (num * num)) qt q,
  encloses ltb bb pts ->
  build ltb eqb mid fuel cap bb (numbers pts) = Ok qt ->
  NoDup (search_within ltb qt q) /\
  forall i, In i (search_within ltb qt q) <-> strictly_inside ltb pts q i.
Proof. exact @search_exact_any. Qed.
Print Assumptions C01_quadtree_search_exact.

(** C01, total form over the rationals: construction succeeds as well. *)
Theorem C01_quadtree_search_exact_rational :
  forall (cap : Z) (bb : bbox Q) (pts : list (Q * Q)),
  (2 <= cap)%Z -> encloses Qltb bb pts ->
  exists fuel0, forall fuel, (fuel0 <= fuel)%nat ->
  exists qt, Qbuild fuel cap bb (numbers pts) = Ok qt /\
  forall q, NoDup (Qsearch qt q) /\
            forall i, In i (Qsearch qt q) <-> strictly_inside Qltb pts q i.
Proof.
  intros cap bb pts Hcap Henc.
  destruct (build_terminates cap bb pts Hcap Henc) as (f&H).
  exists f. intros fuel Hf. destruct (H fuel Hf) as (qt&E). exists qt.
  split; [exact E|]. intros q. exact (search_exact_any _ _ _ Q_laws _ _ _ _ _ q Henc E).
Qed.
Print Assumptions C01_quadtree_search_exact_rational.

(** The rationals meet the laws; a tree of depth three with a duplicate. *)
Definition ex_pts : list (Q * Q) :=
  [(0, 0); (1, 1); (1, 1); (3, 1); (4, 4); (1, 3); (5#4, 5#4); (9#8, 9#8)]%Q.
Definition ex_bb : bbox Q := mkBbox 0%Q 0%Q 4%Q 4%Q.
Example C01_nonvacuous :
  coordinate_laws Qltb Qeq_bool Qmid /\ encloses Qltb ex_bb ex_pts /\
  exists qt, Qbuild 10 2 ex_bb (numbers ex_pts) = Ok qt /\
    Qsearch qt (mkBbox 0 0 2 2)%Q = [6; 7; 2; 1]%nat.
Proof.
  split; [exact Q_laws|]. split.
  - intros x y H. cbn in H.
    repeat (destruct H as [H|H]; [injection H as <- <-; vm_compute; auto|]).
    destruct H.
  - eexists. split; vm_compute; reflexivity.
Qed.

(** Finding: with IEEE doubles the midpoint of two adjacent numbers can equal
    the upper one, and inserting into an enclosing box then leaves a pointer
    to a freed leaf, whatever the recursion depth allowed. *)
Theorem C01_doubles_refuted :
  exists (bb : bbox dbl) (pts : list (dbl * dbl)),
    encloses dlt bb pts /\
    forall fuel, build dlt deq dmid (2 + fuel) 2 bb (numbers pts) = DanglingPointer.
Proof. exact (ex_intro _ close_box (ex_intro _ close_points
                (conj close_box_encloses close_points_dangle))). Qed.
Print Assumptions C01_doubles_refuted.

(** C02. Over the rationals construction terminates for every capacity of at
    least two; the length is the number of points, the box is the points'
    box. *)
Theorem C02_quadtree_terminates :
  forall (cap : Z) (bb : bbox Q) (pts : list (Q * Q)),
  (2 <= cap)%Z -> encloses Qltb bb pts ->
  exists fuel0, forall fuel, (fuel0 <= fuel)%nat ->
    exists qt, Qbuild fuel cap bb (numbers pts) = Ok qt.
Proof. exact build_terminates. Qed.
Print Assumptions C02_quadtree_terminates.

Theorem C02_quadtree_len_bbox :
  forall (num : Type) (ltb eqb : num -> num -> bool) (mid : num -> num -> num),
  coordinate_laws ltb eqb mid ->
  forall fuel cap bb (pts : list (num * num)) qt,
  encloses ltb bb pts ->
  build ltb eqb mid fuel cap bb (numbers pts) = Ok qt ->
  qt_len qt = length pts /\ qt_bbox qt = bb.
Proof. exact @build_observe. Qed.
Print Assumptions C02_quadtree_len_bbox.

(** No insertion writes past a leaf's array: between calls every leaf holds
    fewer positions than its capacity, so the next one has a free slot. *)
Theorem C02_quadtree_leaves_not_full :
  forall (num : Type) (ltb eqb : num -> num -> bool) (mid : num -> num -> num),
  coordinate_laws ltb eqb mid ->
  forall fuel cap bb (pts : list (num * num)) qt,
  encloses ltb bb pts -> (2 <= cap)%Z ->
  build ltb eqb mid fuel cap bb (numbers pts) = Ok qt ->
  leaves_below cap (root qt).
Proof. exact @build_leaves. Qed.
Print Assumptions C02_quadtree_leaves_not_full.

(** Finding: with a capacity of one or less and at least one point the
    construction never returns. *)
Theorem C02_quadtree_low_capacity_refuted :
  forall (num : Type) (ltb eqb : num -> num -> bool) (mid : num -> num -> num),
  coordinate_laws ltb eqb mid ->
  forall (fuel : nat) (cap : Z) (bb : bbox num) (pts : list (num * num)),
  (cap <= 1)%Z -> pts <> [] ->
  build ltb eqb mid fuel cap bb (numbers pts) = OutOfFuel.
Proof. intros num ltb eqb mid _. exact (build_low_cap ltb eqb mid). Qed.
Print Assumptions C02_quadtree_low_capacity_refuted.

(** A NaN coordinate: construction never succeeds, and if it raises, it names
    the first NaN point. *)
Theorem C02_quadtree_nan :
  forall (num : Type) (ltb eqb : num -> num -> bool) (mid : num -> num -> num)
    fuel cap bb (pre : list (num * num)) x y rest,
  x = PNaN \/ y = PNaN ->
  match build ltb eqb mid fuel cap bb (numbers pre ++ (x, y) :: rest) with
  | Ok _ => False
  | ValueErrorNaN k => k = length pre
  | _ => True
  end.
Proof.
  intros num ltb eqb mid fuel cap bb pre x y rest H.
  exact (build_loop_nan ltb eqb mid fuel cap 0 pre rest (Leaf bb []) [] x y H).
Qed.
Print Assumptions C02_quadtree_nan.

(** The explicit stack loop of the C code returns and finds what the recursive
    search used above finds, in the same order. *)
Theorem C02_search_loop_terminates :
  forall (num : Type) (ltb : num -> num -> bool) (t : tree num) (q : bbox num),
  exists fuel0, forall fuel, (fuel0 <= fuel)%nat ->
  search_loop ltb fuel q ([t], []) = Some (qt_search_within ltb t q).
Proof.
  intros num ltb t q. exists (stack_size [t]). intros fuel H.
  rewrite (search_loop_correct ltb q fuel [t] [] H).
  unfold stack_out. cbn. now rewrite app_nil_r.
Qed.
Print Assumptions C02_search_loop_terminates.

Example C02_nonvacuous :
  (2 <= 3)%Z /\ encloses Qltb ex_bb ex_pts /\
  exists qt, Qbuild 10 3 ex_bb (numbers ex_pts) = Ok qt /\ qt_len qt = 8%nat.
Proof.
  split; [lia|]. split; [exact (proj1 (proj2 C01_nonvacuous))|].
  eexists. split; vm_compute; reflexivity.
Qed.

(** C03. Capacity is unobservable; the insertion order is unobservable up to
    the renumbering of the points. *)
Theorem C03_quadtree_capacity_independent :
  forall (num : Type) (ltb eqb : num -> num -> bool) (mid : num -> num -> num),
  coordinate_laws ltb eqb mid ->
  forall fuel fuel' cap cap' bb (pts : list (num * num)) qt qt' q,
  encloses ltb bb pts ->
  build ltb eqb mid fuel cap bb (numbers pts) = Ok qt ->
  build ltb eqb mid fuel' cap' bb (numbers pts) = Ok qt' ->
  Permutation (search_within ltb qt q) (search_within ltb qt' q).
Proof. exact @search_cap_indep. Qed.
Print Assumptions C03_quadtree_capacity_independent.

Theorem C03_quadtree_order_independent :
  forall (num : Type) (ltb eqb : num -> num -> bool) (mid : num -> num -> num),
  coordinate_laws ltb eqb mid ->
  forall fuel fuel' cap cap' bb (pts pts' : list (num * num)) qt qt' q,
  encloses ltb bb pts -> Permutation pts pts' ->
  build ltb eqb mid fuel cap bb (numbers pts) = Ok qt ->
  build ltb eqb mid fuel' cap' bb (numbers pts') = Ok qt' ->
  Permutation (map (nth_error pts) (search_within ltb qt q))
              (map (nth_error pts') (search_within ltb qt' q)).
Proof. exact @search_order_indep. Qed.
Print Assumptions C03_quadtree_order_independent.

Example C03_nonvacuous :
  exists qt qt',
    Qbuild 10 2 ex_bb (numbers ex_pts) = Ok qt /\
    Qbuild 10 5 ex_bb (numbers (rev ex_pts)) = Ok qt' /\
    root qt <> root qt' /\ Permutation ex_pts (rev ex_pts) /\
    (length (Qsearch qt (mkBbox 0 0 2 2)%Q) = 4)%nat.
Proof.
  do 2 eexists. split; [vm_compute; reflexivity|].
  split; [vm_compute; reflexivity|]. split; [vm_compute; discriminate|].
  split; [apply Permutation_rev|vm_compute; reflexivity].
Qed.
