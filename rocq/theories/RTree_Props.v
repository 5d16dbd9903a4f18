(** Property theorems of the R-tree. *)
From Coq Require Import List ZArith QArith Lia.
From Verif Require Import RTree_Model RTree_Spec RTree_Unsplit RTree_Covering.
Import ListNotations.

(** Boxes with integer corners; a row of unit boxes; sixteen scattered ones. *)
Definition B (a b c d : Z) : bb := mkB (inject_Z a) (inject_Z b) (inject_Z c) (inject_Z d).
Definition row (n : nat) : list bb := map (fun i => B (2 * Z.of_nat i) 0 (2 * Z.of_nat i + 1) 1) (seq 0 n).
Definition scattered : list bb := map (fun p => B (fst p) (snd p) (fst p + 1) (snd p + 1))
  [(34, 64); (94, 73); (16, 33); (31, 68); (75, 89); (1, 78); (87, 76); (87, 59); (6, 5); (75, 65);
   (22, 53); (9, 98); (0, 29); (6, 5); (11, 17); (14, 72)]%Z.
Definition ask_overlapping (M : nat) (l : list bb) (q : bb) (maxr : Z) : out (list Z) :=
  do t <- rtree M (S (length l)) l; search_overlapping 1000 (fst t) q maxr [snd t] [].
Definition ask_within (M : nat) (l : list bb) (q : bb) (maxr : Z) : out (list Z) :=
  do t <- rtree M (S (length l)) l; search_within 1000 (fst t) q maxr [snd t] [].

(** C04.  Whatever the boxes and the splits they caused, both searches finish,
    and every index returned is the index of a box that lies in the query (that
    shares inner points with it). *)
Theorem C04_search_sound : forall M l q maxr fb fs,
  (4 <= M)%nat -> (length l < fb)%nat -> (S M ^ length l <= fs)%nat ->
  exists t, rtree M fb l = Ret t /\
    (exists rw, search_within fs (fst t) q maxr [snd t] [] = Ret rw /\
       forall i, In i rw -> exists b, is_box l i b /\ lies_in q b) /\
    (exists ro, search_overlapping fs (fst t) q maxr [snd t] [] = Ret ro /\
       forall i, In i ro -> exists b, is_box l i b /\ interiors_meet q b).
Proof. exact sound. Qed.
Print Assumptions C04_search_sound.
Example C04_not_vacuous : ask_within 4 (row 12) (B 3 (-1) 16 2) (-1) = Ret [2; 6; 5; 3; 7; 4]%Z.
Proof. vm_compute; reflexivity. Qed.

(** C05.  While there are no more boxes than maxchildren, the searches miss
    nothing and repeat nothing.  "Within" leaves out boxes that touch the lower
    or left edge of the query. *)
Theorem C05_complete_partial : forall M l q fb fs,
  (4 <= M)%nat -> (length l <= M)%nat -> (0 < fb)%nat -> (0 < fs)%nat ->
  exists t, rtree M fb l = Ret t /\
    (exists rw, search_within fs (fst t) q (-1) [snd t] [] = Ret rw /\ NoDup rw /\
       forall i, In i rw <-> exists b, is_box l i b /\
          (xmin q < xmin b /\ xmax b <= xmax q /\ ymin q < ymin b /\ ymax b <= ymax q)%Q) /\
    (exists ro, search_overlapping fs (fst t) q (-1) [snd t] [] = Ret ro /\ NoDup ro /\
       forall i, In i ro <-> exists b, is_box l i b /\ interiors_meet q b).
Proof. exact complete_unsplit. Qed.
Print Assumptions C05_complete_partial.
Example C05_complete_partial_not_vacuous :
  ask_overlapping 4 (row 4) (B 1 0 5 1) (-1) = Ret [2; 1]%Z /\ ask_within 4 (row 4) (B 1 (-1) 5 1) (-1) = Ret [2; 1]%Z.
Proof. vm_compute; split; reflexivity. Qed.

(** C05, after splits.  Let no box have its range of x or of y in that of another, and let there be at most
    3 maxchildren - 2 boxes (148 by default).  Then no search returns an index twice, and a
    query that meets every box misses nothing: search_overlapping returns all, search_within all that
    are within. *)
Theorem C05_staggered_partial : forall M l q fb fs,
  (4 <= M)%nat -> staggered l -> (length l <= 3 * M - 2)%nat -> (2 <= fb)%nat -> (M < fs)%nat ->
  exists t rw ro, rtree M fb l = Ret t /\
    search_within fs (fst t) q (-1) [snd t] [] = Ret rw /\ search_overlapping fs (fst t) q (-1) [snd t] [] = Ret ro /\
    NoDup rw /\ NoDup ro /\
    ((forall b, In b l -> interiors_meet q b) ->
      (forall i, In i rw <-> exists b, is_box l i b /\
         (xmin q < xmin b /\ xmax b <= xmax q /\ ymin q < ymin b /\ ymax b <= ymax q)%Q) /\
      (forall i, In i ro <-> exists b, is_box l i b)).
Proof. exact complete_meeting. Qed.
Print Assumptions C05_staggered_partial.
(** Ten boxes and maxchildren 4: four leaves under a root. *)
Definition apart (a b : Z) (n : nat) : list bb :=
  map (fun k => let x := ((a * Z.of_nat k) mod 101)%Z in let y := ((b * Z.of_nat k) mod 101)%Z in B x y (x + 1) (y + 1))
      (seq 1 n).
Example C05_staggered_not_vacuous :
  staggered (apart 10 54 10) /\
  ask_overlapping 4 (apart 10 54 10) (B (-9) (-9) 999 999) (-1) = Ret [6; 8; 7; 9; 4; 2; 0; 3; 5; 1]%Z.
Proof. split; [apply staggeredb_ok; vm_compute; reflexivity | vm_compute; reflexivity]. Qed.
(** Finding: with two boxes more the root is split; four boxes are lost and the other eight are
    returned twice, because the new root gets one half of the old one as both of its children. *)
Theorem C05_staggered_root_refuted :
  staggered (apart 10 54 12) /\
  ask_overlapping 4 (apart 10 54 12) (B (-9) (-9) 999 999) (-1) =
    Ret [0; 10; 2; 4; 11; 3; 5; 1; 0; 10; 2; 4; 11; 3; 5; 1]%Z.
Proof. split; [apply staggeredb_ok; vm_compute; reflexivity | vm_compute; reflexivity]. Qed.
Print Assumptions C05_staggered_root_refuted.

(** After splits most boxes are still found by a query with the box itself: here all but
    the eighth of twelve. *)
Example C05_split_example :
  map (fun k => ask_overlapping 5 (row 12) (B (2 * k) 0 (2 * k + 1) 1) (-1)) [0; 1; 2; 3; 4; 5; 6; 7; 8; 9; 10; 11]%Z =
  [Ret [0]; Ret [1]; Ret [2]; Ret [3]; Ret [4]; Ret [5]; Ret [6]; Ret []; Ret [8]; Ret [9]; Ret [10]; Ret [11]]%Z.
Proof. vm_compute; reflexivity. Qed.

(** The same with three levels of nodes: three of thirty are missed. *)
Example C05_levels_example :
  map (fun k => ask_overlapping 4 (row 30) (B (2 * k) 0 (2 * k + 1) 1) (-1)) (map Z.of_nat (seq 0 30)) =
  map (fun k => if existsb (Z.eqb k) [7; 15; 23]%Z then Ret [] else Ret [k]) (map Z.of_nat (seq 0 30)).
Proof. vm_compute; reflexivity. Qed.

(** The full statement fails.  Five boxes in a row: the query with the fourth
    box itself finds nothing, because a box moved to a node at the end of a
    split does not enlarge the box of that node. *)
Theorem C05_moved_box_missed_refuted :
  exists l q b, is_box l 3 b /\ interiors_meet q b /\ length l = 5%nat /\ ask_overlapping 4 l q (-1) = Ret [].
Proof.
  exists (row 5), (B 6 0 7 1), (B 6 0 7 1). split; [split; [lia | reflexivity] |]. split.
  - exists (13 # 2)%Q, (1 # 2)%Q. repeat split.
  - split; vm_compute; reflexivity.
Qed.
Print Assumptions C05_moved_box_missed_refuted.
(** It also happens with the default of 50 children. *)
Theorem C05_default_maxchildren_refuted :
  exists l q b, is_box l 49 b /\ interiors_meet q b /\ length l = 51%nat /\ ask_overlapping 50 l q (-1) = Ret [].
Proof.
  exists (rev (row 51)), (B 2 0 3 1), (B 2 0 3 1). split; [split; [lia | vm_compute; reflexivity] |]. split.
  - exists (5 # 2)%Q, (1 # 2)%Q. repeat split.
  - split; vm_compute; reflexivity.
Qed.
Print Assumptions C05_default_maxchildren_refuted.
(** Five equal boxes: one is lost altogether and another is returned twice. *)
Theorem C05_equal_boxes_refuted :
  ask_overlapping 4 (repeat (B 0 0 1 1) 5) (B (-9) (-9) 9 9) (-1) = Ret [3; 0; 1; 2; 0]%Z.
Proof. vm_compute; reflexivity. Qed.
Print Assumptions C05_equal_boxes_refuted.
(** Sixteen scattered boxes: after the root is split, only six can be found. *)
Theorem C05_root_split_refuted :
  exists r, ask_overlapping 4 scattered (B (-9) (-9) 999 999) (-1) = Ret r /\ length r = 6%nat.
Proof. eexists; split; vm_compute; reflexivity. Qed.
Print Assumptions C05_root_split_refuted.
(** A point has no area: it is never found by search_overlapping; a box is not
    within a query equal to it. *)
Theorem C05_point_refuted :
  boxes_meet (B (-9) (-9) 9 9) (B 1 1 1 1) /\ ask_overlapping 50 [B 1 1 1 1] (B (-9) (-9) 9 9) (-1) = Ret [].
Proof.
  split; [exists 1%Q, 1%Q; repeat split; vm_compute; discriminate | vm_compute; reflexivity].
Qed.
Print Assumptions C05_point_refuted.
Theorem C05_own_box_refuted :
  lies_in (B 0 0 1 1) (B 0 0 1 1) /\ ask_within 50 [B 0 0 1 1] (B 0 0 1 1) (-1) = Ret [].
Proof. split; [repeat split; vm_compute; discriminate | vm_compute; reflexivity]. Qed.
Print Assumptions C05_own_box_refuted.

(** C59.  Building an index for any list of boxes, and asking it anything,
    finishes without a wild pointer, an overrun array or an exit of the process,
    if maxchildren is at least 4. *)
Theorem C59_always_answers : forall M l q maxr fb fs,
  (4 <= M)%nat -> (length l < fb)%nat -> (S M ^ length l <= fs)%nat ->
  exists t rw ro, rtree M fb l = Ret t /\
    search_within fs (fst t) q maxr [snd t] [] = Ret rw /\
    search_overlapping fs (fst t) q maxr [snd t] [] = Ret ro.
Proof.
  intros M l q maxr fb fs H1 H2 H3.
  destruct (sound M l q maxr fb fs H1 H2 H3) as (t & Et & (rw & Ew & _) & (ro & Eo & _)).
  exists t, rw, ro. auto.
Qed.
Print Assumptions C59_always_answers.
Example C59_not_vacuous : exists r, ask_within 5 (row 40) (B (-9) (-9) 999 9) (-1) = Ret r /\ length r = 40%nat.
Proof. eexists; split; vm_compute; reflexivity. Qed.
(** With a smaller maxchildren the process is ended. *)
Theorem C59_small_maxchildren_refuted : forall fuel l, rtree 3 fuel l = Crash.
Proof. reflexivity. Qed.
Print Assumptions C59_small_maxchildren_refuted.

(** C60.  max_results: 0 gives nothing, but other limits are overrun, and
    search_overlapping ignores them. *)
Theorem C60_zero_partial : forall fuel h q r, (0 < fuel)%nat ->
  search_within fuel h q 0 [r] [] = Ret [] /\ search_overlapping fuel h q 0 [r] [] = Ret [].
Proof. intros [| fuel] h q r H; [lia |]. split; reflexivity. Qed.
Print Assumptions C60_zero_partial.
Theorem C60_limit_refuted :
  ask_within 4 (row 4) (B (-9) (-9) 99 9) 1 = Ret [3; 2; 1; 0]%Z /\
  ask_overlapping 4 (row 4) (B (-9) (-9) 99 9) 1 = Ret [3; 2; 1; 0]%Z.
Proof. split; vm_compute; reflexivity. Qed.
Print Assumptions C60_limit_refuted.

(** C61.  Dropping an index with no more boxes than maxchildren frees no block
    twice. *)
Theorem C61_freed_once_partial : forall M l fb ff, (4 <= M)%nat -> (length l <= M)%nat -> (0 < fb)%nat -> (0 < ff)%nat ->
  exists t r, rtree M fb l = Ret t /\ rt_free ff (fst t) (snd t) = Ret r /\ NoDup r.
Proof.
  intros M l fb ff HM Hl Hb Hf. destruct (rtree_one M fb l HM Hb Hl) as (h & E & O).
  destruct (rt_free_one ff h l Hf O) as (r & Er & N). exists (h, 0%nat), r. auto.
Qed.
Print Assumptions C61_freed_once_partial.
Example C61_not_vacuous :
  (do t <- rtree 4 9 (row 3); rt_free 9 (fst t) (snd t)) = Ret [inl 0%Z; inl 1%Z; inl 2%Z; inr 0%nat].
Proof. vm_compute; reflexivity. Qed.
(** The same after splits, for at most 3 maxchildren - 2 boxes none of which has a range in that of
    another; and the box of every geometry is freed. *)
Theorem C61_staggered_partial : forall M l fb ff,
  (4 <= M)%nat -> staggered l -> (length l <= 3 * M - 2)%nat -> (2 <= fb)%nat -> (2 <= ff)%nat ->
  exists t r, rtree M fb l = Ret t /\ rt_free ff (fst t) (snd t) = Ret r /\ NoDup r /\
    forall i, In (inl i) r <-> exists b, is_box l i b.
Proof. exact freed_once. Qed.
Print Assumptions C61_staggered_partial.
Example C61_staggered_not_vacuous :
  exists r, (do t <- rtree 4 9 (apart 10 54 10); rt_free 9 (fst t) (snd t)) = Ret r /\ length r = 14%nat.
Proof. eexists; split; vm_compute; reflexivity. Qed.
(** Fifty-one equal boxes, and the box of index 0 is freed twice. *)
Theorem C61_freed_twice_refuted :
  exists r, (do t <- rtree 50 99 (repeat (B 0 0 1 1) 51); rt_free 9 (fst t) (snd t)) = Ret r /\
            length (filter (fun x => match x with inl 0%Z => true | _ => false end) r) = 2%nat.
Proof. eexists; split; vm_compute; reflexivity. Qed.
Print Assumptions C61_freed_twice_refuted.

(** C62.  The bbox property of an index is the tight box of the boxes put into
    it, while there are no more of them than maxchildren ... *)
Theorem C62_bbox_partial : forall M l fb, (4 <= M)%nat -> (length l <= M)%nat -> (0 < fb)%nat -> l <> [] ->
  Forall in_range l ->
  exists t b, rtree M fb l = Ret t /\ tree_bbox t = Ret b /\ (forall c, In c l -> lies_in b c) /\
    (exists c, In c l /\ xmin b = xmin c) /\ (exists c, In c l /\ ymin b = ymin c) /\
    (exists c, In c l /\ xmax b = xmax c) /\ (exists c, In c l /\ ymax b = ymax c).
Proof. exact bbox_unsplit. Qed.
Print Assumptions C62_bbox_partial.
Example C62_not_vacuous : Forall in_range (row 3) /\ (do t <- rtree 4 9 (row 3); tree_bbox t) = Ret (B 0 0 5 1).
Proof. split; [repeat constructor | vm_compute; reflexivity]. Qed.
(** ... and covers nothing just after the root has been split. *)
Theorem C62_bbox_refuted :
  exists t, rtree 4 9 (row 5) = Ret t /\ tree_bbox t = Ret nobox.
Proof. eexists; split; vm_compute; reflexivity. Qed.
Print Assumptions C62_bbox_refuted.
