(** C108: searching an R-tree, whose boxes are kept in single precision. *)
From Coq Require Import List ZArith QArith Qabs Bool Lia.
From Flocq Require Import Core IEEE754.BinarySingleNaN.
From Verif Require Import Dbl_Model Dbl_Spec Dbl_Proofs Ftree_Model Ftree_Spec Ftree_Proofs.
Import ListNotations.
Open Scope Q_scope.

(** Any boxes of doubles, infinities and NaN included: the index is built, both
    searches answer, and only with indices of boxes given. *)
Theorem C108_always_answers : forall M l q maxr fb fs,
  (4 <= M)%nat -> (length l < fb)%nat -> (S M ^ length l <= fs)%nat ->
  exists t rw ro, build M fb l = Ret t /\ find_within fs t q maxr = Ret rw /\ find_overlapping fs t q maxr = Ret ro /\
    (forall i, In i rw \/ In i ro -> exists b, is_dbox l i b).
Proof. exact always_answers. Qed.
Print Assumptions C108_always_answers.
Example C108_always_answers_example :
  ask_overlapping 4 [mkD B754_nan B754_nan B754_nan B754_nan; mkD (B754_infinity true) (B754_infinity true) (B754_infinity false) (B754_infinity false); box10 0 0 10 10]
    (box10 1 1 20 20) = Ret [2; 1]%Z.
Proof. vm_compute; reflexivity. Qed.

(** search_overlapping is right about what it finds, whatever the number of
    boxes and however they are rounded: the boxes of doubles do overlap. *)
Theorem C108_overlapping_sound : forall M l q maxr fb fs,
  (4 <= M)%nat -> (length l < fb)%nat -> (S M ^ length l <= fs)%nat ->
  each number q -> Forall (each number) l ->
  exists t ro, build M fb l = Ret t /\ find_overlapping fs t q maxr = Ret ro /\
    forall i, In i ro -> exists b, is_dbox l i b /\ overlap q b.
Proof. exact overlapping_sound. Qed.
Print Assumptions C108_overlapping_sound.
Example C108_overlapping_sound_example :
  let l := [box10 0 0 13 17; box10 50000001 1 50000019 9; box10 7 7 9 9] in
  let q := box10 11 (-3) 50000007 50 in
  each number q /\ Forall (each number) l /\ ask_overlapping 4 l q = Ret [1; 0]%Z.
Proof.
  cbv zeta. split; [repeat split; vm_compute; reflexivity |]. split; [repeat constructor; vm_compute; reflexivity |].
  vm_compute; reflexivity.
Qed.

(** What search_within finds begins inside the query; it may stick out at the
    upper sides, by no more than rounding to 24 digits moves the two numbers. *)
Theorem C108_within_sound : forall M l q maxr fb fs,
  (4 <= M)%nat -> (length l < fb)%nat -> (S M ^ length l <= fs)%nat ->
  each (upto 127) q -> Forall (each (upto 127)) l ->
  exists t rw, build M fb l = Ret t /\ find_within fs t q maxr = Ret rw /\
    forall i, In i rw -> exists b, is_dbox l i b /\ begins_in q b /\
      barely_above (bx1 q) (bx1 b) /\ barely_above (by1 q) (by1 b).
Proof. exact within_sound. Qed.
Print Assumptions C108_within_sound.
Example C108_within_sound_example :
  each (upto 127) example_query /\ Forall (each (upto 127)) example_boxes /\
  ask_within 4 example_boxes example_query = Ret [1; 0]%Z.
Proof.
  split; [apply example_query_ok; lia |]. split; [apply example_boxes_ok; lia |]. vm_compute; reflexivity.
Qed.

(** With no more boxes than maxchildren (the trouble of larger trees is C05's),
    search_within finds every box that ends inside the query and begins inside
    it by more than the rounding. *)
Theorem C108_within_found_partial : forall M l q fb fs,
  (4 <= M)%nat -> (length l <= M)%nat -> (0 < fb)%nat -> (0 < fs)%nat ->
  each (upto 127) q -> Forall (each (upto 127)) l ->
  exists t rw, build M fb l = Ret t /\ find_within fs t q (-1) = Ret rw /\ NoDup rw /\
    forall i b, is_dbox l i b -> well_above (bx0 q) (bx0 b) -> well_above (by0 q) (by0 b) -> ends_in q b -> In i rw.
Proof. exact within_found. Qed.
Print Assumptions C108_within_found_partial.
Example C108_within_found_example :
  is_dbox example_boxes 1 (box10 50000004 1 50000019 9) /\
  well_above (bx0 example_query) (bx0 (box10 50000004 1 50000019 9)) /\
  well_above (by0 example_query) (by0 (box10 50000004 1 50000019 9)) /\
  ends_in example_query (box10 50000004 1 50000019 9).
Proof. repeat split; vm_compute; congruence || reflexivity. Qed.

(** ... and search_overlapping every box that overlaps by more than the rounding. *)
Theorem C108_overlapping_found_partial : forall M l q fb fs,
  (4 <= M)%nat -> (length l <= M)%nat -> (0 < fb)%nat -> (0 < fs)%nat ->
  each (upto 60) q -> Forall (each (upto 60)) l ->
  exists t ro, build M fb l = Ret t /\ find_overlapping fs t q (-1) = Ret ro /\ NoDup ro /\
    forall i b, is_dbox l i b -> overlap_well q b -> In i ro.
Proof. exact overlapping_found. Qed.
Print Assumptions C108_overlapping_found_partial.
Example C108_overlapping_found_example :
  is_dbox example_boxes 1 (box10 50000004 1 50000019 9) /\ overlap_well example_query (box10 50000004 1 50000019 9).
Proof. repeat split; vm_compute; congruence || reflexivity. Qed.

(** Whole numbers up to 2^24, or multiples of another power of two: nothing is
    lost by the rounding, and search_within is right about what it finds. *)
Theorem C108_whole_sound : forall M e l q maxr fb fs,
  (4 <= M)%nat -> (length l < fb)%nat -> (S M ^ length l <= fs)%nat ->
  (-70 <= e <= 30)%Z -> each (raster 24 e) q -> Forall (each (raster 24 e)) l ->
  exists t rw, build M fb l = Ret t /\ find_within fs t q maxr = Ret rw /\
    forall i, In i rw -> exists b, is_dbox l i b /\ begins_in q b /\ ends_in q b.
Proof. exact raster_sound. Qed.
Print Assumptions C108_whole_sound.
(** With no more boxes than maxchildren, both searches then find exactly what
    is to be found. *)
Theorem C108_whole_exact_partial : forall M e l q fb fs,
  (4 <= M)%nat -> (length l <= M)%nat -> (0 < fb)%nat -> (0 < fs)%nat ->
  (-70 <= e <= 30)%Z -> each (raster 24 e) q -> Forall (each (raster 24 e)) l ->
  exists t rw ro, build M fb l = Ret t /\ find_within fs t q (-1) = Ret rw /\ find_overlapping fs t q (-1) = Ret ro /\
    NoDup rw /\ NoDup ro /\
    (forall i, In i rw <-> exists b, is_dbox l i b /\ begins_in q b /\ ends_in q b) /\
    (forall i, In i ro <-> exists b, is_dbox l i b /\ overlap q b).
Proof. exact raster_exact. Qed.
Print Assumptions C108_whole_exact_partial.
Example C108_whole_example :
  each (raster 24 0) (box10 0 0 50000000 50000000) /\
  Forall (each (raster 24 0)) [box10 49999990 10 50000000 20; box10 49999990 10 50000010 20] /\
  ask_within 4 [box10 49999990 10 50000000 20; box10 49999990 10 50000010 20] (box10 0 0 50000000 50000000) = Ret [0]%Z.
Proof.
  split; [| split; [| vm_compute; reflexivity]].
  - repeat split; try reflexivity; [exists 0%Z | exists 0%Z | exists 5000000%Z | exists 5000000%Z]; split; vm_compute; congruence.
  - repeat constructor; try reflexivity;
      [exists 4999999%Z | exists 1%Z | exists 5000000%Z | exists 2%Z | exists 4999999%Z | exists 1%Z | exists 5000001%Z | exists 2%Z];
      split; vm_compute; congruence.
Qed.

(** The box of an index with no more boxes than maxchildren is the tight box
    of what was put in, but for the rounding. *)
Theorem C108_bbox_partial : forall M l fb, (4 <= M)%nat -> (length l <= M)%nat -> (0 < fb)%nat -> l <> [] ->
  Forall (each (upto 126)) l ->
  exists t b, build M fb l = Ret t /\ tree_bbox t = Ret b /\
    (forall c, In c l -> not_above (xmin b) (bx0 c) /\ not_above (ymin b) (by0 c) /\
                         not_below (xmax b) (bx1 c) /\ not_below (ymax b) (by1 c)) /\
    (exists c, In c l /\ close_to (bx0 c) (xmin b)) /\ (exists c, In c l /\ close_to (by0 c) (ymin b)) /\
    (exists c, In c l /\ close_to (bx1 c) (xmax b)) /\ (exists c, In c l /\ close_to (by1 c) (ymax b)).
Proof. exact bbox_unsplit. Qed.
Print Assumptions C108_bbox_partial.
Example C108_bbox_example : Forall (each (upto 126)) example_boxes /\ example_boxes <> [].
Proof. split; [apply example_boxes_ok; lia | discriminate]. Qed.

(** Finding: a geometry that lies 0.2 inside the lower side of the query, at
    a northing of 5000000 (as in UTM), is not found by search_within: floats have
    a spacing of 0.5 there, both sides are rounded to the same number, and the
    comparison is strict. *)
Theorem C108_inside_missed_refuted :
  exists q b, begins_in q b /\ ends_in q b /\ ask_within 50 [b] q = Ret [] /\
    value (by0 q) + (19 # 100) <= value (by0 b).
Proof.
  exists (box10 4000000 50000000 6000000 60000000), (box10 5000000 50000002 5000010 50001000).
  repeat split; vm_compute; congruence || reflexivity.
Qed.
Print Assumptions C108_inside_missed_refuted.
(** Finding: a geometry that reaches 0.2 beyond the upper side of the query, at
    a northing of 5000000, is reported by search_within. *)
Theorem C108_outside_found_refuted :
  exists q b, ~ ends_in q b /\ ask_within 50 [b] q = Ret [0%Z] /\ value (by1 q) + (19 # 100) <= value (by1 b).
Proof.
  exists (box10 4000000 40000000 6000000 50000000), (box10 5000000 45000000 5000010 50000002).
  split; [intros [_ H]; vm_compute in H; discriminate |]. split; vm_compute; congruence || reflexivity.
Qed.
Print Assumptions C108_outside_found_refuted.
(** Finding: a building of 10 by 0.4 at a northing of 5000000 has no height once
    rounded, and search_overlapping does not find it, whatever the query; the
    same goes for anything smaller than the spacing of floats (1 beyond 8388608;
    in degrees, 0.000015 beyond longitude 128). *)
Theorem C108_small_missed_refuted :
  exists q b, overlap q b /\ ask_overlapping 50 [b] q = Ret [] /\
    value (by0 q) + 1000 <= value (by0 b) /\ value (by0 b) + (39 # 100) <= value (by1 b) /\ value (by1 b) + 1000 <= value (by1 q).
Proof.
  exists (box10 4000000 40000000 6000000 60000000), (box10 5000000 49999998 5000100 50000002).
  repeat split; vm_compute; congruence || reflexivity.
Qed.
Print Assumptions C108_small_missed_refuted.
(** Finding: two boxes that overlap by a square of side 2^-76 are not seen to
    overlap, although both are exact in floats: the area underflows to 0. *)
Theorem C108_underflow_refuted :
  exists q b, overlap q b /\ ask_overlapping 50 [b] q = Ret [] /\
    each (fun a => exists n, value a == inject_Z n * Qpower 2 (-76)) q /\
    each (fun a => exists n, value a == inject_Z n * Qpower 2 (-76)) b.
Proof.
  exists (mkD zero zero (binary_normalize 53 1024 _ _ mode_NE 1 (-76) false) (binary_normalize 53 1024 _ _ mode_NE 1 (-76) false)),
    (mkD zero zero (binary_normalize 53 1024 _ _ mode_NE 3 (-76) false) (binary_normalize 53 1024 _ _ mode_NE 3 (-76) false)).
  split; [repeat split; vm_compute; reflexivity |]. split; [vm_compute; reflexivity |].
  split; repeat split; [exists 0%Z | exists 0%Z | exists 1%Z | exists 1%Z | exists 0%Z | exists 0%Z | exists 3%Z | exists 3%Z];
    vm_compute; reflexivity.
Qed.
Print Assumptions C108_underflow_refuted.
(** Finding: a box whose upper side is NaN is reported as overlapping, one whose
    lower side is NaN is not. *)
Theorem C108_nan_refuted :
  exists q a b, ask_overlapping 50 [mkD (bx0 a) (by0 a) B754_nan (by1 a); mkD B754_nan (by0 b) (bx1 b) (by1 b)] q = Ret [0%Z] /\
    overlap q a /\ overlap q b.
Proof.
  exists (box10 0 0 100 100), (box10 10 10 20 20), (box10 10 10 20 20).
  split; [vm_compute; reflexivity |]. split; repeat split; vm_compute; reflexivity.
Qed.
Print Assumptions C108_nan_refuted.
(** Finding: the box of an index does not contain the geometries in it: at a
    northing of 5000000 the upper side may lie 0.2 below that of the geometry. *)
Theorem C108_bbox_refuted :
  exists c t b, build 50 2 [c] = Ret t /\ tree_bbox t = Ret b /\ svalue (ymax b) + (19 # 100) <= value (by1 c).
Proof.
  exists (box10 5000000 50000000 5000010 50000002). eexists. eexists. split; [reflexivity |]. split; [reflexivity |].
  vm_compute. congruence.
Qed.
Print Assumptions C108_bbox_refuted.
