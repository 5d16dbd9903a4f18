(** C28, C29: intersections of segments, lines and polygons in the plane. *)
From Coq Require Import List ZArith QArith Bool Arith SpecFloat.
From Verif Require Import Geom_Model Geom_Spec Inter_Model Inter_Spec Inter_Proofs Inter_Sweep2 Inter_Complete2 Inter_Examples.
Import ListNotations.
Open Scope Q_scope.

(** ** C28 two segments *)
Theorem C28_sound : forall e f p, interx e f = Some p -> ~ parallel e f /\ on_seg' e p /\ on_seg' f p.
Proof. exact interx_some. Qed.
Print Assumptions C28_sound.
Theorem C28_complete_partial : forall e f p, ~ parallel e f -> on_seg' e p -> on_seg' f p -> exists q, interx e f = Some q /\ same q p.
Proof. exact interx_complete. Qed.
Print Assumptions C28_complete_partial.
Theorem C28_none : forall e f, interx e f = None <-> parallel e f \/ ~ exists p, on_seg' e p /\ on_seg' f p.
Proof. exact interx_none. Qed.
Print Assumptions C28_none.
Theorem C28_unique : forall e f p q, ~ parallel e f -> on_seg e p -> on_seg f p -> on_seg e q -> on_seg f q -> same p q.
Proof. exact interx_unique. Qed.
Print Assumptions C28_unique.
Theorem C28_symmetric : forall e f p, interx e f = Some p -> exists q, interx f e = Some q /\ same q p.
Proof. exact interx_sym. Qed.
Print Assumptions C28_symmetric.
Example C28_example : exists p, interx ((0, 0), (2, 2)) ((0, 2), (2, 0)) = Some p /\ same p (1, 1).
Proof. exact seg_ok. Qed.
(** A shared point that is the first end of a segment is not found. *)
Theorem C28_first_end_refuted : exists e f p, ~ parallel e f /\ on_seg e p /\ on_seg f p /\ interx e f = None.
Proof. exact start_vertex. Qed.
Print Assumptions C28_first_end_refuted.
Theorem C28_overlap_refuted : exists e f, (exists p q, ~ same p q /\ on_seg e p /\ on_seg f p /\ on_seg e q /\ on_seg f q) /\ interx e f = None.
Proof. exact overlapping. Qed.
Print Assumptions C28_overlap_refuted.

(** ** C29 lines and polygons *)
Theorem C29_intersections_partial : forall a ra b rb keep,
  (forall p, In p (geom_intersections a ra b rb keep) -> exists e f, edge_of a ra e /\ edge_of b rb f /\ ~ parallel e f /\ on_seg e p /\ on_seg f p) /\
  (forall e f p, edge_of a ra e -> edge_of b rb f -> ~ parallel e f -> on_seg' e p -> on_seg' f p ->
     exists q, In q (geom_intersections a ra b rb keep) /\ same q p) /\
  (keep = false -> forall i j p q, nth_error (geom_intersections a ra b rb keep) i = Some p ->
     nth_error (geom_intersections a ra b rb keep) j = Some q -> same p q -> i = j).
Proof. exact geom_intersections_spec. Qed.
Print Assumptions C29_intersections_partial.
Theorem C29_intersections_symmetric : forall a ra b rb p, In p (all_intersections a ra b rb) ->
  exists q, In q (all_intersections b rb a ra) /\ same q p.
Proof. exact all_intersections_sym. Qed.
Print Assumptions C29_intersections_symmetric.
Example C29_intersections_example : all_intersections tent false bar false <> [] /\
  length (geom_intersections tent true bar false false) = 2%nat.
Proof. split; [discriminate|reflexivity]. Qed.
Theorem C29_intersections_first_vertex_refuted : exists a b e f p, edge_of a false e /\ edge_of b false f /\ ~ parallel e f /\
  on_seg e p /\ on_seg f p /\ all_intersections a false b false = [].
Proof. exact missed_vertex. Qed.
Print Assumptions C29_intersections_first_vertex_refuted.
(** Without the ring flag ([Line.to_polygon]) the closing edge is not looked at. *)
Theorem C29_closing_edge_refuted : exists poly b, all_intersections poly true b false <> [] /\ all_intersections poly false b false = [] /\
  forall fuel, (20 < fuel)%nat -> intersects fuel poly true b false = Ret true /\ intersects fuel poly false b false = Ret false.
Proof. exact open_polygon. Qed.
Print Assumptions C29_closing_edge_refuted.

Theorem C29_boxes : forall xa ya xb yb xc yc xd yd, xa <= xb -> ya <= yb -> xc <= xd -> yc <= yd ->
  (bboxes_overlap (xa, ya, xb, yb) (xc, yc, xd, yd) = true <->
   exists p, covers xa ya xb yb p /\ covers xc yc xd yd p).
Proof. exact bboxes_overlap_spec. Qed.
Print Assumptions C29_boxes.
Example C29_boxes_example : bboxes_overlap (0, 0, 2, 2) (2, 1, 3, 3) = true /\ bboxes_overlap (0, 0, 1, 1) (2, 0, 3, 1) = false.
Proof. split; reflexivity. Qed.
(** In C floats a box of side 2^-100 does not overlap itself. *)
Theorem C29_boxes_float_refuted : exists b, let '(x0, y0, x1, y1) := b in
  SFltb x0 x1 = true /\ SFltb y0 y1 = true /\ bboxes_overlap_float b b = false.
Proof. exact float_box. Qed.
Print Assumptions C29_boxes_float_refuted.

(** True is only answered if two edges meet. *)
Theorem C29_intersects_sound : forall fuel a ra b rb, geom_intersects fuel a ra b rb = Ret true ->
  exists e f, edge_of a ra e /\ edge_of b rb f /\ meet e f.
Proof. exact geom_sound. Qed.
Print Assumptions C29_intersects_sound.
Theorem C29_intersects_no_error : forall fuel a ra b rb, geom_intersects fuel a ra b rb <> Raise.
Proof. exact geom_no_raise. Qed.
Print Assumptions C29_intersects_no_error.
(** It answers if no edge is repeated. *)
Theorem C29_intersects_answers_partial : forall a ra b rb, no_repeat a ra -> no_repeat b rb ->
  exists w, forall fuel, (2 * (length a + length b) + 1 < fuel)%nat -> geom_intersects fuel a ra b rb = Ret w.
Proof. exact geom_answers. Qed.
Print Assumptions C29_intersects_answers_partial.
Theorem C29_intersects_endless_refuted : exists a b, forall fuel, geom_intersects fuel a false b false = Loop.
Proof. exact (ex_intro _ zigzag (ex_intro _ short endless)). Qed.
Print Assumptions C29_intersects_endless_refuted.
(** In general position the answer is exact. *)
Theorem C29_intersects_partial : forall a ra b rb, simple_path a ra -> simple_path b rb -> proper a ra b rb ->
  exists w, (forall fuel, (2 * (length a + length b) + 1 < fuel)%nat -> geom_intersects fuel a ra b rb = Ret w) /\
  (w = true <-> exists e f, edge_of a ra e /\ edge_of b rb f /\ meet e f).
Proof. exact geom_exact. Qed.
Print Assumptions C29_intersects_partial.
Example C29_intersects_example : simple_path tent false /\ simple_path bar false /\ proper tent false bar false /\
  no_repeat tent false /\ exists e f, edge_of tent false e /\ edge_of bar false f /\ meet e f.
Proof. exact (conj tent_simple (conj bar_simple (conj tent_bar (conj tent_repeat tent_bar_meet)))). Qed.
(** A vertical edge against an edge that goes on to the right: always found. *)
Theorem C29_intersects_vertical : forall fuel a ra b rb w, geom_intersects fuel a ra b rb = Ret w ->
  forall e f x y, (edge_of a ra e /\ edge_of b rb f) \/ (edge_of b rb e /\ edge_of a ra f) -> upright e -> ~ upright f ->
  on_seg e (x, y) -> on_seg f (x, y) -> (x < fst (fst f) \/ x < fst (snd f)) -> w = true.
Proof. exact geom_vertical. Qed.
Print Assumptions C29_intersects_vertical.
Example C29_vertical_example : edge_of [(0, 0); (2, 0)] false ((0, 0), (2, 0)) /\ edge_of [(1, -1); (1, 1)] false ((1, -1), (1, 1)) /\
  upright ((1, -1), (1, 1)) /\ on_seg ((1, -1), (1, 1)) (1, 0) /\ on_seg ((0, 0), (2, 0)) (1, 0) /\
  geom_intersects 20 [(0, 0); (2, 0)] false [(1, -1); (1, 1)] false = Ret true.
Proof. exact vertical_ok. Qed.
(** Outside general position meetings are missed: an edge that ends on a vertical edge, *)
Theorem C29_end_on_vertical_refuted : exists a b e f, edge_of a false e /\ edge_of b false f /\ meet e f /\
  forall fuel, (20 < fuel)%nat -> geom_intersects fuel a false b false = Ret false.
Proof. exact missed_end_on_vertical. Qed.
Print Assumptions C29_end_on_vertical_refuted.
(** two vertical edges that overlap, *)
Theorem C29_two_verticals_refuted : exists a b e f, edge_of a false e /\ edge_of b false f /\ meet e f /\
  forall fuel, (20 < fuel)%nat -> geom_intersects fuel a false b false = Ret false.
Proof. exact missed_two_verticals. Qed.
Print Assumptions C29_two_verticals_refuted.
(** a line that starts on the other, *)
Theorem C29_start_on_other_refuted : exists a b e f, edge_of a false e /\ edge_of b false f /\ meet e f /\ ~ upright e /\ ~ upright f /\
  forall fuel, (20 < fuel)%nat -> geom_intersects fuel a false b false = Ret false.
Proof. exact missed_start. Qed.
Print Assumptions C29_start_on_other_refuted.
(** and a crossing with a line that also crosses itself. *)
Theorem C29_self_crossing_refuted : exists a b, proper a false b false /\ simple_path b false /\ no_repeat a false /\
  (forall e, edge_of a false e -> ~ upright e) /\ (forall f, edge_of b false f -> ~ upright f) /\
  (exists e f, edge_of a false e /\ edge_of b false f /\ meet e f) /\
  forall fuel, (20 < fuel)%nat -> geom_intersects fuel a false b false = Ret false.
Proof. exact missed_self_crossing. Qed.
Print Assumptions C29_self_crossing_refuted.
