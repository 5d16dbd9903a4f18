(** C101: [intersects] of lines and polygons in geographical coordinate systems. *)
From Coq Require Import List Reals Lra Lia Arith.
From Verif Require Import GeomR_Model Sphere_Spec Gsweep_Model Gsweep_Spec Gsweep_Line Gsweep_Steady Gsweep_Examples Gsweep_Refute Gsweep_Refute2 Gsweep_Refute3.
Import ListNotations.
Open Scope R_scope.

(** There is an answer, whatever heights rounding gives the edges, if neither geometry runs
    along an edge twice. *)
Theorem C101_answers : forall height a ra b rb, no_repeat a ra -> no_repeat b rb ->
  exists w, forall fuel, (length a + length b + 1 < fuel)%nat -> geog_intersects height fuel a ra b rb = Ret w.
Proof. exact geog_answers. Qed.
Print Assumptions C101_answers.
Example C101_answers_ex : no_repeat fork_a true /\ no_repeat ex_b false.
Proof. split; [exact fork_norepeat|exact (steady_norepeat ex_b ex_b_steady)]. Qed.

(** Two lines of one edge each: True exactly if they meet, whatever the heights. *)
Theorem C101_single : forall height e f, plain e -> plain f -> one_side e -> one_side f -> resolved e f -> resolved f e -> ~ same_circle e f ->
  ~ end_to_end [fst e; snd e] [fst f; snd f] -> ~ end_to_end [fst f; snd f] [fst e; snd e] ->
  exists w, (forall fuel, (5 < fuel)%nat -> geog_intersects height fuel [fst e; snd e] false [fst f; snd f] false = Ret w) /\ (w = true <-> meet e f).
Proof. exact single_exact. Qed.
Print Assumptions C101_single.
Example C101_single_ex : let e := ((-30, 0), (30, 0)) in let f := ((-30, 30), (0, 0)) in
  plain e /\ plain f /\ one_side e /\ one_side f /\ resolved e f /\ resolved f e /\ ~ same_circle e f /\ ~ end_to_end [fst e; snd e] [fst f; snd f] /\ ~ end_to_end [fst f; snd f] [fst e; snd e] /\ meet e f.
Proof. exact single_ex. Qed.

(** Lines always eastward or westward that meet: True, whatever the heights. *)
Theorem C101_steady_found : forall a b, steady a -> steady b -> apart a b ->
  (forall e, edge_of a false e -> one_side e) -> (forall e, edge_of b false e -> one_side e) ->
  forall height, ~ end_to_end a b -> ~ end_to_end b a -> (exists e f, edge_of a false e /\ edge_of b false f /\ meet e f) ->
  forall fuel, (length a + length b + 1 < fuel)%nat -> geog_intersects height fuel a false b false = Ret true.
Proof. exact steady_complete. Qed.
Print Assumptions C101_steady_found.
(** And, with the heights of exact arithmetic, True only then.  Missing: other lines and
    polygons, other heights, edges across the equator (all refuted below). *)
Theorem C101_steady_partial : forall a b, steady a -> steady b -> apart a b ->
  (forall e, edge_of a false e -> one_side e) -> (forall e, edge_of b false e -> one_side e) -> ~ end_to_end a b -> ~ end_to_end b a ->
  exists w, (forall fuel, (length a + length b + 1 < fuel)%nat -> geog_intersects exact_height fuel a false b false = Ret w) /\
    (w = true <-> exists e f, edge_of a false e /\ edge_of b false f /\ meet e f).
Proof. exact steady_exact. Qed.
Print Assumptions C101_steady_partial.
Example C101_steady_ex : steady ex_a /\ steady ex_b /\ apart ex_a ex_b /\ (forall e, edge_of ex_a false e -> one_side e) /\ (forall e, edge_of ex_b false e -> one_side e) /\
  ~ end_to_end ex_a ex_b /\ ~ end_to_end ex_b ex_a /\ exists e f, edge_of ex_a false e /\ edge_of ex_b false f /\ meet e f.
Proof. exact ex_steady. Qed.

(** An edge on a meridian that meets an edge of the other geometry which goes on to the east
    of it: True, whatever the heights, for any lines and polygons. *)
Theorem C101_meridian : forall height a ra b rb, no_repeat a ra -> no_repeat b rb -> (forall p, In p a -> inner p) -> (forall p, In p b -> inner p) ->
  (forall e, edge_of a ra e -> regular e /\ one_side e) -> (forall e, edge_of b rb e -> regular e /\ one_side e) ->
  (exists e f, (edge_of a ra e /\ edge_of b rb f \/ edge_of a ra f /\ edge_of b rb e) /\ plain e /\ upright f /\
     (fst (fst e) <= fst (fst f) < fst (snd e) \/ fst (snd e) <= fst (fst f) < fst (fst e)) /\ resolved_at e (fst (fst f)) /\ meet e f) ->
  forall fuel, (length a + length b + 1 < fuel)%nat -> geog_intersects height fuel a ra b rb = Ret true.
Proof. exact geog_vertical. Qed.
Print Assumptions C101_meridian.
Example C101_meridian_ex : no_repeat ex_a false /\ no_repeat ex_c false /\ (forall p, In p ex_a -> inner p) /\ (forall p, In p ex_c -> inner p) /\
  (forall e, edge_of ex_a false e -> regular e /\ one_side e) /\ (forall e, edge_of ex_c false e -> regular e /\ one_side e) /\
  exists e f, (edge_of ex_a false e /\ edge_of ex_c false f \/ edge_of ex_a false f /\ edge_of ex_c false e) /\ plain e /\ upright f /\
    (fst (fst e) <= fst (fst f) < fst (snd e) \/ fst (snd e) <= fst (fst f) < fst (fst e)) /\ resolved_at e (fst (fst f)) /\ meet e f.
Proof. exact ex_vertical. Qed.

(** Finding: a polygon or line is reported as intersecting others that it does not meet: the
    two edges at a vertex that is west of both their other ends are neighbours when they
    begin, and are tested against each other although they belong to the same geometry (the
    planar sweep compares colours, the spherical one does not).  The triangle (0, 0), (90, 0),
    (45, 45) "intersects" a line wholly north of it, whatever the heights. *)
Theorem C101_polygon_refuted : exists a b, (forall e f, edge_of a true e -> edge_of b false f -> ~ meet e f) /\
  forall height fuel, (6 < fuel)%nat -> geog_intersects height fuel a true b false = Ret true.
Proof. exists fork_a, fork_b. split; [exact fork_apart|exact fork_found]. Qed.
Print Assumptions C101_polygon_refuted.
(** Finding: the same happens at the vertices of lines always eastward, if heights are the
    latitudes of the edges (in doubles they nearly are between 90W and 90E): where an edge
    ends, its neighbours may be an edge of the other line and the next edge of its own. *)
Theorem C101_turn_refuted : exists a b, steady a /\ steady b /\ (forall e f, edge_of a false e -> edge_of b false f -> ~ meet e f) /\
  forall height, accurate height -> forall fuel, (6 < fuel)%nat -> geog_intersects (fun s x => height (p0 s, p1 s) x) fuel a false b false = Ret true.
Proof. exists turn_a, turn_b. split; [apply turn_steady|]. split; [apply turn_steady|]. split; [exact turn_apart|exact turn_found]. Qed.
Print Assumptions C101_turn_refuted.
Example C101_turn_ex : exists height, accurate height.
Proof. exists lat_formula. exact accurate_formula. Qed.
(** Finding: lines that touch end to end do not "intersect": edges that end at a position are
    removed before those that begin there are tested. *)
Theorem C101_end_to_end_refuted : exists p q r, meet (p, q) (q, r) /\ forall height fuel, (5 < fuel)%nat -> geog_intersects height fuel [p; q] false [q; r] false = Ret false.
Proof. exists (0, 0), (30, 0), (60, 30). split; [exact end_meet|exact end_missed]. Qed.
Print Assumptions C101_end_to_end_refuted.
(** Finding: lines that overlap along a great circle do not "intersect": the circles have no
    crossing, the longitude is NaN. *)
Theorem C101_along_refuted : exists p q r s, meet (p, q) (r, s) /\ forall height fuel, (5 < fuel)%nat -> geog_intersects height fuel [p; q] false [r; s] false = Ret false.
Proof. exists (-30, 0), (30, 0), (0, 0), (60, 0). split; [exact along_meet|exact along]. Qed.
Print Assumptions C101_along_refuted.
(** Finding: edges of some hundred metres that cross west of 90W or east of 90E do not
    "intersect": below a fixed length of the cross product the longitude is an arcsine, in
    the wrong half of the globe. *)
Theorem C101_short_refuted : exists p q r s, meet (p, q) (r, s) /\ forall height fuel, (5 < fuel)%nat -> geog_intersects height fuel [p; q] false [r; s] false = Ret false.
Proof. exists (fst short_e), (snd short_e), (fst short_f), (snd short_f). split; [exact short_meet|exact short_missed]. Qed.
Print Assumptions C101_short_refuted.
(** Finding: a line across the date line "intersects" nothing: its box has a western limit
    east of the eastern one, and boxes are compared as numbers. *)
Theorem C101_date_line_refuted : exists p q r s, meet (p, q) (r, s) /\ forall height fuel b rb, b <> [] -> geog_intersects height fuel [p; q] false b rb = Ret false.
Proof.
  exists (150, 0), (-150, 0), (180, -30), (180, 30). split; [exact over_meet|]. destruct over_box as (ya & yb & E). apply (box_false _ _ _ _ _ _ E). lra.
Qed.
Print Assumptions C101_date_line_refuted.
(** Finding: neither does a line whose easternmost vertex is at longitude 180, which the box
    turns into -180. *)
Theorem C101_to_180_refuted : exists p q r s, meet (p, q) (r, s) /\ forall height fuel b rb, b <> [] -> geog_intersects height fuel [p; q] false b rb = Ret false.
Proof.
  exists (150, 0), (180, 0), (150, -30), (150, 30). split; [exact upto_meet|]. destruct upto_box as (ya & yb & E). apply (box_false _ _ _ _ _ _ E). lra.
Qed.
Print Assumptions C101_to_180_refuted.
(** Finding: an edge across the equator can leave its box (see C73), and what meets it
    outside is not found. *)
Theorem C101_across_refuted : exists p q r s, meet (p, q) (r, s) /\ forall height fuel, geog_intersects height fuel [p; q] false [r; s] false = Ret false.
Proof. destruct across as (x & y & _ & _ & M & H). exists (0, -30), (150, 60), (x, y), (x, (y + 90) / 2). split; [exact M|exact H]. Qed.
Print Assumptions C101_across_refuted.
(** Finding: the call does not return for a line that runs along the same edge twice in the
    same direction: the neighbour beyond the edges that end is looked up by value, and the
    edge's neighbour is the edge. *)
Theorem C101_twice_refuted : exists a b, a <> [] /\ b <> [] /\ forall height fuel, geog_intersects height fuel a false b false = Loop.
Proof. exists twice_a, twice_b. split; [discriminate|]. split; [discriminate|exact twice_loops]. Qed.
Print Assumptions C101_twice_refuted.
