(** C86, C87, C88: equality, hashes and slices of geometries. *)
From Coq Require Import String List ZArith Bool Arith SpecFloat Lia.
From Verif Require Import Table_Model Table_Spec Multi_Model Multi_Spec Same_Model Same_Spec Same_Proofs Same_Slices.
From Verif Require Crs_Model Crs_Spec Band_IndexModel Band_IndexSpec.
Import ListNotations.
Local Open Scope list_scope.
Import Band_IndexModel Band_IndexSpec.
Local Open Scope nat_scope.

Definition one : spec_float := S754_finite false 4503599627370496 (-52).
Definition two : spec_float := S754_finite false 4503599627370496 (-51).
Definition o0 : spec_float := S754_zero false.
Definition merc (name : string) : system := Projected 7 name (Crs_Model.CrsObject true true (Some "+proj=merc"%string) (Some "+a=2 +b=1"%string)).
Definition lonlat : Crs_Model.crs_object := Crs_Model.CrsObject true true (Some "+proj=lonlat"%string) (Some "+a=2 +b=1"%string).
Definition tri : list vertex := [[o0; o0]; [two; o0]; [o0; two]].
Definition hole : geom nat := Geom Polygon [[one; one]; [one; o0]; [o0; one]] [] no_data [] (Cartesian 0).
Lemma nat_equivalence : equivalence Nat.eqb.
Proof. repeat split; intros *; rewrite ?Nat.eqb_eq; congruence. Qed.

(** C86: points are equal when they have equal coordinates, properties and systems. *)
Theorem C86_points : forall (val : Type) (veqb : val -> val -> bool) (p q : point val), complete (pcrs p) -> complete (pcrs q) ->
  (point_eqb veqb p q = true <-> one_vertex (pvertex p) (pvertex q) /\ one_dict veqb (pprops p) (pprops q) /\ one_system (pcrs p) (pcrs q)).
Proof. exact points_equal. Qed.
Print Assumptions C86_points.
Example C86_points_example :
  point_eqb Nat.eqb (mkPoint [one; o0] [("a"%string, 1); ("b"%string, 2)] (merc "m")) (mkPoint [one; S754_zero true] [("b"%string, 2); ("a"%string, 1)] (merc "n")) = true /\
  point_eqb Nat.eqb (mkPoint [one; o0] [] (merc "m")) (mkPoint [one; o0; o0] [] (merc "m")) = false.
Proof. split; reflexivity. Qed.
(** Lines and polygons: comparing never raises, and says whether the type, the vertices,
    the properties and the systems are equal. *)
Theorem C86_lines_partial : forall (val : Type) (veqb : val -> val -> bool) (g h : geom val), gkind g <> Multipoint ->
  complete (gcrs g) -> complete (gcrs h) ->
  exists b, geom_eq veqb g h = Ok b /\
    (b = true <-> gkind g = gkind h /\ one_path (gverts g) (gverts h) /\ one_dict veqb (gprops g) (gprops h) /\ one_system (gcrs g) (gcrs h)).
Proof. exact lines_equal. Qed.
Print Assumptions C86_lines_partial.
Example C86_lines_example :
  geom_eq Nat.eqb (Geom Line tri [] no_data [] (Cartesian 0)) (Geom Line tri [] no_data [] (Cartesian 0)) = Ok true /\
  geom_eq Nat.eqb (Geom Line tri [] no_data [] (Cartesian 0)) (Geom Polygon tri [] no_data [] (Cartesian 0)) = Ok false /\
  geom_eq Nat.eqb (Geom Line [[one; one]] [] no_data [] (Cartesian 0)) (Geom Line [[one; one; one]] [] no_data [] (Cartesian 0)) = Ok false.
Proof. repeat split; reflexivity. Qed.
(** Missing: polygons that differ in their holes only are equal. *)
Theorem C86_holes_refuted : let g := Geom Polygon tri [hole] no_data [] (Cartesian 0) in
  let h := Geom Polygon tri [] no_data [] (Cartesian 0) in
  geom_eq Nat.eqb g h = Ok true /\ gsubs g <> gsubs h.
Proof. split; [reflexivity|discriminate]. Qed.
Print Assumptions C86_holes_refuted.
(** Multipoints of one rank: their tables are compared too. *)
Theorem C86_multipoints_partial : forall (val : Type) (veqb : val -> val -> bool) (g h : geom val) (r : nat), gkind g = Multipoint ->
  complete (gcrs g) -> complete (gcrs h) -> of_rank r (gverts g) -> of_rank r (gverts h) ->
  exists b, geom_eq veqb g h = Ok b /\
    (b = true <-> gkind h = Multipoint /\ one_path (gverts g) (gverts h) /\ one_table veqb (gdata g) (gdata h) /\
                  one_dict veqb (gprops g) (gprops h) /\ one_system (gcrs g) (gcrs h)).
Proof. exact multipoints_equal. Qed.
Print Assumptions C86_multipoints_partial.
Example C86_multipoints_example : let g t := Geom Multipoint [[one; o0]; [two; o0]] [] t [] (Cartesian 0) in
  of_rank 2 (gverts (g (mkT ["a"%string] [[1]; [2]]))) /\
  geom_eq Nat.eqb (g (mkT ["a"%string] [[1]; [2]])) (g (mkT ["a"%string] [[1]; [2]])) = Ok true /\
  geom_eq Nat.eqb (g (mkT ["a"%string] [[1]; [2]])) (g (mkT ["a"%string] [[1]; [3]])) = Ok false.
Proof. cbn. split; [repeat constructor|split; reflexivity]. Qed.
(** Missing: of different ranks, comparing as many points raises ValueError. *)
Theorem C86_rank_refuted : forall (val : Type) (veqb : val -> val -> bool) (g h : geom val) (r s : nat),
  gkind g = Multipoint -> gkind h = Multipoint -> r <> s -> gverts g <> [] ->
  List.length (gverts g) = List.length (gverts h) -> of_rank r (gverts g) -> of_rank s (gverts h) ->
  geom_eq veqb g h = Err ValueError.
Proof. exact multipoints_rank. Qed.
Print Assumptions C86_rank_refuted.
Example C86_rank_example : geom_eq Nat.eqb (Geom Multipoint [[one; o0]] [] no_data [] (Cartesian 0)) (Geom Multipoint [[one; o0; o0]] [] no_data [] (Cartesian 0)) = Err ValueError.
Proof. reflexivity. Qed.
(** Missing: with the same fields in another order the same data are not equal. *)
Theorem C86_fields_refuted : let g t := Geom Multipoint [[one; o0]] [] t [] (Cartesian 0) in
  let t := mkT ["a"%string; "b"%string] [[1; 2]] in let u := mkT ["b"%string; "a"%string] [[2; 1]] in
  getfield t "a" = getfield u "a" /\ getfield t "b" = getfield u "b" /\ geom_eq Nat.eqb (g t) (g u) = Ok false.
Proof. repeat split; reflexivity. Qed.
Print Assumptions C86_fields_refuted.

(** Equality is reflexive without NaN, symmetric, and transitive among systems of one
    class. *)
Theorem C86_equivalence_partial : forall (val : Type) (veqb : val -> val -> bool), equivalence veqb ->
  (forall g : geom val, no_nan (gverts g) -> complete (gcrs g) -> geom_eq veqb g g = Ok true) /\
  (forall g h : geom val, complete (gcrs g) -> complete (gcrs h) -> geom_eq veqb g h = Ok true -> geom_eq veqb h g = Ok true) /\
  (forall g h k : geom val, complete (gcrs g) -> complete (gcrs h) -> complete (gcrs k) ->
     one_class (gcrs g) (gcrs h) -> one_class (gcrs h) (gcrs k) ->
     geom_eq veqb g h = Ok true -> geom_eq veqb h k = Ok true -> geom_eq veqb g k = Ok true).
Proof.
  intros val veqb E. split; [exact (geom_refl val veqb E)|]. split; [exact (geom_sym val veqb E)|exact (geom_trans val veqb E)].
Qed.
Print Assumptions C86_equivalence_partial.
Theorem C86_points_equivalence_partial : forall (val : Type) (veqb : val -> val -> bool), equivalence veqb ->
  (forall p : point val, Forall number (pvertex p) -> complete (pcrs p) -> point_eqb veqb p p = true) /\
  (forall p q : point val, complete (pcrs p) -> complete (pcrs q) -> point_eqb veqb p q = point_eqb veqb q p) /\
  (forall p q r : point val, complete (pcrs p) -> complete (pcrs q) -> complete (pcrs r) ->
     one_class (pcrs p) (pcrs q) -> one_class (pcrs q) (pcrs r) ->
     point_eqb veqb p q = true -> point_eqb veqb q r = true -> point_eqb veqb p r = true).
Proof.
  intros val veqb E. split; [exact (points_refl val veqb E)|]. split; [exact (points_sym val veqb E)|exact (points_trans val veqb E)].
Qed.
Print Assumptions C86_points_equivalence_partial.
Example C86_equivalence_example : equivalence Nat.eqb /\ complete (merc "m") /\ no_nan tri /\ one_class (merc "m") (merc "n").
Proof. split; [exact nat_equivalence|]. split; [repeat split; discriminate|]. split; [repeat constructor; discriminate|split; intros; exact Logic.I]. Qed.
(** Missing: two geographical systems are both equal to a projected one with their text, but
    not to each other. *)
Theorem C86_systems_refuted :
  let p c := mkPoint [one; o0] ([] : dict nat) c in
  let a := Geographical 1 "a" lonlat in let b := Geographical 2 "b" lonlat in let c := Projected 3 "c" lonlat in
  complete a /\ complete b /\ complete c /\
  point_eqb Nat.eqb (p a) (p c) = true /\ point_eqb Nat.eqb (p c) (p b) = true /\ point_eqb Nat.eqb (p a) (p b) = false.
Proof. cbn. repeat split; discriminate. Qed.
Print Assumptions C86_systems_refuted.

(** [point in multipoint] says whether a member of the multipoint, with its data and the
    common properties, equals the point. *)
Theorem C86_members : forall (val : Type) (veqb : val -> val -> bool) (vnone : val) (m : multi vertex val) c (q : point val), one_record_each m ->
  exists b, contains veqb m c q = Ok b /\
    (b = true <-> exists i p, Multi_Model.getitem m i = Ok p /\ point_eqb veqb (mkPoint (mpart p) (mprops p) c) q = true).
Proof. exact contains_iff. Qed.
Print Assumptions C86_members.
Example C86_members_example : let m := mkMulti [[one; o0]; [two; o0]] (mkT ["a"%string] [[1]; [2]]) [("b"%string, 3)] [] in
  one_record_each m /\
  contains Nat.eqb m (Cartesian 0) (mkPoint [two; o0] [("a"%string, 2); ("b"%string, 3)] (Cartesian 0)) = Ok true /\
  contains Nat.eqb m (Cartesian 0) (mkPoint [two; o0] [] (Cartesian 0)) = Ok false.
Proof. cbn. split; [|split; reflexivity]. split; [reflexivity|]. split; [repeat constructor|]. split; [repeat constructor; intros []|reflexivity]. Qed.

(** C87: equal points whose systems have one name have equal hashes; Python's hash of tuples
    agrees on tuples of equal numbers. *)
Theorem C87_points_partial : forall (val : Type) (veqb : val -> val -> bool) hs ht (p q : point val), (forall u v, one_vertex u v -> ht u = ht v) ->
  complete (pcrs p) -> complete (pcrs q) -> system_str (pcrs p) = system_str (pcrs q) ->
  point_eqb veqb p q = true -> point_hash hs ht p = point_hash hs ht q.
Proof. exact point_hash_equal. Qed.
Print Assumptions C87_points_partial.
(** Equal lines, polygons and multipoints without negative zeros, whose systems have one
    name, have equal hashes. *)
Theorem C87_lines_partial : forall (val : Type) (veqb : val -> val -> bool) hs hb (g h : geom val), complete (gcrs g) -> complete (gcrs h) ->
  system_str (gcrs g) = system_str (gcrs h) ->
  (forall x, In x (concat (gverts g)) \/ In x (concat (gverts h)) -> x <> S754_zero true) ->
  geom_eq veqb g h = Ok true -> geom_hash hs hb g = geom_hash hs hb h.
Proof. exact geom_hash_equal. Qed.
Print Assumptions C87_lines_partial.
Example C87_lines_example : let g n := Geom Line tri [] no_data [("a"%string, n)] (merc "m") in
  complete (gcrs (g 1)) /\ (forall x, In x (concat (gverts (g 1))) \/ In x (concat (gverts (g 1))) -> x <> S754_zero true) /\
  geom_eq Nat.eqb (g 1) (g 1) = Ok true /\ geom_eq Nat.eqb (g 1) (g 2) = Ok false.
Proof.
  cbn. split; [repeat split; discriminate|]. split; [|split; reflexivity].
  intros x H E. subst x. cbv in H. intuition discriminate.
Qed.
(** Missing: 0.0 and -0.0 are equal, but not their bytes. *)
Theorem C87_zero_refuted : forall hs hb, hb [S754_zero false; one] <> hb [S754_zero true; one] ->
  exists g h : geom nat, complete (gcrs g) /\ complete (gcrs h) /\ geom_eq Nat.eqb g h = Ok true /\ geom_hash hs hb g <> geom_hash hs hb h.
Proof.
  intros hs hb N. exists (Geom Line [[S754_zero false; one]] [] no_data [] (Cartesian 0)), (Geom Line [[S754_zero true; one]] [] no_data [] (Cartesian 0)).
  split; [exact Logic.I|]. split; [exact Logic.I|]. split; [reflexivity|]. cbn [geom_hash gkind gverts gcrs concat app].
  unfold geom_hash. cbn [gkind gverts gcrs concat app]. rewrite !Z.shiftl_mul_pow2 by lia. change (2 ^ 1)%Z with 2%Z. lia.
Qed.
Print Assumptions C87_zero_refuted.
(** Missing: projected systems are equal whatever their names, which go into the hash. *)
Theorem C87_names_refuted : forall hs hb ht, hs (system_str (merc "m")) <> hs (system_str (merc "n")) ->
  exists g h : geom nat, complete (gcrs g) /\ complete (gcrs h) /\ geom_eq Nat.eqb g h = Ok true /\ geom_hash hs hb g <> geom_hash hs hb h /\
  exists p q : point nat, point_eqb Nat.eqb p q = true /\ point_hash hs ht p <> point_hash hs ht q.
Proof.
  intros hs hb ht N. exists (Geom Line tri [] no_data [] (merc "m")), (Geom Line tri [] no_data [] (merc "n")).
  split; [repeat split; discriminate|]. split; [repeat split; discriminate|]. split; [reflexivity|].
  split; [unfold geom_hash; cbn [gkind gverts gcrs]; lia|].
  exists (mkPoint [one; one] [] (merc "m")), (mkPoint [one; one] [] (merc "n")). split; [reflexivity|].
  unfold point_hash; cbn [pvertex pcrs]; lia.
Qed.
Print Assumptions C87_names_refuted.
(** Missing: a Multiline or Multipolygon has no hash. *)
Theorem C87_multipart_refuted : forall parts z, multipart_hash parts <> Hash z.
Proof. discriminate. Qed.
Print Assumptions C87_multipart_refuted.

(** C88: a slice of a line is a line of the vertices Python's slices select, with the
    properties and system of the line. *)
Theorem C88_lines : forall (val : Type) (g : geom val) a b c ids, selects (Z.of_nat (List.length (gverts g))) (KSlice a b c) false ids ->
  exists r, base_getitem g (Slice a b c) = AGeom r /\ gkind r = gkind g /\ taken (gverts g) (gverts r) ids /\
    gprops r = gprops g /\ gcrs r = gcrs g.
Proof. exact line_slice. Qed.
Print Assumptions C88_lines.
(** A slice of a polygon is a polygon if it has all the vertices, and a line otherwise. *)
Theorem C88_polygons_partial : forall (val : Type) (g : geom val) a b c ids, gkind g = Polygon -> 2 <= List.length (gverts g) ->
  selects (Z.of_nat (List.length (gverts g))) (KSlice a b c) false ids ->
  exists r, polygon_getitem g (Slice a b c) = AGeom r /\ taken (gverts g) (gverts r) ids /\
    gprops r = gprops g /\ gcrs r = gcrs g /\
    (List.length ids = List.length (gverts g) -> gkind r = Polygon) /\
    (List.length ids <> List.length (gverts g) -> gkind r = Line).
Proof. exact polygon_slice. Qed.
Print Assumptions C88_polygons_partial.
Example C88_polygons_example : let g := Geom Polygon tri [] no_data [("a"%string, 1)] (Cartesian 0) in
  selects 3 (KSlice None None (Some (-1)%Z)) false [2; 1; 0]%Z /\
  polygon_getitem g (Slice None None (Some (-1)%Z)) = AGeom (Geom Polygon (rev tri) [] no_data [("a"%string, 1)] (Cartesian 0)) /\
  polygon_getitem g (Slice (Some (-2)%Z) None None) = AGeom (Geom Line (tl tri) [] no_data [("a"%string, 1)] (Cartesian 0)).
Proof. cbn zeta. split; [exact (sel_slice 3 None None (Some (-1)%Z) 2 (-1) (-1) eq_refl)|split; reflexivity]. Qed.
(** Missing: the slice with all the vertices loses the holes. *)
Theorem C88_holes_refuted : let g := Geom Polygon tri [hole] no_data [] (Cartesian 0) in
  exists r, polygon_getitem g (Slice None None None) = AGeom r /\ gkind r = Polygon /\ gverts r = gverts g /\ gsubs r = [] /\ gsubs g <> [].
Proof. eexists. split; [reflexivity|]. repeat split; try reflexivity. discriminate. Qed.
Print Assumptions C88_holes_refuted.
(** A step of zero is a ValueError. *)
Theorem C88_step : forall (val : Type) (g : geom val) a b, base_getitem g (Slice a b (Some 0%Z)) = Raise ValueError /\ polygon_getitem g (Slice a b (Some 0%Z)) = Raise ValueError.
Proof. exact zero_step. Qed.
Print Assumptions C88_step.
(** Iteration and integers give the vertices as points. *)
Theorem C88_vertices : forall (val : Type) (g : geom val), List.length (points g) = List.length (gverts g) /\
  forall i v, nth_error (gverts g) i = Some v -> nth_error (points g) i = Some (APoint (mkPoint v (gprops g) (gcrs g))) /\
    base_getitem g (Int i) = APoint (mkPoint v (gprops g) (gcrs g)) /\ polygon_getitem g (Int i) = APoint (mkPoint v (gprops g) (gcrs g)).
Proof. exact each_point. Qed.
Print Assumptions C88_vertices.
(** A slice of a multipoint has the members Python's slices select, with their records. *)
Theorem C88_multipoints : forall (val : Type) (vnone : val) (m : multi vertex val) a b c ids, one_record_each m ->
  selects (Z.of_nat (List.length (parts m))) (KSlice a b c) false ids ->
  exists r, multipoint_slice m a b c = Ok r /\ restricted m r (map Z.to_nat ids) /\
    fields (tbl r) = fields (tbl m) /\ Multi_Model.props r = Multi_Model.props m.
Proof. exact multi_slice. Qed.
Print Assumptions C88_multipoints.
Example C88_multipoints_example : let m := mkMulti [[one; o0]; [two; o0]; [one; one]] (mkT ["a"%string] [[1]; [2]; [3]]) [] [] in
  one_record_each m /\ selects 3 (KSlice None None (Some (-2)%Z)) false [2; 0]%Z /\
  multipoint_slice m None None (Some (-2)%Z) = Ok (mkMulti [[one; one]; [one; o0]] (mkT ["a"%string] [[3]; [1]]) [] []).
Proof.
  cbn zeta. split; [split; [reflexivity|split; [repeat constructor|split; [repeat constructor; intros []|reflexivity]]]|].
  split; [exact (sel_slice 3 None None (Some (-2)%Z) 2 (-1) (-2) eq_refl)|reflexivity].
Qed.
