(** Theorems on the spatial selection of points (C34).  The set of field names is iterated
    in the order of the fields, except in [C34_rows_refuted]. *)
From Coq Require Import String List QArith Reals.
From Verif Require Import Table_Model Table_Spec QuadTree_Model QuadTree_Spec Geom_Model Geom_Spec Contains_Model Contains_Spec Contains_Winding
  Sphere_Model Multi_Model Multi_Spec Multi_SelModel Multi_SelSpec Multi_SelProofs Multi_Inside Multi_Examples.
Import Table_Model Multi_Model Multi_Spec.
Import ListNotations.
Local Open Scope string_scope.
Local Open Scope list_scope.

(** C34. [within_bbox] returns the members strictly inside the box, with their records and
    in order, whether there is an index (over the vertices of the multipoint) or not. *)
Theorem C34_bbox_partial : forall (P val num : Type), val -> forall (ltb eqb : num -> num -> bool) (mid : num -> num -> num),
  coordinate_laws ltb eqb mid -> forall (xy : P -> num * num) (m : multi P val) qt q, one_record_each m ->
  (forall t, qt = Some t -> index_over ltb eqb mid xy (parts m) t) ->
  exists r ids, mp_within_bbox P val num ltb xy (fields (tbl m)) m qt q = Ok r /\
    Multi_Spec.positions (fun p => in_box ltb q (xy p)) (parts m) ids /\ restricted m r ids /\ fields (tbl r) = fields (tbl m) /\ props r = props m.
Proof. exact bbox_select. Qed.
Print Assumptions C34_bbox_partial.
Example C34_bbox_example : one_record_each qtwo /\ exists qt r, index_over Qltb Qeq_bool Qmid (fun p => p) (parts qtwo) qt /\
  mp_within_bbox _ _ _ Qltb (fun p => p) (fields (tbl qtwo)) qtwo (Some qt) qbox = Ok r /\ parts r = [(1, 1)]%Q /\ rows (tbl r) = [[1; 2]]%nat.
Proof. exact (conj qtwo_ok qtwo_found). Qed.
(** If the set of field names comes in another order, members get the values of other
    fields. *)
Theorem C34_rows_refuted : one_record_each qtwo /\ set_order swapped (fields (tbl qtwo)) /\
  exists r p q, mp_within_bbox _ _ _ Qltb (fun p => p) swapped qtwo None qbox = Ok r /\
  getitem qtwo 0 = Ok p /\ getitem r 0 = Ok q /\ mpart p = mpart q /\ dict_get (mprops p) "a" = Some 1%nat /\ dict_get (mprops q) "a" = Some 2%nat.
Proof. exact (conj qtwo_ok (conj qtwo_swapped rows_swapped)). Qed.
Print Assumptions C34_rows_refuted.
(** Assigning to a member does not update the index. *)
Theorem C34_stale_index_refuted : exists qt m r, index_over Qltb Qeq_bool Qmid (fun p => p) (parts qtwo) qt /\
  set_point 0%nat (fields (tbl qtwo)) qtwo 0 (mkM (9, 9)%Q [("a", 5%nat); ("b", 6%nat)]) = (m, None) /\
  mp_within_bbox _ _ _ Qltb (fun p => p) (fields (tbl m)) m (Some qt) qbox = Ok r /\ parts r = [(9, 9)]%Q.
Proof. exact stale_index. Qed.
Print Assumptions C34_stale_index_refuted.

(** [within_radius] in the plane: the members nearer than the radius. *)
Theorem C34_radius_partial : forall (P val : Type), val -> forall (xy : P -> R * R) (m : multi P val) qt c r, one_record_each m ->
  (forall t, qt = Some t -> index_over rlt req (fun a b => (a + b) / 2)%R xy (parts m) t) ->
  exists s ids, mp_within_radius xy flat_distance (fields (tbl m)) m qt c r = Ok s /\
    Multi_Spec.positions (fun p => (sqrt ((fst (xy p) - fst c) * (fst (xy p) - fst c) + (snd (xy p) - snd c) * (snd (xy p) - snd c)) < r)%R) (parts m) ids /\
    restricted m s ids /\ fields (tbl s) = fields (tbl m) /\ props s = props m.
Proof. exact (fun P val vnone xy m qt c r W HI => radius_select P val vnone xy flat_distance m qt c r W HI (fun _ p _ => flat_box c (xy p) r)). Qed.
Print Assumptions C34_radius_partial.
(** With any distance the same holds without an index, and with one if every vertex nearer
    than the radius is in the box of that half-width; *)
Theorem C34_radius_any_partial : forall (P val : Type), val -> forall (xy : P -> R * R) (dist : R * R -> R * R -> R) (m : multi P val) qt c r, one_record_each m ->
  (forall t, qt = Some t -> index_over rlt req (fun a b => (a + b) / 2)%R xy (parts m) t) ->
  (qt <> None -> forall p, In p (parts m) -> (dist c (xy p) < r)%R -> in_box rlt (mkBbox (fst c - r) (snd c - r) (fst c + r) (snd c + r))%R (xy p)) ->
  exists s ids, mp_within_radius xy dist (fields (tbl m)) m qt c r = Ok s /\
    Multi_Spec.positions (fun p => (dist c (xy p) < r)%R) (parts m) ids /\ restricted m s ids /\ fields (tbl s) = fields (tbl m) /\ props s = props m.
Proof. exact radius_select. Qed.
Print Assumptions C34_radius_any_partial.
Example C34_radius_example : one_record_each across /\ exists qt, index_over rlt req (fun a b => (a + b) / 2)%R (fun p => p) (parts across) qt.
Proof. exact (conj across_ok across_index). Qed.
(** across the date line it is not: of two points 2.2 m apart, a search for 3 m around one
    finds the other without an index and does not with one. *)
Theorem C34_radius_geographic_refuted : (earth_distance here (- 180 + 1 / 100000, 0) < 3)%R /\ parts across = [(- 180 + 1 / 100000, 0)%R] /\
  forall qt, index_over rlt req (fun a b => (a + b) / 2)%R (fun p => p) (parts across) qt ->
  (exists r, mp_within_radius (fun p => p) earth_distance ["a"] across (Some qt) here 3 = Ok r /\ parts r = []) /\
  exists s, mp_within_radius (fun p => p) earth_distance ["a"] across None here 3 = Ok s /\ parts s = [(- 180 + 1 / 100000, 0)%R].
Proof. exact (conj across_distance (conj eq_refl across_missed)). Qed.
Print Assumptions C34_radius_geographic_refuted.

(** [within_polygon] in the plane: the members the polygon contains, without an index, or
    with one if no vertex is on the lines through the left and lower side of the bounding
    box of the polygon; *)
Theorem C34_polygon_partial : forall (P val A B C : Type), val -> forall (xy : P -> Q * Q) (m : multi P val) qt (g : geom A B C) x0 y0 x1 y1,
  one_record_each m -> rings A B C g -> tight_box x0 y0 x1 y1 (xys (gverts A B C g)) ->
  (forall t, qt = Some t -> index_over Qltb Qeq_bool Qmid xy (parts m) t) ->
  (qt <> None -> forall p, In p (parts m) -> ~ fst (xy p) == x0 /\ ~ snd (xy p) == y0)%Q ->
  exists s ids, mp_within_polygon xy (fields (tbl m)) m qt g = Ok s /\
    Multi_Spec.positions (fun p => contains A B C g (xy p) = Geom_Model.Ok true) (parts m) ids /\
    restricted m s ids /\ fields (tbl s) = fields (tbl m) /\ props s = props m.
Proof. exact polygon_select. Qed.
Print Assumptions C34_polygon_partial.
Example C34_polygon_example : rings unit unit unit donut /\ tight_box 0 0 4 4 (xys (gverts unit unit unit donut)) /\
  (forall p, In p (parts qtwo) -> ~ fst p == 0 /\ ~ snd p == 0)%Q.
Proof.
  split; [repeat split|]. split.
  - repeat split; try (eexists; split; [left; reflexivity|reflexivity]); try (eexists; split; [right; right; left; reflexivity|reflexivity]);
      destruct H as [<-|[<-|[<-|[<-|[]]]]]; cbn; discriminate.
  - intros p [<-|[<-|[]]]; split; discriminate.
Qed.
(** for members off the edges, with and without an index: exactly those in the region of the polygon; *)
Theorem C34_polygon_region_partial : forall (P val A B C : Type), val -> forall (xy : P -> Q * Q) (m : multi P val) qt (g : geom A B C),
  one_record_each m -> rings A B C g -> xys (gverts A B C g) <> [] ->
  (forall t, qt = Some t -> index_over Qltb Qeq_bool Qmid xy (parts m) t) ->
  (forall p, In p (parts m) -> off_edges A B C (xy p) g) ->
  exists s ids, mp_within_polygon xy (fields (tbl m)) m qt g = Ok s /\
    Multi_Spec.positions (fun p => region A B C (xy p) g) (parts m) ids /\
    restricted m s ids /\ fields (tbl s) = fields (tbl m) /\ props s = props m.
Proof. exact polygon_region. Qed.
Print Assumptions C34_polygon_region_partial.
Example C34_polygon_region_example : one_record_each qtwo /\ rings unit unit unit (square 0 4 []) /\
  xys (gverts unit unit unit (square 0 4 [])) <> [] /\ forall p, In p (parts qtwo) -> off_edges unit unit unit p (square 0 4 []).
Proof.
  split; [exact qtwo_ok|]. split; [repeat split|]. split; [discriminate|].
  intros p [<-|[<-|[]]]; (split; [apply off_check; vm_compute; reflexivity|exact Logic.I]).
Qed.
(** with a vertex on the left side the answers differ. *)
Theorem C34_polygon_refuted : one_record_each qedge /\ rings unit unit unit (square 0 4 []) /\ exists qt r s,
  index_over Qltb Qeq_bool Qmid (fun p => p) (parts qedge) qt /\
  mp_within_polygon (fun p => p) ["a"] qedge (Some qt) (square 0 4 []) = Ok r /\ parts r = [] /\
  mp_within_polygon (fun p => p) ["a"] qedge None (square 0 4 []) = Ok s /\ parts s = [(0, 2)]%Q.
Proof. exact edge_missed. Qed.
Print Assumptions C34_polygon_refuted.
