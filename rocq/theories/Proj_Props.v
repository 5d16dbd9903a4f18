(** Properties of coordinates given in other coordinate systems (C98). *)
From Coq Require Import List QArith Bool.
From Verif Require Geom_Model.
From Verif Require Import Proj_Model Proj_Spec Proj_Proofs.
Import ListNotations.

(** C98.  A point asked for its vertex in another system gives the coordinates of the same
    place; in its own system, the coordinates it was made with. *)
Theorem C98_point :
  forall {C W} (place : C -> Q * Q -> W) is_same eqb transform, faithful place is_same eqb transform ->
  forall p own crs, reachable eqb transform own crs ->
  exists q, vertex C eqb transform p own crs = Ok q /\ place (asked own crs) (xy q) = place own (xy p) /\
    (crs = None \/ crs = Some own /\ eqb own own = true -> q = p).
Proof. intros C W place is_same eqb transform. exact (point_ok place is_same eqb transform). Qed.
Print Assumptions C98_point.

(** The coordinate vectors of lines, polygons and multipoints: one pair for every vertex, in
    order, at the same places. *)
Theorem C98_coords :
  forall {C W} (place : C -> Q * Q -> W) is_same eqb transform, faithful place is_same eqb transform ->
  forall v own crs, reachable eqb transform own crs ->
  exists xs ys, coords C eqb transform v own crs = Ok (xs, ys) /\ length xs = length ys /\
    map (place (asked own crs)) (combine xs ys) = places place own v.
Proof. intros C W place is_same eqb transform. exact (coords_ok place is_same eqb transform). Qed.
Print Assumptions C98_coords.

(** The array of vertices of lines, polygons and multipoints, if they have two coordinates,
    the third is dropped, or the system is their own. *)
Theorem C98_vertices_partial :
  forall {C W} (place : C -> Q * Q -> W) is_same eqb transform, faithful place is_same eqb transform ->
  forall v own crs drop_z, reachable is_same transform own crs -> flat v \/ drop_z = true \/ crs = None ->
  exists u, vertices C is_same transform v own crs drop_z = Ok u /\ places place (asked own crs) u = places place own v /\
    (crs = None \/ crs = Some own /\ is_same own own = true -> drop_z = false -> u = v).
Proof. intros C W place is_same eqb transform. exact (vertices_ok place is_same eqb transform). Qed.
Print Assumptions C98_vertices_partial.

(** The vertices and the coordinate vectors of all parts of multilines and of all rings of
    multipolygons. *)
Theorem C98_multiline :
  forall {C W} (place : C -> Q * Q -> W) is_same eqb transform, faithful place is_same eqb transform ->
  forall parts own crs, reachable eqb transform own crs ->
  (exists us, multiline_vertices C eqb transform parts own crs = Ok us /\
    map (places place (asked own crs)) us = map (places place own) parts) /\
  (exists us, multiline_coords C eqb transform parts own crs = Ok us /\
    map (fun t => map (place (asked own crs)) (combine (nth 0 t []) (nth 1 t []))) us = map (places place own) parts).
Proof.
  intros C W place is_same eqb transform F parts own crs H.
  exact (conj (multiline_ok place is_same eqb transform F parts own crs H)
              (multiline_coords_ok place is_same eqb transform F parts own crs H)).
Qed.
Print Assumptions C98_multiline.
Theorem C98_multipolygon :
  forall {C W} (place : C -> Q * Q -> W) is_same eqb transform, faithful place is_same eqb transform ->
  forall polys own crs, reachable eqb transform own crs ->
  (exists us, multipolygon_vertices C eqb transform polys own crs = Ok us /\
    map (map (places place (asked own crs))) us = map (map (places place own)) polys) /\
  (exists us, multipolygon_coords C eqb transform polys own crs = Ok us /\
    map (map (fun t => map (place (asked own crs)) (combine (nth 0 t []) (nth 1 t [])))) us = map (map (places place own)) polys).
Proof.
  intros C W place is_same eqb transform F polys own crs H.
  exact (conj (multipolygon_ok place is_same eqb transform F polys own crs H)
              (multipolygon_coords_ok place is_same eqb transform F polys own crs H)).
Qed.
Print Assumptions C98_multipolygon.

(** A multipoint made of points in several systems, and a multiline made of lines, are where
    their members are.  The system is the one given, otherwise that of the first. *)
Theorem C98_multipoint_of_points_partial :
  forall {C W} (place : C -> Q * Q -> W) is_same eqb transform, faithful place is_same eqb transform ->
  forall p pts crs, let c := asked (snd p) crs in
  (forall q, In q (p :: pts) -> reachable eqb transform (snd q) (Some c) /\ flat_point (fst q)) ->
  exists v, multipoint_of_points C eqb transform (p :: pts) crs = Ok (v, c) /\
    places place c v = map (point_place place) (p :: pts).
Proof. intros C W place is_same eqb transform. exact (multipoint_ok place is_same eqb transform). Qed.
Print Assumptions C98_multipoint_of_points_partial.
Theorem C98_multiline_of_lines_partial :
  forall {C W} (place : C -> Q * Q -> W) is_same eqb transform, faithful place is_same eqb transform ->
  forall p lines crs, let c := asked (snd p) crs in
  (forall q, In q (p :: lines) -> reachable is_same transform (snd q) (Some c) /\ flat (fst q)) ->
  exists vs, multiline_of_lines C is_same transform (p :: lines) crs = Ok (vs, c) /\
    map (places place c) vs = map (fun q => places place (snd q) (fst q)) (p :: lines).
Proof. intros C W place is_same eqb transform. exact (multiline_of_ok place is_same eqb transform). Qed.
Print Assumptions C98_multiline_of_lines_partial.

(** A line or polygon made of points in one system, if no other is given. *)
Theorem C98_line_of_points_partial :
  forall {C W} (place : C -> Q * Q -> W) p pts crs, asked (snd p) crs = snd p ->
  (forall q, In q (p :: pts) -> snd q = snd p /\ flat_point (fst q)) ->
  exists v, line_of_points C (p :: pts) crs = Ok (v, snd p) /\
    places place (snd p) v = map (point_place place) (p :: pts).
Proof. intros C W place. exact (line_of_ok place). Qed.
Print Assumptions C98_line_of_points_partial.

(** Sums of points, of lines and of polygons without holes are where the summands are. *)
Theorem C98_sum_points_partial :
  forall {C W} (place : C -> Q * Q -> W) is_same eqb transform, faithful place is_same eqb transform ->
  forall p q, reachable eqb transform (snd q) (Some (snd p)) -> flat_point (fst p) -> flat_point (fst q) ->
  exists v, add_points C eqb transform p q = Ok (v, snd p) /\ places place (snd p) v = map (point_place place) [p; q].
Proof. intros C W place is_same eqb transform. exact (add_points_ok place is_same eqb transform). Qed.
Print Assumptions C98_sum_points_partial.
Theorem C98_sum_lines_partial :
  forall {C W} (place : C -> Q * Q -> W) is_same eqb transform, faithful place is_same eqb transform ->
  forall a b, reachable is_same transform (snd b) (Some (snd a)) -> flat (fst b) ->
  exists vs, add_lines C is_same transform a b = Ok (vs, snd a) /\
    map (places place (snd a)) vs = map (fun q => places place (snd q) (fst q)) [a; b].
Proof. intros C W place is_same eqb transform. exact (add_lines_ok place is_same eqb transform). Qed.
Print Assumptions C98_sum_lines_partial.
Theorem C98_sum_polygons_partial :
  forall {C W} (place : C -> Q * Q -> W) is_same eqb transform, faithful place is_same eqb transform ->
  forall a b : polygon C, reachable is_same transform (psystem C b) (Some (psystem C a)) -> flat (outline C b) ->
  exists vs, add_polygons C is_same transform a b = Ok (vs, psystem C a) /\
    map (map (places place (psystem C a))) vs =
      [[places place (psystem C a) (outline C a)]; [places place (psystem C b) (outline C b)]].
Proof. intros C W place is_same eqb transform. exact (add_polygons_ok place is_same eqb transform). Qed.
Print Assumptions C98_sum_polygons_partial.

(** The coordinates of the cells of a grid in another system are those of the same places. *)
Theorem C98_cells :
  forall {C W} (place : C -> Q * Q -> W) is_same eqb transform, faithful place is_same eqb transform ->
  forall own out p, reachable (fun a b => eqb b a) transform own (Some out) ->
  exists q, cell_coords C eqb transform own out p = Ok q /\ place out q = place own p.
Proof. intros C W place is_same eqb transform. exact (cell_ok place is_same eqb transform). Qed.
Print Assumptions C98_cells.

(** Two systems that differ in the order of the axes, and a third without transformations. *)
Inductive sys := XY | YX | Local.
Definition sys_eqb (a b : sys) : bool := match a, b with XY, XY | YX, YX | Local, Local => true | _, _ => false end.
Definition swap (p : Q * Q) : Q * Q := (snd p, fst p).
Definition sys_transform (a b : sys) : outcome (Q * Q -> Q * Q) :=
  match a, b with
  | Local, _ => Raise NotImplementedError
  | _, Local => Raise AttributeError
  | XY, XY | YX, YX => Ok (fun p => p)
  | _, _ => Ok swap
  end.
Definition sys_place (a : sys) (p : Q * Q) : bool * (Q * Q) :=
  match a with XY => (true, p) | YX => (true, swap p) | Local => (false, p) end.
Example C98_faithful : faithful sys_place sys_eqb sys_eqb sys_transform.
Proof.
  split.
  - intros [] [] H p; try discriminate; reflexivity.
  - intros c d H. exact H.
  - intros [] [] f H p; try discriminate; injection H as <-; destruct p as [x y]; reflexivity.
Qed.
Example C98_nonvacuous :
  vertex sys sys_eqb sys_transform (Geom_Model.C3 1 2 3) XY (Some YX) = Ok (Geom_Model.C2 2 1) /\
  coords sys sys_eqb sys_transform (Geom_Model.V3 [(1, 2, 3); (4, 5, 6)]%Q) XY (Some YX) = Ok ([2; 5], [1; 4])%Q /\
  vertices sys sys_eqb sys_transform (Geom_Model.V2 [(1, 2); (4, 5)]%Q) XY (Some YX) false = Ok (Geom_Model.V2 [(2, 1); (5, 4)]%Q) /\
  multiline_vertices sys sys_eqb sys_transform [Geom_Model.V2 [(1, 2)]%Q; Geom_Model.V2 [(4, 5); (7, 8)]%Q] XY (Some YX) =
    Ok [Geom_Model.V2 [(2, 1)]%Q; Geom_Model.V2 [(5, 4); (8, 7)]%Q] /\
  multipoint_of_points sys sys_eqb sys_transform [(Geom_Model.C2 1 2, XY); (Geom_Model.C2 3 4, YX)] None =
    Ok (Geom_Model.V2 [(1, 2); (4, 3)]%Q, XY) /\
  multiline_of_lines sys sys_eqb sys_transform [(Geom_Model.V2 [(1, 2)]%Q, XY); (Geom_Model.V2 [(3, 4); (5, 6)]%Q, YX)] (Some YX) =
    Ok ([Geom_Model.V2 [(2, 1)]%Q; Geom_Model.V2 [(3, 4); (5, 6)]%Q], YX) /\
  line_of_points sys [(Geom_Model.C2 1 2, XY); (Geom_Model.C2 3 4, XY)] None = Ok (Geom_Model.V2 [(1, 2); (3, 4)]%Q, XY) /\
  add_points sys sys_eqb sys_transform (Geom_Model.C2 1 2, XY) (Geom_Model.C2 3 4, YX) = Ok (Geom_Model.V2 [(1, 2); (4, 3)]%Q, XY) /\
  cell_coords sys sys_eqb sys_transform XY YX (1, 2)%Q = Ok (2, 1)%Q.
Proof. repeat split; reflexivity. Qed.

(** Finding: a line, polygon or multipoint with third coordinates has no vertices in another
    system: the method raises AttributeError, whatever the transformation. *)
Theorem C98_elevation_refuted :
  forall C (is_same : C -> C -> bool) transform l own c f, is_same c own = false -> transform own c = Ok f ->
  vertices C is_same transform (Geom_Model.V3 l) own (Some c) false = Raise AttributeError.
Proof. intros C is_same transform l own c f S T. unfold vertices. rewrite S, T. reflexivity. Qed.
Print Assumptions C98_elevation_refuted.

(** Finding: points and the parts of multilines silently lose their third coordinates instead. *)
Theorem C98_height_refuted :
  vertex sys sys_eqb sys_transform (Geom_Model.C3 1 2 3) XY None = Ok (Geom_Model.C3 1 2 3) /\
  vertex sys sys_eqb sys_transform (Geom_Model.C3 1 2 3) XY (Some YX) = Ok (Geom_Model.C2 2 1) /\
  multiline_vertices sys sys_eqb sys_transform [Geom_Model.V3 [(1, 2, 3)]%Q] XY (Some YX) = Ok [Geom_Model.V2 [(2, 1)]%Q].
Proof. repeat split; reflexivity. Qed.
Print Assumptions C98_height_refuted.

(** Finding: so a multipoint, or a sum, of two points with third coordinates in different
    systems mixes vertices of two ranks, which the vertex container refuses. *)
Theorem C98_mixed_rank_refuted :
  multipoint_of_points sys sys_eqb sys_transform [(Geom_Model.C3 1 2 3, XY); (Geom_Model.C3 3 4 5, YX)] None = Raise RankError /\
  add_points sys sys_eqb sys_transform (Geom_Model.C3 1 2 3, XY) (Geom_Model.C3 3 4 5, YX) = Raise RankError.
Proof. split; reflexivity. Qed.
Print Assumptions C98_mixed_rank_refuted.

(** Finding: [Line] and [Polygon] made of points in different systems take the coordinates
    as they are and call all of them coordinates of one system (a multipoint does not), so
    the vertices are elsewhere; the same if another system is given. *)
Theorem C98_line_of_points_refuted :
  let pts := [(Geom_Model.C2 1 2, XY); (Geom_Model.C2 3 4, YX)] in
  (exists v, line_of_points sys pts None = Ok (v, XY) /\ places sys_place XY v <> map (point_place sys_place) pts) /\
  (exists v, line_of_points sys [(Geom_Model.C2 1 2, XY)] (Some YX) = Ok (v, YX) /\
             places sys_place YX v <> map (point_place sys_place) [(Geom_Model.C2 1 2, XY)]).
Proof. split; eexists; (split; [reflexivity | cbn; discriminate]). Qed.
Print Assumptions C98_line_of_points_refuted.

(** Finding: the sum of two polygons has lost their holes. *)
Theorem C98_sum_holes_refuted :
  forall C (is_same : C -> C -> bool) transform a b vs c, add_polygons C is_same transform a b = Ok (vs, c) ->
  exists r1 r2, vs = [[r1]; [r2]].
Proof.
  intros C is_same transform a b vs c E. unfold add_polygons in E.
  destruct (vertices C is_same transform (outline C b) (psystem C b) (Some (psystem C a)) false) as [v|e]; [|discriminate].
  injection E as <- <-. exists (outline C a), v. reflexivity.
Qed.
Print Assumptions C98_sum_holes_refuted.

(** Finding: an equal system that is another object (two [ProjectedCRS] of one text) is not
    recognised by [vertices], which raises for third coordinates, unlike [Multiline.vertices]. *)
Theorem C98_identity_refuted :
  faithful sys_place (fun _ _ => false) sys_eqb sys_transform /\
  vertices sys (fun _ _ => false) sys_transform (Geom_Model.V3 [(1, 2, 3)]%Q) XY (Some XY) false = Raise AttributeError /\
  multiline_vertices sys sys_eqb sys_transform [Geom_Model.V3 [(1, 2, 3)]%Q] XY (Some XY) = Ok [Geom_Model.V3 [(1, 2, 3)]%Q].
Proof.
  split; [|split; reflexivity]. destruct C98_faithful as [H1 H2 H3]. split; [exact H1 | intros c d H; discriminate | exact H3].
Qed.
Print Assumptions C98_identity_refuted.
