(** C37, C38, C39, C69, C70, C71: longitudes and angles. *)
From Coq Require Import List ZArith QArith Qabs.
From Verif Require Import Geom_Model Geom_Spec Lon_Model Lon_Spec Lon_Proofs Lon_Box.
Import ListNotations.
Open Scope Q_scope.

(** C37: the test of two longitudes: 1 going west, -1 going east, 0 if not passing. *)
Theorem C37_crosses : forall x0 x1, lon_ok x0 -> lon_ok x1 ->
  (180 < x1 - x0 /\ crosses_dateline x0 x1 = 1%Z) \/ (180 < x0 - x1 /\ crosses_dateline x0 x1 = (-1)%Z) \/
  (~ passes_180 x0 x1 /\ crosses_dateline x0 x1 = 0%Z).
Proof. exact crosses_spec. Qed.
Print Assumptions C37_crosses.
Theorem C37_antisymmetric : forall x0 x1, crosses_dateline x1 x0 = (- crosses_dateline x0 x1)%Z.
Proof. exact crosses_anti. Qed.
Print Assumptions C37_antisymmetric.
(** Of a whole line or polygon. *)
Theorem C37_geometry_crosses : forall segments, (forall s, In s segments -> lon_ok (fst s) /\ lon_ok (snd s)) ->
  (geom_crosses_dateline segments = true <-> exists s, In s segments /\ passes_180 (fst s) (snd s)).
Proof. exact geom_crosses. Qed.
Print Assumptions C37_geometry_crosses.
(** Box: the longitudes, when no edge passes the 180th meridian. *)
Theorem C37_bbox_partial : forall bndlat (l : list (Q * Q)) (ring : bool), l <> [] -> (forall v, In v l -> lon_ok (fst v)) ->
  (forall i a b, (if ring then ring_edge l i a b else path_edge l i a b) -> ~ passes_180 (fst a) (fst b)) ->
  exists x0 y0 x1 y1, dateline_bbox bndlat l ring = Some (x0, y0, x1, y1) /\
  (forall v, In v l -> x0 <= fst v /\ fst v <= x1) /\ (exists v, In v l /\ fst v == x0) /\ (exists v, In v l /\ fst v == x1).
Proof. exact box_no_crossing. Qed.
Print Assumptions C37_bbox_partial.
Example C37_bbox_example : dateline_bbox flat_lat [(10, 5); (30, 40); (-20, 7)] true = Some (-20, 5, 30, 40).
Proof. reflexivity. Qed.
(** One segment across: from one end east to the other. *)
Theorem C37_bbox_segment : forall bndlat a b, lon_ok (fst a) -> lon_ok (fst b) -> passes_180 (fst a) (fst b) ->
  exists x0 y0 x1 y1, dateline_bbox bndlat [a; b] false = Some (x0, y0, x1, y1) /\
  ((x0 == fst a /\ x1 == fst b) \/ (x0 == fst b /\ x1 == fst a)) /\ x1 < x0.
Proof. exact box_segment. Qed.
Print Assumptions C37_bbox_segment.
Example C37_bbox_segment_example : lon_ok 170 /\ lon_ok (-175) /\ passes_180 170 (-175) /\
  dateline_bbox flat_lat [(170, 1); (-175, 2)] false = Some (170, 1, -175, 2).
Proof. repeat split; try discriminate; right; reflexivity. Qed.
(** The latitudes, given bounds for the single segments. *)
Theorem C37_bbox_latitudes : forall bndlat (l : list (Q * Q)) (ring : bool), l <> [] ->
  (forall a b, match bndlat a b with
   | Some (lo, hi) => lo <= snd a /\ lo <= snd b /\ snd a <= hi /\ snd b <= hi | None => snd a == snd b end) ->
  exists x0 y0 x1 y1, dateline_bbox bndlat l ring = Some (x0, y0, x1, y1) /\
  (forall v, In v l -> y0 <= snd v /\ snd v <= y1) /\
  (forall i a b lo hi, (if ring then ring_edge l i a b else path_edge l i a b) -> bndlat a b = Some (lo, hi) -> y0 <= lo /\ hi <= y1).
Proof. exact box_latitudes. Qed.
Print Assumptions C37_bbox_latitudes.
Example C37_bbox_latitudes_example : forall a b, match flat_lat a b with
   | Some (lo, hi) => lo <= snd a /\ lo <= snd b /\ snd a <= hi /\ snd b <= hi | None => snd a == snd b end.
Proof. exact flat_lat_ends. Qed.
(** After passing the meridian further vertices can be lost. *)
Theorem C37_bbox_refuted : exists l x0 y0 x1 y1 v, (forall u, In u l -> lon_ok (fst u)) /\
  dateline_bbox flat_lat l false = Some (x0, y0, x1, y1) /\ In v l /\ ~ in_range x0 x1 (fst v).
Proof. exact box_lost. Qed.
Print Assumptions C37_bbox_refuted.

(** C38: normalised angles. *)
Theorem C38_unroll : forall x, 0 <= unroll_deg x /\ unroll_deg x < 360 /\ cong x (unroll_deg x).
Proof. exact unroll_spec. Qed.
Print Assumptions C38_unroll.
Theorem C38_reduce : forall x, - (180) <= reduce_deg x /\ reduce_deg x < 180 /\ cong x (reduce_deg x).
Proof. exact reduce_spec. Qed.
Print Assumptions C38_reduce.
(** Already normal angles are kept, and congruent angles have one normal form. *)
Theorem C38_unroll_normal : forall x y, 0 <= y -> y < 360 -> cong x y -> unroll_deg x == y.
Proof. exact unroll_unique. Qed.
Print Assumptions C38_unroll_normal.
Theorem C38_reduce_normal : forall x y, - (180) <= y -> y < 180 -> cong x y -> reduce_deg x == y.
Proof. exact reduce_unique. Qed.
Print Assumptions C38_reduce_normal.
Theorem C38_between_partial : forall x x0 x1, ~ cong x1 (x0 + 180) -> (isbetween_circular x x0 x1 = true <-> on_arc x x0 x1).
Proof. exact isbetween_spec. Qed.
Print Assumptions C38_between_partial.
Example C38_between_example : isbetween_circular (-178) 170 (-175) = true /\ isbetween_circular 0 170 (-175) = false /\
  isbetween_circular 545 (-175) 170 = true.
Proof. repeat split. Qed.
Theorem C38_between_symmetric : forall x x0 x1, isbetween_circular x x0 x1 = isbetween_circular x x1 x0.
Proof. exact isbetween_sym. Qed.
Print Assumptions C38_between_symmetric.
(** With opposite ends no angle is between, the ends included. *)
Theorem C38_between_refuted : exists x0 x1, cong x1 (x0 + 180) /\ isbetween_circular x0 x0 x1 = false /\ isbetween_circular x1 x0 x1 = false.
Proof. exact isbetween_antipodal. Qed.
Print Assumptions C38_between_refuted.

(** C39 *)
Theorem C39_canonical : forall x1 y1 x2 y2, exists t a b c d, canonical x1 y1 x2 y2 = (t, a, b, c, d) /\
  a == 0 /\ b <= 0 /\ b <= d /\ d <= - b /\ 0 <= c - a /\ c - a <= 180 /\
  cong (if xflip t then - (c - a) else c - a) (x2 - x1) /\
  (let '(b, d) := if ysignswap t then (- b, - d) else (b, d) in
   let '(b, d) := if yflip t then (d, b) else (b, d) in b == y1 /\ d == y2).
Proof. exact canonical_spec. Qed.
Print Assumptions C39_canonical.
Example C39_canonical_example : canonical 170 20 (-150) 45 = (mkFlips true false true, 0, -45, 40, -20).
Proof. reflexivity. Qed.

(** C69: polygons round a pole. [m] are the longitudes reduced to [-180, 180). *)
Theorem C69_ispolar : forall l m, l <> [] -> Forall2 (fun x y => cong x y /\ lon_ok y) l m ->
  exists b, ispolar l = Ok b /\ (b = true <-> exists i x y, ring_edge m i x y /\ passes_180 x y).
Proof. exact ispolar_spec. Qed.
Print Assumptions C69_ispolar.
(** So it is right for rings that pass the 180th meridian in one direction only. *)
Theorem C69_one_way_partial : forall l m, l <> [] -> Forall2 (fun x y => cong x y /\ lon_ok y) l m ->
  (forall i x y, ring_edge m i x y -> (0 <= crossing x y)%Z) \/ (forall i x y, ring_edge m i x y -> (crossing x y <= 0)%Z) ->
  exists b, ispolar l = Ok b /\ (b = true <-> ring_total crossing m <> 0%Z).
Proof. exact ispolar_one_way. Qed.
Print Assumptions C69_one_way_partial.
Example C69_example : Forall lon_ok [- (120); 0; 120] /\ ispolar [- (120); 0; 120] = Ok true /\ ring_total crossing [- (120); 0; 120] = 1%Z.
Proof. exact polar_right. Qed.
(** And wrong for a small polygon across it. *)
Theorem C69_small_polygon_refuted : exists l, Forall lon_ok l /\ ispolar l = Ok true /\ ring_total crossing l = 0%Z.
Proof. exact ispolar_small. Qed.
Print Assumptions C69_small_polygon_refuted.

(** C70: points in polygons in geographical coordinates; [az] gives the azimuths of the
    vertices from the point, [bear] the same in [0, 360). *)
Theorem C70_answer : forall az bear (l : list (Q * Q)), l <> [] -> (forall v, cong (az v) (bear v) /\ 0 <= bear v /\ bear v < 360) ->
  exists b, contains_proj az l true = Ok b /\ (b = true <-> forall i v w, ring_edge l i v w -> bear v - bear w <= 180).
Proof. exact contains_proj_bear. Qed.
Print Assumptions C70_answer.
(** A ring that spans less than 180 degrees of azimuth, so not round the point: contained. *)
Theorem C70_outside_refuted : exists az l, (forall v, In v l -> 0 <= az v /\ az v < 360) /\
  contains_proj az l true = Ok true /\ (forall i v w, ring_edge l i v w -> Qabs (az v - az w) < 180).
Proof. exact proj_outside. Qed.
Print Assumptions C70_outside_refuted.
(** A ring once round the point: not contained, but contained when reversed. *)
Theorem C70_inside_refuted : exists az l, (forall v, In v l -> 0 <= az v /\ az v < 360) /\
  contains_proj az l true = Ok false /\ contains_proj az (rev l) true = Ok true /\
  ring_total crossing (map az l) = 1%Z /\ ring_total crossing (map az (rev l)) = (-1)%Z.
Proof. exact proj_inside. Qed.
Print Assumptions C70_inside_refuted.

(** C71: two points on the equator, [d] degrees apart the short way. *)
Theorem C71_equator_partial : forall x1 x2 d, short_way x1 x2 d ->
  exists az baz s, inverse_equatorial x1 x2 = (az, baz, s) /\
  (0 <= d -> az == 90 /\ baz == - (90)) /\ (d < 0 -> az == - (90) /\ baz == 90) /\
  (x2 == x1 + d -> s == Qabs d / 360).
Proof. exact equator_spec. Qed.
Print Assumptions C71_equator_partial.
Example C71_example : short_way 10 40 30 /\ short_way 170 (-170) 20.
Proof. split; (split; [|split; reflexivity]); [exists 0%Z; reflexivity|exists (-1)%Z; reflexivity]. Qed.
(** Across the 180th meridian the distance is the long way round. *)
Theorem C71_equator_refuted : exists x1 x2 d az baz s, short_way x1 x2 d /\ lon_ok x1 /\ lon_ok x2 /\
  inverse_equatorial x1 x2 = (az, baz, s) /\ d == 2 /\ s == 358 / 360.
Proof. exact equator_long. Qed.
Print Assumptions C71_equator_refuted.
