(** C89, C90, C91: exchange of geometries by [__geo_interface__] and by shapefiles. *)
From Coq Require Import String Ascii List QArith.
From Verif Require Geom_Model Geom_Spec Crs_Model Crs_Spec Crs_Proofs.
From Verif Require Import Ogr_Model Ogr_Spec Ogr_Proofs Ogr_Text.
Import ListNotations.
Local Open Scope string_scope.

(** C89: a geometry read from another one's [__geo_interface__] is that geometry: the kinds
    without rings keep their vertices, points, lines, polygons and multipoints their
    properties; a polygon keeps the area of its rings. *)
Theorem C89_vertices_partial : forall val data vtext (g : geo val data) properties, without_rings (gshape g) -> filled (gshape g) ->
  exists h, from_shape vtext g properties = Ok h /\ gshape h = gshape g.
Proof. exact @from_kept. Qed.
Print Assumptions C89_vertices_partial.
Theorem C89_properties_partial : forall val data vtext (g : geo val data) properties h, with_properties (gshape g) -> from_shape vtext g properties = Ok h ->
  get "_karta_proj4" (gprops h) = Some (vtext (gproj4 g)) /\ forall k, k <> "_karta_proj4" -> get k (gprops h) = get k (gprops g).
Proof. exact @from_properties. Qed.
Print Assumptions C89_properties_partial.
Theorem C89_polygon_partial : forall val data vtext (g : geo val data) properties r subs, gshape g = Pg r subs -> filled (gshape g) -> exists h r' subs',
  from_shape vtext g properties = Ok h /\ gshape h = Pg r' subs' /\ closes r r' /\ same_area r r' /\ Forall2 closes subs subs' /\ Forall2 same_area subs subs'.
Proof. exact @from_polygon. Qed.
Print Assumptions C89_polygon_partial.
Theorem C89_multipolygon_partial : forall val data vtext (g : geo val data) properties l, gshape g = MPg l -> filled (gshape g) -> exists h l',
  from_shape vtext g properties = Ok h /\ gshape h = MPg l' /\ Forall2 (Forall2 closes) l l' /\ Forall2 (Forall2 same_area) l l'.
Proof. exact @from_multipolygon. Qed.
Print Assumptions C89_multipolygon_partial.
Definition v2 (x y : Z) : vertex := Geom_Model.C2 (inject_Z x) (inject_Z y).
Definition v3 (x y z : Z) : vertex := Geom_Model.C3 (inject_Z x) (inject_Z y) (inject_Z z).
Definition donut : geo string nat := mkGeo (Pg [v2 0 0; v2 9 0; v2 9 9] [[v2 5 1; v2 8 2; v2 7 3]]) [("name", "ring")] None "+proj=merc".
Definition tracks : geo string nat := mkGeo (MLn [[v2 0 0; v2 1 1]; [v2 2 2; v2 3 5; v2 4 4]]) [("name", "tracks")] (Some 2%nat) "+proj=merc".
Example C89_example : filled (gshape donut) /\ filled (gshape tracks) /\ without_rings (gshape tracks) /\ with_properties (gshape donut) /\
  exists h, from_shape (fun s => s) donut None = Ok h /\ get "name" (gprops h) = Some "ring".
Proof.
  split; [repeat constructor; discriminate|]. split; [split; [discriminate|repeat constructor; discriminate]|].
  split; [exact Logic.I|]. split; [exact Logic.I|]. eexists. split; reflexivity.
Qed.
(** Every polygon gains a vertex. *)
Theorem C89_ring_refuted : forall val data vtext (g : geo val data) properties h r subs, gshape g = Pg r subs -> from_shape vtext g properties = Ok h ->
  exists r' subs', gshape h = Pg r' subs' /\ length r' = S (length r).
Proof. exact @from_grows. Qed.
Print Assumptions C89_ring_refuted.
(** The system becomes Cartesian, and the data are lost. *)
Theorem C89_system_refuted : forall val data vtext (g : geo val data) properties h, from_shape vtext g properties = Ok h -> gproj4 h = "" /\ gdata h = None.
Proof. exact @from_lost. Qed.
Print Assumptions C89_system_refuted.
(** Multilines and multipolygons lose their properties. *)
Theorem C89_multipart_refuted : forall val data vtext (g : geo val data) properties h, ~ with_properties (gshape g) -> from_shape vtext g properties = Ok h ->
  gprops h = [("_karta_proj4", vtext (gproj4 g))].
Proof. exact @from_multi_props. Qed.
Print Assumptions C89_multipart_refuted.
Example C89_multipart_example : exists h, from_shape (fun s => s) tracks None = Ok h /\ get "name" (gprops tracks) = Some "tracks" /\ get "name" (gprops h) = None.
Proof. eexists. split; [reflexivity|]. split; reflexivity. Qed.
(** The properties given to [from_shape] are not used. *)
Theorem C89_argument_refuted : forall val data vtext (g : geo val data) properties, from_shape vtext g properties = from_shape vtext g None.
Proof. exact @from_argument. Qed.
Print Assumptions C89_argument_refuted.

(** C90: geometries written to a shapefile and read back: lines, polygons with holes,
    multipoints and multilines come back in order, every one with its kind, its rings and
    parts and the horizontal coordinates of its vertices. *)
Theorem C90_geometries_partial : forall val data vtext (gs : list (geo val data)) attributes, gs <> [] ->
  (forall g, In g gs -> storable (gshape g) /\ filled (gshape g)) -> exists f (hs : list (geo val data)),
  write_shapefile vtext gs = Ok f /\ read_shapefile attributes f = Ok hs /\ map gshape hs = map (fun g => level_shape (gshape g)) gs.
Proof. exact @shapefile_back. Qed.
Print Assumptions C90_geometries_partial.
Example C90_example : storable (gshape donut) /\ flat_shape (gshape donut) /\
  exists f h, write_shapefile (fun s => s) [donut] = Ok f /\ read_shapefile (data := nat) [("NAME", "ring")] f = Ok [h] /\ gshape h = gshape donut.
Proof. split; [exact Logic.I|]. split; [reflexivity|]. eexists; eexists. split; [reflexivity|]. split; [vm_compute; reflexivity|reflexivity]. Qed.
(** Third coordinates are lost. *)
Theorem C90_elevation_refuted : forall val data vtext p, exists (g : geo val data) f (h : geo val data), write_shapefile vtext [g] = Ok f /\ read_shapefile p f = Ok [h] /\
  gshape g = Ln [v3 0 0 100; v3 1 1 200] /\ gshape h = Ln [v2 0 0; v2 1 1].
Proof.
  intros val data vtext p. exists (mkGeo (Ln [v3 0 0 100; v3 1 1 200]) [] None ""). eexists; eexists.
  split; [reflexivity|]. split; [reflexivity|]. split; reflexivity.
Qed.
Print Assumptions C90_elevation_refuted.
(** A point comes back with a third coordinate, which is zero. *)
Theorem C90_point_refuted : forall val data vtext (g : geo val data) p v, gshape g = Pt v -> exists f (h : geo val data),
  write_shapefile vtext [g] = Ok f /\ read_shapefile p f = Ok [h] /\ gshape h = Pt (Geom_Model.C3 (vx v) (vy v) 0).
Proof. exact @point_back. Qed.
Print Assumptions C90_point_refuted.
(** A multipolygon is written as a collection of lines, which takes no polygon. *)
Theorem C90_multipolygon_refuted : forall val data vtext (g : geo val data) p l, gshape g = MPg l -> filled (gshape g) -> exists f (h : geo val data),
  write_shapefile vtext [g] = Ok f /\ read_shapefile p f = Ok [h] /\ gshape h = MLn [].
Proof. exact @multipolygon_lost. Qed.
Print Assumptions C90_multipolygon_refuted.
Example C90_multipolygon_example : filled (MPg [[[v2 0 0; v2 1 0; v2 1 1]]]).
Proof. split; [discriminate|]. repeat constructor; discriminate. Qed.
(** All geometries of a file get the system of the first; none is transformed. *)
Theorem C90_system_refuted : forall val data vtext (g : geo val data) gs p f (hs : list (geo val data)) h,
  write_shapefile vtext (g :: gs) = Ok f -> read_shapefile p f = Ok hs -> In h hs -> gproj4 h = layer_text (gproj4 g).
Proof. exact @system_of_first. Qed.
Print Assumptions C90_system_refuted.
Example C90_system_example : let a : geo string nat := mkGeo (Ln [v2 0 0; v2 1 1]) [] None "+proj=merc" in
  let b : geo string nat := mkGeo (Ln [v2 5 5; v2 6 6]) [] None "+proj=utm +zone=7" in
  exists f (h k : geo string nat), write_shapefile (fun s => s) [a; b] = Ok f /\ read_shapefile [] f = Ok [h; k] /\ gshape k = gshape b /\ gproj4 k = "+proj=merc".
Proof. cbv zeta. eexists; eexists; eexists. split; [reflexivity|]. split; [reflexivity|]. split; reflexivity. Qed.

(** C91: the system of a shapefile or a well-known text is the system of the geometry: texts
    without karta's names of longitude and latitude are handed over as they are, and those
    of karta's geographical systems under the name OGR knows. *)
Theorem C91_text_partial : forall s, s <> "" -> ~ Crs_Spec.occurs "lonlat" s -> ~ Crs_Spec.occurs "latlon" s -> layer_text s = s /\ wkt_source s = s.
Proof. exact text_unchanged. Qed.
Print Assumptions C91_text_partial.
Theorem C91_geographical : forall rest, ~ Crs_Spec.occurs "lonlat" rest -> ~ Crs_Spec.occurs "latlon" rest ->
  layer_text ("+proj=lonlat " ++ rest) = "+proj=longlat " ++ rest /\ wkt_source ("+proj=lonlat " ++ rest) = "+proj=longlat " ++ rest /\
  layer_text ("+proj=latlon " ++ rest) = "+proj=latlong " ++ rest /\ wkt_source ("+proj=latlon " ++ rest) = "+proj=latlong " ++ rest.
Proof. exact text_geographical. Qed.
Print Assumptions C91_geographical.
Example C91_example : ~ Crs_Spec.occurs "lonlat" "+ellps=WGS84 +datum=WGS84" /\ ~ Crs_Spec.occurs "latlon" "+ellps=WGS84 +datum=WGS84" /\
  layer_text "+proj=utm +zone=7 +ellps=GRS80" = "+proj=utm +zone=7 +ellps=GRS80".
Proof. split; [apply absent_iff; reflexivity|]. split; [apply absent_iff; reflexivity|reflexivity]. Qed.
(** PROJ's own name latlong is spoiled. *)
Theorem C91_latlong_refuted : forall rest, ~ Crs_Spec.occurs "lonlat" rest -> ~ Crs_Spec.occurs "latlon" rest ->
  layer_text ("+proj=latlong " ++ rest) = "+proj=latlongg " ++ rest /\ wkt_source ("+proj=latlong " ++ rest) = "+proj=latlongg " ++ rest.
Proof. exact text_latlong. Qed.
Print Assumptions C91_latlong_refuted.
(** Cartesian coordinates are written as longitudes and latitudes. *)
Theorem C91_cartesian_refuted : layer_text "" = "+proj=longlat +datum=WGS84".
Proof. exact text_cartesian. Qed.
Print Assumptions C91_cartesian_refuted.
(** The ellipsoid of a geographical layer and the text of a projected one are kept. *)
Theorem C91_ellipsoid_partial : forall float show r, is_geographic r = true -> ~ (semi_major r == 0)%Q -> ~ (inv_flattening r == 0)%Q ->
  readable float show (semi_major r) -> readable float show (1 / inv_flattening r) -> exists e t,
  parse_srs float show r = Crs_Model.Ok (e, t, projcs r) /\ Crs_Model.el_a e = semi_major r /\
  exists f, Crs_Model.el_f e = Some f /\ (f == 1 / inv_flattening r)%Q.
Proof. exact srs_geographic. Qed.
Print Assumptions C91_ellipsoid_partial.
Example C91_ellipsoid_example : let float s := if String.eqb s "2" then Some 2%Q else if String.eqb s "0.5" then Some (1 / 2)%Q else None in
  let show q := if Qeq_bool q 2 then "2" else "0.5" in readable float show 2 /\ readable float show (1 / 2).
Proof.
  cbv zeta. assert (forall v, forallb (fun c => negb (Crs_Model.is_space c) && negb (Ascii.eqb c "="))%bool (Crs_Spec.chars v) = true -> Crs_Spec.value v) as V.
  { intros v H c C. rewrite forallb_forall in H. specialize (H c C). rewrite Bool.andb_true_iff, !Bool.negb_true_iff in H. destruct H as (H1 & H2).
    split; [intros S; apply Crs_Proofs.is_space_iff in S; congruence|intros ->; discriminate]. }
  split; (split; [apply V; reflexivity|]; split; [apply absent_iff; reflexivity|]; split; [apply absent_iff; reflexivity|reflexivity]).
Qed.
Theorem C91_projected : forall float show r e, is_geographic r = false -> Crs_Model.parse_ellipsoid float (export r) = Crs_Model.Ok e ->
  exists n, parse_srs float show r = Crs_Model.Ok (e, export r, Some n) /\ (forall m, projcs r = Some m -> n = m).
Proof. exact srs_projected. Qed.
Print Assumptions C91_projected.
Example C91_projected_example : forall float show, exists e n,
  parse_srs float show (mkSrs false 6378137 298 "+proj=utm +zone=7 +ellps=GRS80" (Some "UTM 7")) = Crs_Model.Ok (e, "+proj=utm +zone=7 +ellps=GRS80", Some n) /\ n = "UTM 7".
Proof. intros float show. eexists; eexists. split; vm_compute; reflexivity. Qed.
(** A geographical layer on a sphere cannot be read. *)
Theorem C91_sphere_refuted : forall float show r, is_geographic r = true -> (inv_flattening r == 0)%Q ->
  parse_srs float show r = Crs_Model.Raise Crs_Model.ZeroDivisionError.
Proof. exact srs_sphere. Qed.
Print Assumptions C91_sphere_refuted.
