(** C45: GeoJSON. *)
From Coq Require Import String Ascii.
From Coq Require Import List Bool Arith ZArith.
From Verif Require Import Gjs_Model Gjs_Spec Gjs_Proofs.
Import ListNotations.
Open Scope list_scope.

(** C45: reading a feature with parts puts each property in exactly one of properties and
    data, and in data exactly when its length is the number of parts. *)
Theorem C45_partition : forall (V : Type) (h : gjgeom V) p n, count h = Some n -> is_dict p ->
  exists g t, read_geojson (DFeature (DGeometry h) p) = Ok (RList [RGeo g]) /\ data g = Some t /\
  (forall k v, get k p = Some v -> pylen v = Some n -> In k (fields t) /\ get k (props g) = None) /\
  (forall k v, get k p = Some v -> pylen v <> Some n -> ~ In k (fields t) /\ get k (props g) = Some v) /\
  (forall k, get k p = None -> ~ In k (fields t) /\ get k (props g) = None).
Proof. exact read_partition. Qed.
Print Assumptions C45_partition.
Example C45_partition_ex : exists g t, read_geojson (DFeature (DGeometry (GMultiPoint [1; 2])) [("a", JList [JNum 3; JNull]); ("b", JNum 4); ("c", JStr "xyz")]%string) = Ok (RList [RGeo g]) /\
  data g = Some t /\ getfield t "a"%string = Ok [JNum 3; JNull] /\ props g = [("b", JNum 4); ("c", JStr "xyz")]%string.
Proof. eexists. eexists. split; [vm_compute; reflexivity |]. split; [reflexivity |]. split; reflexivity. Qed.

(** C45: the columns read are the lists of the feature, if all properties of that length
    are lists. *)
Theorem C45_columns_partial : forall (V : Type) (h : gjgeom V) p n, count h = Some n -> is_dict p ->
  (forall k v, get k p = Some v -> pylen v = Some n -> exists l, v = JList l) ->
  exists g t, read_geojson (DFeature (DGeometry h) p) = Ok (RList [RGeo g]) /\ data g = Some t /\ is_table t n /\
  forall k l, get k p = Some (JList l) -> length l = n -> getfield t k = Ok l.
Proof. exact read_columns. Qed.
Print Assumptions C45_columns_partial.
Example C45_columns_partial_ex : count (GMultiPoint [1; 2]) = Some 2 /\ is_dict [("a", JList [JNum 3; JNull]); ("b", JNum 4)]%string /\
  forall k v, get k [("a", JList [JNum 3; JNull]); ("b", JNum 4)]%string = Some v -> pylen v = Some 2 -> exists l, v = JList l.
Proof.
  split; [reflexivity |]. split; [repeat constructor; cbn; intuition discriminate |]. intros k v. cbn.
  destruct (String.eqb k "a"); [intros [= <-] _; eexists; reflexivity |]. destruct (String.eqb k "b"); [intros [= <-] |]; discriminate.
Qed.

(** C45: a feature without parts keeps all its properties, whatever their length. *)
Theorem C45_single : forall (V : Type) (h : gjgeom V) p, count h = None -> h <> GPolygon [] -> is_dict p ->
  exists g, read_geojson (DFeature (DGeometry h) p) = Ok (RList [RGeo g]) /\ props g = p /\ data g = None.
Proof. exact read_single. Qed.
Print Assumptions C45_single.
Example C45_single_ex : exists g, read_geojson (DFeature (DGeometry (GLineString [1; 2])) [("a", JList [JNum 3; JNull])]%string) = Ok (RList [RGeo g]) /\
  verts g = Ln [1; 2] /\ props g = [("a", JList [JNum 3; JNull])]%string.
Proof. eexists. split; [vm_compute; reflexivity |]. split; reflexivity. Qed.

(** C45: a feature collection is read feature by feature, in order. *)
Theorem C45_collection : forall (V : Type) (fs : list (gjdoc V * dict)) rs,
  read_geojson (DFeatureCollection fs) = Ok (RList rs) <-> Forall2 (fun f r => read_geojson (DFeature (fst f) (snd f)) = Ok (RList [r])) fs rs.
Proof. exact read_collection. Qed.
Print Assumptions C45_collection.
Example C45_collection_ex : exists a b, read_geojson (DFeatureCollection [(DGeometry (GPoint 1), []); (DGeometry (GMultiPoint [2; 3]), [])]) = Ok (RList [RGeo a; RGeo b]) /\
  verts a = Pt 1 /\ verts b = MPt [2; 3].
Proof. eexists. eexists. split; [vm_compute; reflexivity |]. split; reflexivity. Qed.

(** C45: so is a collection of geometries. *)
Theorem C45_geometries : forall (V : Type) (gs : list (gjdoc V)) rs,
  read_geojson (DGeometryCollection gs) = Ok (RList rs) <-> Forall2 (fun g r => read_geojson g = Ok r) gs rs.
Proof. exact read_geometries. Qed.
Print Assumptions C45_geometries.
Example C45_geometries_ex : exists a b, read_geojson (DGeometryCollection [DGeometry (GPoint 1); DGeometry (GMultiPoint [2; 3])]) = Ok (RList [RGeo a; RGeo b]) /\
  verts a = Pt 1 /\ verts b = MPt [2; 3].
Proof. eexists. eexists. split; [vm_compute; reflexivity |]. split; reflexivity. Qed.

(** C45: a point or a line written and read again is the same. *)
Theorem C45_point : forall (V : Type) wind v p, is_dict p -> rewrite_geo wind (mkGeo (@Pt V v) p None) = Ok (RList [RGeo (mkGeo (Pt v) p None)]).
Proof. exact rewrite_single. Qed.
Print Assumptions C45_point.
Theorem C45_line : forall (V : Type) wind vs p, is_dict p -> rewrite_geo wind (mkGeo (@Ln V vs) p None) = Ok (RList [RGeo (mkGeo (Ln vs) p None)]).
Proof. exact rewrite_line. Qed.
Print Assumptions C45_line.
Example C45_line_ex : is_dict [("a", JNum 1); ("b", JList [JStr "x"])]%string.
Proof. repeat constructor; cbn; intuition discriminate. Qed.

(** C45: so is a multipoint or multiline, with its data, if no property is as long as the
    geometry and none has the name of a field. *)
Theorem C45_multipoint_partial : forall (V : Type) wind (vs : list V) p t, is_dict p -> is_table t (length vs) ->
  (forall k v, get k p = Some v -> pylen v <> Some (length vs) /\ ~ In k (fields t)) ->
  exists g' t', rewrite_geo wind (mkGeo (MPt vs) p (Some t)) = Ok (RList [RGeo g']) /\ verts g' = MPt vs /\ data g' = Some t' /\
    same_dict (props g') p /\ same_table t' t.
Proof. exact rewrite_multipoint. Qed.
Print Assumptions C45_multipoint_partial.
Theorem C45_multiline_partial : forall (V : Type) wind (vss : list (list V)) p t, (forall vs, In vs vss -> vs <> []) -> is_dict p -> is_table t (length vss) ->
  (forall k v, get k p = Some v -> pylen v <> Some (length vss) /\ ~ In k (fields t)) ->
  exists g' t', rewrite_geo wind (mkGeo (MLn vss) p (Some t)) = Ok (RList [RGeo g']) /\ verts g' = MLn vss /\ data g' = Some t' /\
    same_dict (props g') p /\ same_table t' t.
Proof. exact rewrite_multiline. Qed.
Print Assumptions C45_multiline_partial.
Example C45_multi_ex : is_table (mkTable ["d"; "e"]%string [[JNum 1; JNull]; [JNum 2; JStr "ab"]]) (length [5; 6]) /\
  forall k v, get k [("name", JStr "abc")]%string = Some v -> pylen v <> Some (length [5; 6]) /\ ~ In k ["d"; "e"]%string.
Proof.
  split.
  - split; [repeat constructor; cbn; intuition discriminate |]. split; [reflexivity |]. intros r [<- | [<- | []]]; reflexivity.
  - intros k v. cbn. destruct (String.eqb k "name") eqn:E; [| discriminate]. apply String.eqb_eq in E. subst. intros [= <-]. cbn. split; [discriminate | intuition discriminate].
Qed.

(** C45: a multiline with a part that has no vertices cannot be written. *)
Theorem C45_empty_part : forall (V : Type) tr urn vss p (d : option table), In [] vss ->
  as_geojson (Some urn) true true tr (mkGeo (@MLn V vss) p d) = Raise IndexError.
Proof. exact empty_part. Qed.
Print Assumptions C45_empty_part.

(** C45: a multipolygon comes back with its data, every ring with its first vertex
    repeated at the end. *)
Theorem C45_multipolygon_partial : forall (V : Type) (wind : bool -> list V -> list V) ps p t, turns wind -> (forall rings, In rings ps -> rings <> [] /\ forall r, In r rings -> r <> []) ->
  is_dict p -> is_table t (length ps) -> (forall k v, get k p = Some v -> pylen v <> Some (length ps) /\ ~ In k (fields t)) ->
  exists g' t' ps', rewrite_geo wind (mkGeo (MPg ps) p (Some t)) = Ok (RList [RGeo g']) /\ verts g' = MPg ps' /\ data g' = Some t' /\
    same_dict (props g') p /\ same_table t' t /\
    Forall2 (Forall2 (fun r r' => exists v, hd_error r = Some v /\ (r' = r ++ [v] \/ r' = rev (r ++ [v])))) ps ps'.
Proof. exact rewrite_multipolygon. Qed.
Print Assumptions C45_multipolygon_partial.
Example C45_multipolygon_partial_ex : turns (fun b (r : list nat) => if b then r else rev r).
Proof. intros [|] r; auto. Qed.

(** C45, refuted for polygons: a polygon written and read again has one vertex more, always. *)
Theorem C45_polygon_refuted : forall (V : Type) (wind : bool -> list V -> list V) (v : V) (r : list V) p, turns wind -> is_dict p ->
  exists ring, rewrite_geo wind (mkGeo (Pg (v :: r) []) p None) = Ok (RList [RGeo (mkGeo (Pg ring []) p None)]) /\
    (ring = (v :: r) ++ [v] \/ ring = rev ((v :: r) ++ [v])) /\ length ring = S (length (v :: r)).
Proof. exact polygon_grows. Qed.
Print Assumptions C45_polygon_refuted.

(** C45, refuted: a polygon with a hole that was read from GeoJSON cannot be written. *)
Theorem C45_holes_refuted : forall (V : Type) (wind : bool -> list V -> list V) (v : V) (r h : list V) hs p, turns wind -> is_dict p ->
  exists g', rewrite_geo wind (mkGeo (Pg (v :: r) (map SubPolygon (h :: hs))) p None) = Ok (RList [RGeo g']) /\
    forall urn, as_geojson (Some urn) true true (fun x => x) g' = Raise AttributeError.
Proof. exact holes_unwritable. Qed.
Print Assumptions C45_holes_refuted.

(** C45, refuted: a polygon in another coordinate system is written without its holes. *)
Theorem C45_reprojected_refuted : forall (V : Type) (tr : V -> V) (v : V) (r : list V) subs p, is_dict p ->
  as_geojson None true false tr (mkGeo (Pg (v :: r) subs) p None) =
  Ok (GPolygon [map tr (v :: r) ++ [tr v]], p, mkGeo (Pg (v :: r) subs) p None).
Proof. exact holes_dropped. Qed.
Print Assumptions C45_reprojected_refuted.

(** C45: writing leaves the vertices and the data of the geometry alone, and the properties
    that do not have the name of a field. *)
Theorem C45_unchanged_partial : forall (V : Type) urn force wgs tr (g : geo V) c p g', as_geojson urn force wgs tr g = Ok (c, p, g') ->
  (forall t, data g = Some t -> NoDup (fields t)) ->
  verts g' = verts g /\ data g' = data g /\
  (forall k, (forall t, data g = Some t -> ~ In k (fields t)) -> get k (props g') = get k (props g)) /\
  props g' = p.
Proof. exact as_geojson_effect. Qed.
Print Assumptions C45_unchanged_partial.
Example C45_unchanged_partial_ex : exists c p g', as_geojson None true false (fun x => x + 1) (mkGeo (MLn [[1; 2]; [3]]) [("a"%string, JNum 1)] (Some (mkTable ["b"%string] [[JNum 2]; [JNum 3]]))) = Ok (c, p, g') /\
  c = GMultiLineString [[2; 3]; [4]].
Proof. eexists. eexists. eexists. split; reflexivity. Qed.

(** C45, refuted: writing a multipart geometry adds its data to its properties. *)
Theorem C45_unchanged_refuted : forall (V : Type) (v : V), exists g c p g', as_geojson None true true (fun x => x) g = Ok (c, p, g') /\ verts g = MPt [v] /\ ~ same_dict (props g') (props g).
Proof. exact mutates. Qed.
Print Assumptions C45_unchanged_refuted.

(** C45, refuted: a property whose length is the number of points comes back as data. *)
Theorem C45_properties_refuted : forall (V : Type) (v : V), exists g g' t', verts g = MPt [v; v] /\ props g = [("range"%string, JList [JNum 0; JNum 9])] /\
  rewrite_geo (fun _ r => r) g = Ok (RList [RGeo g']) /\ data g' = Some t' /\
  get "range"%string (props g') = None /\ getfield t' "range"%string = Ok [JNum 0; JNum 9].
Proof. exact property_becomes_data. Qed.
Print Assumptions C45_properties_refuted.

(** C45, refuted: if it is a string, the data are unusable: the table has a row for each
    field instead of each point. *)
Theorem C45_strings_refuted : forall (V : Type) (v : V), exists g g' t', verts g = MPt [v; v; v] /\ props g = [("code"%string, JStr "abc")] /\
  data g = Some (mkTable ["depth"%string] [[JNum 1]; [JNum 2]; [JNum 3]]) /\
  rewrite_geo (fun _ r => r) g = Ok (RList [RGeo g']) /\ data g' = Some t' /\
  get "code"%string (props g') = None /\ length (rows t') = 2 /\ getfield t' "depth"%string = Raise IndexError.
Proof. exact string_property. Qed.
Print Assumptions C45_strings_refuted.

(** C45, refuted: a property with the name of a field is lost. *)
Theorem C45_names_refuted : forall (V : Type) (v : V), exists g g', verts g = MPt [v] /\ props g = [("name"%string, JNum 1)] /\
  rewrite_geo (fun _ r => r) g = Ok (RList [RGeo g']) /\ get "name"%string (props g') = None.
Proof. exact data_overrides. Qed.
Print Assumptions C45_names_refuted.

(** C45, refuted: without forcing WGS84 and without a URN nothing can be written. *)
Theorem C45_crs_refuted : forall (V : Type) wgs tr (g : geo V), as_geojson None false wgs tr g = Raise NameError.
Proof. exact no_urn. Qed.
Print Assumptions C45_crs_refuted.

(** C45, refuted: a bare geometry is not returned in a list. *)
Theorem C45_list_refuted : forall (V : Type) (v : V), exists g, read_geojson (DGeometry (GPoint v)) = Ok (RGeo g).
Proof. exact not_a_list. Qed.
Print Assumptions C45_list_refuted.
