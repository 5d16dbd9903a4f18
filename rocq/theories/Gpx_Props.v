(** C46: GPX. *)
From Coq Require Import String Ascii.
From Coq Require Import List Bool Arith ZArith QArith Qabs.
From Verif Require Import Gjs_Model Gjs_Spec Gpx_Model Gpx_Spec Gpx_Proofs.
Import ListNotations.
Open Scope list_scope.
Open Scope string_scope.

(** C46: a document without waypoints, written and read, has the same tracks, segments,
    routes and points in the same order, with positions to six decimals, with the same
    extensions and with the same properties but for a new one called "extensions".
    Not proved, because false: documents with waypoints, equal properties, and properties
    with the name of an element of the structure. *)
Theorem C46_round_trip_partial : forall g, waypts g = [] -> Forall good_track (tracks g) -> Forall good_route (routes g) ->
  exists g', rewritten g = GOk g' /\ waypts g' = [] /\ Forall2 track_back (tracks g) (tracks g') /\ Forall2 route_back (routes g) (routes g').
Proof. exact rewritten_ok. Qed.
Print Assumptions C46_round_trip_partial.
Definition sample_point : gpoint := mkPoint (-123 # 1, 49123456 # 1000000)%Q [("ele", Some "12"); ("name", None)] [("hr", Some "90")].
Definition sample : gpx := mkGpx [] [mkTrack [mkSeg [sample_point; sample_point] [("name", Some "s")] []; mkSeg [] [] []] [("name", Some "t")] [("color", Some "red")]] [mkRoute [sample_point] [] []].
Example C46_round_trip_partial_ex : waypts sample = [] /\ Forall good_track (tracks sample) /\ Forall good_route (routes sample) /\
  rewritten sample = GOk (mkGpx [] [mkTrack [
     mkSeg [mkPoint (-123000000 # 1000000, 49123456 # 1000000)%Q [("ele", Some "12"); ("name", Some "None")] [("hr", Some "90")];
            mkPoint (-123000000 # 1000000, 49123456 # 1000000)%Q [("ele", Some "12"); ("name", Some "None")] [("hr", Some "90")]] [("name", Some "s"); ("extensions", None)] [];
     mkSeg [] [("extensions", None)] []] [("name", Some "t"); ("extensions", None)] [("color", Some "red")]]
     [mkRoute [mkPoint (-123000000 # 1000000, 49123456 # 1000000)%Q [("ele", Some "12"); ("name", Some "None")] [("hr", Some "90")]] [("extensions", None)] []]).
Proof.
  assert (good_point sample_point) as P.
  { repeat split; cbn; try (repeat constructor; cbn; intuition discriminate); intuition discriminate. }
  split; [reflexivity |]. split; [| split]; [| | vm_compute; reflexivity].
  - repeat constructor; cbn; auto; try (intuition discriminate); apply P.
  - repeat constructor; cbn; auto; try (intuition discriminate); apply P.
Qed.

(** C46: positions come back to within half of the last decimal, and multiples of 1e-6
    come back exactly. *)
Theorem C46_positions : forall q, (Qabs (round6 q - q) <= 1 # 2000000)%Q /\ (forall z, q = (z # 1000000)%Q -> (round6 q == q)%Q).
Proof. intros q. split; [exact (round6_close q) | intros z ->; exact (round6_exact z)]. Qed.
Print Assumptions C46_positions.
Example C46_positions_ex : (round6 (12345678 # 10000000) == 1234568 # 1000000)%Q /\ (round6 (5 # 10000000) == 0)%Q.
Proof. split; reflexivity. Qed.

(** C46 refuted: the properties of a track are not those that were written. *)
Theorem C46_properties_refuted : exists g g' t t', rewritten g = GOk g' /\ tracks g = [t] /\ tracks g' = [t'] /\
  tprops t = [("name", Some "x")] /\ get "extensions" (tprops t') = Some None.
Proof.
  exists (mkGpx [] [mkTrack [] [("name", Some "x")] []] []). eexists. eexists. eexists.
  split; [vm_compute; reflexivity |]. repeat split; reflexivity.
Qed.
Print Assumptions C46_properties_refuted.

(** C46 refuted: any document that is read, written and read again has lost all extensions
    of its tracks and routes. *)
Theorem C46_extensions_refuted : forall g g1 g2, rewritten g = GOk g1 -> rewritten g1 = GOk g2 ->
  (forall t, In t (tracks g2) -> texts t = []) /\ (forall r, In r (routes g2) -> rexts r = []).
Proof. exact twice_loses. Qed.
Print Assumptions C46_extensions_refuted.
Example C46_extensions_refuted_ex : exists g1 g2 t1 t2, rewritten sample = GOk g1 /\ rewritten g1 = GOk g2 /\
  tracks g1 = [t1] /\ texts t1 = [("color", Some "red")] /\ tracks g2 = [t2] /\ texts t2 = [].
Proof. do 4 eexists. split; [vm_compute; reflexivity |]. split; [vm_compute; reflexivity |]. repeat split; reflexivity. Qed.

(** C46 refuted: None becomes a word, and a property called like an element of the
    structure makes a document that reads as another one. *)
Theorem C46_values_refuted : exists g g', waypts g = [] /\ rewritten g = GOk g' /\
  (exists t t', tracks g = [t] /\ tracks g' = [t'] /\ get "cmt" (tprops t) = Some None /\ get "cmt" (tprops t') = Some (Some "None")).
Proof.
  exists (mkGpx [] [mkTrack [] [("cmt", None)] []] []). eexists. split; [reflexivity |]. split; [vm_compute; reflexivity |].
  do 2 eexists. repeat split; reflexivity.
Qed.
Print Assumptions C46_values_refuted.
Theorem C46_structure_refuted : exists t g', length (trksegs t) = 0%nat /\ rewritten (mkGpx [] [t] []) = GOk g' /\
  exists t', tracks g' = [t'] /\ length (trksegs t') = 1%nat.
Proof.
  exists (mkTrack [] [("trkseg", Some "x")] []). eexists. split; [reflexivity |]. split; [vm_compute; reflexivity |].
  eexists. split; reflexivity.
Qed.
Print Assumptions C46_structure_refuted.

(** C46 refuted: a document with a waypoint cannot be read, neither can its tracks. *)
Theorem C46_waypoints_refuted : forall g, waypts g <> [] -> rewritten g = GRaise GAttributeError.
Proof. exact waypoints_unreadable. Qed.
Print Assumptions C46_waypoints_refuted.
Example C46_waypoints_refuted_ex : waypts (add_waypoint (1, 2)%Q [("name", Some "a")] sample) <> [] /\
  rewritten (add_waypoint (1, 2)%Q [("name", Some "a")] sample) = GRaise GAttributeError /\
  read_gpx_tracks (normal (document true true true (add_waypoint (1, 2)%Q [("name", Some "a")] sample))) = GRaise GAttributeError.
Proof. split; [discriminate |]. split; vm_compute; reflexivity. Qed.
(** No waypoint is ever read. *)
Theorem C46_no_waypoint_read : forall x ps, read_gpx_waypts x = GOk ps -> ps = [] /\ findall "wpt" x = [].
Proof. exact waypoints_never_read. Qed.
Print Assumptions C46_no_waypoint_read.
Example C46_no_waypoint_read_ex : read_gpx_waypts (normal (document true true true sample)) = GOk [].
Proof. vm_compute. reflexivity. Qed.

(** C46: add_waypoint appends one point at the vertex; the properties that GPX knows
    become properties and all others extensions. *)
Theorem C46_add_waypoint : forall v props g, is_dict props -> exists p, waypts (add_waypoint v props g) = (waypts g ++ [p])%list /\
  tracks (add_waypoint v props g) = tracks g /\ routes (add_waypoint v props g) = routes g /\ lonlat p = v /\
  forall k, get k (pprops p) = (if valid k then option_map (fun t => Some (pystr t)) (get k props) else None) /\
            get k (pexts p) = (if valid k then None else option_map (fun t => Some (pystr t)) (get k props)).
Proof. exact add_waypoint_ok. Qed.
Print Assumptions C46_add_waypoint.
Example C46_add_waypoint_ex : waypts (add_waypoint (1, 2)%Q [("name", Some "a"); ("color", None)] sample) = [mkPoint (1, 2)%Q [("name", Some "a")] [("color", Some "None")]].
Proof. reflexivity. Qed.

(** C46: multipoints added as a track, written and read as lines give one line each, in
    order, with the vertices to six decimals and without elevations, and the properties that
    GPX knows. *)
Theorem C46_track : forall show ss g', Forall (fun s => is_dict (sproperties s)) ss ->
  add_track show ss [] (mkGpx [] [] []) = GOk g' ->
  exists lines, read_gpx_tracks (normal (document true true true g')) = GOk [lines] /\ Forall2 source_read ss lines.
Proof. exact track_round_trip. Qed.
Print Assumptions C46_track.
Definition sample_source : source := mkSource [((1, 2)%Q, Some 3%Q); ((4, 5)%Q, Some 6%Q)] [("name", Some "m"); ("color", Some "red")] (Some [("hr", [Some "80"; Some "90"]); ("time", [Some "t1"; Some "t2"])]).
Example C46_track_ex : exists g', add_track (fun _ => "h") [sample_source] [] (mkGpx [] [] []) = GOk g' /\
  read_gpx_tracks (normal (document true true true g')) = GOk [[([(1000000 # 1000000, 2000000 # 1000000); (4000000 # 1000000, 5000000 # 1000000)]%Q, [("name", Some "m"); ("extensions", None)])]].
Proof. eexists. split; [reflexivity | vm_compute; reflexivity]. Qed.

(** C46 refuted: lines cannot be added as tracks, although the documentation says so. *)
Theorem C46_line_refuted : forall show s rest attrs g, sdata s = None -> add_track show (s :: rest) attrs g = GRaise GAttributeError.
Proof. exact lines_rejected. Qed.
Print Assumptions C46_line_refuted.
Example C46_line_refuted_ex : sdata (mkSource [((1, 2)%Q, None); ((4, 5)%Q, None)] [] None) = None.
Proof. reflexivity. Qed.
(** C46 refuted: geometries with data cannot be added as routes. *)
Theorem C46_route_refuted : forall s f fs v vs g, sdata s = Some (f :: fs) -> svertices s = v :: vs -> add_route s g = GRaise GTypeError.
Proof. exact routes_rejected. Qed.
Print Assumptions C46_route_refuted.
Example C46_route_refuted_ex : exists f fs v vs, sdata sample_source = Some (f :: fs) /\ svertices sample_source = v :: vs.
Proof. do 4 eexists. split; reflexivity. Qed.
(** C46 refuted: an attribute of a track that GPX does not know is written as a property. *)
Theorem C46_attributes_refuted : forall show, exists attrs g' t, valid "color" = false /\ attrs = [("color", Some "red")] /\
  add_track show [] attrs (mkGpx [] [] []) = GOk g' /\ tracks g' = [t] /\ get "color" (tprops t) = Some (Some "red") /\ get "color" (texts t) = None.
Proof. exact attributes_not_extensions. Qed.
Print Assumptions C46_attributes_refuted.
(** C46 refuted: without a data field that GPX knows, the elevations are not written. *)
Theorem C46_elevation_refuted : forall show s g', (forall c, In c (map fst match sdata s with Some c => c | None => [] end) -> valid c = false) ->
  add_track show [s] [] (mkGpx [] [] []) = GOk g' ->
  forall t sg p, In t (tracks g') -> In sg (trksegs t) -> In p (trkpts sg) -> get "ele" (pprops p) = None.
Proof. exact elevation_lost. Qed.
Print Assumptions C46_elevation_refuted.
Example C46_elevation_refuted_ex : exists g' t sg p q, add_track (fun _ => "h") [mkSource [((1, 2)%Q, Some 3%Q)] [] (Some [("hr", [Some "80"])])] [] (mkGpx [] [] []) = GOk g' /\
  tracks g' = [t] /\ trksegs t = [sg] /\ trkpts sg = [p] /\ p = mkPoint (1, 2)%Q [] [("hr", Some "80")] /\
  exists g2 t2 s2, add_track (fun _ => "h") [mkSource [((1, 2)%Q, Some 3%Q)] [] (Some [("time", [Some "80"])])] [] (mkGpx [] [] []) = GOk g2 /\
  tracks g2 = [t2] /\ trksegs t2 = [s2] /\ trkpts s2 = [q] /\ get "ele" (pprops q) = Some (Some "h").
Proof. do 5 eexists. split; [reflexivity |]. do 4 (split; [reflexivity |]). do 3 eexists. split; [reflexivity |]. do 3 (split; [reflexivity |]). reflexivity. Qed.
