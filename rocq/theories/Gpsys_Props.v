(** C116: the coordinate systems of GPX documents. *)
From Coq Require Import String List QArith Qabs.
From Verif Require Import Gjs_Model Gjs_Spec Gpx_Model Gpx_Spec Gpsys_Model Gpsys_Spec Gpsys_Proofs.
Import ListNotations.

(** C116: geometries in WGS84, of any number, are read from the track that was made of them in WGS84,
    each with its vertices in the places they had, to six decimals. *)
Theorem C116_wgs84_partial : forall (C : Type) (wgs84 : C) tr show (ss : list (C * source)) g',
  (forall v, tr wgs84 wgs84 v = v) -> Forall (fun s => fst s = wgs84) ss ->
  Forall (fun s => is_dict (sproperties (snd s))) ss -> add_track_of show ss [] (mkGpx [] [] []) = GOk g' ->
  exists lines, read_tracks_of wgs84 (normal (document true true true g')) = GOk [lines] /\
    Forall2 (fun s line => fst line = wgs84 /\ located tr wgs84 (fst s) (svertices (snd s)) (fst (snd line))) ss lines.
Proof. exact tracks_located. Qed.
Print Assumptions C116_wgs84_partial.
(** Two systems for the examples, [true] for WGS84 and [false] for one in metres. *)
Definition metres (a b : bool) (v : pos) : pos :=
  match a, b with
  | true, false => (fst v * 100000, snd v * 100000)%Q
  | false, true => (fst v / 100000, snd v / 100000)%Q
  | _, _ => v
  end.
Definition walk : source := mkSource [((500000 # 1, 4500000 # 1)%Q, None); ((500100 # 1, 4500100 # 1)%Q, None)] [("name"%string, Some "a"%string)] (Some []).
Definition walk84 : source := mkSource [((5 # 1, 45 # 1)%Q, None); ((5001 # 1000, 45001 # 1000)%Q, None)] [("name"%string, Some "a"%string)] (Some []).
Example C116_wgs84_ex : exists g', add_track_of (fun _ => ""%string) [(true, walk84); (true, walk84)] [] (mkGpx [] [] []) = GOk g' /\
  Forall (fun s : bool * source => fst s = true) [(true, walk84); (true, walk84)] /\ is_dict (sproperties walk84) /\
  forall v, metres true true v = v.
Proof.
  eexists; split; [vm_compute; reflexivity |]. split; [repeat constructor |]. split; [| reflexivity].
  constructor; [intros [] | constructor].
Qed.

(** Whatever the systems of the geometries, their numbers are written as they are, and read as
    longitudes and latitudes. *)
Theorem C116_numbers : forall (C : Type) (wgs84 : C) show (ss : list (C * source)) g', Forall (fun s => is_dict (sproperties (snd s))) ss ->
  add_track_of show ss [] (mkGpx [] [] []) = GOk g' ->
  exists lines, read_tracks_of wgs84 (normal (document true true true g')) = GOk [lines] /\
    Forall2 (fun s line => fst line = wgs84 /\ as_they_are (svertices (snd s)) (fst (snd line))) ss lines.
Proof. exact tracks_as_they_are. Qed.
Print Assumptions C116_numbers.
Example C116_numbers_ex : exists g', add_track_of (fun _ => ""%string) [(false, walk); (true, walk84)] [] (mkGpx [] [] []) = GOk g' /\
  is_dict (sproperties walk).
Proof. eexists; split; [vm_compute; reflexivity |]. constructor; [intros [] | constructor]. Qed.
(** Finding: so a geometry in another system is written, and read again, somewhere else, as soon as
    one of its vertices has other numbers in WGS84. *)
Theorem C116_system_refuted : forall (C : Type) (wgs84 : C) tr show s (src : source) g', is_dict (sproperties src) ->
  (exists v, In v (svertices src) /\ (1 # 1000000 < Qabs (fst (fst v) - fst (tr s wgs84 (fst v))) \/ 1 # 1000000 < Qabs (snd (fst v) - snd (tr s wgs84 (fst v))))%Q) ->
  add_track_of show [(s, src)] [] (mkGpx [] [] []) = GOk g' ->
  exists line, read_tracks_of wgs84 (normal (document true true true g')) = GOk [[(wgs84, line)]] /\
    as_they_are (svertices src) (fst line) /\ ~ located tr wgs84 s (svertices src) (fst line).
Proof. exact tracks_astray. Qed.
Print Assumptions C116_system_refuted.
(** Eastings of 500 km as longitudes. *)
Example C116_system_ex : exists g' line, add_track_of (fun _ => ""%string) [(false, walk)] [] (mkGpx [] [] []) = GOk g' /\
  (exists v, In v (svertices walk) /\ (1 # 1000000 < Qabs (fst (fst v) - fst (metres false true (fst v))))%Q) /\
  read_tracks_of true (normal (document true true true g')) = GOk [[(true, line)]] /\
  exists x y l, fst line = (x, y) :: l /\ (x == 500000)%Q /\ (y == 4500000)%Q.
Proof.
  eexists; eexists. split; [vm_compute; reflexivity |]. split.
  { eexists; split; [left; reflexivity | vm_compute; reflexivity]. }
  split; [vm_compute; reflexivity |]. do 3 eexists. split; [reflexivity |]. split; reflexivity.
Qed.
(** C116: a waypoint too gets the numbers of the point, whatever its system. *)
Theorem C116_waypoint : forall (C : Type) (s : C) v props g, is_dict props ->
  exists p, waypts (add_waypoint_of s v props g) = (waypts g ++ [p])%list /\ lonlat p = v.
Proof. exact waypoint_as_is. Qed.
Print Assumptions C116_waypoint.
(** C116: so do the points of a route. *)
Theorem C116_route : forall (C : Type) (s : C * source) g g', add_route_of s g = GOk g' ->
  exists r, routes g' = (routes g ++ [r])%list /\ map lonlat (rtepts r) = map fst (svertices (snd s)).
Proof. exact route_as_is. Qed.
Print Assumptions C116_route.
Example C116_route_ex : exists g' r, add_route_of (false, walk) (mkGpx [] [] []) = GOk g' /\ routes g' = [r] /\
  map lonlat (rtepts r) = [(500000 # 1, 4500000 # 1); (500100 # 1, 4500100 # 1)]%Q.
Proof. do 2 eexists. split; [vm_compute; reflexivity |]. split; reflexivity. Qed.
