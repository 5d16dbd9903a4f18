(** What the properties of GPX are stated with. *)
From Coq Require Import String Ascii.
From Coq Require Import List Bool Arith ZArith QArith.
From Verif Require Import Gjs_Model Gjs_Spec Gpx_Model.
Import ListNotations.
Open Scope string_scope.

(** The text of an element made from a value: None is written as a word, and an empty text
    is read as None. *)
Definition text_read (v : text) : text := match v with None => Some "None" | Some EmptyString => None | Some s => Some s end.
(** Dictionary [d'] is [d] with its texts read back. *)
Definition read_back (d d' : tdict) : Prop := forall k, get k d' = option_map text_read (get k d).
(** The same, but there is also the key "extensions", without a value. *)
Definition read_back_ext (d d' : tdict) : Prop :=
  (forall k, k <> "extensions" -> get k d' = option_map text_read (get k d)) /\ get "extensions" d' = Some None.

Definition point_back (p p' : gpoint) : Prop :=
  lonlat p' = (round6 (fst (lonlat p)), round6 (snd (lonlat p))) /\ read_back (pprops p) (pprops p') /\ read_back (pexts p) (pexts p').
Definition seg_back (s s' : gseg) : Prop :=
  Forall2 point_back (trkpts s) (trkpts s') /\ read_back_ext (sprops s) (sprops s') /\ read_back (sexts s) (sexts s').
Definition track_back (t t' : gtrack) : Prop :=
  Forall2 seg_back (trksegs t) (trksegs t') /\ read_back_ext (tprops t) (tprops t') /\ read_back (texts t) (texts t').
Definition route_back (r r' : groute) : Prop :=
  Forall2 point_back (rtepts r) (rtepts r') /\ read_back_ext (rprops r) (rprops r') /\ read_back (rexts r) (rexts r').

(** Dictionaries, none of whose properties has the name of a structural element. *)
Definition good (props exts : tdict) (child : string) : Prop :=
  is_dict props /\ is_dict exts /\ ~ In "extensions" (map fst props) /\ ~ In child (map fst props).
Definition good_point (p : gpoint) : Prop := good (pprops p) (pexts p) "extensions".
Definition good_seg (s : gseg) : Prop := good (sprops s) (sexts s) "trkpt" /\ Forall good_point (trkpts s).
Definition good_track (t : gtrack) : Prop := good (tprops t) (texts t) "trkseg" /\ Forall good_seg (trksegs t).
Definition good_route (r : groute) : Prop := good (rprops r) (rexts r) "rtept" /\ Forall good_point (rtepts r).

(** A multipoint read as a line: its vertices, to six decimals and without elevations, and
    the properties that GPX knows. *)
Definition source_read (s : source) (line : list pos * tdict) : Prop :=
  fst line = map (fun v => (round6 (fst (fst v)), round6 (snd (fst v)))) (svertices s) /\
  (forall k t, k <> "extensions" -> valid k = true -> get k (sproperties s) = Some (Some t) -> t <> "" -> get k (snd line) = Some (Some t)) /\
  (forall k, k <> "extensions" -> valid k = false -> get k (snd line) = None).
