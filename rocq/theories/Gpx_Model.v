(** Model of karta/vector/_gpx.py and of the GPX functions of karta/vector/read.py.

    An XML element has a tag, a position (the attributes lon and lat, if any), a text and
    children.  All tags are in the GPX namespace and are left without it.  The text of the
    file is trusted to give back the elements that were written, but for an empty text,
    which ElementTree reads as None ([normal]).  Numbers are rational and written exactly.
    Values of properties are taken as the text [str] gives, None being kept apart. *)
From Coq Require Import String Ascii.
From Coq Require Import List Bool Arith ZArith QArith.
From Verif Require Import Gjs_Model.
Import ListNotations.
Open Scope list_scope.
Open Scope string_scope.

(** The text of an element, None if it has none (_gpx.py:63-80). *)
Definition text : Type := option string.
(** A dictionary of texts (_gpx.py:63-80). *)
Definition tdict : Type := list (string * text).
(** Longitude and latitude of a point (_gpx.py:82-87). *)
Definition pos : Type := (Q * Q)%type.
(** The exceptions of _gpx.py:63-286. *)
Inductive gpx_error : Type := GAttributeError | GTypeError | GKeyError.
(** What a method of _gpx.py does: it returns or raises. *)
Inductive gout (A : Type) : Type := GOk (a : A) | GRaise (e : gpx_error).
Arguments GOk {A}. Arguments GRaise {A}.
(** An element of ElementTree as _gpx.py:63-134 uses it: tag, the attributes lon and lat, text
    and children. *)
Inductive xml : Type := Node (tag : string) (at_ : option pos) (txt : text) (kids : list xml).
(** [node.tag] (_gpx.py:63-80). *)
Definition tag (x : xml) : string := let (t, _, _, _) := x in t.
(** [node.attrib["lon"]] and [node.attrib["lat"]] (_gpx.py:82-87). *)
Definition at_of (x : xml) : option pos := let (_, p, _, _) := x in p.
(** [node.text] (_gpx.py:63-80). *)
Definition txt_of (x : xml) : text := let (_, _, t, _) := x in t.
(** The children of a node (_gpx.py:63-80). *)
Definition kids (x : xml) : list xml := let (_, _, _, k) := x in k.

(** _gpx.py:18-21, the named tuples. *)
Record gpoint : Type := mkPoint { lonlat : pos; pprops : tdict; pexts : tdict }.
(** _gpx.py:19, the named tuple of a track segment. *)
Record gseg : Type := mkSeg { trkpts : list gpoint; sprops : tdict; sexts : tdict }.
(** _gpx.py:20, the named tuple of a track. *)
Record gtrack : Type := mkTrack { trksegs : list gseg; tprops : tdict; texts : tdict }.
(** _gpx.py:21, the named tuple of a route. *)
Record groute : Type := mkRoute { rtepts : list gpoint; rprops : tdict; rexts : tdict }.
(** _gpx.py:46-48. *)
Record gpx : Type := mkGpx { waypts : list gpoint; tracks : list gtrack; routes : list groute }.

(** _gpx.py:27-29. *)
Definition VALID_PROPERTIES : list string :=
  ["ele"; "time"; "magvar"; "geoidheight"; "name"; "cmt"; "desc"; "src"; "link"; "sym"; "type"; "fix"; "sat"; "hdop"; "vdop"; "pdop"; "ageofdgpsdata"; "dgpsid"].
(** [k in VALID_PROPERTIES] (_gpx.py:183-286). *)
Definition valid (k : string) : bool := existsb (String.eqb k) VALID_PROPERTIES.

(** [str(v)]. _gpx.py:89-101. *)
Definition pystr (t : text) : string := match t with None => "None" | Some s => s end.
(** [round(x, 6)]: to the nearest, ties to the even digit. _gpx.py:103-108; the integer part of
    it. *)
Definition round_half_even (q : Q) : Z :=
  let n := Qnum q in let d := Zpos (Qden q) in
  let f := (n / d)%Z in let r := (n mod d)%Z in
  if (2 * r <? d)%Z then f else if (d <? 2 * r)%Z then (f + 1)%Z else if Z.even f then f else (f + 1)%Z.
(** [round(x, 6)] (_gpx.py:103-134). *)
Definition round6 (q : Q) : Q := (round_half_even (q * (1000000 # 1)) # 1000000).

(* ---- writing *)
(** _gpx.py:89-95 [_dict2gpx]. *)
Definition dict2gpx (d : tdict) : list xml := map (fun kv => Node (fst kv) None (Some (pystr (snd kv))) []) d.
(** _gpx.py:97-101 [_extensions2gpx]: the element that is added, always. *)
Definition extensions2gpx (d : tdict) : xml := Node "extensions" None None (dict2gpx d).
(** _gpx.py:103-108 [_build_gpx_wpt]. *)
Definition build_wpt (t : string) (p : gpoint) : xml := Node t (Some (lonlat p)) None (dict2gpx (pprops p) ++ [extensions2gpx (pexts p)]).
(** _gpx.py:110-126 [_build_gpx_trk]. *)
Definition build_seg (s : gseg) : xml := Node "trkseg" None None (dict2gpx (sprops s) ++ [extensions2gpx (sexts s)] ++ map (build_wpt "trkpt") (trkpts s)).
(** _gpx.py:110-126 [_build_gpx_trk]. *)
Definition build_trk (t : gtrack) : xml := Node "trk" None None (dict2gpx (tprops t) ++ [extensions2gpx (texts t)] ++ map build_seg (trksegs t)).
(** _gpx.py:128-134 [_build_gpx_rte]. *)
Definition build_rte (r : groute) : xml := Node "rte" None None (dict2gpx (rprops r) ++ [extensions2gpx (rexts r)] ++ map (build_wpt "rtept") (rtepts r)).
(** _gpx.py:288-305 [as_string], the document. *)
Definition document (w t r : bool) (g : gpx) : xml :=
  Node "gpx" None None ((if w then map (build_wpt "wpt") (waypts g) else []) ++ (if t then map build_trk (tracks g) else []) ++ (if r then map build_rte (routes g) else [])).
(** What ElementTree makes of a document it parses: no text is the same as an empty one. Used by
    _gpx.py:136-151. *)
Fixpoint normal (x : xml) : xml :=
  match x with Node t p s k => Node t p (match s with Some EmptyString => None | _ => s end) (map normal k) end.

(* ---- reading *)
(** [node.findall(tag)] and [node.find(tag)]. _gpx.py:136-181. *)
Definition findall (t : string) (x : xml) : list xml := filter (fun k => String.eqb (tag k) t) (kids x).
(** [node.find(tag)] (_gpx.py:63-71). *)
Definition find (t : string) (x : xml) : option xml := nth_error (findall t x) 0.
(** _gpx.py:63-71 [_readextensions]; a missing element is a TypeError that is caught. *)
Definition readextensions (x : xml) : tdict :=
  match find "extensions" x with None => [] | Some e => fold_left (fun d k => set (tag k) (txt_of k) d) (kids e) [] end.
(** _gpx.py:73-80 [_readproperties]. *)
Definition readproperties (x : xml) (exclude : string) : tdict :=
  fold_left (fun d k => if String.eqb (tag k) exclude then d else set (tag k) (txt_of k) d) (kids x) [].
(** _gpx.py:82-87 [_readwpt]; a missing attribute is a KeyError. *)
Definition readwpt (x : xml) : gout gpoint :=
  match at_of x with
  | None => GRaise GKeyError
  | Some (lon, lat) => GOk (mkPoint (round6 lon, round6 lat) (readproperties x "extensions") (readextensions x))
  end.
(** The loops of _gpx.py:136-181; the first exception ends them. *)
Fixpoint mapG {A B : Type} (f : A -> gout B) (l : list A) : gout (list B) :=
  match l with
  | [] => GOk []
  | x :: l' => match f x with GRaise e => GRaise e | GOk y => match mapG f l' with GOk ys => GOk (y :: ys) | GRaise e => GRaise e end end
  end.
(** _gpx.py:153-158 [parse_wpt]: the point is read, then [wpt.properties] is looked up,
    which an element does not have. *)
Definition parse_wpt (x : xml) : gout unit := match readwpt x with GRaise e => GRaise e | GOk _ => GRaise GAttributeError end.
(** _gpx.py:160-174 [parse_trk]. *)
Definition parse_seg (x : xml) : gout gseg :=
  match mapG readwpt (findall "trkpt" x) with GRaise e => GRaise e | GOk ps => GOk (mkSeg ps (readproperties x "trkpt") (readextensions x)) end.
(** _gpx.py:160-174 [parse_trk]. *)
Definition parse_trk (x : xml) : gout gtrack :=
  match mapG parse_seg (findall "trkseg" x) with GRaise e => GRaise e | GOk ss => GOk (mkTrack ss (readproperties x "trkseg") (readextensions x)) end.
(** _gpx.py:176-181 [parse_rte]. *)
Definition parse_rte (x : xml) : gout groute :=
  match mapG readwpt (findall "rtept" x) with GRaise e => GRaise e | GOk ps => GOk (mkRoute ps (readproperties x "rtept") (readextensions x)) end.
(** _gpx.py:136-151 [fromfile]. *)
Definition fromfile (x : xml) : gout gpx :=
  match mapG parse_wpt (findall "wpt" x) with
  | GRaise e => GRaise e
  | GOk _ =>
    match mapG parse_trk (findall "trk" x) with
    | GRaise e => GRaise e
    | GOk ts => match mapG parse_rte (findall "rte" x) with GRaise e => GRaise e | GOk rs => GOk (mkGpx [] ts rs) end
    end
  end.
(** A GPX object written in full and read again. _gpx.py:288-305, then 136-151. *)
Definition rewritten (g : gpx) : gout gpx := fromfile (normal (document true true true g)).

(* ---- adding geometries *)
(** A geometry as this module sees it: vertices of two or three coordinates, properties, and the
    data: None if the class has none (Line, Polygon), otherwise the columns. _gpx.py:197-286. *)
Record source : Type := mkSource { svertices : list (Q * Q * option Q); sproperties : tdict; sdata : option (list (string * list text)) }.
(** _gpx.py:183-195 [add_waypoint]. *)
Definition split_valid (d : tdict) : tdict * tdict :=
  fold_left (fun pe kv => if valid (fst kv) then (set (fst kv) (Some (pystr (snd kv))) (fst pe), snd pe)
                          else (fst pe, set (fst kv) (Some (pystr (snd kv))) (snd pe))) d ([], []).
(** _gpx.py:183-195 [add_waypoint]. *)
Definition add_waypoint (v : pos) (props : tdict) (g : gpx) : gpx :=
  let pe := split_valid props in mkGpx (waypts g ++ [mkPoint v (fst pe) (snd pe)]) (tracks g) (routes g).
(** [line.d[key][i]]. _gpx.py:245-258. *)
Definition cell (cols : list (string * list text)) (i : nat) (k : string) : text :=
  match get k cols with Some c => match nth_error c i with Some t => t | None => None end | None => None end.
(** _gpx.py:245-258, one track point; the elevation is set inside the loop over the fields
    that are valid properties. *)
Definition track_point (cols : list (string * list text)) (show : Q -> string) (i : nat) (v : Q * Q * option Q) : gpoint :=
  let '(x, y, z) := v in
  let ks := map fst cols in
  mkPoint (x, y)
    (fold_left (fun d k => let d' := set k (cell cols i k) d in match z with Some h => set "ele" (Some (show h)) d' | None => d' end) (filter valid ks) [])
    (fold_left (fun d k => set k (cell cols i k) d) (filter (fun k => negb (valid k)) ks) []).
(** [enumerate] in _gpx.py:227-258. *)
Fixpoint numbered {A B : Type} (f : nat -> A -> B) (i : nat) (l : list A) : list B := match l with [] => [] | x :: l' => f i x :: numbered f (S i) l' end.
(** _gpx.py:227-258: one segment; [line.data] of a Line is an AttributeError. *)
Definition track_seg (show : Q -> string) (s : source) : gout gseg :=
  match sdata s with
  | None => GRaise GAttributeError
  | Some cols => let pe := split_valid (sproperties s) in GOk (mkSeg (numbered (track_point cols show) 0 (svertices s)) (fst pe) (snd pe))
  end.
(** _gpx.py:197-261 [add_track]; both branches put an attribute into the properties. *)
Definition add_track (show : Q -> string) (ss : list source) (attributes : tdict) (g : gpx) : gout gpx :=
  match mapG (track_seg show) ss with
  | GRaise e => GRaise e
  | GOk segs => GOk (mkGpx (waypts g) (tracks g ++ [mkTrack segs (fold_left (fun d kv => set (fst kv) (Some (pystr (snd kv))) d) attributes []) []]) (routes g))
  end.
(** _gpx.py:263-286 [add_route]: [route.data[k]] indexes the rows of a table with a name,
    a TypeError; it happens if there is a field and a vertex. *)
Definition add_route (s : source) (g : gpx) : gout gpx :=
  match sdata s with
  | None => match svertices s with [] => GOk (mkGpx (waypts g) (tracks g) (routes g ++ [mkRoute [] (sproperties s) []])) | _ => GRaise GAttributeError end
  | Some cols =>
    match cols, svertices s with
    | _ :: _, _ :: _ => GRaise GTypeError
    | _, vs => GOk (mkGpx (waypts g) (tracks g) (routes g ++ [mkRoute (map (fun v => mkPoint (fst v) [] []) vs) (sproperties s) []]))
    end
  end.

(* ---- read.py *)
(** read.py:218-233 [read_gpx_tracks]: positions and properties of the lines, track by track. *)
Definition read_gpx_tracks (x : xml) : gout (list (list (list pos * tdict))) :=
  match fromfile x with GRaise e => GRaise e | GOk g => GOk (map (fun t => map (fun s => (map lonlat (trkpts s), sprops s)) (trksegs t)) (tracks g)) end.
(** read.py:214-225 [read_gpx_waypts]. *)
Definition read_gpx_waypts (x : xml) : gout (list (pos * tdict)) :=
  match fromfile x with GRaise e => GRaise e | GOk g => GOk (map (fun p => (lonlat p, pprops p)) (waypts g)) end.
