(** Model of karta/vector/decorators.py and of the methods of karta/vector/geometry.py that
    are memoised with it: bbox, extent and length.

    The computations themselves are parameters: what matters here is which of them is called
    on what, and when the stored result is returned instead.  A CoordString of the external
    package is a list of vertices. *)
From Coq Require Import List Bool Arith.
Import ListNotations.

(** The exceptions of geometry.py:429-474, 619-664, 860-873, 1284-1297 and of the compiled
    functions they call. *)
Inductive error : Type := TypeError | AttributeError | IndexError.
(** What such a method does: it returns or raises (geometry.py:429-474, 619-664). *)
Inductive outcome (A : Type) : Type := Ok (a : A) | Raise (e : error).
Arguments Ok {A}. Arguments Raise {A}.

Section Model.
(** A vertex, a coordinate system, a bounding box, an extent and a length. *)
Variables V crs box ext num : Type.
(** Python's [is] or [==] of coordinate systems (crs.py:271-276). *)
Variable same : crs -> crs -> bool.
(** [isinstance(crs, GeographicalCRS)]. *)
Variable is_geo : crs -> bool.
(** [_cvectorgeo.bbox], [_cdateline.bbox], [crs.transform], [_cvectorgeo.length], and the sum
    of distances of geometry.py:656-662 and the extent made from a box (geometry.py:473-474). *)
Variable planar_box geo_box : list V -> box.
Variable transform : crs -> crs -> list V -> list V.
Variable planar_len : list V -> num.
Variable geo_len : crs -> list V -> num.
Variable extent_of : box -> ext.
(** geometry.py:1416-1422, the box of a multipart geometry: its parts are new objects on each
    call and have empty caches. *)
Variable parts_box : crs -> list V -> option crs -> box.

(** [_vertices]: a CoordString, or the array that [Line.extend] puts in its place.
    geometry.py:860-873. *)
Inductive store : Type := Coords (vs : list V) | Arr (vs : list V).
(** Multipoint; Line and Polygon; Multiline and Multipolygon. geometry.py:429, 619, 1416, which
    [bbox] a class has. *)
Inductive kind : Type := Loose | Connected | Parts.
(** A geometry as geometry.py:429-474, 619-664 see it: its vertices, its coordinate system and
    its class. *)
Record obj : Type := mkObj { verts : store; ocrs : crs; okind : kind }.

(** The arguments of a call: none, [crs] by position, or by name. decorators.py:7-17. *)
Inductive form : Type := NoArgs | Positional (c : option crs) | Keyword (c : option crs).
(** The argument [crs] that a method receives (geometry.py:429, 619). *)
Definition crs_arg (f : form) : option crs := match f with NoArgs => None | Positional c => c | Keyword c => c end.
(** Equality of two arguments [crs] (decorators.py:9-11), by [==] of coordinate systems. *)
Definition opt_eqb (a b : option crs) : bool := match a, b with None, None => true | Some c, Some d => same c d | _, _ => false end.
(** [args == stored args and kwargs == stored kwargs], decorators.py:9-11. *)
Definition form_eqb (a b : form) : bool :=
  match a, b with NoArgs, NoArgs => true | Positional c, Positional d => opt_eqb c d | Keyword c, Keyword d => opt_eqb c d | _, _ => false end.

(** [self._cache], one entry per key. decorators.py:7-17. *)
Record cache : Type := mkCache { c_bbox : option (form * box); c_extent : option (form * ext); c_length : option num }.
(** The empty dictionary that a new or extended object has (geometry.py:43, 872). *)
Definition empty : cache := mkCache None None None.

(** The vertices in a coordinate system, geometry.py:447-453: [vectors] is a method of
    CoordStrings only. *)
Definition in_crs (o : obj) (c : option crs) : outcome (store * crs) :=
  match c with
  | Some d => if same d (ocrs o) then Ok (verts o, ocrs o)
              else match verts o with Coords vs => Ok (Coords (transform (ocrs o) d vs), d) | Arr _ => Raise AttributeError end
  | None => Ok (verts o, ocrs o)
  end.
(** The compiled functions take a CoordString. geometry.py:447-474 call the functions of
    vectorgeo.pyx. *)
Definition typed {A : Type} (f : list V -> A) (s : store) : outcome A := match s with Coords vs => Ok (f vs) | Arr _ => Raise TypeError end.

(** geometry.py:447-458, the body of [MultiVertexMixin.bbox]. *)
Definition loose_bbox (o : obj) (c : option crs) : outcome box :=
  match in_crs o c with Raise e => Raise e | Ok (s, d) => if is_geo d then typed geo_box s else typed planar_box s end.
(** decorators.py:7-17 around [MultiVertexMixin.bbox]. *)
Definition cached_loose (o : obj) (k : cache) (f : form) : outcome box * cache :=
  let compute := match loose_bbox o (crs_arg f) with
                 | Ok b => (Ok b, mkCache (Some (f, b)) (c_extent k) (c_length k))
                 | Raise e => (Raise e, k)
                 end in
  match c_bbox k with
  | Some (g, b) => if form_eqb f g then (Ok b, k) else compute
  | None => compute
  end.
(** geometry.py:633-645, the body of [ConnectedMultiVertexMixin.bbox], which calls the
    decorated method above, with the same key. *)
Definition connected_bbox (o : obj) (k : cache) (c : option crs) : outcome box * cache :=
  match in_crs o c with
  | Raise e => (Raise e, k)
  | Ok (s, d) =>
    if is_geo d then (typed geo_box s, k)
    else cached_loose o k (Keyword (Some (match c with Some d' => if same d' (ocrs o) then ocrs o else d' | None => ocrs o end)))
  end.
(** geometry.py:1415-1422. *)
Definition multi_bbox (o : obj) (c : option crs) : outcome box := typed (fun vs => parts_box (ocrs o) vs c) (verts o).
(** decorators.py:7-17 around the method of each class. *)
Definition bbox (o : obj) (k : cache) (f : form) : outcome box * cache :=
  match okind o with
  | Loose => cached_loose o k f
  | Connected =>
    let compute := match connected_bbox o k (crs_arg f) with
                   | (Ok b, k') => (Ok b, mkCache (Some (f, b)) (c_extent k') (c_length k'))
                   | (Raise e, k') => (Raise e, k')
                   end in
    match c_bbox k with Some (g, b) => if form_eqb f g then (Ok b, k) else compute | None => compute end
  | Parts =>
    let compute := match multi_bbox o (crs_arg f) with
                   | Ok b => (Ok b, mkCache (Some (f, b)) (c_extent k) (c_length k))
                   | Raise e => (Raise e, k)
                   end in
    match c_bbox k with Some (g, b) => if form_eqb f g then (Ok b, k) else compute | None => compute end
  end.
(** geometry.py:459-474, 1424-1427 [extent]: it calls [self.bbox(crs=crs)]. *)
Definition extent (o : obj) (k : cache) (f : form) : outcome ext * cache :=
  let compute := match bbox o k (Keyword (crs_arg f)) with
                 | (Ok b, k') => (Ok (extent_of b), mkCache (c_bbox k') (Some (f, extent_of b)) (c_length k'))
                 | (Raise e, k') => (Raise e, k')
                 end in
  match c_extent k with Some (g, x) => if form_eqb f g then (Ok x, k) else compute | None => compute end.
(** geometry.py:655-664, the body of [length]: [self.vertices()] calls a method of
    CoordStrings. *)
Definition raw_length (o : obj) : outcome num :=
  if is_geo (ocrs o) then match verts o with Coords vs => Ok (geo_len (ocrs o) vs) | Arr _ => Raise AttributeError end
  else typed planar_len (verts o).
(** geometry.py:646-664, decorated; it is a property, without arguments. *)
Definition length_ (o : obj) (k : cache) : outcome num * cache :=
  match c_length k with
  | Some n => (Ok n, k)
  | None => match raw_length o with Ok n => (Ok n, mkCache (c_bbox k) (c_extent k) (Some n)) | Raise e => (Raise e, k) end
  end.

(** The assignment to one vertex, geometry.py:1284-1297; None is an IndexError. *)
Fixpoint set_nth (i : nat) (v : V) (l : list V) : option (list V) :=
  match l, i with [], _ => None | _ :: l', O => Some (v :: l') | x :: l', S i' => option_map (cons x) (set_nth i' v l') end.
(** geometry.py:860-873 [Line.extend], lines of the same rank: a new cache. *)
Definition extend (o : obj) (k : cache) (vs : list V) : obj * cache :=
  (mkObj (match verts o with Coords us => Arr (us ++ vs) | Arr us => Arr (us ++ vs) end) (ocrs o) (okind o), empty).
(** geometry.py:1284-1297 [Multipoint.__setitem__], the vertex: the cache stays. *)
Definition setitem (o : obj) (k : cache) (i : nat) (v : V) : outcome obj * cache :=
  match verts o with
  | Coords us => match set_nth i v us with Some us' => (Ok (mkObj (Coords us') (ocrs o) (okind o)), k) | None => (Raise IndexError, k) end
  | Arr us => match set_nth i v us with Some us' => (Ok (mkObj (Arr us') (ocrs o) (okind o)), k) | None => (Raise IndexError, k) end
  end.

(** What a user does with an object, and what they see. The methods of geometry.py:429-474,
    619-664, 860-873, 1284-1297. *)
Inductive event : Type := EBbox (f : form) | EExtent (f : form) | ELength | EExtend (vs : list V) | ESetitem (i : nat) (v : V).
(** What a method of geometry.py:429-474, 619-664, 860-873, 1284-1297 returns to the user. *)
Inductive seen : Type := SBbox (r : outcome box) | SExtent (r : outcome ext) | SLength (r : outcome num) | SNothing (r : outcome unit).
(** A history of method calls on one object, with its cache (decorators.py:7-17) from call to
    call. *)
Fixpoint run (o : obj) (k : cache) (h : list event) : list seen :=
  match h with
  | [] => []
  | EBbox f :: h' => let (r, k') := bbox o k f in SBbox r :: run o k' h'
  | EExtent f :: h' => let (r, k') := extent o k f in SExtent r :: run o k' h'
  | ELength :: h' => let (r, k') := length_ o k in SLength r :: run o k' h'
  | EExtend vs :: h' => let (o', k') := extend o k vs in SNothing (Ok tt) :: run o' k' h'
  | ESetitem i v :: h' => match setitem o k i v with (Ok o', k') => SNothing (Ok tt) :: run o' k' h' | (Raise e, k') => SNothing (Raise e) :: run o k' h' end
  end.
End Model.
Arguments Coords {V}. Arguments Arr {V}. Arguments mkObj {V crs}. Arguments verts {V crs}. Arguments ocrs {V crs}. Arguments okind {V crs}.
Arguments NoArgs {crs}. Arguments Positional {crs}. Arguments Keyword {crs}. Arguments crs_arg {crs}. Arguments form_eqb {crs}. Arguments opt_eqb {crs}.
Arguments EBbox {V crs}. Arguments EExtent {V crs}. Arguments ELength {V crs}. Arguments EExtend {V crs}. Arguments ESetitem {V crs}.
Arguments SBbox {box ext num}. Arguments SExtent {box ext num}. Arguments SLength {box ext num}. Arguments SNothing {box ext num}.
Arguments mkCache {crs box ext num}. Arguments empty {crs box ext num}. Arguments c_bbox {crs box ext num}. Arguments c_extent {crs box ext num}. Arguments c_length {crs box ext num}.
Arguments typed {V A}. Arguments set_nth {V}.
Arguments run {V crs box ext num}. Arguments in_crs {V crs}. Arguments raw_length {V crs num}.
Arguments bbox {V crs box ext num}. Arguments extent {V crs box ext num}. Arguments length_ {V crs box ext num}. Arguments cached_loose {V crs box ext num}. Arguments connected_bbox {V crs box ext num}. Arguments loose_bbox {V crs box}. Arguments multi_bbox {V crs box}. Arguments extend {V crs box ext num}. Arguments setitem {V crs box ext num}.
