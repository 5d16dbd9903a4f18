(** Model of what karta/vector/geometry.py does with coordinate systems that differ: the
    methods that give coordinates in another system, and the constructors and sums that take
    parts in several systems.  Also karta/raster/coordgen.py:4-65 for another system.

    Coordinates are exact rationals.  The systems are opaque: [is_same] is Python's [is],
    [eqb] its [==], and [transform a b] is [a.transform(b, x, y)] (crs.py:201-202, 245-246,
    297-298), which ends in pyproj: a function of the two coordinates that pyproj applies to
    numbers and, one by one, to the entries of vectors, or an exception. *)
From Coq Require Import List QArith Bool.
From Verif Require Geom_Model.
Import ListNotations.

(** The exceptions: NotImplementedError of crs.py:201-202, AttributeError of geometry.py:425 (a
    tuple has no append) and of a target without [_proj] (crs.py:245-246, 297-298), and
    whatever the package coordstring raises for vertices of different ranks; the last three are
    those of geometry.py:1845-1850. *)
Inductive error := AttributeError | NotImplementedError | RankError | IndexError | ValueError | LinAlgError | GeometryError.
(** What a method of geometry.py does: it returns or raises. *)
Inductive outcome (A : Type) := Ok (a : A) | Raise (e : error).
Arguments Ok {A} a. Arguments Raise {A} e.
(** Statements one after the other (geometry.py): an exception ends the method. *)
Definition andthen {A B} (r : outcome A) (f : A -> outcome B) : outcome B :=
  match r with Ok a => f a | Raise e => Raise e end.
(** A list comprehension of geometry.py; the first exception ends it. *)
Fixpoint each {A B} (f : A -> outcome B) (l : list A) : outcome (list B) :=
  match l with
  | [] => Ok []
  | x :: l' => andthen (f x) (fun y => andthen (each f l') (fun ys => Ok (y :: ys)))
  end.

(** A vertex of rank 2 or 3 and the vertices of a CoordString (geometry.py:77-83, 336-354). *)
Notation coord := Geom_Model.coord.
(** The vertices of a CoordString (geometry.py:336-354). *)
Notation verts := Geom_Model.verts.
(** [(self.x, self.y)], geometry.py:123-129. *)
Definition xy (p : coord) : Q * Q := match p with Geom_Model.C2 x y | Geom_Model.C3 x y _ => (x, y) end.
(** [CoordString(list of tuples)], geometry.py:350, 1261; vertices of one rank. *)
Fixpoint string2 (l : list coord) : option (list (Q * Q)) :=
  match l with
  | [] => Some []
  | Geom_Model.C2 x y :: l' => option_map (cons (x, y)) (string2 l')
  | _ => None
  end.
(** The same for vertices of rank 3, geometry.py:350, 1261. *)
Fixpoint string3 (l : list coord) : option (list (Q * Q * Q)) :=
  match l with
  | [] => Some []
  | Geom_Model.C3 x y z :: l' => option_map (cons (x, y, z)) (string3 l')
  | _ => None
  end.
(** [CoordString(list of tuples)], geometry.py:350, 1261. *)
Definition string (l : list coord) : outcome verts :=
  match string2 l, string3 l with
  | Some u, _ => Ok (Geom_Model.V2 u)
  | None, Some u => Ok (Geom_Model.V3 u)
  | None, None => Raise RankError
  end.

Section Systems.
Variable C : Type.
Variables is_same eqb : C -> C -> bool.
Variable transform : C -> C -> outcome (Q * Q -> Q * Q).

(** geometry.py:135-140 [Point.vertex]. *)
Definition vertex (p : coord) (own : C) (crs : option C) : outcome coord :=
  match crs with
  | None => Ok p
  | Some c =>
      if eqb c own then Ok p
      else andthen (transform own c) (fun f => let '(x, y) := f (xy p) in Ok (Geom_Model.C2 x y))
  end.

(** geometry.py:393-404 [coords] of Line, Polygon and Multipoint: two vectors. *)
Definition coords (v : verts) (own : C) (crs : option C) : outcome (list Q * list Q) :=
  let l := Geom_Model.xys v in
  match crs with
  | None => Ok (map fst l, map snd l)
  | Some c =>
      if negb (eqb c own) then andthen (transform own c) (fun f => Ok (map fst (map f l), map snd (map f l)))
      else Ok (map fst l, map snd l)
  end.

(** geometry.py:406-426 [vertices] of Line, Polygon and Multipoint.  What the transformation
    gives is a tuple, to which line 425 cannot append. *)
Definition vertices (v : verts) (own : C) (crs : option C) (drop_z : bool) : outcome verts :=
  let u := if drop_z then Geom_Model.V2 (Geom_Model.xys v) else v in
  match crs with
  | None => Ok u
  | Some c =>
      if is_same c own then Ok u
      else andthen (transform own c) (fun f =>
           match u with Geom_Model.V2 l => Ok (Geom_Model.V2 (map f l)) | Geom_Model.V3 _ => Raise AttributeError end)
  end.

(** geometry.py:1640-1655 [Multiline.vertices]. *)
Definition multiline_vertices (parts : list verts) (own : C) (crs : option C) : outcome (list verts) :=
  match crs with
  | None => Ok parts
  | Some c =>
      if eqb c own then Ok parts
      else each (fun v => andthen (each (fun p => andthen (transform own c) (fun f => Ok (f p))) (Geom_Model.xys v))
                                  (fun l => Ok (Geom_Model.V2 l))) parts
  end.
(** geometry.py:1785-1806 [Multipolygon.vertices], of a multipolygon made of rings. *)
Definition multipolygon_vertices (polys : list (list verts)) (own : C) (crs : option C) : outcome (list (list verts)) :=
  match crs with
  | None => Ok polys
  | Some c => if eqb c own then Ok polys else each (fun rings => multiline_vertices rings own (Some c)) polys
  end.
(** [v.T] of an array of vertices, geometry.py:1661, 1814: two or three vectors. *)
Definition transposed (v : verts) : list (list Q) :=
  match v with
  | Geom_Model.V2 l => [map fst l; map snd l]
  | Geom_Model.V3 l => [map (fun p => fst (fst p)) l; map (fun p => snd (fst p)) l; map snd l]
  end.
(** geometry.py:1657-1662 [Multiline.coords]. *)
Definition multiline_coords (parts : list verts) (own : C) (crs : option C) : outcome (list (list (list Q))) :=
  andthen (multiline_vertices parts own crs) (fun l => Ok (map transposed l)).
(** geometry.py:1808-1816 [Multipolygon.coords]. *)
Definition multipolygon_coords (polys : list (list verts)) (own : C) (crs : option C)
  : outcome (list (list (list (list Q)))) :=
  andthen (multipolygon_vertices polys own crs) (fun l => Ok (map (map transposed) l)).

(** geometry.py:347-353: [Line(points, crs=...)] and [Polygon(points, crs=...)]: the vertices
    of the points as they are, and the system given or that of the first.  There is a point;
    the coordinates of a polygon are marked as a ring, which makes no difference here. *)
Definition line_of_points (pts : list (coord * C)) (crs : option C) : outcome (verts * C) :=
  match pts with
  | [] => Raise IndexError
  | (_, c0) :: _ =>
      andthen (string (map fst pts)) (fun v => Ok (v, match crs with Some c => c | None => c0 end))
  end.
(** geometry.py:1258-1263: [Multipoint(points, crs=...)]. *)
Definition multipoint_of_points (pts : list (coord * C)) (crs : option C) : outcome (verts * C) :=
  match pts with
  | [] => Raise IndexError
  | (_, c0) :: _ =>
      let c := match crs with Some c => c | None => c0 end in
      andthen (each (fun p => vertex (fst p) (snd p) (Some c)) pts) (fun l =>
      andthen (string l) (fun v => Ok (v, c)))
  end.
(** geometry.py:1565-1570: [Multiline(lines, crs=...)]; 1684-1690 is the same for the outlines
    of [Multipolygon(polygons, crs=...)]. *)
Definition multiline_of_lines (lines : list (verts * C)) (crs : option C) : outcome (list verts * C) :=
  match lines with
  | [] => Raise IndexError
  | (_, c0) :: _ =>
      let c := match crs with Some c => c | None => c0 end in
      andthen (each (fun l => vertices (fst l) (snd l) (Some c) false) lines) (fun l => Ok (l, c))
  end.
(** geometry.py:108-109 [Point.__add__]. *)
Definition add_points (p q : coord * C) : outcome (verts * C) :=
  andthen (vertex (fst q) (snd q) (Some (snd p))) (fun v =>
  andthen (string [fst p; v]) (fun s => Ok (s, snd p))).
(** geometry.py:842-844 [Line.__add__]. *)
Definition add_lines (a b : verts * C) : outcome (list verts * C) :=
  andthen (vertices (fst b) (snd b) (Some (snd a)) false) (fun v => Ok ([fst a; v], snd a)).
(** A polygon as geometry.py:1009-1011 sees it: its vertices, those of its holes, its system. *)
Record polygon := mkPoly { outline : verts; holes : list verts; psystem : C }.
(** geometry.py:1009-1011 [Polygon.__add__]: the rings of the two polygons of the result. *)
Definition add_polygons (a b : polygon) : outcome (list (list verts) * C) :=
  andthen (vertices (outline b) (psystem b) (Some (psystem a)) false) (fun v =>
  Ok ([[outline a]; [v]], psystem a)).

(** coordgen.py:4-12 [coordinate_transformer], and 65: the coordinates [p] of a cell in the
    system of the output. *)
Definition cell_coords (own out : C) (p : Q * Q) : outcome (Q * Q) :=
  if eqb own out then Ok p else andthen (transform own out) (fun f => Ok (f p)).
End Systems.
