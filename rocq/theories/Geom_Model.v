(** Model of the planar geometry of karta/vector/geometry.py and vectorgeo.pyx:
    bounding boxes, affine transformations, segments, area, orientation and
    centroid.  Numbers are exact rationals.  Only geometries whose coordinate
    system is not geographical, and calls that do not ask for another coordinate
    system, are modelled; properties, data tables and coordinate systems are
    carried along as opaque values.  [CoordString] comes from another package: it
    is a list of vertices of one rank and a flag telling whether it is a ring. *)
From Coq Require Import List ZArith QArith Qabs Bool Arith.
Import ListNotations.
Open Scope Q_scope.

(** The exceptions of geometry.py and of the compiled functions below it. *)
Inductive exn := ValueError | IndexError | TypeError | ZeroDivisionError.
(** What a method of geometry.py does: it returns a value or raises. *)
Inductive res (A : Type) := Ok (a : A) | Err (e : exn).
Arguments Ok {A} a. Arguments Err {A} e.
(** Statements one after the other (geometry.py): an exception ends the method. *)
Definition bind {A B} (r : res A) (f : A -> res B) : res B :=
  match r with Ok a => f a | Err e => Err e end.
(** A list comprehension in geometry.py; the first exception ends it. *)
Fixpoint mapM {A B} (f : A -> res B) (l : list A) : res (list B) :=
  match l with
  | [] => Ok []
  | x :: l' => bind (f x) (fun y => bind (mapM f l') (fun ys => Ok (y :: ys)))
  end.

(** A [CoordString] of rank 2 or 3. geometry.py:336-354 builds it; the class itself is not in
    the repository. *)
Inductive verts := V2 (l : list (Q * Q)) | V3 (l : list (Q * Q * Q)).
(** The horizontal coordinates of the vertices (geometry.py:447-453, 668-676). *)
Definition xys (v : verts) : list (Q * Q) := match v with V2 l => l | V3 l => map fst l end.
(** [len(self._vertices)], geometry.py:555-562. *)
Definition nverts (v : verts) : nat := length (xys v).

(** C's fmin and fmax. vectorgeo.pyx:119-128. *)
Definition fmin (a b : Q) : Q := if Qle_bool a b then a else b.
(** C's fmax, vectorgeo.pyx:119-128. *)
Definition fmax (a b : Q) : Q := if Qle_bool a b then b else a.

(** vectorgeo.pyx:119-128, the loop of [bbox] over the remaining vertices. *)
Fixpoint bbox_loop (l : list (Q * Q)) (xmin ymin xmax ymax : Q) : Q * Q * Q * Q :=
  match l with
  | [] => (xmin, ymin, xmax, ymax)
  | (x, y) :: l' => bbox_loop l' (fmin xmin x) (fmin ymin y) (fmax xmax x) (fmax ymax y)
  end.
(** vectorgeo.pyx:108-129 [bbox]; [None] stands for four NaN. *)
Definition bbox_c (l : list (Q * Q)) : option (Q * Q * Q * Q) :=
  match l with
  | [] => None
  | (x0, y0) :: l' => Some (bbox_loop l' x0 y0 x0 y0)
  end.

(** The classes of geometry.py:823, 975, 1233. *)
Inductive kind := KLine | KPolygon | KMultipoint.
Section Geometry.
Variables P D C : Type.   (* properties, data, crs *)

(** geometry.py:334-354, 823-840, 975-998, 1233-1269: what Line, Polygon and
    Multipoint objects hold.  [gring] is the flag of the coordinate string. *)
Inductive geom := Geom (gkind : kind) (gverts : verts) (gring : bool) (gsubs : list geom)
                       (gprops : P) (gdata : option D) (gcrs : C).
(** The class of an object (geometry.py:823, 975, 1233). *)
Definition gkind (g : geom) := let 'Geom k _ _ _ _ _ _ := g in k.
(** [self._vertices], geometry.py:336-354. *)
Definition gverts (g : geom) := let 'Geom _ v _ _ _ _ _ := g in v.
(** Whether the vertices are taken as a ring ([CoordString] with ring=True,
    geometry.py:989-998). *)
Definition gring (g : geom) := let 'Geom _ _ r _ _ _ _ := g in r.
(** [self.subs], geometry.py:989-998. *)
Definition gsubs (g : geom) := let 'Geom _ _ _ s _ _ _ := g in s.
(** [self.properties], geometry.py:336-354. *)
Definition gprops (g : geom) := let 'Geom _ _ _ _ p _ _ := g in p.
(** [self.data], geometry.py:1233-1269. *)
Definition gdata (g : geom) := let 'Geom _ _ _ _ _ d _ := g in d.
(** [self.crs], geometry.py:336-354. *)
Definition gcrs (g : geom) := let 'Geom _ _ _ _ _ _ c := g in c.

(** [Line(vertices, ...)] (geometry.py:336-354, 835-840), and [Polygon(vertices,
    subs, ...)] (989-998), from a list or array of coordinates. *)
Definition make_line (v : verts) (p : P) (c : C) : geom := Geom KLine v false [] p None c.
(** geometry.py:989-998 [Polygon(vertices, subs, ...)]. *)
Definition make_polygon (v : verts) (subs : list geom) (p : P) (c : C) : geom :=
  Geom KPolygon v true subs p None c.
(** [type(self)(vertices, properties=..., [data=...,] crs=...)]. geometry.py:534-539. *)
Definition remake (k : kind) (v : verts) (p : P) (d : option D) (c : C) : geom :=
  match k with
  | KLine => make_line v p c
  | KPolygon => make_polygon v [] p c
  | KMultipoint => Geom KMultipoint v false [] p d c
  end.
(** geometry.py:971-973 [Line.to_polygon]: the coordinate string is passed on and,
    by geometry.py:339-341, kept as it is. *)
Definition to_polygon (g : geom) : geom := Geom KPolygon (gverts g) (gring g) [] (gprops g) None (gcrs g).
(** geometry.py:1176-1179 [Polygon.to_line]: the vertices and the first again. *)
Definition to_line (g : geom) : res geom :=
  match gverts g with
  | V2 (v :: l) => Ok (make_line (V2 ((v :: l) ++ [v])) (gprops g) (gcrs g))
  | V3 (v :: l) => Ok (make_line (V3 ((v :: l) ++ [v])) (gprops g) (gcrs g))
  | _ => Err IndexError
  end.

(** geometry.py:429-457 and 619-644 [bbox]; the cache is modelled elsewhere. *)
Definition bbox (g : geom) : option (Q * Q * Q * Q) := bbox_c (xys (gverts g)).
(** geometry.py:460-474 [extent]: (xmin, xmax, ymin, ymax). *)
Definition extent (g : geom) : option (Q * Q * Q * Q) :=
  match bbox g with Some (x0, y0, x1, y1) => Some (x0, x1, y0, y1) | None => None end.
(** geometry.py:476-481 [_bbox_overlap] (comparisons with NaN are false). *)
Definition bbox_overlap (g h : geom) : bool :=
  match bbox g, bbox h with
  | Some (ax0, ay0, ax1, ay1), Some (bx0, by0, bx1, by1) =>
      Qle_bool ax0 bx1 && Qle_bool bx0 ax1 && Qle_bool ay0 by1 && Qle_bool by0 ay1
  | _, _ => false
  end.
(** geometry.py:1416-1422 [MultiVertexMultipartMixin.bbox], over the boxes of the
    parts (none of them empty); [min([])] raises. *)
Definition minl (a : Q) (l : list Q) : Q := fold_left fmin l a.
(** geometry.py:1416-1422, numpy's max. *)
Definition maxl (a : Q) (l : list Q) : Q := fold_left fmax l a.
(** geometry.py:1416-1422 [MultiVertexMultipartMixin.bbox]. *)
Definition multi_bbox (bbs : list (Q * Q * Q * Q)) : res (Q * Q * Q * Q) :=
  match bbs with
  | [] => Err ValueError
  | (x0, y0, x1, y1) :: l =>
      Ok (minl x0 (map (fun b => let '(a, _, _, _) := b in a) l),
          minl y0 (map (fun b => let '(_, a, _, _) := b in a) l),
          maxl x1 (map (fun b => let '(_, _, a, _) := b in a) l),
          maxl y1 (map (fun b => let '(_, _, _, a) := b in a) l))
  end.

(** A numpy matrix argument: 2x3, 3x4, or of another shape. geometry.py:483-523. *)
Inductive matrix :=
| M23 (a b c d e f : Q)
| M34 (a b c d e f g h i j k l : Q)
| Mother.
(** geometry.py:516-523 (and 210-217, 1459-1466): 2x3 matrices are completed. *)
Definition complete (M : matrix) : res matrix :=
  match M with
  | M23 a b c d e f => Ok (M34 a b 0 c d e 0 f 0 0 1 0)
  | M34 _ _ _ _ _ _ _ _ _ _ _ _ => Ok M
  | Mother => Err ValueError
  end.
(** One column of geometry.py:532 [np.dot(M, xy.T)]. *)
Definition dot34 (M : matrix) (x y z : Q) : Q * Q * Q :=
  match M with
  | M34 a b c d e f g h i j k l =>
      (a * x + b * y + c * z + d * 1, e * x + f * y + g * z + h * 1, i * x + j * y + k * z + l * 1)
  | _ => (x, y, z)
  end.
(** geometry.py:483-539 [apply_transform] of Line, Polygon and Multipoint. *)
Definition apply_transform (g : geom) (M : matrix) : res geom :=
  if nverts (gverts g) =? 0 then Err ValueError
  else
    bind (complete M) (fun N =>
    let v := match gverts g with
             | V2 l => V2 (map (fun p => let '(x, y, _) := dot34 N (fst p) (snd p) 0 in (x, y)) l)
             | V3 l => V3 (map (fun p => dot34 N (fst (fst p)) (snd (fst p)) (snd p)) l)
             end in
    Ok (remake (gkind g) v (gprops g) (gdata g) (gcrs g))).
(** geometry.py:541-553 [shift]. *)
Definition shift (g : geom) (v : list Q) : res geom :=
  match v with
  | [a; b] => apply_transform g (M23 1 0 a 0 1 b)
  | _ => Err ValueError
  end.

(** Point objects: geometry.py:66-86. *)
Inductive coord := C2 (x y : Q) | C3 (x y z : Q).
(** geometry.py:66-86 [Point]. *)
Record point := mkPoint { pcoord : coord; pprops : P; pcrs : C }.
(** geometry.py:180-230 [Point.apply_transform]. *)
Definition point_transform (p : point) (M : matrix) : res point :=
  bind (complete M) (fun N =>
  let c := match pcoord p with
           | C2 x y => let '(x', y', _) := dot34 N x y 0 in C2 x' y'
           | C3 x y z => let '(x', y', z') := dot34 N x y z in C3 x' y' z'
           end in
  Ok (mkPoint c (pprops p) (pcrs p))).
(** geometry.py:316-332 [Point.shift]. *)
Definition point_shift (p : point) (v : list Q) : res point :=
  match v with
  | [a; b] =>
      let c := match pcoord p with
               | C2 x y => C2 (x + a) (y + b)
               | C3 x y z => C3 (x + a) (y + b) z
               end in
      Ok (mkPoint c (pprops p) (pcrs p))
  | _ => Err ValueError
  end.

(** [self._vertices[i]] for i >= 0. geometry.py:555-562, 668-670. *)
Definition vat {A} (l : list A) (i : nat) : res A :=
  match nth_error l i with Some v => Ok v | None => Err IndexError end.
(** geometry.py:555-562 [_subset] of a Line and 1038-1042 of a Polygon: a Line. *)
Definition subset (g : geom) (idxs : list nat) : res geom :=
  match gverts g with
  | V2 l => bind (mapM (vat l) idxs) (fun vs => Ok (make_line (V2 vs) (gprops g) (gcrs g)))
  | V3 l => bind (mapM (vat l) idxs) (fun vs => Ok (make_line (V3 vs) (gprops g) (gcrs g)))
  end.
(** geometry.py:668-670 and 1079-1084 [segments]. *)
Definition segments (g : geom) : res (list geom) :=
  let n := nverts (gverts g) in
  match gkind g with
  | KPolygon => mapM (subset g) (map (fun i => [i; S i]) (seq 0 (n - 1)) ++ [[(n - 1)%nat; 0%nat]])
  | _ => mapM (subset g) (map (fun i => [i; S i]) (seq 0 (n - 1)))
  end.
(** geometry.py:673-676 and 1087-1091 [segment_tuples], the horizontal coordinates. *)
Definition consecutive {A} (l : list A) : list (A * A) := combine l (tl l).
(** geometry.py:673-676 and 1087-1091 [segment_tuples]. *)
Definition segment_tuples (g : geom) : list ((Q * Q) * (Q * Q)) :=
  let l := xys (gverts g) in
  match gkind g, l with
  | KPolygon, v :: _ => (last l v, v) :: consecutive l
  | _, _ => consecutive l
  end.

(** geometry.py:1044-1048 [isclockwise]. *)
Definition sumq (l : list Q) : Q := fold_left Qplus l 0.
(** geometry.py:1044-1048 [isclockwise]. *)
Definition isclockwise (g : geom) : bool :=
  let s := sumq (map (fun seg => (fst (snd seg) - fst (fst seg)) * (snd (snd seg) + snd (fst seg)))
                     (segment_tuples g)) in
  negb (Qle_bool s 0).

(** geometry.py:1139-1142, the area of one ring before [abs]. *)
Definition ring_area (l : list (Q * Q)) : res Q :=
  match l with
  | [] => Err ValueError
  | v :: l' =>
      let x0 := minl (fst v) (map fst l') in
      let w := last l v in
      Ok (((1 # 2) * (fst v + fst w) - x0) * (snd v - snd w) +
          sumq (map (fun s => ((1 # 2) * (fst (snd s) + fst (fst s)) - x0) * (snd (snd s) - snd (fst s)))
                    (consecutive l)))
  end.
(** geometry.py:1110-1143 [area]. *)
Fixpoint area (g : geom) : res Q :=
  match g with
  | Geom _ v _ subs _ _ _ =>
      bind (ring_area (xys v)) (fun a =>
      bind ((fix go l := match l with
                         | [] => Ok 0
                         | s :: l' => bind (area s) (fun x => bind (go l') (fun y => Ok (x + y)))
                         end) subs) (fun s =>
      Ok (Qabs a - s)))
  end.

(** geometry.py:1146-1154 [centroid]; the pairs (i, i+1) for i from -1 are the
    closing segment and the others in order.  A zero area gives nan or an
    exception, depending on the type of the coordinates. *)
Definition ring_pairs (l : list (Q * Q)) : list ((Q * Q) * (Q * Q)) :=
  match l with [] => [] | v :: _ => (last l v, v) :: consecutive l end.
(** geometry.py:1146-1154, the term of the sum for one segment. *)
Definition cross (s : (Q * Q) * (Q * Q)) : Q :=
  fst (fst s) * snd (snd s) - fst (snd s) * snd (fst s).
(** geometry.py:1146-1154 [centroid]. *)
Definition centroid (g : geom) : res (Q * Q) :=
  let ps := ring_pairs (xys (gverts g)) in
  let A := (1 # 2) * sumq (map cross ps) in
  if Qeq_bool (6 * A) 0 then Err ZeroDivisionError
  else Ok (sumq (map (fun s => (fst (fst s) + fst (snd s)) * cross s) ps) / (6 * A),
           sumq (map (fun s => (snd (fst s) + snd (snd s)) * cross s) ps) / (6 * A)).
End Geometry.
