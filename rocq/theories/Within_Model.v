(** Model of the selection of the members of a Multiline or Multipolygon by a Line or
    Polygon: karta/vector/geometry.py [MultiVertexMultipartMixin.touching] and [within], for
    coordinate systems that are not geographical.  Doubles are exact rationals.

    A part is of an arbitrary type [P]; [outer] gives the coordinates of the line, or of the
    outer ring of the polygon.  The index is the one built by the constructor
    (geometry.py:1575-1576, 1700-1701, [build_index=True]); parts cannot be assigned, so
    it is built here from the parts there are. *)
From Coq Require Import String List ZArith QArith Bool Arith.
From Verif Require Import Table_Model Multi_Model RTree_Model Geom_Model Inter_Model Contains_Model.
Import ListNotations.
Local Open Scope list_scope.

(** The outcome of a call: a value, an exception of the selection itself (TypeError) or of the
    table (given), or no answer: the process crashed, a loop did not end, or a part has no
    vertices. geometry.py:1496-1544. *)
Inductive outcome (A : Type) := Done (a : A) | TypeErr | TableErr (e : Table_Model.exn) | Stuck.
Arguments Done {A} a. Arguments TypeErr {A}. Arguments TableErr {A} e. Arguments Stuck {A}.
(** Python's sequencing: the first exception ends the call. geometry.py:1496-1544. *)
Definition next {A B} (r : outcome A) (f : A -> outcome B) : outcome B :=
  match r with Done a => f a | TypeErr => TypeErr | TableErr e => TableErr e | Stuck => Stuck end.
(** The outcomes of the models of the tables, of [contains] (which raises only TypeError,
    contains.pyx:16-17) and of [intersects]. *)
Definition of_table {A} (r : Table_Model.res A) : outcome A :=
  match r with Table_Model.Ok a => Done a | Table_Model.Err e => TableErr e end.
(** The outcomes of contains.pyx:16-42 as those of geometry.py:1496-1544. *)
Definition of_contains (r : Geom_Model.res bool) : outcome bool :=
  match r with Geom_Model.Ok b => Done b | Geom_Model.Err _ => TypeErr end.
(** The outcomes of intersection.pyx:193-340 as those of geometry.py:1496-1544. *)
Definition of_inter (r : Inter_Model.out bool) : outcome bool :=
  match r with Inter_Model.Ret b => Done b | _ => Stuck end.
(** The outcomes of the index (rtree.h) as those of geometry.py:1496-1544. *)
Definition of_tree {A} (r : RTree_Model.out A) : outcome A :=
  match r with RTree_Model.Ret a => Done a | _ => Stuck end.

(** rtree.pyx:53-59: the box of a CoordString, as the index takes it. *)
Definition box_of (l : list (Q * Q)) : outcome bb :=
  match bbox_c l with Some (x0, y0, x1, y1) => Done (mkB x0 y0 x1 y1) | None => Stuck end.
(** rtree.pyx:53-59, the boxes of all members. *)
Fixpoint boxes_of (ls : list (list (Q * Q))) : outcome (list bb) :=
  match ls with
  | [] => Done []
  | l :: ls' => next (box_of l) (fun b => next (boxes_of ls') (fun bs => Done (b :: bs)))
  end.

Section Model.
Variables P val : Type.
Variable outer : P -> list (Q * Q).
Variables GP GD GC : Type.   (* properties, data and crs of the query *)
Variables fs fi : nat.       (* fuel of the search in the index, of [intersects] *)

(** geometry.py:1510, 1537 [self.rtree.search_overlapping(geom.bbox(self.crs))], on the
    index of geometry.py:1576, 1701 with [maxchildren=50] (rtree.pyx:43). *)
Definition candidates (m : multi P val) (g : geom GP GD GC) : outcome (list nat) :=
  next (boxes_of (map outer (parts m))) (fun l =>
  next (box_of (xys (gverts GP GD GC g))) (fun q =>
  next (of_tree (rtree 50 (S (List.length l)) l)) (fun t =>
  next (of_tree (search_overlapping fs (fst t) q (-1) [snd t] [])) (fun r =>
  Done (map Z.to_nat r))))).

(** geometry.py:678-696: [geom.intersects(test_geom)].  The coordinates of a member are not
    a ring: a CoordString is made without [ring=True] (geometry.py:1565-1573, 1684-1698) and
    kept by Line and Polygon (geometry.py:339-341). *)
Definition meets (g : geom GP GD GC) (p : P) : outcome bool :=
  of_inter (geom_intersects fi (xys (gverts GP GD GC g)) (gring GP GD GC g) (outer p) false).
(** geometry.py:1520-1521, 1541-1542: [pt = test_geom[0]], [geom.contains(pt)]. *)
Definition has_first (g : geom GP GD GC) (p : P) : outcome bool :=
  match outer p with [] => Stuck | v :: _ => of_contains (contains GP GD GC g v) end.
(** geometry.py:1512-1524: the tests of [touching]; [or] stops early. *)
Definition test_touching (g : geom GP GD GC) (p : P) : outcome bool :=
  match gkind GP GD GC g with
  | KLine => meets g p
  | KPolygon => next (has_first g p) (fun b => if b then Done true else meets g p)
  | KMultipoint => TypeErr
  end.
(** geometry.py:1542 the test of [within]; [and] stops early. *)
Definition test_within (g : geom GP GD GC) (p : P) : outcome bool :=
  next (has_first g p) (fun b => if b then next (meets g p) (fun c => Done (negb c)) else Done false).

(** geometry.py:1513-1522, 1539-1543: the loop over the candidates. *)
Fixpoint results (m : multi P val) (test : P -> outcome bool) (cands : list nat) : outcome (list (member P val)) :=
  match cands with
  | [] => Done []
  | i :: cands' =>
    next (of_table (getitem m i)) (fun p =>
    next (test (mpart p)) (fun b =>
    next (results m test cands') (fun l => Done (if b then p :: l else l))))
  end.

(** geometry.py:1496-1525 [touching].  [ord] is the order of the set of common property
    names (geometry.py:1827). *)
Definition touching (ord : list string) (m : multi P val) (g : geom GP GD GC) : outcome (multi P val) :=
  next (candidates m g) (fun cands =>
  match gkind GP GD GC g with
  | KMultipoint => TypeErr
  | _ => next (results m (test_touching g) cands) (fun ms => of_table (of_members ord [] ms Absent []))
  end).
(** geometry.py:1527-1544 [within]. *)
Definition within (ord : list string) (m : multi P val) (g : geom GP GD GC) : outcome (multi P val) :=
  match gkind GP GD GC g with
  | KPolygon =>
    next (candidates m g) (fun cands =>
    next (results m (test_within g) cands) (fun ms => of_table (of_members ord [] ms Absent [])))
  | _ => TypeErr
  end.
End Model.
