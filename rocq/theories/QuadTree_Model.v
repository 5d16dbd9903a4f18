(** Model of karta/vector/quadtree.h and karta/vector/quadtree.pyx.

    Coordinates are values of an arbitrary type [num] with a boolean strict
    comparison [ltb], an equality test [eqb] and a midpoint operation [mid]
    standing for [0.5*(a+b)].  No law is assumed here.  NaN is represented
    outside [num] by [PNaN]: quadtree.pyx:84 rejects it before any
    comparison takes place. *)
From Coq Require Import List ZArith Bool.
Import ListNotations.

Section Model.

Variable num : Type.
Variable ltb : num -> num -> bool.
Variable eqb : num -> num -> bool.
Variable mid : num -> num -> num.

(** quadtree.h:10-15 [Bbox]. *)
Record bbox := mkBbox { xmin : num; ymin : num; xmax : num; ymax : num }.

(** quadtree.h:17-21 [Position]; the C [int id] is a [nat] (ids are list
    positions, quadtree.pyx:86; 32-bit overflow is not modelled). *)
Record position := mkPos { pid : nat; px : num; py : num }.

(** quadtree.h:8 [Quadrant]. *)
Inductive quadrant := UPPERLEFT | UPPERRIGHT | LOWERLEFT | LOWERRIGHT.

(** quadtree.h:28-45: leaf and nonleaf nodes. [count] is the length of the
    position list.  [parent] pointers are not stored: the parent of a leaf is
    the node whose child it is (set at quadtree.h:203-206); the place where a
    parent pointer is used is modelled in [qt_split] and [qt_insert]. *)
Inductive tree :=
| Leaf (bb : bbox) (ps : list position)
| Node (bb : bbox) (ul ur ll lr : tree).

(** The box of either node, quadtree.h:28-45. *)
Definition tree_bbox (t : tree) : bbox :=
  match t with Leaf bb _ => bb | Node bb _ _ _ _ => bb end.

(** Result of an operation: a value, fuel exhaustion of a recursive C call
    (standing for non-termination if it happens for every fuel), a reference
    to freed memory, or the Python exception of quadtree.pyx:85. *)
Inductive res (A : Type) :=
| Ok (a : A)
| OutOfFuel
| DanglingPointer
| ValueErrorNaN (i : nat).
Arguments Ok {A} a.
Arguments OutOfFuel {A}.
Arguments DanglingPointer {A}.
Arguments ValueErrorNaN {A} i.

(** Sequencing in quadtree.h: a call that does not return ends everything. *)
Definition bind {A B : Type} (r : res A) (f : A -> res B) : res B :=
  match r with
  | Ok a => f a
  | OutOfFuel => OutOfFuel
  | DanglingPointer => DanglingPointer
  | ValueErrorNaN i => ValueErrorNaN i
  end.

(** C library [fmin]/[fmax] on non-NaN arguments and [>=]. Used at quadtree.h:389-397. *)
Definition fmin (a b : num) : num := if ltb b a then b else a.
(** [fmax] of the C library, as [fmin] in quadtree.h:389-397. *)
Definition fmax (a b : num) : num := if ltb a b then b else a.
(** [a >= b], quadtree.h:351-397. *)
Definition geb (a b : num) : bool := negb (ltb a b).

(** quadtree.h:351-367 [get_quadrant]. *)
Definition get_quadrant (bb : bbox) (x y : num) : quadrant :=
  let xm := mid (xmin bb) (xmax bb) in
  let ym := mid (ymin bb) (ymax bb) in
  if ltb x xm
  then (if ltb y ym then LOWERLEFT else UPPERLEFT)
  else (if ltb y ym then LOWERRIGHT else UPPERRIGHT).

(** quadtree.h:369-377 [isduplicate]: id of the first position with equal
    coordinates, [None] for -1. *)
Fixpoint isduplicate (ps : list position) (p : position) : option nat :=
  match ps with
  | [] => None
  | q :: ps' => if eqb (px p) (px q) && eqb (py p) (py q)
                then Some (pid q) else isduplicate ps' p
  end.

(** quadtree.h:379-387 [iswithin]. *)
Definition iswithin (bb : bbox) (p : position) : bool :=
  ltb (xmin bb) (px p) && ltb (px p) (xmax bb) &&
  ltb (ymin bb) (py p) && ltb (py p) (ymax bb).

(** quadtree.h:389-397 [overlaps]. *)
Definition overlaps (a b : bbox) : bool :=
  geb (fmin (xmax a) (xmax b)) (fmax (xmin a) (xmin b)) &&
  geb (fmin (ymax a) (ymax b)) (fmax (ymin a) (ymin b)).

(** quadtree.h:187-191: the four child boxes. *)
Definition child_bbox (bb : bbox) (q : quadrant) : bbox :=
  let xm := mid (xmin bb) (xmax bb) in
  let ym := mid (ymin bb) (ymax bb) in
  match q with
  | UPPERLEFT  => mkBbox (xmin bb) ym xm (ymax bb)
  | UPPERRIGHT => mkBbox xm ym (xmax bb) (ymax bb)
  | LOWERLEFT  => mkBbox (xmin bb) (ymin bb) xm ym
  | LOWERRIGHT => mkBbox xm (ymin bb) (xmax bb) ym
  end.

(** [==] of quadrants, quadtree.h:231-266. *)
Definition quadrant_eqb (a b : quadrant) : bool :=
  match a, b with
  | UPPERLEFT, UPPERLEFT | UPPERRIGHT, UPPERRIGHT
  | LOWERLEFT, LOWERLEFT | LOWERRIGHT, LOWERRIGHT => true
  | _, _ => false
  end.

(** Assignment to one of the four child fields of a nonleaf node
    (quadtree.h:221-224, 257, 260, 263, 266). *)
Definition set_child (t : tree) (q : quadrant) (c : tree) : tree :=
  match t with
  | Leaf _ _ => t
  | Node bb ul ur ll lr =>
      match q with
      | UPPERLEFT => Node bb c ur ll lr
      | UPPERRIGHT => Node bb ul c ll lr
      | LOWERLEFT => Node bb ul ur c lr
      | LOWERRIGHT => Node bb ul ur ll c
      end
  end.

(** quadtree.h:231-253: the positions copied to the child for quadrant [q],
    in their original order. *)
Definition distribute (bb : bbox) (ps : list position) (q : quadrant)
  : list position :=
  filter (fun p => quadrant_eqb (get_quadrant bb (px p) (py p)) q) ps.

(** The centre used to link a split leaf to its grandparent
    (quadtree.h:184-185, 217-219). *)
Definition link_quadrant (gp : bbox) (bb : bbox) : quadrant :=
  get_quadrant gp (mid (xmin bb) (xmax bb)) (mid (ymin bb) (ymax bb)).

(** [leaf->count >= leaf->max_positions] (quadtree.h:119, 256-265); the
    capacity is a C int and may be zero or negative. *)
Definition full (cap : Z) (ps : list position) : bool :=
  (cap <=? Z.of_nat (length ps))%Z.

(** quadtree.h:182-275 [qt_split].  [qt_split fuel cap bb ps] returns the new
    nonleaf node made from a leaf with box [bb] and positions [ps].  The call
    for an over-full child first stores the result in the field of the new
    node chosen by [get_quadrant] on the child's centre (lines 216-226) and
    then in the field it came from (lines 257, 260, 263, 266).  Only the first
    over-full child is split (else-if chain). Memory management is not
    modelled. *)
Fixpoint qt_split (fuel : nat) (cap : Z) (bb : bbox) (ps : list position)
  : res tree :=
  match fuel with
  | O => OutOfFuel
  | S fuel' =>
      let leaf q := Leaf (child_bbox bb q) (distribute bb ps q) in
      let parent := Node bb (leaf UPPERLEFT) (leaf UPPERRIGHT)
                            (leaf LOWERLEFT) (leaf LOWERRIGHT) in
      let resplit q :=
        bind (qt_split fuel' cap (child_bbox bb q) (distribute bb ps q))
             (fun sub =>
                Ok (set_child (set_child parent
                                 (link_quadrant bb (child_bbox bb q)) sub)
                              q sub)) in
      if full cap (distribute bb ps UPPERLEFT) then resplit UPPERLEFT
      else if full cap (distribute bb ps UPPERRIGHT) then resplit UPPERRIGHT
      else if full cap (distribute bb ps LOWERLEFT) then resplit LOWERLEFT
      else if full cap (distribute bb ps LOWERRIGHT) then resplit LOWERRIGHT
      else Ok parent
  end.

(** The child for a quadrant, quadtree.h:95-117. *)
Definition get_child (ul ur ll lr : tree) (q : quadrant) : tree :=
  match q with
  | UPPERLEFT => ul | UPPERRIGHT => ur | LOWERLEFT => ll | LOWERRIGHT => lr
  end.

(** quadtree.h:95-179 [qt_insert].  Returns the tree after the call and the
    value of [*dup].  The while loop descending through nonleaf nodes becomes
    structural recursion.  A child leaf that is split is replaced by the link
    made in [qt_split] (quadtree.h:216-226) only; if that link goes to another
    field than the one holding the leaf, the latter keeps a pointer to the
    freed leaf (quadtree.h:270-273), modelled as [DanglingPointer]. *)
Fixpoint qt_insert (fuel : nat) (cap : Z) (t : tree) (p : position)
  : res (tree * option nat) :=
  match t with
  | Leaf bb ps =>
      match isduplicate ps p with
      | Some i => Ok (t, Some i)
      | None =>
          let ps' := ps ++ [p] in
          if full cap ps'
          then bind (qt_split fuel cap bb ps') (fun t' => Ok (t', None))
          else Ok (Leaf bb ps', None)
      end
  | Node bb ul ur ll lr =>
      let q := get_quadrant bb (px p) (py p) in
      let step child :=
        bind (qt_insert fuel cap child p)
             (fun r => match child, fst r with
                       | Leaf cbb _, Node _ _ _ _ _ =>
                           if quadrant_eqb (link_quadrant bb cbb) q
                           then Ok (set_child t q (fst r), snd r)
                           else DanglingPointer
                       | _, _ => Ok (set_child t q (fst r), snd r)
                       end) in
      match q with
      | UPPERLEFT => step ul
      | UPPERRIGHT => step ur
      | LOWERLEFT => step ll
      | LOWERRIGHT => step lr
      end
  end.

(** quadtree.h:277-319 [qt_search_within]: depth-first with an explicit stack
    (pool.h add/pop at the end); children are pushed in the order ul, ur, ll,
    lr and popped last-in first-out.  Written recursively: the ids in the
    order in which they are added to [results].  The Pool is modelled as a
    list (see QuadTree stack lemma in the proofs for the explicit loop). *)
Fixpoint qt_search_within (t : tree) (bb : bbox) : list nat :=
  match t with
  | Leaf _ ps => map pid (filter (iswithin bb) ps)
  | Node _ ul ur ll lr =>
      let visit c := if overlaps bb (tree_bbox c)
                     then qt_search_within c bb else [] in
      visit lr ++ visit ll ++ visit ur ++ visit ul
  end.

(** One iteration of the while loop of quadtree.h:286-315 on an explicit
    stack (head = top) and a result list (in order of addition). *)
Definition search_step (bb : bbox) (st : list tree * list nat)
  : list tree * list nat :=
  match st with
  | ([], acc) => ([], acc)
  | (Leaf _ ps :: stk, acc) =>
      (stk, acc ++ map pid (filter (iswithin bb) ps))
  | (Node _ ul ur ll lr :: stk, acc) =>
      let push c s := if overlaps bb (tree_bbox c) then c :: s else s in
      (push lr (push ll (push ur (push ul stk))), acc)
  end.

(** quadtree.h:286-315, the while loop. *)
Fixpoint search_loop (fuel : nat) (bb : bbox) (st : list tree * list nat)
  : option (list nat) :=
  match fst st with
  | [] => Some (snd st)
  | _ => match fuel with
         | O => None
         | S fuel' => search_loop fuel' bb (search_step bb st)
         end
  end.

(** A Python float argument: NaN or a number. The arguments of quadtree.pyx:119-131. *)
Inductive pynum := PNaN | PNum (x : num).

(** quadtree.pyx:70, 88-92: the [duplicates] dict as an association list
    from the id stored in the tree to later ids with equal coordinates. *)
Definition dups := list (nat * list nat).

(** [duplicates[k]], quadtree.pyx:88-92, 125-129. *)
Fixpoint dup_get (d : dups) (k : nat) : option (list nat) :=
  match d with
  | [] => None
  | (k', v) :: d' => if Nat.eqb k k' then Some v else dup_get d' k
  end.

(** quadtree.pyx:88-92, one duplicate more. *)
Fixpoint dup_add (d : dups) (k i : nat) : dups :=
  match d with
  | [] => [(k, [i])]
  | (k', v) :: d' => if Nat.eqb k k' then (k', v ++ [i]) :: d'
                     else (k', v) :: dup_add d' k i
  end.

(** quadtree.pyx:62-100, the attributes of a QuadTree. *)
Record qtree := mkQT { root : tree; duplicates : dups; count : nat }.

(** quadtree.pyx:82-96: the insertion loop, [i] the index of the first of the
    remaining points. *)
Fixpoint build_loop (fuel : nat) (cap : Z) (i : nat)
    (pts : list (pynum * pynum)) (t : tree) (d : dups) : res qtree :=
  match pts with
  | [] => Ok (mkQT t d i)
  | (PNum x, PNum y) :: pts' =>
      bind (qt_insert fuel cap t (mkPos i x y))
           (fun r => match snd r with
                     | Some j => build_loop fuel cap (S i) pts' t (dup_add d j i)
                     | None => build_loop fuel cap (S i) pts' (fst r) d
                     end)
  | _ :: _ => ValueErrorNaN i
  end.

(** quadtree.pyx:62-100 [QuadTree.__cinit__]; [bb] is [points.bbox()], which
    belongs to the external coordstring package. *)
Definition build (fuel : nat) (cap : Z) (bb : bbox)
    (pts : list (pynum * pynum)) : res qtree :=
  build_loop fuel cap 0 pts (Leaf bb []) [].

(** quadtree.pyx:106-107 [__len__] and 109-117 [bbox]. *)
Definition qt_len (t : qtree) : nat := count t.
(** quadtree.pyx:109-117 [bbox]. *)
Definition qt_bbox (t : qtree) : bbox := tree_bbox (root t).

(** quadtree.pyx:125-129: results popped from the end; duplicates first. *)
Definition expand (d : dups) (ids : list nat) : list nat :=
  flat_map (fun i => match dup_get d i with
                     | Some l => l ++ [i] | None => [i] end) (rev ids).

(** quadtree.pyx:119-131 [QuadTree.search_within]. *)
Definition search_within (t : qtree) (bb : bbox) : list nat :=
  expand (duplicates t) (qt_search_within (root t) bb).

End Model.

Arguments xmin {num}. Arguments ymin {num}.
Arguments xmax {num}. Arguments ymax {num}.
Arguments mkBbox {num}. Arguments pid {num}. Arguments px {num}.
Arguments py {num}. Arguments mkPos {num}.
Arguments Leaf {num}. Arguments Node {num}.
Arguments Ok {A} a. Arguments OutOfFuel {A}.
Arguments DanglingPointer {A}. Arguments ValueErrorNaN {A} i.
Arguments PNaN {num}. Arguments PNum {num} x.
Arguments root {num}. Arguments duplicates {num}. Arguments count {num}.
Arguments tree_bbox {num}. Arguments qt_len {num}. Arguments qt_bbox {num}.
Arguments search_within {num}. Arguments build {num}.
Arguments qt_search_within {num}. Arguments iswithin {num}.
Arguments get_quadrant {num}. Arguments child_bbox {num}.
Arguments distribute {num}. Arguments link_quadrant {num}.
Arguments qt_split {num}. Arguments qt_insert {num}.
Arguments full {num}. Arguments overlaps {num}.
Arguments isduplicate {num}. Arguments build_loop {num}.
Arguments set_child {num}. Arguments get_child {num}.
Arguments fmin {num}. Arguments fmax {num}. Arguments geb {num}.
Arguments search_step {num}. Arguments search_loop {num}.
Arguments mkQT {num}. Arguments bind {A B}.
