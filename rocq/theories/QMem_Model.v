(** The memory of the quadtree: karta/vector/quadtree.h, quadtree.pyx and
    pool.h once more, this time with every malloc, free, load and store.

    Memory is a set of numbered blocks.  A block freed is gone and its number
    is not used again, so that every use of freed memory, of a null or
    uninitialised pointer, or of a cell outside an array is seen ([Bad]).
    [malloc] never fails.  Coordinates as in QuadTree_Model: any type with a
    comparison, an equality test and a midpoint. *)
From Coq Require Import List ZArith Bool.
From Verif Require Import QuadTree_Model.
Import ListNotations.

Section Memory.
Variable num : Type.
Variable ltb : num -> num -> bool.
Variable eqb : num -> num -> bool.
Variable mid : num -> num -> num.
(** quadtree.pyx:62 [leaf_capacity], the [max_positions] of every leaf
    (quadtree.h:32, 68, 197-200). *)
Variable cap : Z.

(** What the pools of a search hold (pool.h:5-9): pointers to the argument
    [node_union] (quadtree.h:285), to a field of a nonleaf node
    (quadtree.h:302-311), or to the id of a position (quadtree.h:295). *)
Inductive slot :=
| SRoot (a : nat)
| SField (a : nat) (q : quadrant)
| SId (a : nat) (i : nat).

(** The blocks: quadtree.h:10-15 (Bbox), 17-21 (Position), the array of
    quadtree.h:69, 28-35 (LeafNode; [cnt] is the field count), 37-45
    (NonleafNode, whose parent is never read), pool.h:5-9 and the array of
    pool.h:16, 21.  [None] is NULL for [par] and the box of a leaf, and
    uninitialised memory elsewhere. *)
Inductive block :=
| Box (b : bbox num)
| Posn (p : position num)
| Cells (cs : list (option (position num)))
| LeafB (bb : option nat) (cnt : nat) (pos : nat) (par : option nat)
| NodeB (bb : nat) (ul ur ll lr : option nat)
| PoolB (size cnt : nat) (members : nat)
| Slots (ss : list (option slot)).

(** The memory, with the next number malloc gives. Every malloc of
    quadtree.h:56-90 and pool.h:12-23. *)
Record heap := mkH { next : nat; at_ : nat -> option block }.

(** The end of a C call: a value and the memory, an access to memory that is
    not there (quadtree.h, pool.h), the [exit(1)] of pool.h:50, or fuel used
    up. *)
Inductive run (A : Type) := Done (a : A) (h : heap) | Bad | Exit | NoFuel.
Arguments Done {A} a h. Arguments Bad {A}. Arguments Exit {A}. Arguments NoFuel {A}.

(** Statements one after the other (quadtree.h, pool.h). *)
Definition seq_ {A B} (m : heap -> run A) (k : A -> heap -> run B) (h : heap) : run B :=
  match m h with Done a h' => k a h' | Bad => Bad | Exit => Exit | NoFuel => NoFuel end.
(** A value without effect (quadtree.h, pool.h). *)
Definition ret {A} (a : A) (h : heap) : run A := Done a h.
(** An access that fails (quadtree.h, pool.h). *)
Definition bad {A} (h : heap) : run A := Bad.
(** The same in the notation of C's statements (quadtree.h). *)
Notation "'do' x <- r ; k" := (seq_ r (fun x => k))
  (at level 200, x pattern, r at level 100, k at level 200).

(** One cell of memory changed: a store or a free, quadtree.h:56-90, 321-349. *)
Definition upd (f : nat -> option block) (a : nat) (b : option block) (x : nat) : option block :=
  if x =? a then b else f x.
(** [malloc] and the assignments that follow, quadtree.h:57-60, 65, 69, 75, 83. *)
Definition malloc (b : block) (h : heap) : run nat :=
  Done (next h) (mkH (S (next h)) (upd (at_ h) (next h) (Some b))).
(** A read through a pointer, e.g. quadtree.h:183. *)
Definition load (a : nat) (h : heap) : run block :=
  match at_ h a with Some b => Done b h | None => Bad end.
(** A write through a pointer, e.g. quadtree.h:203. *)
Definition store (a : nat) (b : block) (h : heap) : run unit :=
  match at_ h a with Some _ => Done tt (mkH (next h) (upd (at_ h) a (Some b))) | None => Bad end.
(** [free] of the C library, quadtree.h:321-349: of a block that is there. *)
Definition free (a : nat) (h : heap) : run unit :=
  match at_ h a with Some _ => Done tt (mkH (next h) (upd (at_ h) a None)) | None => Bad end.
(** [free] of a pointer that may be NULL, quadtree.h:336. *)
Definition free_opt (a : option nat) : heap -> run unit :=
  match a with Some a => free a | None => ret tt end.

(** A pointer that must not be NULL or uninitialised, quadtree.h. *)
Definition deref (a : option nat) : heap -> run nat :=
  match a with Some a => ret a | None => bad end.
(** [*bbox], quadtree.h:184-191, 352-353. *)
Definition load_box (a : nat) : heap -> run (bbox num) :=
  do b <- load a; match b with Box bb => ret bb | _ => bad end.
(** [node->type], quadtree.h:100, 289, 332: whether it is LEAF. *)
Definition is_leaf (a : nat) : heap -> run bool :=
  do b <- load a; match b with LeafB _ _ _ _ => ret true | NodeB _ _ _ _ _ => ret false | _ => bad end.
(** A leaf node read, quadtree.h:28-35. *)
Definition load_leaf (a : nat) : heap -> run (option nat * nat * nat * option nat) :=
  do b <- load a; match b with LeafB bb c p r => ret (bb, c, p, r) | _ => bad end.
(** A nonleaf node read, quadtree.h:37-45. *)
Definition load_node (a : nat) : heap -> run (nat * (quadrant -> option nat)) :=
  do b <- load a;
  match b with
  | NodeB bb ul ur ll lr =>
      ret (bb, fun q => match q with UPPERLEFT => ul | UPPERRIGHT => ur | LOWERLEFT => ll | LOWERRIGHT => lr end)
  | _ => bad
  end.
(** Assignment to a child field, quadtree.h:207-210, 221-224, 257-266. *)
Definition set_field (a : nat) (q : quadrant) (c : nat) : heap -> run unit :=
  do b <- load a;
  match b with
  | NodeB bb ul ur ll lr =>
      match q with
      | UPPERLEFT => store a (NodeB bb (Some c) ur ll lr)
      | UPPERRIGHT => store a (NodeB bb ul (Some c) ll lr)
      | LOWERLEFT => store a (NodeB bb ul ur (Some c) lr)
      | LOWERRIGHT => store a (NodeB bb ul ur ll (Some c))
      end
  | _ => bad
  end.
(** [node->parent = parent], quadtree.h:203-206. *)
Definition set_parent (a p : nat) : heap -> run unit :=
  do l <- load_leaf a; let '(bb, c, ps, _) := l in store a (LeafB bb c ps (Some p)).
(** [positions[i]] read, quadtree.h:231-232, 370-372. *)
Definition get_cell (a i : nat) : heap -> run (position num) :=
  do b <- load a;
  match b with
  | Cells cs => match nth_error cs i with Some (Some p) => ret p | _ => bad end
  | _ => bad
  end.
(** An array with one cell assigned, quadtree.h:117, 237-250, pool.h:38. *)
Fixpoint set_nth {A} (l : list A) (i : nat) (x : A) : option (list A) :=
  match l, i with
  | [], _ => None
  | _ :: l', 0 => Some (x :: l')
  | y :: l', S i' => match set_nth l' i' x with Some l'' => Some (y :: l'') | None => None end
  end.
(** [leaf->positions[leaf->count] = position; leaf->count++], quadtree.h:117-118,
    237-250. *)
Definition push_position (a : nat) (p : position num) : heap -> run unit :=
  do l <- load_leaf a;
  let '(bb, c, ps, r) := l in
  do b <- load ps;
  match b with
  | Cells cs =>
      match set_nth cs c (Some p) with
      | Some cs' => do _ <- store ps (Cells cs'); store a (LeafB bb (S c) ps r)
      | None => bad
      end
  | _ => bad
  end.

(** quadtree.h:56-62 [qt_new_position]. *)
Definition qt_new_position (id : nat) (x y : num) : heap -> run nat := malloc (Posn (mkPos id x y)).
(** quadtree.h:82-89 [qt_new_bbox]. *)
Definition qt_new_bbox (b : bbox num) : heap -> run nat := malloc (Box b).
(** quadtree.h:64-72 [qt_new_leaf]; the array is allocated before the node here,
    after it there.  A negative size would make malloc fail: an
    array of no cells stands for that too. *)
Definition qt_new_leaf (bb : nat) : heap -> run nat :=
  fun h => (do ps <- malloc (Cells (repeat None (Z.to_nat (cap + 1)))); malloc (LeafB (Some bb) 0 ps None)) h.
(** quadtree.h:74-80 [qt_new_nonleaf]. *)
Definition qt_new_nonleaf (bb : nat) : heap -> run nat := malloc (NodeB bb None None None None).

(** quadtree.h:329-349 [qt_free_node]. *)
Fixpoint qt_free_node (fuel : nat) (a : nat) : heap -> run unit :=
  match fuel with
  | 0 => fun _ => NoFuel
  | S fuel' =>
      do l <- is_leaf a;
      if l : bool then
        do n <- load_leaf a;
        let '(bb, _, ps, _) := n in
        do _ <- free_opt bb; do _ <- free ps; free a
      else
        do n <- load_node a;
        let child q := deref (snd n q) in
        do c1 <- child UPPERLEFT; do _ <- qt_free_node fuel' c1;
        do n <- load_node a;
        do c2 <- deref (snd n UPPERRIGHT); do _ <- qt_free_node fuel' c2;
        do n <- load_node a;
        do c3 <- deref (snd n LOWERLEFT); do _ <- qt_free_node fuel' c3;
        do n <- load_node a;
        do c4 <- deref (snd n LOWERRIGHT); do _ <- qt_free_node fuel' c4;
        do n <- load_node a;
        do _ <- free (fst n); free a
  end.

(** The child the position goes to, quadtree.h:233-252. *)
Definition pick (q : quadrant) (ul ur ll lr : nat) : nat :=
  match q with UPPERLEFT => ul | UPPERRIGHT => ur | LOWERLEFT => ll | LOWERRIGHT => lr end.
(** quadtree.h:231-253: [k] positions remain, from number [i]. *)
Fixpoint distribute_loop (k i : nat) (ps : nat) (bb : nat) (ul ur ll lr : nat) : heap -> run unit :=
  match k with
  | 0 => ret tt
  | S k' =>
      do p <- get_cell ps i;
      do b <- load_box bb;
      do _ <- push_position (pick (get_quadrant ltb mid b (px p) (py p)) ul ur ll lr) p;
      distribute_loop k' (S i) ps bb ul ur ll lr
  end.
(** [node->count >= node->max_positions], quadtree.h:119, 256-265. *)
Definition is_full (a : nat) : heap -> run bool :=
  do l <- load_leaf a; let '(_, c, _, _) := l in ret (cap <=? Z.of_nat c)%Z.

(** quadtree.h:182-275 [qt_split]. *)
Fixpoint qt_split (fuel : nat) (a : nat) : heap -> run nat :=
  match fuel with
  | 0 => fun _ => NoFuel
  | S fuel' =>
      do l <- load_leaf a;
      let '(obb, cnt, ps, gp) := l in
      do bb <- deref obb;
      do b <- load_box bb;
      let xm := mid (xmin b) (xmax b) in
      let ym := mid (ymin b) (ymax b) in
      do bul <- qt_new_bbox (mkBbox (xmin b) ym xm (ymax b));
      do bur <- qt_new_bbox (mkBbox xm ym (xmax b) (ymax b));
      do bll <- qt_new_bbox (mkBbox (xmin b) (ymin b) xm ym);
      do blr <- qt_new_bbox (mkBbox xm (ymin b) (xmax b) ym);
      do parent <- qt_new_nonleaf bb;
      do ul <- qt_new_leaf bul;
      do ur <- qt_new_leaf bur;
      do ll <- qt_new_leaf bll;
      do lr <- qt_new_leaf blr;
      do _ <- set_parent ul parent;
      do _ <- set_parent ur parent;
      do _ <- set_parent ll parent;
      do _ <- set_parent lr parent;
      do _ <- set_field parent UPPERLEFT ul;
      do _ <- set_field parent UPPERRIGHT ur;
      do _ <- set_field parent LOWERLEFT ll;
      do _ <- set_field parent LOWERRIGHT lr;
      do _ <- match gp with
              | Some g =>
                  do n <- load_node g;
                  do gb <- load_box (fst n);
                  set_field g (get_quadrant ltb mid gb xm ym) parent
              | None => ret tt
              end;
      do _ <- distribute_loop cnt 0 ps bb ul ur ll lr;
      do f1 <- is_full ul;
      do _ <- (if f1 : bool then do s <- qt_split fuel' ul; set_field parent UPPERLEFT s
               else do f2 <- is_full ur;
               if f2 : bool then do s <- qt_split fuel' ur; set_field parent UPPERRIGHT s
               else do f3 <- is_full ll;
               if f3 : bool then do s <- qt_split fuel' ll; set_field parent LOWERLEFT s
               else do f4 <- is_full lr;
               if f4 : bool then do s <- qt_split fuel' lr; set_field parent LOWERRIGHT s
               else ret tt);
      do l <- load_leaf a;
      let '(_, cnt, ps, gp) := l in
      do _ <- store a (LeafB None cnt ps gp);
      do _ <- qt_free_node 1 a;
      ret parent
  end.

(** quadtree.h:369-377 [isduplicate]: [k] positions remain, from number [i]. *)
Fixpoint isdup_loop (k i : nat) (ps : nat) (p : position num) : heap -> run (option nat) :=
  match k with
  | 0 => ret None
  | S k' =>
      do c <- get_cell ps i;
      if eqb (px p) (px c) && eqb (py p) (py c) then ret (Some (pid c)) else isdup_loop k' (S i) ps p
  end.

(** quadtree.h:95-179 [qt_insert]: [fd] bounds the steps down the tree, [fs]
    the depth of the splits; the result is the new root, if there is one, and
    the duplicate. *)
Fixpoint qt_insert (fs fd : nat) (first : bool) (a : nat) (p : position num)
  : heap -> run (option nat * option nat) :=
  match fd with
  | 0 => fun _ => NoFuel
  | S fd' =>
      do l <- is_leaf a;
      if l : bool then
        do n <- load_leaf a;
        let '(_, cnt, ps, _) := n in
        do d <- isdup_loop cnt 0 ps p;
        match d with
        | Some i => ret (None, Some i)
        | None =>
            do _ <- push_position a p;
            do f <- is_full a;
            if f : bool then do r <- qt_split fs a; ret (if first then Some r else None, None)
            else ret (None, None)
        end
      else
        do n <- load_node a;
        do b <- load_box (fst n);
        do c <- deref (snd n (get_quadrant ltb mid b (px p) (py p)));
        qt_insert fs fd' false c p
  end.

(** pool.h:12-18 [pool_new]; the array is allocated before the pool here, after
    it there; the sizes of pointers do not matter. *)
Definition pool_new (size : nat) : heap -> run nat :=
  fun h => (do m <- malloc (Slots (repeat None size)); malloc (PoolB size 0 m)) h.
(** The members of a pool, pool.h:5-9. *)
Definition load_pool (a : nat) : heap -> run (nat * nat * nat) :=
  do b <- load a; match b with PoolB s c m => ret (s, c, m) | _ => bad end.
(** The array of a pool, pool.h:38, 54-57. *)
Definition load_slots (a : nat) : heap -> run (list (option slot)) :=
  do b <- load a; match b with Slots ss => ret ss | _ => bad end.
(** pool.h:20-31 [pool_resize]: all [size] old members are copied, the new ones
    are uninitialised. *)
Definition pool_resize (a : nat) : heap -> run unit :=
  do p <- load_pool a;
  let '(s, c, m) := p in
  do ss <- load_slots m;
  do m' <- malloc (Slots (firstn s ss ++ repeat None s));
  do _ <- free m;
  store a (PoolB (s * 2) c m').
(** pool.h:33-45 [pool_add]. *)
Definition pool_add (a : nat) (x : slot) : heap -> run unit :=
  do p <- load_pool a;
  let '(s, c, _) := p in
  do _ <- (if s =? c then pool_resize a else ret tt);
  do p <- load_pool a;
  let '(s, c, m) := p in
  do ss <- load_slots m;
  match set_nth ss c (Some x) with
  | Some ss' => do _ <- store m (Slots ss'); store a (PoolB s (S c) m)
  | None => bad
  end.
(** pool.h:48-60 [pool_pop] of the last member, the only way it is called
    (quadtree.h:288, quadtree.pyx:126).  In an empty pool that is number -1,
    which is not beyond the count: the word before the array is read. *)
Definition pool_pop_last (a : nat) : heap -> run slot :=
  do p <- load_pool a;
  let '(s, c, m) := p in
  match c with
  | 0 => bad
  | S c' =>
      do ss <- load_slots m;
      match nth_error ss c' with
      | Some (Some x) => do _ <- store a (PoolB s c' m); ret x
      | _ => bad
      end
  end.
(** pool.h:73-76 [pool_destroy]. *)
Definition pool_destroy (a : nat) : heap -> run unit :=
  do p <- load_pool a; let '(_, _, m) := p in do _ <- free m; free a.

(** The node a pointer in the pool of quadrants leads to, quadtree.h:288. *)
Definition node_of (s : slot) : heap -> run nat :=
  match s with
  | SRoot a => ret a
  | SField a q => do n <- load_node a; deref (snd n q)
  | SId _ _ => bad
  end.
(** The box of either node, quadtree.h:301-310 (both have it in the same
    place). *)
Definition box_of (a : nat) : heap -> run (bbox num) :=
  do b <- load a;
  match b with
  | LeafB (Some bb) _ _ _ => load_box bb
  | NodeB bb _ _ _ _ => load_box bb
  | _ => bad
  end.
(** quadtree.h:293-297: [k] positions remain, from number [i]. *)
Fixpoint scan_loop (k i : nat) (ps results : nat) (q : nat) : heap -> run unit :=
  match k with
  | 0 => ret tt
  | S k' =>
      do c <- get_cell ps i;
      do b <- load_box q;
      do _ <- (if iswithin ltb b c then pool_add results (SId ps i) else ret tt);
      scan_loop k' (S i) ps results q
  end.
(** quadtree.h:301-312, one child. *)
Definition visit (a : nat) (qd : quadrant) (quads q : nat) : heap -> run unit :=
  do n <- load_node a;
  do c <- deref (snd n qd);
  do cb <- box_of c;
  do b <- load_box q;
  if overlaps ltb b cb then pool_add quads (SField a qd) else ret tt.
(** quadtree.h:286-315, the while loop. *)
Fixpoint search_loop (fuel : nat) (results quads q : nat) : heap -> run unit :=
  do p <- load_pool quads;
  let '(_, c, _) := p in
  match c with
  | 0 => ret tt
  | S _ =>
      match fuel with
      | 0 => fun _ => NoFuel
      | S fuel' =>
          do s <- pool_pop_last quads;
          do a <- node_of s;
          do l <- is_leaf a;
          do _ <- (if l : bool then
                     do n <- load_leaf a;
                     let '(_, cnt, ps, _) := n in scan_loop cnt 0 ps results q
                   else
                     do _ <- visit a UPPERLEFT quads q;
                     do _ <- visit a UPPERRIGHT quads q;
                     do _ <- visit a LOWERLEFT quads q;
                     visit a LOWERRIGHT quads q);
          search_loop fuel' results quads q
      end
  end.
(** quadtree.h:277-319 [qt_search_within]. *)
Definition qt_search_within (fuel : nat) (root q : nat) : heap -> run nat :=
  do results <- pool_new 64;
  do quads <- pool_new 16;
  do _ <- pool_add quads (SRoot root);
  do _ <- search_loop fuel results quads q;
  do _ <- pool_destroy quads;
  ret results.

(** The attributes of a QuadTree, quadtree.pyx:57-60. *)
Record obj := mkO { oroot : nat; odups : dups; ocount : nat }.

(** quadtree.pyx:82-96: the insertion loop, [i] the index of the first of the
    remaining points.  A NaN (quadtree.pyx:84-85) gives [Some i]: the
    exception raised, before the attributes are set. *)
Fixpoint cinit_loop (fs fd : nat) (i : nat) (pts : list (pynum num * pynum num)) (root : nat) (d : dups)
  : heap -> run (obj * option nat) :=
  match pts with
  | [] => ret (mkO root d i, None)
  | (PNum x, PNum y) :: pts' =>
      do pos <- qt_new_position i x y;
      do b <- load pos;
      match b with
      | Posn p =>
          do r <- qt_insert fs fd true root p;
          do _ <- free pos;
          match r with
          | (_, Some j) => cinit_loop fs fd (S i) pts' root (dup_add d j i)
          | (Some root', None) => cinit_loop fs fd (S i) pts' root' d
          | (None, None) => cinit_loop fs fd (S i) pts' root d
          end
      | _ => bad
      end
  | _ :: _ => ret (mkO root [] 0, Some i)
  end.
(** quadtree.pyx:62-100 [QuadTree.__cinit__]; [bb] is [points.bbox()]. *)
Definition cinit (fs fd : nat) (bb : bbox num) (pts : list (pynum num * pynum num))
  : heap -> run (obj * option nat) :=
  do b <- qt_new_bbox bb;
  do root <- qt_new_leaf b;
  cinit_loop fs fd 0 pts root [].
(** quadtree.pyx:102-104 [__dealloc__], which runs when the object is dropped
    and when [__cinit__] raised. *)
Definition dealloc (fd : nat) (o : obj) : heap -> run unit := qt_free_node fd (oroot o).

(** quadtree.pyx:125-129: the ids popped from the results, [k] of them. *)
Fixpoint collect (k : nat) (results : nat) (d : dups) : heap -> run (list nat) :=
  match k with
  | 0 => ret []
  | S k' =>
      do s <- pool_pop_last results;
      match s with
      | SId ps i =>
          do c <- get_cell ps i;
          do rest <- collect k' results d;
          ret (match dup_get d (pid c) with Some l => l ++ [pid c] | None => [pid c] end ++ rest)
      | _ => bad
      end
  end.
(** quadtree.pyx:119-131 [QuadTree.search_within]: the box is freed, the pool
    of results is not. *)
Definition search (fuel : nat) (o : obj) (bb : bbox num) : heap -> run (list nat) :=
  do q <- qt_new_bbox bb;
  do results <- qt_search_within fuel (oroot o) q;
  do p <- load_pool results;
  let '(_, c, _) := p in
  do out <- collect c results (odups o);
  do _ <- free q;
  ret out.
(** Several calls of quadtree.pyx:119-131 one after the other. *)
Fixpoint searches (fuel : nat) (o : obj) (qs : list (bbox num)) : heap -> run (list (list nat)) :=
  match qs with
  | [] => ret []
  | q :: qs' => do r <- search fuel o q; do rs <- searches fuel o qs'; ret (r :: rs)
  end.
(** The life of a QuadTree, quadtree.pyx:62-131: made, searched, dropped.  The
    result is the exception or the answers. *)
Definition life (fs fd : nat) (bb : bbox num) (pts : list (pynum num * pynum num)) (qs : list (bbox num))
  : heap -> run (nat + list (list nat)) :=
  do o <- cinit fs fd bb pts;
  match snd o with
  | Some i => do _ <- dealloc fd (fst o); ret (inl i)
  | None => do rs <- searches fd (fst o) qs; do _ <- dealloc fd (fst o); ret (inr rs)
  end.
End Memory.

Arguments Box {num} b. Arguments Posn {num} p. Arguments Cells {num} cs. Arguments LeafB {num} bb cnt pos par.
Arguments NodeB {num} bb ul ur ll lr. Arguments PoolB {num} size cnt members. Arguments Slots {num} ss.
Arguments mkH {num} next at_. Arguments next {num} h. Arguments at_ {num} h _.
Arguments Done {num A} a h. Arguments Bad {num A}. Arguments Exit {num A}. Arguments NoFuel {num A}.
Arguments seq_ {num A B} m k h. Arguments ret {num A} a h. Arguments bad {num A} h. Arguments upd {num} f a b x.
Arguments malloc {num} b h. Arguments load {num} a h. Arguments store {num} a b h. Arguments free {num} a h.
Arguments free_opt {num} a _. Arguments deref {num} a _. Arguments load_box {num} a _. Arguments is_leaf {num} a _.
Arguments load_leaf {num} a _. Arguments load_node {num} a _. Arguments set_field {num} a q c _.
Arguments set_parent {num} a p _. Arguments get_cell {num} a i _. Arguments push_position {num} a p _.
Arguments qt_new_position {num} id x y _. Arguments qt_new_bbox {num} b _. Arguments qt_new_leaf {num} cap bb h.
Arguments qt_new_nonleaf {num} bb _. Arguments qt_free_node {num} fuel a _.
Arguments distribute_loop {num} ltb mid k i ps bb ul ur ll lr _. Arguments is_full {num} cap a _.
Arguments qt_split {num} ltb mid cap fuel a _. Arguments isdup_loop {num} eqb k i ps p _.
Arguments qt_insert {num} ltb eqb mid cap fs fd first a p _. Arguments pool_new {num} size h.
Arguments load_pool {num} a _. Arguments load_slots {num} a _. Arguments pool_resize {num} a _.
Arguments pool_add {num} a x _. Arguments pool_pop_last {num} a _. Arguments pool_destroy {num} a _.
Arguments node_of {num} s _. Arguments box_of {num} a _. Arguments scan_loop {num} ltb k i ps results q _.
Arguments visit {num} ltb a qd quads q _. Arguments search_loop {num} ltb fuel results quads q _.
Arguments qt_search_within {num} ltb fuel root q _. Arguments cinit_loop {num} ltb eqb mid cap fs fd i pts root d _.
Arguments cinit {num} ltb eqb mid cap fs fd bb pts _. Arguments dealloc {num} fd o _.
Arguments collect {num} k results d _. Arguments search {num} ltb fuel o bb _. Arguments searches {num} ltb fuel o qs _.
Arguments life {num} ltb eqb mid cap fs fd bb pts qs _.
