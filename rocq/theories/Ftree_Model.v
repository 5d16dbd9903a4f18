(** Model of the R-tree, karta/vector/rtree.h and rtree.pyx with the pools of
    pool.h, as RTree_Model.v, but with the numbers of the code: boxes of doubles
    are rounded to C floats (IEEE 754 binary32, to nearest even), and boxes,
    volumes and ratios are computed in floats, with infinities and NaN.  It is
    assumed that the C compiler neither fuses operations nor keeps more digits. *)
From Coq Require Import List ZArith Bool.
From Flocq Require Import Core IEEE754.BinarySingleNaN.
From Verif Require Import Dbl_Model.
Import ListNotations.
Open Scope nat_scope.

(** Result of running C code: a value, a crash (a null or wild pointer, a write past an array,
    or the process ended by [exit]), or fuel used up. rtree.h:57-593. *)
Inductive out (A : Type) := Ret (a : A) | Crash | NoFuel.
Arguments Ret {A} a. Arguments Crash {A}. Arguments NoFuel {A}.
(** Sequencing in rtree.h: a crash ends everything. *)
Definition andthen {A B} (r : out A) (f : A -> out B) : out B :=
  match r with Ret a => f a | Crash => Crash | NoFuel => NoFuel end.
(** The same in the notation of C's statements (rtree.h). *)
Notation "'do' x <- r ; k" := (andthen r (fun x => k))
  (at level 200, x pattern, r at level 100, k at level 200).

(** C's float: 24 digits, exponents below 128 (rtree.h:12-17). *)
Definition single := binary_float 24 128.
(** Required by Flocq (precision of float, rtree.h:12-17). *)
Global Instance prec24 : Prec_gt_0 24 := eq_refl.
(** Required by Flocq (range of float, rtree.h:12-17). *)
Global Instance emax128 : Prec_lt_emax 24 128 := eq_refl.
(** A double assigned to a float (rtree.pyx:54-57): rounded to nearest, to an
    infinity if it is too large. *)
Definition to_single (a : double) : single :=
  match a with
  | B754_zero s => B754_zero s
  | B754_infinity s => B754_infinity s
  | B754_nan => B754_nan
  | B754_finite s m e _ => binary_normalize 24 128 _ _ mode_NE (if s then Z.neg m else Z.pos m) e s
  end.
(** Subtraction of floats (rtree.h:645-646, 675-699). *)
Definition fsub (a b : single) : single := Bminus mode_NE a b.
(** Multiplication of floats (rtree.h:675-699). *)
Definition fmul (a b : single) : single := Bmult mode_NE a b.
(** Division of floats (rtree.h:645-646). *)
Definition fdiv (a b : single) : single := Bdiv mode_NE a b.
(** The literal 0.0 (rtree.h:693-706). *)
Definition fzero : single := B754_zero false.

(** rtree.h:12-17 [Bbox]. *)
Record bb := mkB { xmin : single; ymin : single; xmax : single; ymax : single }.

(** rtree.h:35-41.  [Bleb b a] is [a >= b], false for NaN. *)
Definition minf (a b : single) : single := if Bleb b a then b else a.
(** rtree.h:35-41. *)
Definition maxf (a b : single) : single := if Bleb b a then a else b.
(** C's [a < b], rtree.h:617-706. *)
Definition ltf (a b : single) : bool := Bltb a b.

(** The four assignments that extend a box (e.g. rtree.h:212-215). *)
Definition extend (b c : bb) : bb :=
  mkB (minf (xmin b) (xmin c)) (minf (ymin b) (ymin c)) (maxf (xmax b) (xmax c)) (maxf (ymax b) (ymax c)).

(** rtree.h:19-28 [Node]: a leaf has boxes with indices, another node has child
    nodes.  The strategy is never used. *)
Record node := mkN { leaf : bool; parent : option nat; ents : list (bb * Z); kids : list nat; box : bb }.
(** The nodes made so far by rtree.h:57-78, by their numbers. *)
Definition heap := (nat * (nat -> node))%type.
(** A node read through its pointer (rtree.h). *)
Definition get (h : heap) (a : nat) : out node := if a <? fst h then Ret (snd h a) else Crash.
(** A node written through its pointer (rtree.h). *)
Definition put (h : heap) (a : nat) (n : node) : heap :=
  (fst h, fun x => if x =? a then n else snd h x).
(** rtree.h:57-78 [rt_new_node] for maxchildren >= 4. *)
Definition nobox : bb :=
  let big := to_single (of_int (10 ^ 38)) in mkB big big (Bopp big) (Bopp big).
Arguments nobox : simpl never.
(** rtree.h:57-78 [rt_new_node]. *)
Definition new_node (h : heap) (lf : bool) (par : option nat) : nat * heap :=
  let a := fst h in
  (a, (S a, fun x => if x =? a then mkN lf par [] [] nobox else snd h x)).

(** Assignment to the box of a node (rtree.h:19-28). *)
Definition set_box (n : node) (b : bb) : node := mkN (leaf n) (parent n) (ents n) (kids n) b.
(** Assignment to the parent of a node (rtree.h:19-28). *)
Definition set_parent (n : node) (p : option nat) : node := mkN (leaf n) p (ents n) (kids n) (box n).
(** Assignment to the boxes and indices of a leaf (rtree.h:19-28). *)
Definition set_ents (n : node) (l : list (bb * Z)) : node := mkN (leaf n) (parent n) l (kids n) (box n).
(** Assignment to the children of a node (rtree.h:19-28). *)
Definition set_kids (n : node) (l : list nat) : node := mkN (leaf n) (parent n) (ents n) l (box n).

(** rtree.h:675-682 [volume_expanded]. *)
Definition volume_expanded (b c : bb) : single :=
  fsub (fmul (fsub (maxf (xmax b) (xmax c)) (minf (xmin b) (xmin c)))
             (fsub (maxf (ymax b) (ymax c)) (minf (ymin b) (ymin c))))
       (fmul (fsub (xmax b) (xmin b)) (fsub (ymax b) (ymin b))).

(** rtree.h:684-691 [is_within] and 693-706 [is_overlapping]. *)
Definition is_within (outer t : bb) : bool :=
  ltf (xmin outer) (xmin t) && Bleb (xmax t) (xmax outer) &&
  ltf (ymin outer) (ymin t) && Bleb (ymax t) (ymax outer).
(** rtree.h:693-706, the area of the intersection of two boxes. *)
Definition intersection_area (b c : bb) : single :=
  let dx := maxf (fsub (minf (xmax b) (xmax c)) (maxf (xmin b) (xmin c))) fzero in
  let dy := maxf (fsub (minf (ymax b) (ymax c)) (maxf (ymin b) (ymin c))) fzero in
  fmul dx dy.
(** rtree.h:693-706 [is_overlapping]. *)
Definition is_overlapping (b t : bb) : bool := ltf fzero (intersection_area b t).

(** rtree.h:617-655 [linear_pick_seeds]; None is the error return.  The loop
    keeps, with each index, the coordinate found there. *)
Record seeds := mkSd { ixl : nat; xl : single; ixh : nat; xh : single; iyl : nat; yl : single; iyh : nat; yh : single;
                       mnx : single; mxx : single; mny : single; mxy : single }.
(** rtree.h:617-655, the loop over the boxes. *)
Fixpoint seed_loop (i : nat) (l : list bb) (s : seeds) : seeds :=
  match l with
  | [] => s
  | b :: l' =>
      let '(a1, a2, a3, a4) :=
        if ltf (xl s) (xmin b) then (i, xmin b, ixh s, xh s)
        else if ltf (xmax b) (xh s) then (ixl s, xl s, i, xmax b)
        else (ixl s, xl s, ixh s, xh s) in
      let '(c1, c2, c3, c4) :=
        if ltf (yl s) (ymin b) then (i, ymin b, iyh s, yh s)
        else if ltf (ymax b) (yh s) then (iyl s, yl s, i, ymax b)
        else (iyl s, yl s, iyh s, yh s) in
      seed_loop (S i) l' (mkSd a1 a2 a3 a4 c1 c2 c3 c4
        (minf (mnx s) (xmin b)) (maxf (mxx s) (xmax b)) (minf (mny s) (ymin b)) (maxf (mxy s) (ymax b)))
  end.
(** rtree.h:617-655 [linear_pick_seeds]. *)
Definition linear_pick_seeds (l : list bb) : out (option (nat * nat)) :=
  match l with
  | [] => Crash
  | b :: l' =>
      let s := seed_loop 1 l' (mkSd 0 (xmin b) 0 (xmax b) 0 (ymin b) 0 (ymax b)
                                    (xmin b) (xmax b) (ymin b) (ymax b)) in
      if Beqb (mxx s) (mnx s) || Beqb (mxy s) (mny s) then Ret None
      else
        let xrat := fdiv (fsub (xl s) (xh s)) (fsub (mxx s) (mnx s)) in
        let yrat := fdiv (fsub (yl s) (yh s)) (fsub (mxy s) (mny s)) in
        if ltf yrat xrat then Ret (Some (ixl s, ixh s)) else Ret (Some (iyl s, iyh s))
  end.
(** The seeds with the fall-back of rtree.h:397-401 and 507-511. *)
Definition pick (l : list bb) : out (nat * nat) :=
  do s <- linear_pick_seeds l; Ret (match s with Some p => p | None => (0, 1) end).

(** pool.h:48-60 [pool_pop] with the item, and without. *)
Fixpoint replace_nth {A} (l : list A) (i : nat) (x : A) : list A :=
  match l, i with
  | [], _ => []
  | _ :: l', 0 => x :: l'
  | y :: l', S i' => y :: replace_nth l' i' x
  end.
(** pool.h:48-60 [pool_pop], what stays in the pool. *)
Definition pool_pop {A} (l : list A) (i : nat) : out (list A) :=
  if length l <=? i then Crash
  else if i =? length l - 1 then Ret (removelast l)
  else match rev l with
       | [] => Crash
       | x :: _ => Ret (replace_nth (removelast l) i x)
       end.
(** rtree.h:415-425 and 536-546: the seeds are removed, the later one first. *)
Definition without_seeds {A} (l : list A) (s0 s1 : nat) : out (list A) :=
  if s0 <? s1 then do l1 <- pool_pop l s1; pool_pop l1 s0
  else do l1 <- pool_pop l s0; pool_pop l1 s1.
(** An entry of an array, rtree.h:368-593. *)
Definition at_index {A} (l : list A) (i : nat) : out A :=
  match nth_error l i with Some a => Ret a | None => Crash end.

(** rtree.h:433-476 and 552-588: the rest of the pool is distributed, from its
    end ([pool] is given in that order), each item to the node whose box it
    enlarges less; items dumped to avoid a node with fewer than two children do
    not enlarge the box of the node. *)
Fixpoint distribute {A} (bof : A -> bb) (pool : list A) (l0 : list A) (b0 : bb) (l1 : list A) (b1 : bb)
  : list A * bb * list A * bb :=
  match pool with
  | [] => (l0, b0, l1, b1)
  | e :: rest =>
      let '(l0', b0', l1', b1') :=
        if ltf (volume_expanded b0 (bof e)) (volume_expanded b1 (bof e))
        then (l0 ++ [e], extend b0 (bof e), l1, b1)
        else (l0, b0, l1 ++ [e], extend b1 (bof e)) in
      if length rest + length l0' =? 2 then (l0' ++ rest, b0', l1', b1')
      else if length rest + length l1' =? 2 then (l0', b0', l1' ++ rest, b1')
      else distribute bof rest l0' b0' l1' b1'
  end.

Section Tree.
Variable M : nat.        (* maxchildren; the arrays have M + 1 entries *)

(** Appending to the arrays of a node. rtree.h:201-232. *)
Definition push_ent (n : node) (e : bb * Z) : out node :=
  if length (ents n) <=? M then Ret (set_ents n (ents n ++ [e])) else Crash.
(** A child appended to a node, rtree.h:114-125. *)
Definition push_kid (n : node) (a : nat) : out node :=
  if length (kids n) <=? M then Ret (set_kids n (kids n ++ [a])) else Crash.

(** rtree.h:114-125 [add_node]; true if the parent is overfilled. *)
Definition add_node (h : heap) (p c : nat) : out (heap * bool) :=
  do np <- get h p;
  do np' <- push_kid np c;
  let h1 := put h p np' in
  do nc <- get h1 c;
  Ret (put h1 c (set_parent nc (Some p)), M <? length (kids np')).

(** rtree.h:265-288: the box of a parent from those of its children. *)
Fixpoint union_kids (h : heap) (b : bb) (l : list nat) : out bb :=
  match l with
  | [] => Ret b
  | k :: l' => do n <- get h k; union_kids h (extend b (box n)) l'
  end.
(** rtree.h:265-288. *)
Definition update_box (h : heap) (p : nat) (sib : option nat) : out heap :=
  do np <- get h p;
  match sib with
  | None =>
      match kids np with
      | [] => Crash
      | k :: l => do nk <- get h k; do b <- union_kids h (box nk) l; Ret (put h p (set_box np b))
      end
  | Some s => do ns <- get h s; do b <- union_kids h (box ns) (kids np); Ret (put h p (set_box np b))
  end.

(** rtree.h:257-311 [rt_adjust_tree] without a sibling. *)
Fixpoint adjust_null (fuel : nat) (h : heap) (a : nat) : out (heap * nat) :=
  match fuel with
  | 0 => NoFuel
  | S fuel' =>
      do n <- get h a;
      match parent n with
      | None => Ret (h, a)
      | Some p => do h1 <- update_box h p None; adjust_null fuel' h1 p
      end
  end.

(** rtree.h:201-232 [rt_insert] into a leaf that is not full (as called in
    rt_split_leaf, the returned root is ignored). *)
Definition insert_leaf (fuel : nat) (h : heap) (a : nat) (e : bb * Z) : out heap :=
  do n <- get h a;
  do n' <- push_ent n e;
  do r <- adjust_null fuel (put h a (set_box n' (extend (box n') (fst e)))) a;
  Ret (fst r).

(** rtree.h:368-482 [rt_split_leaf]. *)
Definition split_leaf (fuel : nat) (h : heap) (a : nat) : out (heap * nat) :=
  do n <- get h a;
  let pool := ents n in
  if negb (length pool =? S M) then Crash
  else
    let (s, h1) := new_node h true (parent n) in
    let h2 := put h1 a (set_ents n []) in
    do sd <- pick (map fst pool);
    do e0 <- at_index pool (fst sd);
    do e1 <- at_index pool (snd sd);
    do h3 <- insert_leaf fuel h2 a e0;
    do h4 <- insert_leaf fuel h3 s e1;
    do rest <- without_seeds pool (fst sd) (snd sd);
    let '(l0, b0, l1, b1) := distribute fst (rev rest) [e0] (fst e0) [e1] (fst e1) in
    do na <- get h4 a;
    let h5 := put h4 a (set_box (set_ents na l0) b0) in
    do ns <- get h5 s;
    Ret (put h5 s (set_box (set_ents ns l1) b1), s).

(** rtree.h:484-593 [rt_split_nonleaf]: of the children, only the two seeds get
    their parent pointer set. *)
Fixpoint kid_boxes (h : heap) (l : list nat) : out (list (nat * bb)) :=
  match l with
  | [] => Ret []
  | k :: l' => do n <- get h k; do r <- kid_boxes h l'; Ret ((k, box n) :: r)
  end.
(** rtree.h:484-593 [rt_split_nonleaf]. *)
Definition split_nonleaf (h : heap) (a : nat) : out (heap * nat) :=
  do n <- get h a;
  if negb (length (kids n) =? S M) then Crash
  else
    do pool <- kid_boxes h (kids n);
    let (s, h1) := new_node h false (parent n) in
    do sd <- pick (map snd pool);
    do k0 <- at_index pool (fst sd);
    do k1 <- at_index pool (snd sd);
    do n0 <- get h1 (fst k0);
    let h2 := put h1 (fst k0) (set_parent n0 (Some a)) in
    do n1 <- get h2 (fst k1);
    let h3 := put h2 (fst k1) (set_parent n1 (Some s)) in
    do rest <- without_seeds pool (fst sd) (snd sd);
    let '(l0, b0, l1, b1) := distribute snd (rev rest) [k0] (snd k0) [k1] (snd k1) in
    do na <- get h3 a;
    let h4 := put h3 a (set_box (set_kids na (map fst l0)) b0) in
    do ns <- get h4 s;
    Ret (put h4 s (set_box (set_kids ns (map fst l1)) b1), s).

(** rtree.h:355-363 [rt_split]. *)
Definition split (fuel : nat) (h : heap) (a : nat) : out (heap * nat) :=
  do n <- get h a;
  if leaf n then split_leaf fuel h a else split_nonleaf h a.

(** rtree.h:257-311 [rt_adjust_tree].  Line 301 reads the parent pointer of the
    node again, after the split. *)
Fixpoint adjust (fuel : nat) (h : heap) (a : nat) (sib : option nat) : out (heap * nat * option nat) :=
  match fuel with
  | 0 => NoFuel
  | S fuel' =>
      do n <- get h a;
      match parent n with
      | None => Ret (h, a, sib)
      | Some p =>
          do h1 <- update_box h p sib;
          do hs <- match sib with
                   | None => Ret (h1, None)
                   | Some s =>
                       do ho <- add_node h1 p s;
                       if snd ho then do hs <- split fuel (fst ho) p; Ret (fst hs, Some (snd hs))
                       else Ret (fst ho, None)
                   end;
          do n' <- get (fst hs) a;
          match parent n' with
          | Some q => adjust fuel' (fst hs) q (snd hs)
          | None => Crash
          end
      end
  end.

(** rtree.h:235-251 [rt_choose_leaf]. *)
Fixpoint best_kid (h : heap) (b : bb) (k : nat) (vol : single) (l : list nat) : out nat :=
  match l with
  | [] => Ret k
  | c :: l' =>
      do n <- get h c;
      let v := volume_expanded (box n) b in
      if ltf v vol then best_kid h b c v l' else best_kid h b k vol l'
  end.
(** rtree.h:235-251 [rt_choose_leaf]. *)
Fixpoint choose_leaf (fuel : nat) (h : heap) (a : nat) (b : bb) : out nat :=
  match fuel with
  | 0 => NoFuel
  | S fuel' =>
      do n <- get h a;
      if leaf n then Ret a
      else match kids n with
           | [] => Crash
           | c :: l => do nc <- get h c;
                       do k <- best_kid h b c (volume_expanded (box nc) b) l;
                       choose_leaf fuel' h k b
           end
  end.

(** rtree.h:201-232 [rt_insert]; the result is the heap and the new root. *)
Definition insert (fuel : nat) (h : heap) (root : nat) (e : bb * Z) : out (heap * nat) :=
  do a <- choose_leaf fuel h root (fst e);
  do n <- get h a;
  do n' <- push_ent n e;
  let h1 := put h a (set_box n' (extend (box n') (fst e))) in
  do hs <- (if M <? length (ents n') then do r <- split fuel h1 a; Ret (fst r, Some (snd r))
            else Ret (h1, None));
  do r <- adjust fuel (fst hs) a (snd hs);
  match r with
  | (h2, o, None) => Ret (h2, o)
  | (h2, o, Some s) =>
      let (nr, h3) := new_node h2 false None in
      do h4 <- add_node h3 nr o;
      do h5 <- add_node (fst h4) nr s;
      Ret (fst h5, nr)
  end.

(** rtree.pyx:43-65 [RTree.__init__] for the boxes of the geometries, with
    rtree.h:58-61. *)
Fixpoint insert_all (fuel : nat) (h : heap) (root : nat) (i : Z) (l : list bb) : out (heap * nat) :=
  match l with
  | [] => Ret (h, root)
  | b :: l' => do r <- insert fuel h root (b, i); insert_all fuel (fst r) (snd r) (i + 1)%Z l'
  end.
(** rtree.pyx:43-65 [RTree.__init__]. *)
Definition rtree (fuel : nat) (l : list bb) : out (heap * nat) :=
  if M <? 4 then Crash
  else let (root, h) := new_node (0, fun _ => mkN true None [] [] nobox) true None in
       insert_all fuel h root 0 l.

(** rtree.h:128-162 [rt_search_within]: [stack] is the node pool, its end first;
    [found] the index pool, its end first, which is the order in which
    rtree.pyx:88-89 returns it. *)
Fixpoint search_within (fuel : nat) (h : heap) (q : bb) (maxr : Z) (stack : list nat) (found : list Z)
  : out (list Z) :=
  match fuel with
  | 0 => NoFuel
  | S fuel' =>
      if (Z.of_nat (length found) =? maxr)%Z then Ret found
      else
        match stack with
        | [] => Crash
        | a :: stack' =>
            do n <- get h a;
            do r <- (if leaf n
                     then Ret (stack', rev (map snd (filter (fun e => is_within q (fst e)) (ents n))) ++ found)
                     else do ks <- kid_boxes h (kids n);
                          Ret (rev (map fst (filter (fun k => is_overlapping q (snd k)) ks)) ++ stack', found));
            match fst r with
            | [] => Ret (snd r)
            | _ => search_within fuel' h q maxr (fst r) (snd r)
            end
        end
  end.
(** rtree.h:165-198 [rt_search_overlapping]; the counter stays at 0. *)
Fixpoint search_overlapping (fuel : nat) (h : heap) (q : bb) (maxr : Z) (stack : list nat) (found : list Z)
  : out (list Z) :=
  match fuel with
  | 0 => NoFuel
  | S fuel' =>
      if (0 =? maxr)%Z then Ret found
      else
        match stack with
        | [] => Crash
        | a :: stack' =>
            do n <- get h a;
            do r <- (if leaf n
                     then Ret (stack', rev (map snd (filter (fun e => is_overlapping q (fst e)) (ents n))) ++ found)
                     else do ks <- kid_boxes h (kids n);
                          Ret (rev (map fst (filter (fun k => is_overlapping q (snd k)) ks)) ++ stack', found));
            match fst r with
            | [] => Ret (snd r)
            | _ => search_overlapping fuel' h q maxr (fst r) (snd r)
            end
        end
  end.
End Tree.

(** rtree.pyx:71-74 [RTree.bbox]. *)
Definition tree_bbox (t : heap * nat) : out bb := do n <- get (fst t) (snd t); Ret (box n).


(** The box of a geometry, four doubles, and of a query (rtree.pyx:53-57). *)
Record dbox := mkD { bx0 : double; by0 : double; bx1 : double; by1 : double }.
(** The four assignments to the fields of a Bbox (rtree.pyx:54-57, 82-85). *)
Definition load (b : dbox) : bb := mkB (to_single (bx0 b)) (to_single (by0 b)) (to_single (bx1 b)) (to_single (by1 b)).
(** rtree.pyx:43-65 [RTree(geometries, maxchildren)]. *)
Definition build (M fuel : nat) (l : list dbox) : out (heap * nat) := rtree M fuel (map load l).
(** rtree.pyx:76-91 [RTree.search_within]. *)
Definition find_within (fuel : nat) (t : heap * nat) (q : dbox) (maxr : Z) : out (list Z) :=
  search_within fuel (fst t) (load q) maxr [snd t] [].
(** rtree.pyx:93-108 [RTree.search_overlapping]. *)
Definition find_overlapping (fuel : nat) (t : heap * nat) (q : dbox) (maxr : Z) : out (list Z) :=
  search_overlapping fuel (fst t) (load q) maxr [snd t] [].
