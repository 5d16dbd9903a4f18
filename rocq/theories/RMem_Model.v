(** Model of the memory of an R-tree, karta/vector/rtree.pyx:39-108 and
    rtree.h:57-99: which blocks malloc gave and free took back when an index is
    made, searched and dropped.  The tree itself is that of RTree_Model.  The
    blocks that live only during one call (outnode and outsibling of
    rtree.h:204-230, index_array and the pools of rtree.h:385-480, 495-590 and
    129-161) are freed in that call and not named here; malloc never fails. *)
From Coq Require Import List ZArith QArith Bool.
From Verif Require Import RTree_Model.
Import ListNotations.
Open Scope nat_scope.

(** What malloc gives: the four blocks of a node (rtree.h:62-72), the box of the
    i-th geometry (rtree.pyx:55) and the box of the k-th query (rtree.pyx:79, 96). *)
Inductive block :=
  Struct (a : nat) | Children (a : nat) | Indices (a : nat) | Boxof (a : nat) | Entry (i : Z) | Query (k : nat).
(** Equality of addresses (C's free, rtree.h:85-99). *)
Definition block_eqb (x y : block) : bool :=
  match x, y with
  | Struct a, Struct b | Children a, Children b | Indices a, Indices b | Boxof a, Boxof b | Query a, Query b => a =? b
  | Entry i, Entry j => (i =? j)%Z
  | _, _ => false
  end.
(** C's free (rtree.h:85-99): the block must be allocated; freeing it again, or
    freeing another address, crashes. *)
Fixpoint free (b : block) (live : list block) : out (list block) :=
  match live with
  | [] => Crash
  | c :: live' => if block_eqb b c then Ret live' else do r <- free b live'; Ret (c :: r)
  end.
(** Several calls of free, rtree.h:85-99. *)
Fixpoint free_all (bs : list block) (live : list block) : out (list block) :=
  match bs with [] => Ret live | b :: bs' => do l <- free b live; free_all bs' l end.

(** rtree.h:62-72: the four calls of malloc for a node. *)
Definition node_blocks (a : nat) : list block := [Struct a; Children a; Indices a; Boxof a].
(** What is allocated once the nodes of [h] and [n] boxes are made (rtree.pyx:48-61). *)
Definition tree_blocks (h : heap) (n : nat) : list block :=
  flat_map node_blocks (seq 0 (fst h)) ++ map (fun i => Entry (Z.of_nat i)) (seq 0 n).
(** rtree.h:85-99 [rt_free]: the blocks freed for a box, and for a leaf
    (RTree_Model.rt_free gives the order of the visits). *)
Definition freed (x : Z + nat) : list block :=
  match x with inl i => [Entry i] | inr a => [Indices a; Boxof a; Struct a] end.

Section Session.
Variable M : nat.        (* maxchildren *)

(** rtree.pyx:48-61, the loop of the constructor; [None] is a geometry without
    a bbox.  The results are the tree, the number of boxes made, and whether
    AttributeError was raised. *)
Fixpoint load (fuel : nat) (h : heap) (root : nat) (n : nat) (items : list (option bb))
  : out (heap * nat * nat * bool) :=
  match items with
  | [] => Ret (h, root, n, false)
  | None :: _ => Ret (h, root, n, true)
  | Some b :: rest => do r <- insert M fuel h root (b, Z.of_nat n); load fuel (fst r) (snd r) (S n) rest
  end.

(** The two searches of rtree.pyx:76-108, with their arguments. *)
Inductive query := Within (q : bb) (max_results : Z) | Overlapping (q : bb) (max_results : Z).
(** rtree.pyx:76-108. *)
Definition answer (fuel : nat) (t : heap * nat) (q : query) : out (list Z) :=
  match q with
  | Within b m => search_within fuel (fst t) b m [snd t] []
  | Overlapping b m => search_overlapping fuel (fst t) b m [snd t] []
  end.
(** Searches one after the other; each allocates the box of its query
    (rtree.pyx:79, 96) and destroys its pools (rtree.pyx:90, 107). *)
Fixpoint answers (fuel : nat) (t : heap * nat) (k : nat) (qs : list query) (live : list block)
  : out (list (list Z) * list block) :=
  match qs with
  | [] => Ret ([], live)
  | q :: qs' => do a <- answer fuel t q;
                do r <- answers fuel t (S k) qs' (Query k :: live);
                Ret (a :: fst r, snd r)
  end.

(** rtree.pyx:43-69: an index is made of the items, searched, and dropped.  The
    results are the answers ([None] if the constructor raised AttributeError;
    then root is still NULL and the destructor does nothing) and the blocks
    that are allocated at the end. *)
Definition session (fb fs ff : nat) (items : list (option bb)) (qs : list query)
  : out (option (list (list Z)) * list block) :=
  if M <? 4 then Crash
  else
    let (root, h0) := new_node (0, fun _ => mkN true None [] [] nobox) true None in
    do r <- load fb h0 root 0 items;
    let '(h, rt, n, raised) := r in
    if raised then Ret (None, tree_blocks h n)
    else do s <- answers fs (h, rt) 0 qs (tree_blocks h n);
         do f <- rt_free ff h rt;
         do live <- free_all (flat_map freed f) (snd s);
         Ret (Some (fst s), live).
End Session.
