(** Model of karta/vector/intersection.pyx for planar coordinates: intersection of
    two segments, all intersections of two coordinate strings, overlap of boxes,
    the sweep of [intersects], crossing counts.  Doubles are exact rationals. *)
From Coq Require Import List ZArith QArith Qabs Bool Arith SpecFloat.
From Verif Require Import Geom_Model.
Import ListNotations.
Open Scope Q_scope.

(** A vertex of the coordinate strings of intersection.pyx:41-68, 193-340. *)
Notation pt := (Q * Q)%type.
(** vectorgeo.pyx:25-26. *)
Definition cross2 (ux uy vx vy : Q) : Q := ux * vy - uy * vx.
(** C's [a < b] (intersection.pyx:10-39, 606-674), without NaN. *)
Definition ltq (a b : Q) : bool := negb (Qle_bool b a).

(** intersection.pyx:606-622 [intersection]; [None] stands for (NAN, NAN). *)
Definition intersection (x0 x1 x2 x3 y0 y1 y2 y3 : Q) : option pt :=
  let rxs := cross2 (x1 - x0) (y1 - y0) (x3 - x2) (y3 - y2) in
  if Qeq_bool rxs 0 then None
  else
    let t := cross2 (x2 - x0) (y2 - y0) (x3 - x2) (y3 - y2) / rxs in
    let u := cross2 (x2 - x0) (y2 - y0) (x1 - x0) (y1 - y0) / rxs in
    if ltq 0 t && Qle_bool t 1 && (ltq 0 u && Qle_bool u 1)
    then Some (x0 + t * (x1 - x0), y0 + t * (y1 - y0))
    else None.

(** The pairs [getX(i), getY(i)], [getX(i+1), getY(i+1)] the loops run over; on a
    ring the index wraps (intersection.pyx:50-64, 205-228). *)
Definition edges (l : list pt) (ring : bool) : list (pt * pt) :=
  match l with
  | [] => []
  | v :: _ => if ring then consecutive (l ++ [v]) else consecutive l
  end.
(** intersection.pyx:606-622, called with two segments at 41-68. *)
Definition interx (s1 s2 : pt * pt) : option pt :=
  let '((x0, y0), (x1, y1)) := s1 in
  let '((x2, y2), (x3, y3)) := s2 in
  intersection x0 x1 x2 x3 y0 y1 y2 y3.
(** intersection.pyx:41-68 [all_intersections]. *)
Definition all_intersections (a : list pt) (ra : bool) (b : list pt) (rb : bool) : list pt :=
  flat_map (fun s1 => flat_map (fun s2 => match interx s1 s2 with Some p => [p] | None => [] end) (edges b rb)) (edges a ra).

(** geometry.py:698-723 [intersections] for Cartesian coordinate systems.  [list(set(..))]
    keeps one of each group of equal points; the order it gives them is not modelled. *)
Definition pt_eqb (p q : pt) : bool := Qeq_bool (fst p) (fst q) && Qeq_bool (snd p) (snd q).
(** geometry.py:698-723, [set]: one of each group of equal points. *)
Fixpoint nub (l : list pt) : list pt :=
  match l with
  | [] => []
  | p :: l' => if existsb (pt_eqb p) l' then nub l' else p :: nub l'
  end.
(** geometry.py:698-723 [intersections]. *)
Definition geom_intersections (a : list pt) (ra : bool) (b : list pt) (rb : bool) (keep_duplicates : bool) : list pt :=
  let l := all_intersections a ra b rb in if keep_duplicates then l else nub l.

(** intersection.pyx:21-39 [bboxes_overlap], without the conversion to C floats. *)
Definition bboxes_overlap (b0 b1 : Q * Q * Q * Q) : bool :=
  let '(xa, ya, xb, yb) := b0 in
  let '(xc, yc, xd, yd) := b1 in
  let dx := fmin xb xd - fmax xa xc in
  let dy := fmin yb yd - fmax ya yc in
  let dx := if Qeq_bool dx 0 then 1 else if ltq dx 0 then 0 else dx in
  let dy := if Qeq_bool dy 0 then 1 else if ltq dy 0 then 0 else dy in
  if Qeq_bool (dx * dy) 0 then false else true.

(** intersection.pyx:523-540 [overlaps], [iscollinear]. *)
Definition overlaps (a0 a1 b0 b1 : Q) : bool :=
  (Qle_bool a0 b0 && Qle_bool b0 a1) || (Qle_bool a0 b1 && Qle_bool b1 a1) ||
  (Qle_bool b0 a0 && Qle_bool a0 b1) || (Qle_bool b0 a1 && Qle_bool a1 b1).
(** intersection.pyx:527-540 [iscollinear]. *)
Definition iscollinear (x0 x1 x2 x3 y0 y1 y2 y3 : Q) : bool :=
  let rxs := cross2 (x1 - x0) (y1 - y0) (x3 - x2) (y3 - y2) in
  if Qeq_bool rxs 0 then
    let rxt := cross2 (x1 - x0) (y1 - y0) (x3 - x0) (y3 - y0) in
    if Qeq_bool rxt 0 then
      if negb (Qeq_bool (x1 - x0) 0) && overlaps x0 x1 x2 x3 then true else overlaps y0 y1 y2 y3
    else false
  else false.

(** The tuples (x0, y0, x1, y1, color). intersection.pyx:224-262. *)
Record seg := mkSeg { sx0 : Q; sy0 : Q; sx1 : Q; sy1 : Q; color : bool }.
(** Comparison of tuples. intersection.pyx:171-191, [index]. *)
Definition seg_eqb (s t : seg) : bool :=
  Qeq_bool (sx0 s) (sx0 t) && Qeq_bool (sy0 s) (sy0 t) && Qeq_bool (sx1 s) (sx1 t) && Qeq_bool (sy1 s) (sy1 t) &&
  Bool.eqb (color s) (color t).
(** The comparison of tuples, intersection.pyx:88-102: the first difference decides. *)
Definition lex (c : comparison) (d : comparison) : comparison := match c with Eq => d | _ => c end.
(** The comparison of colours, intersection.pyx:88-102. *)
Definition bcmp (a b : bool) : comparison :=
  match a, b with false, true => Lt | true, false => Gt | _, _ => Eq end.
(** intersection.pyx:88-102 [__richcmp__], the comparison of the tuples of two segments. *)
Definition seg_cmp (s t : seg) : comparison :=
  lex (sx0 s ?= sx0 t) (lex (sy0 s ?= sy0 t) (lex (sx1 s ?= sx1 t) (lex (sy1 s ?= sy1 t) (bcmp (color s) (color t))))).
(** intersection.pyx:500-513 [_intersects]. *)
Definition intersects2 (s t : seg) : bool :=
  if Bool.eqb (color s) (color t) then false
  else if iscollinear (sx0 s) (sx1 s) (sx0 t) (sx1 t) (sy0 s) (sy1 s) (sy0 t) (sy1 t) then true
  else match intersection (sx0 s) (sx1 s) (sx0 t) (sx1 t) (sy0 s) (sy1 s) (sy0 t) (sy1 t) with
       | None => false | Some _ => true end.

(** intersection.pyx:70-102: events (Left 0, Right 1, Bottom 2, Top 3), and
    104-126: the queue of (x, event); heapq yields them in order of (x, seg). *)
Inductive kind := Left | Right | Bottom | Top.
(** intersection.pyx:70-86 [Event] with its position. *)
Record event := mkEv { ex : Q; ekind : kind; eseg : seg }.
(** intersection.pyx:88-102, 113-115: positions first, then segments. *)
Definition ev_cmp (e f : event) : comparison := lex (ex e ?= ex f) (seg_cmp (eseg e) (eseg f)).
(** intersection.pyx:113-115 [insert]; the heap is a sorted list. *)
Fixpoint push (e : event) (q : list event) : list event :=
  match q with
  | [] => [e]
  | f :: q' => match ev_cmp e f with Gt => f :: push e q' | _ => e :: q end
  end.
(** intersection.pyx:224-262: the events of one segment. *)
Definition seg_events (s : seg) : list event :=
  if Qeq_bool (sx0 s) (sx1 s) then
    if ltq (sy0 s) (sy1 s) then [mkEv (sx0 s) Bottom s; mkEv (sx0 s) Top s]
    else [mkEv (sx0 s) Top s; mkEv (sx0 s) Bottom s]
  else if ltq (sx0 s) (sx1 s) then [mkEv (sx0 s) Left s; mkEv (sx1 s) Right s]
  else [mkEv (sx1 s) Left s; mkEv (sx0 s) Right s].
(** intersection.pyx:224-262, the tuple of an edge. *)
Definition to_seg (c : bool) (e : pt * pt) : seg := mkSeg (fst (fst e)) (snd (fst e)) (fst (snd e)) (snd (snd e)) c.
(** intersection.pyx:215-262, the queue before the sweep. *)
Definition events (ss : list seg) : list event := fold_left (fun q e => push e q) (flat_map seg_events ss) [].
(** intersection.pyx:275-280: all events at the first position. *)
Fixpoint take_same (x : Q) (q : list event) : list event * list event :=
  match q with
  | [] => ([], [])
  | f :: q' => if Qeq_bool x (ex f) then let '(g, r) := take_same x q' in (f :: g, r) else ([], q)
  end.

(** intersection.pyx:139-152 [_get_slope_height]. *)
Definition slope_height (s : seg) (x : Q) : Q * Q :=
  if Qeq_bool (sy1 s) (sy0 s) then (0, sy0 s)
  else let m := (sy1 s - sy0 s) / (sx1 s - sx0 s) in (m, m * (x - sx0 s) + sy0 s).
(** intersection.pyx:154-169 [insert]. *)
Fixpoint sweep_insert (q : list seg) (s : seg) (x : Q) : list seg :=
  match q with
  | [] => [s]
  | t :: q' =>
      let '(m, y) := slope_height s x in
      let '(m', y') := slope_height t x in
      if ltq y' y || (Qeq_bool y' y && ltq m' m) then t :: sweep_insert q' s x else s :: q
  end.
(** list.index. intersection.pyx:171-191. *)
Fixpoint index (q : list seg) (s : seg) : option nat :=
  match q with
  | [] => None
  | t :: q' => if seg_eqb t s then Some 0%nat else option_map S (index q' s)
  end.
(** intersection.pyx:171-191; the outer [None] is a ValueError from [index]. *)
Definition leftof (q : list seg) (s : seg) : option (option seg) :=
  match index q s with
  | None => None
  | Some O => Some None
  | Some (S i) => Some (nth_error q i)
  end.
(** intersection.pyx:179-185 [rightof]. *)
Definition rightof (q : list seg) (s : seg) : option (option seg) :=
  match index q s with
  | None => None
  | Some i => Some (nth_error q (S i))
  end.
(** intersection.pyx:187-191 [remove]. *)
Definition remove (q : list seg) (s : seg) : option (list seg) :=
  match index q s with
  | None => None
  | Some i => Some (firstn i q ++ skipn (S i) q)
  end.

(** Results: an answer, a ValueError, or out of fuel (an endless loop if for every fuel).
    intersection.pyx:193-340. *)
Inductive out (A : Type) := Ret (a : A) | Raise | Loop.
Arguments Ret {A} a. Arguments Raise {A}. Arguments Loop {A}.
(** Sequencing in intersection.pyx:193-340: an exception ends the call. *)
Definition obind {A B} (r : out A) (f : A -> out B) : out B :=
  match r with Ret a => f a | Raise => Raise | Loop => Loop end.
(** intersection.pyx:293-298: past all segments ending here. *)
Fixpoint skip_ending (fuel : nat) (next : seg -> option (option seg)) (ending : list seg) (s : option seg) : out (option seg) :=
  match fuel with
  | O => Loop
  | S fuel =>
      match s with
      | None => Ret None
      | Some t =>
          if existsb (seg_eqb t) ending then
            match next t with None => Raise | Some s' => skip_ending fuel next ending s' end
          else Ret s
      end
  end.
(** intersection.pyx:289-301: removal of the segments that end, with the
    neighbours of each. *)
Fixpoint end_segments (fuel : nat) (ending todo : list seg) (q : list seg) : out (list seg * list (option seg * option seg)) :=
  match todo with
  | [] => Ret (q, [])
  | s :: todo' =>
      obind (skip_ending fuel (leftof q) ending (Some s)) (fun l =>
      obind (skip_ending fuel (rightof q) ending (Some s)) (fun r =>
      match remove q s with
      | None => Raise
      | Some q' =>
          obind (end_segments fuel ending todo' q') (fun p => Ret (fst p, (l, r) :: snd p))
      end))
  end.
(** intersection.pyx:281-338, [event.kind == k]. *)
Definition of_kind (k : kind) (e : event) : bool :=
  match k, ekind e with Left, Left | Right, Right | Bottom, Bottom | Top, Top => true | _, _ => false end.
(** intersection.pyx:308-320: a vertical segment against the sweep line. *)
Definition crosses_vertical (q : list seg) (s : seg) : bool :=
  existsb (fun t =>
    if Bool.eqb (color s) (color t) then false
    else let y := (sy1 t - sy0 t) / (sx1 t - sx0 t) * (sx0 s - sx0 t) + sy0 t in
         (Qle_bool (sy0 s) y && Qle_bool y (sy1 s)) || (Qle_bool (sy1 s) y && Qle_bool y (sy0 s))) q.
(** intersection.pyx:303-338: the checks, in the order of the events; [nb] holds the
    neighbours of the segments that end, in the same order. *)
Fixpoint check (q : list seg) (evs : list event) (nb : list (option seg * option seg)) : out bool :=
  match evs with
  | [] => Ret false
  | e :: evs' =>
      let s := eseg e in
      match ekind e with
      | Bottom => if crosses_vertical q s then Ret true else check q evs' nb
      | Top => check q evs' nb
      | Left =>
          match leftof q s, rightof q s with
          | Some l, Some r =>
              if match l with Some t => intersects2 t s | None => false end then Ret true
              else if match r with Some t => intersects2 s t | None => false end then Ret true
              else check q evs' nb
          | _, _ => Raise
          end
      | Right =>
          match nb with
          | [] => Raise
          | (Some l, Some r) :: nb' => if intersects2 l r then Ret true else check q evs' nb'
          | _ :: nb' => check q evs' nb'
          end
      end
  end.
(** intersection.pyx:273-340, the loop over positions. *)
Fixpoint sweep (fuel : nat) (n : nat) (queue : list event) (q : list seg) : out bool :=
  match n, queue with
  | _, [] => Ret false
  | O, _ => Loop
  | S n, e :: _ =>
      let '(evs, rest) := take_same (ex e) queue in
      let q1 := fold_left (fun q e => if of_kind Left e then sweep_insert q (eseg e) (ex e) else q) evs q in
      let ending := map eseg (filter (of_kind Right) evs) in
      obind (end_segments fuel ending ending q1) (fun p =>
      obind (check (fst p) evs (snd p)) (fun b =>
      if b then Ret true else sweep fuel n rest (fst p)))
  end.
(** intersection.pyx:193-340 [intersects]; [fuel] bounds the inner loops, the outer
    loop ends by itself. *)
Definition intersects (fuel : nat) (a : list pt) (ra : bool) (b : list pt) (rb : bool) : out bool :=
  let q := events (map (to_seg false) (edges a ra) ++ map (to_seg true) (edges b rb)) in
  sweep fuel (length q) q [].
(** geometry.py:678-696 [intersects] for coordinate systems that are not geographical. *)
Definition geom_intersects (fuel : nat) (a : list pt) (ra : bool) (b : list pt) (rb : bool) : out bool :=
  match bbox_c a, bbox_c b with
  | Some b0, Some b1 => if bboxes_overlap b0 b1 then intersects fuel a ra b rb else Ret false
  | _, _ => intersects fuel a ra b rb  (* NaN boxes: no comparison holds, so dx*dy is NaN *)
  end.

(** intersection.pyx:10-17, 644-674 [intersects_cn]; 1e-15 is the literal. *)
Definition isbetween_incl (a b c : Q) : bool := Qle_bool (fmin a c) b && ltq b (fmax a c).
(** intersection.pyx:16-17 [isbetween_incr]. *)
Definition isbetween_incr (a b c : Q) : bool := ltq (fmin a c) b && Qle_bool b (fmax a c).
(** The literal 1e-15 of intersection.pyx:666. *)
Definition eps15 : Q := 1 # 1000000000000000.
(** intersection.pyx:644-674 [intersects_cn]. *)
Definition intersects_cn (xp yp x0 x1 y0 y1 : Q) : bool :=
  if Qeq_bool x0 x1 then false
  else
    let m := (y1 - y0) / (x1 - x0) in
    let y := y0 + m * (xp - x0) in
    if ltq y yp then false
    else
      let iny := if ltq 0 m && isbetween_incr y0 y y1 then true
                 else if isbetween_incl y0 y y1 then true
                 else ltq (Qabs (y0 - y1)) eps15 && ltq (Qabs (y - y0)) eps15 in
      isbetween_incr x0 xp x1 && iny.
(** intersection.pyx:624-642 [count_crossings]: the loop stops one vertex early on a
    line, and before the closing segment on a ring. *)
Fixpoint count_loop (xp yp : Q) (v : pt) (l : list pt) : nat :=
  match l with
  | [] => 0
  | w :: l' => (if intersects_cn xp yp (fst v) (fst w) (snd v) (snd w) then 1 else 0) + count_loop xp yp w l'
  end.
(** intersection.pyx:624-642 [count_crossings]. *)
Definition count_crossings (xp yp : Q) (l : list pt) (ring : bool) : res nat :=
  match l with
  | [] => Err IndexError
  | v :: l' => Ok (count_loop xp yp v (if ring then l' else removelast l'))
  end.

(** Doubles and C floats. intersection.pyx:21-39. *)
Definition to_float (x : spec_float) : spec_float :=
  match x with
  | S754_finite s m e => binary_normalize 24 128 (if s then Z.neg m else Z.pos m) e s
  | _ => x
  end.
(** [fmin] of doubles in intersection.pyx:21-39. *)
Definition fmin64 (a b : spec_float) : spec_float := if SFltb b a then b else a.
(** [fmax] of doubles in intersection.pyx:21-39. *)
Definition fmax64 (a b : spec_float) : spec_float := if SFltb a b then b else a.
(** The literal 0 of intersection.pyx:21-39. *)
Definition fzero : spec_float := S754_zero false.
(** intersection.pyx:21-39, the overlap of the boxes along one axis. *)
Definition side (lo lo' hi hi' : spec_float) : spec_float :=
  let d := to_float (SFsub 53 1024 (fmin64 hi hi') (fmax64 lo lo')) in
  if SFeqb d fzero then binary_normalize 24 128 1 0 false else if SFltb d fzero then fzero else d.
(** intersection.pyx:21-39 with the conversions of the C code. *)
Definition bboxes_overlap_float (b0 b1 : spec_float * spec_float * spec_float * spec_float) : bool :=
  let '(xa, ya, xb, yb) := b0 in
  let '(xc, yc, xd, yd) := b1 in
  negb (SFeqb (SFmul 24 128 (side xa xc xb xd) (side ya yc yb yd)) fzero).
