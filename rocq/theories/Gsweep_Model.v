(** Model of [intersects] in geographical coordinate systems: karta/vector/intersection.pyx
    (the sweep on the sphere), the functions of karta/vector/vectorgeo.pyx it uses, and the
    boxes of karta/vector/dateline.pyx.  Numbers are reals; rounding is not modelled, and
    [None] is NaN. *)
From Coq Require Import List ZArith Reals Bool Arith.
From Verif Require Import GeomR_Model Sphere_Model.
Import ListNotations.
Open Scope R_scope.

(** vectorgeo.pyx:28-29 [cross3]: the second component has the other sign than a cross product. *)
Definition cross3 (u v : vec) : vec :=
  (vy u * vz v - vz u * vy v, vx u * vz v - vz u * vx v, vx u * vy v - vy u * vx v).
(** vectorgeo.pyx:140-155 [cart2sph]; 0/0 is NaN (cdivision). *)
Definition cart2sph_c (v : vec) : option R * option R :=
  let '(x, y, z) := v in
  let lon := if rlt (1 / 100000000) (Rabs x) then Some (atan2 0 y x)
             else if req (sqrt (x * x + y * y)) 0 then None
             else Some (asin (y / sqrt (x * x + y * y))) in
  let lat := if rlt (1 / 100000000) (Rabs z) then Some (5 / 10 * PI - atan (sqrt (x * x + y * y) / z))
             else if req (sqrt (x * x + y * y + z * z)) 0 then None
             else Some (5 / 10 * PI - acos (z / sqrt (x * x + y * y + z * z))) in
  (option_map (fun l => l * 180 / PI) lon, option_map (fun l => l * 180 / PI) lat).
(** vectorgeo.pyx:160-164 [eulerpole]. *)
Definition eulerpole_c (p q : rpt) : vec := cross3 (sph2cart (fst p) (snd p)) (sph2cart (fst q) (snd q)).
(** intersection.pyx:10-11 [isbetween_inc]; with NaN false. *)
Definition isbetween_inc (a : R) (b : option R) (c : R) : bool :=
  match b with Some b => rle (fminr a c) b && rle b (fmaxr a c) | None => false end.
(** intersection.pyx:558, 577, 597: [(normal.x + 360) % 360 - 180]. *)
Definition antipodal (lon : R) : R := pymod (lon + 360) 360 - 180.
(** intersection.pyx:553-564 [_intersects_sph] of two edges. *)
Definition edges_intersect (a b c d : rpt) : bool :=
  let lon := fst (cart2sph_c (cross3 (eulerpole_c a b) (eulerpole_c c d))) in
  let anti := option_map antipodal lon in
  if isbetween_inc (fst a) lon (fst b) && isbetween_inc (fst c) lon (fst d) then true
  else if isbetween_inc (fst a) anti (fst b) && isbetween_inc (fst c) anti (fst d) then true
  else false.
(** intersection.pyx:576, 596: [(y + 90) % 180 - 90]. *)
Definition reduce_lat (y : R) : R := pymod (y + 90) 180 - 90.
(** intersection.pyx:566-583 [intersection_meridian]. *)
Definition intersection_meridian (a b : rpt) (xmeridian : R) : option R :=
  let ep2 := (sin (PI * xmeridian / 180), cos (PI * xmeridian / 180), 0) in
  let '(lon, lat) := cart2sph_c (cross3 (eulerpole_c a b) ep2) in
  let lon := option_map reduce_degr lon in
  let lat := option_map reduce_lat lat in
  if isbetween_inc (fst a) lon (fst b) then lat
  else if isbetween_inc (fst a) (option_map antipodal lon) (fst b) then option_map Ropp lat
  else None.
(** intersection.pyx:585-604 [intersection_sph]: (NaN, NaN) without intersection. *)
Definition intersection_sph (a b c d : rpt) : option R * option R :=
  let '(lon, lat) := cart2sph_c (cross3 (eulerpole_c a b) (eulerpole_c c d)) in
  let lon := option_map reduce_degr lon in
  let lat := option_map reduce_lat lat in
  let anti := option_map antipodal lon in
  if isbetween_inc (fst a) lon (fst b) && isbetween_inc (fst c) lon (fst d) then (lon, lat)
  else if isbetween_inc (fst a) anti (fst b) && isbetween_inc (fst c) anti (fst d) then (anti, option_map Ropp lat)
  else (None, None).

(** The tuples (x0, y0, x1, y1, color). intersection.pyx:374-412. *)
Record seg := mkSeg { p0 : rpt; p1 : rpt; color : bool }.
(** Equality of tuples, intersection.pyx:171-191, 443-448. *)
Definition seg_eqb (s t : seg) : bool :=
  req (fst (p0 s)) (fst (p0 t)) && req (snd (p0 s)) (snd (p0 t)) && req (fst (p1 s)) (fst (p1 t)) &&
  req (snd (p1 s)) (snd (p1 t)) && Bool.eqb (color s) (color t).
(** The comparison of two numbers in tuples, intersection.pyx:88-102. *)
Definition rcmp (a b : R) : comparison := if rlt a b then Lt else if rlt b a then Gt else Eq.
(** The comparison of tuples, intersection.pyx:88-102: the first difference decides. *)
Definition lex (c : comparison) (d : comparison) : comparison := match c with Eq => d | _ => c end.
(** The comparison of colours, intersection.pyx:88-102. *)
Definition bcmp (a b : bool) : comparison :=
  match a, b with false, true => Lt | true, false => Gt | _, _ => Eq end.
(** intersection.pyx:88-102 [__richcmp__]. *)
Definition seg_cmp (s t : seg) : comparison :=
  lex (rcmp (fst (p0 s)) (fst (p0 t))) (lex (rcmp (snd (p0 s)) (snd (p0 t)))
  (lex (rcmp (fst (p1 s)) (fst (p1 t))) (lex (rcmp (snd (p1 s)) (snd (p1 t))) (bcmp (color s) (color t))))).

(** intersection.pyx:70-86, 361-368 [Event]: kinds 0, 1, 2, 3. *)
Inductive kind := Left | Right | Bottom | Top.
(** intersection.pyx:70-86 [Event] with its position. *)
Record event := mkEv { ex : R; ekind : kind; eseg : seg }.
(** intersection.pyx:88-102, 113-115: positions first, then segments. *)
Definition ev_cmp (e f : event) : comparison := lex (rcmp (ex e) (ex f)) (seg_cmp (eseg e) (eseg f)).
(** intersection.pyx:113-115 [insert]; the heap is a sorted list. *)
Fixpoint push (e : event) (q : list event) : list event :=
  match q with
  | [] => [e]
  | f :: q' => match ev_cmp e f with Gt => f :: push e q' | _ => e :: q end
  end.
(** intersection.pyx:380-392, 400-412: the events of one segment. *)
Definition seg_events (s : seg) : list event :=
  let x0 := fst (p0 s) in
  let x1 := fst (p1 s) in
  if req x0 x1 then
    if rlt (snd (p0 s)) (snd (p1 s)) then [mkEv x0 Bottom s; mkEv x0 Top s]
    else [mkEv x0 Top s; mkEv x0 Bottom s]
  else if rlt x0 x1 then [mkEv x0 Left s; mkEv x1 Right s]
  else [mkEv x1 Left s; mkEv x0 Right s].
(** intersection.pyx:375-376, 395-396: longitudes in [-180, 180). *)
Definition reduced (p : rpt) : rpt := (reduce_degr (fst p), snd p).
(** intersection.pyx:374-379, 394-399, the tuple of an edge. *)
Definition to_seg (c : bool) (e : rpt * rpt) : seg := mkSeg (reduced (fst e)) (reduced (snd e)) c.
(** Consecutive vertices; on a ring the last and the first too (intersection.pyx:355-359, 374, 394). *)
Definition sph_edges (l : list rpt) (ring : bool) : list (rpt * rpt) :=
  match l with [] => [] | v :: _ => if ring then pairs (l ++ [v]) else pairs l end.
(** intersection.pyx:369-412, the queue before the sweep. *)
Definition events (ss : list seg) : list event := fold_left (fun q e => push e q) (flat_map seg_events ss) [].
(** intersection.pyx:425-430: all events at the first position. *)
Fixpoint take_same (x : R) (q : list event) : list event * list event :=
  match q with
  | [] => ([], [])
  | f :: q' => if req x (ex f) then let '(g, r) := take_same x q' in (f :: g, r) else ([], q)
  end.

(** intersection.pyx:139-152 [_get_slope_height] on the sphere: the slope, with vectorgeo.pyx:170-176
    [azimuth_sph]. *)
Definition slope (s : seg) : R :=
  - (sphere_azimuth (fst (p0 s)) (snd (p0 s)) (fst (p1 s)) (snd (p1 s)) * 180 / PI - 90).
(** intersection.pyx:139-152 [_get_slope_height] on the sphere: the height, from the
    intersection with the meridian.  In exact arithmetic the poles give no great circle; in
    doubles they nearly do.  The sweep below is for any height. *)
Definition exact_height (s : seg) (x : R) : option R := snd (intersection_sph (p0 s) (p1 s) (x, -90) (x, 90)).

(** list.index. intersection.pyx:171-191. *)
Fixpoint index (q : list seg) (s : seg) : option nat :=
  match q with
  | [] => None
  | t :: q' => if seg_eqb t s then Some 0%nat else option_map S (index q' s)
  end.
(** intersection.pyx:171-177 [leftof]; the outer [None] is a ValueError from [index]. *)
Definition leftof (q : list seg) (s : seg) : option (option seg) :=
  match index q s with
  | None => None
  | Some O => Some None
  | Some (S i) => Some (nth_error q i)
  end.
(** intersection.pyx:179-185 [rightof]. *)
Definition rightof (q : list seg) (s : seg) : option (option seg) :=
  match index q s with
  | None => None
  | Some i => Some (nth_error q (S i))
  end.
(** intersection.pyx:187-191 [remove]. *)
Definition remove (q : list seg) (s : seg) : option (list seg) :=
  match index q s with
  | None => None
  | Some i => Some (firstn i q ++ skipn (S i) q)
  end.

(** Results of intersection.pyx:342-498: an answer, a ValueError, or out of fuel. *)
Inductive out (A : Type) := Ret (a : A) | Raise | Loop.
Arguments Ret {A} a. Arguments Raise {A}. Arguments Loop {A}.
(** Sequencing in intersection.pyx:342-498: an exception ends the call. *)
Definition obind {A B} (r : out A) (f : A -> out B) : out B :=
  match r with Ret a => f a | Raise => Raise | Loop => Loop end.
(** intersection.pyx:443-448: past all segments ending here. *)
Fixpoint skip_ending (fuel : nat) (next : seg -> option (option seg)) (ending : list seg) (s : option seg) : out (option seg) :=
  match fuel with
  | O => Loop
  | S fuel =>
      match s with
      | None => Ret None
      | Some t =>
          if existsb (seg_eqb t) ending then
            match next t with None => Raise | Some s' => skip_ending fuel next ending s' end
          else Ret s
      end
  end.
(** intersection.pyx:437-451: removal of the segments that end, with the neighbours of each. *)
Fixpoint end_segments (fuel : nat) (ending todo : list seg) (q : list seg) : out (list seg * list (option seg * option seg)) :=
  match todo with
  | [] => Ret (q, [])
  | s :: todo' =>
      obind (skip_ending fuel (leftof q) ending (Some s)) (fun l =>
      obind (skip_ending fuel (rightof q) ending (Some s)) (fun r =>
      match remove q s with
      | None => Raise
      | Some q' =>
          obind (end_segments fuel ending todo' q') (fun p => Ret (fst p, (l, r) :: snd p))
      end))
  end.
(** intersection.pyx:433-496, [event.kind == k]. *)
Definition of_kind (k : kind) (e : event) : bool :=
  match k, ekind e with Left, Left | Right, Right | Bottom, Bottom | Top, Top => true | _, _ => false end.
(** intersection.pyx:459-470: a segment on a meridian against the sweep line. *)
Definition crosses_vertical (q : list seg) (s : seg) : bool :=
  existsb (fun t =>
    if Bool.eqb (color s) (color t) then false
    else match intersection_meridian (p0 t) (p1 t) (fst (p0 s)) with
         | Some y => (rle (snd (p0 s)) y && rle y (snd (p1 s))) || (rle (snd (p1 s)) y && rle y (snd (p0 s)))
         | None => false
         end) q.
(** intersection.pyx:553-564 called with two tuples, the colours not compared. *)
Definition intersects2 (s t : seg) : bool := edges_intersect (p0 s) (p1 s) (p0 t) (p1 t).
(** intersection.pyx:453-496: the checks, in the order of the events; [nb] holds the
    neighbours of the segments that end, in the same order. *)
Fixpoint check (q : list seg) (evs : list event) (nb : list (option seg * option seg)) : out bool :=
  match evs with
  | [] => Ret false
  | e :: evs' =>
      let s := eseg e in
      match ekind e with
      | Bottom => if crosses_vertical q s then Ret true else check q evs' nb
      | Top => check q evs' nb
      | Left =>
          match leftof q s, rightof q s with
          | Some l, Some r =>
              if match l with Some t => intersects2 t s | None => false end then Ret true
              else if match r with Some t => intersects2 t s | None => false end then Ret true
              else check q evs' nb
          | _, _ => Raise
          end
      | Right =>
          match nb with
          | [] => Raise
          | (Some l, Some r) :: nb' => if intersects2 r s then Ret true else check q evs' nb'
          | _ :: nb' => check q evs' nb'
          end
      end
  end.

Section Sweep.
Variable height : seg -> R -> option R.
(** intersection.pyx:164: [(y_ < y) or ((y_ == y) and (m_ < m))], false if a height is NaN. *)
Definition goes_on (t s : seg) (x : R) : bool :=
  match height t x, height s x with
  | Some y', Some y => rlt y' y || (req y' y && rlt (slope t) (slope s))
  | _, _ => false
  end.
(** intersection.pyx:154-169 [insert]. *)
Fixpoint sweep_insert (q : list seg) (s : seg) (x : R) : list seg :=
  match q with
  | [] => [s]
  | t :: q' => if goes_on t s x then t :: sweep_insert q' s x else s :: q
  end.
(** intersection.pyx:432-435: the segments that begin. *)
Definition enter (evs : list event) (q : list seg) : list seg :=
  fold_left (fun q e => if of_kind Left e then sweep_insert q (eseg e) (ex e) else q) evs q.
(** intersection.pyx:439-440: the segments that end. *)
Definition endings (evs : list event) : list seg := map eseg (filter (of_kind Right) evs).
(** intersection.pyx:423-498, the loop over positions. *)
Fixpoint sweep (fuel : nat) (n : nat) (queue : list event) (q : list seg) : out bool :=
  match n, queue with
  | _, [] => Ret false
  | O, _ => Loop
  | S n, e :: _ =>
      let '(evs, rest) := take_same (ex e) queue in
      let q1 := enter evs q in
      obind (end_segments fuel (endings evs) (endings evs) q1) (fun p =>
      obind (check (fst p) evs (snd p)) (fun b =>
      if b then Ret true else sweep fuel n rest (fst p)))
  end.
(** intersection.pyx:342-498 [intersects_sph]; [fuel] bounds the inner loops, the outer loop
    ends by itself. *)
Definition intersects_sph (fuel : nat) (a : list rpt) (ra : bool) (b : list rpt) (rb : bool) : out bool :=
  let q := events (map (to_seg false) (sph_edges a ra) ++ map (to_seg true) (sph_edges b rb)) in
  sweep fuel (length q) q [].
End Sweep.

(** vectorgeo.pyx:57-62 [fsign], dateline.pyx:5-17 [crosses_dateline]. *)
Definition crosses_datelinr (x0 x1 : R) : R :=
  if xorb (rsign x0) (rsign x1) && rlt 180 (Rabs (x0 - x1)) then (if rlt 180 (x1 - x0) then 1 else -1) else 0.
(** dateline.pyx:31-36: the variables of the loop. *)
Record bstate := mkB { bxmin : R; bymin : R; bxmax : R; bymax : R; brot : R; bprev : rpt }.
(** dateline.pyx:40-60, one turn of the loop. *)
Definition bstep (s : bstate) (v : rpt) : bstate :=
  let '(ymin, ymax) := match bndlat_sph (bprev s) v with
                       | Some (lo, hi) => (fminr (bymin s) lo, fmaxr (bymax s) hi)
                       | None => (bymin s, bymax s) end in
  let x0 := fst (bprev s) in
  let x1 := fst v in
  let xd := crosses_datelinr x0 x1 in
  if negb (req xd 0) then
    let rot := brot s - xd * 360 in
    mkB (fminr (bxmin s) (x1 + rot)) ymin (fmaxr (bxmax s) (x1 + rot)) ymax rot v
  else if rlt x1 x0 then mkB (fminr (bxmin s) x1) ymin (bxmax s) ymax (brot s) v
  else mkB (bxmin s) ymin (fmaxr (bxmax s) x1) ymax (brot s) v.
(** dateline.pyx:19-64 [bbox]; [None] stands for four NaN. *)
Definition geog_bbox (l : list rpt) (ring : bool) : option (R * R * R * R) :=
  match l with
  | [] => None
  | v :: _ =>
      let s := fold_left bstep (if ring then l ++ [v] else l) (mkB (fst v) (snd v) (fst v) (snd v) 0 v) in
      Some (pymod (bxmin s + 180) 360 - 180, bymin s, pymod (bxmax s + 180) 360 - 180, bymax s)
  end.
(** intersection.pyx:21-39 [bboxes_overlap], without the conversion to C floats. *)
Definition boxes_overlap (b0 b1 : R * R * R * R) : bool :=
  let '(xa, ya, xb, yb) := b0 in
  let '(xc, yc, xd, yd) := b1 in
  let dx := fminr xb xd - fmaxr xa xc in
  let dy := fminr yb yd - fmaxr ya yc in
  let dx := if req dx 0 then 1 else if rlt dx 0 then 0 else dx in
  let dy := if req dy 0 then 1 else if rlt dy 0 then 0 else dy in
  if req (dx * dy) 0 then false else true.
(** geometry.py:678-696 [intersects] for geographical coordinate systems, both geometries in
    the same one. *)
Definition geog_intersects (height : seg -> R -> option R) (fuel : nat) (a : list rpt) (ra : bool) (b : list rpt) (rb : bool) : out bool :=
  match geog_bbox a ra, geog_bbox b rb with
  | Some b0, Some b1 => if boxes_overlap b0 b1 then intersects_sph height fuel a ra b rb else Ret false
  | _, _ => intersects_sph height fuel a ra b rb  (* NaN boxes: no comparison holds, so dx*dy is NaN *)
  end.
