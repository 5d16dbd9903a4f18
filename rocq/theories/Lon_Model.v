(** Model of the code on longitudes: karta/geodesy.py (angles, canonical configuration,
    the equatorial inverse problem), karta/vector/dateline.pyx, [Polygon.ispolar] and
    contains.pyx [contains_proj].  Numbers are exact rationals, angles are degrees. *)
From Coq Require Import List ZArith QArith Qround Qabs Bool Arith.
From Verif Require Import Geom_Model.
Import ListNotations.
Open Scope Q_scope.

(** Python's [%] for a positive modulus, also that of Cython for doubles. Used at
    geodesy.py:53-68, 128-134 and contains.pyx:58-64. *)
Definition qmod (x m : Q) : Q := x - m * inject_Z (Qfloor (x / m)).
(** C's and Python's [a < b]. geodesy.py:285-308, dateline.pyx:5-64. *)
Definition qlt (a b : Q) : bool := negb (Qle_bool b a).

(** geodesy.py:62-64 [unroll_deg]. *)
Definition unroll_deg (d : Q) : Q := qmod d 360.
(** geodesy.py:66-68 [reduce_deg]. *)
Definition reduce_deg (d : Q) : Q := qmod (d + 180) 360 - 180.
(** geodesy.py:128-134 [isbetween_circular]. *)
Definition isbetween_circular (x x0 x1 : Q) : bool :=
  let '(x0, x1) := if qlt 180 (unroll_deg (x1 - x0)) then (x1, x0) else (x0, x1) in
  let x := reduce_deg (x - x0) in
  let x1 := reduce_deg (x1 - x0) in
  Qle_bool 0 x && Qle_bool x x1.

(** geodesy.py:285-308 [_canonical_configuration]; the flags are yflip, xflip, ysignswap. *)
Record flips := mkFlips { yflip : bool; xflip : bool; ysignswap : bool }.
(** geodesy.py:285-308 [_canonical_configuration]. *)
Definition canonical (x1 y1 x2 y2 : Q) : flips * Q * Q * Q * Q :=
  let yf := qlt (Qabs y1) (Qabs y2) in
  let '(y1, y2) := if yf then (y2, y1) else (y1, y2) in
  let ys := qlt 0 y1 in
  let '(y1, y2) := if ys then (- y1, - y2) else (y1, y2) in
  let x2 := reduce_deg (x2 - x1) in
  let x1 := 0 in
  let xf := qlt x2 0 || qlt 180 x2 in
  let x2 := if xf then - x2 else x2 in
  (mkFlips yf xf ys, x1, y1, x2, y2).

(** geodesy.py:421-430 [_ellipsoidal_inverse_equatorial], the case y1 == y2 == 0 of
    [ellipsoidal_inverse]: azimuth, back azimuth, and the distance as a fraction of the
    circumference 2 * pi * a. *)
Definition inverse_equatorial (x1 x2 : Q) : Q * Q * Q :=
  let diff := qmod (x2 - x1 + 180) 360 - 180 in
  let '(az, baz) := if qlt diff 0 then (- (90), 90) else (90, - (90)) in
  (az, baz, Qabs (x1 - x2) / 360).

(** vectorgeo.pyx:57-62 [fsign]. *)
Definition fsign (a : Q) : Z := if Qeq_bool a 0 then 1%Z else if qlt 0 a then 1%Z else (-1)%Z.
(** dateline.pyx:5-17 [crosses_dateline]. *)
Definition crosses_dateline (x0 x1 : Q) : Z :=
  if negb (Z.eqb (fsign x0) (fsign x1)) && qlt 180 (Qabs (x0 - x1)) then
    if qlt 180 (x1 - x0) then 1%Z else (-1)%Z
  else 0%Z.

Section Bbox.
(** The bounding latitudes of a great circle segment (vectorgeo.pyx:64-106), [None] for
    a degenerate segment; trigonometry, modelled elsewhere. *)
Variable bndlat : Q * Q -> Q * Q -> option (Q * Q).
(** dateline.pyx:31-33, 40-60: one turn of the loop. *)
Record bstate := mkB { bxmin : Q; bymin : Q; bxmax : Q; bymax : Q; brot : Q; bprev : Q * Q }.
(** dateline.pyx:40-60, one turn of the loop. *)
Definition bstep (s : bstate) (v : Q * Q) : bstate :=
  let '(ymin, ymax) := match bndlat (bprev s) v with
                       | Some (lo, hi) => (fmin (bymin s) lo, fmax (bymax s) hi)
                       | None => (bymin s, bymax s) end in
  let x0 := fst (bprev s) in
  let x1 := fst v in
  let xd := crosses_dateline x0 x1 in
  if negb (Z.eqb xd 0) then
    let rot := brot s - inject_Z xd * 360 in
    mkB (fmin (bxmin s) (x1 + rot)) ymin (fmax (bxmax s) (x1 + rot)) ymax rot v
  else if qlt x1 x0 then mkB (fmin (bxmin s) x1) ymin (bxmax s) ymax (brot s) v
  else mkB (bxmin s) ymin (fmax (bxmax s) x1) ymax (brot s) v.
(** dateline.pyx:19-64 [bbox]; [None] stands for four NaN. *)
Definition dateline_bbox (l : list (Q * Q)) (ring : bool) : option (Q * Q * Q * Q) :=
  match l with
  | [] => None
  | v :: _ =>
      let s := fold_left bstep (if ring then l ++ [v] else l) (mkB (fst v) (snd v) (fst v) (snd v) 0 v) in
      Some (qmod (bxmin s + 180) 360 - 180, bymin s, qmod (bxmax s + 180) 360 - 180, bymax s)
  end.
End Bbox.

(** geometry.py:809-821 [crosses_dateline] of lines and polygons in geographical
    coordinates, over the longitudes of the segments; geometry.py:1818-1823 [sign]. *)
Definition geom_crosses_dateline (segments : list (Q * Q)) : bool :=
  existsb (fun s => negb (Z.eqb (fsign (fst s)) (fsign (snd s))) && qlt 180 (Qabs (fst s - snd s))) segments.

(** geometry.py:1066-1076, the sum in [Polygon.ispolar]. *)
Fixpoint angle_sum (lon0 : Q) (l : list Q) (sum : Q) : Q :=
  match l with
  | [] => sum
  | x :: l' =>
      let lon1 := reduce_deg x in
      angle_sum lon1 l' (if negb (Z.eqb (crosses_dateline lon0 lon1) 0) then sum + (360 + lon1 - lon0)
                         else sum + (lon1 - lon0))
  end.
(** geometry.py:1050-1076 [Polygon.ispolar] of the longitudes of the vertices; a polygon
    without vertices has no vertex -1. *)
Definition ispolar (l : list Q) : res bool :=
  match l with
  | [] => Err IndexError
  | a :: _ => Ok (qlt (1 # 10000) (Qabs (angle_sum (reduce_deg (last l a)) l 0)))
  end.

Section Contains.
(** [az v] is the azimuth of vertex [v] seen from the point (crs.inverse of the point
    and the vertex). *)
Variable az : Q * Q -> Q.
(** contains.pyx:58, 64: azimuths in [0, 360). *)
Definition az360 (v : Q * Q) : Q := qmod (az v + 360) 360.
(** contains.pyx:59-77, the loop; [next] are the vertices to come, the first one last. *)
Fixpoint az_sum (az0 : Q) (next : list (Q * Q)) (sum : Q) : Q :=
  match next with
  | [] => sum
  | v :: next' =>
      let az1 := az360 v in
      let sum := if qlt (az1 - az0) (- (180)) then sum + ((az1 - az0) + 360)
                 else if qlt 180 (az0 - az1) then sum + ((az1 - az0) - 360)
                 else sum + (az1 - az0) in
      az_sum az1 next' sum
  end.
(** contains.pyx:44-83 [contains_proj]. *)
Definition contains_proj (l : list (Q * Q)) (ring : bool) : res bool :=
  if ring then
    match l with
    | [] => Err IndexError
    | v :: l' => Ok (negb (qlt (1 # 10000) (Qabs (az_sum (az360 v) (l' ++ [v]) 0))))
    end
  else Err TypeError.
End Contains.
