(** Model of the measuring functions of karta/vector/geometry.py and
    vectorgeo.pyx for coordinate systems that are not geographical, over the
    reals: distances, azimuths, walking, rotation, lengths, nearest points and
    points along a line.  Rounding is not modelled. *)
From Coq Require Import List ZArith Reals Bool Arith.
From Verif Require Import Geom_Model.
From Verif Require TerrainR_Model.
Import ListNotations.
Open Scope R_scope.

(** A vertex of rank 2 (geometry.py:66-86, vectorgeo.pyx:13-37), with exact real coordinates. *)
Notation rpt := (R * R)%type.
(** Python's float [%]. geometry.py:166-178. *)
Definition pymod (x m : R) : R := x - m * IZR (Int_part (x / m)).
(** math.atan2, as in TerrainR_Model; [flat] is its value at the origin. geometry.py:142-178. *)
Definition atan2 (flat y x : R) : R := TerrainR_Model.atan2 flat y x.

(** A vertex of rank 2 or 3. geometry.py:66-86. *)
Record rp := mkRP { rx : R; ry : R; rz : option R }.
(** A vertex of rank 2 as one whose third coordinate is absent (geometry.py:298-314). *)
Definition flatp (p : rpt) : rp := mkRP (fst p) (snd p) None.
(** geometry.py:305 (also vectorgeo.pyx:37 and 191). *)
Definition pdist (x0 y0 x1 y1 : R) : R := sqrt ((x1 - x0) * (x1 - x0) + (y1 - y0) * (y1 - y0)).
(** geometry.py:298-314 [Point.distance], both points in one projected system. *)
Definition distance (p q : rp) : R :=
  let d := pdist (rx p) (ry p) (rx q) (ry q) in
  match rz p, rz q with
  | Some z, Some z' => sqrt (d * d + (z - z') * (z - z'))
  | _, _ => d
  end.
(** geometry.py:142-178 [Point.azimuth], projected; [None] is nan.  The value of
    atan2 at the origin is never used. *)
Definition azimuth (p q : rp) : option R :=
  if Req_EM_T (rx p) (rx q) then
    if Req_EM_T (ry p) (ry q) then None
    else Some (pymod (90 - atan2 0 (ry q - ry p) (rx q - rx p) * 180 / PI + 180) 360 - 180)
  else Some (pymod (90 - atan2 0 (ry q - ry p) (rx q - rx p) * 180 / PI + 180) 360 - 180).
(** geometry.py:174-177, the geographical branch: [inv] stands for
    [crs.inverse(...)[0]], the points for their longitudes and latitudes. *)
Definition azimuth_geog (inv : rpt -> rpt -> R) (p q : rpt) : option R :=
  if Req_EM_T (fst p) (fst q) then
    if Req_EM_T (snd p) (snd q) then Some (inv p q) else None
  else Some (inv p q).
(** geometry.py:249-258 [Point.walk], projected: a point of rank 2. *)
Definition walk (p : rp) (d az : R) : rp :=
  let maz := (90 - az) * PI / 180 in
  mkRP (rx p + d * cos maz) (ry p + d * sin maz) None.

(** geometry.py:49-64 [Rotatable.rotate] acting on one vertex, by the matrix given
    to [apply_transform]. *)
Definition rotate (thetad ox oy x y : R) : rpt :=
  let ct := cos (thetad * PI / 180) in
  let st := sin (thetad * PI / 180) in
  (ct * x + - st * y + (- ox * ct + oy * st + ox), st * x + ct * y + (- ox * st - oy * ct + oy)).

(** vectorgeo.pyx:186-195, the loop of [length]. *)
Fixpoint length_loop (a : rpt) (l : list rpt) (d : R) : R :=
  match l with
  | [] => d
  | b :: l' => length_loop b l' (d + pdist (fst a) (snd a) (fst b) (snd b))
  end.
(** vectorgeo.pyx:178-195 [length]; without vertices the loop has no end and reads
    outside the array: an error here.  On a ring the index wraps. *)
Definition length_c (l : list rpt) (ring : bool) : res R :=
  match l with
  | [] => Err IndexError
  | a :: l' => Ok (length_loop a (if ring then l' ++ [a] else l') 0)
  end.
(** geometry.py:1098-1107 [Polygon.perimeter]: segments are lines of two vertices;
    [subs] are the perimeters of the sub-polygons. *)
Definition pairs (l : list rpt) : list (rpt * rpt) := combine l (tl l).
(** geometry.py:1098-1107, the length of the line that is a segment (vectorgeo.pyx:178-195). *)
Definition seg_length (s : rpt * rpt) : R := length_loop (fst s) [snd s] 0.
(** Python's sum in geometry.py:1098-1107. *)
Definition sumr (l : list R) : R := fold_left Rplus l 0.
(** geometry.py:1098-1107 [Polygon.perimeter]. *)
Definition perimeter (l : list rpt) (subs : list R) : res R :=
  match l with
  | [] => Err IndexError
  | v :: _ => Ok (sumr (map seg_length (pairs l ++ [(last l v, v)])) + sumr subs)
  end.
(** geometry.py:875-888 [Line.cumulength]. *)
Fixpoint cumu (a : rp) (l : list rp) (d : R) : list R :=
  match l with
  | [] => []
  | b :: l' => let d' := distance a b + d in d' :: cumu b l' d'
  end.
(** geometry.py:875-888 [Line.cumulength]. *)
Definition cumulength (l : list rp) : res (list R) :=
  match l with [] => Err IndexError | a :: l' => Ok (0 :: cumu a l' 0) end.
(** geometry.py:962-969 [Line.displacement]. *)
Definition displacement (l : list rp) : res R :=
  match l with [] => Err IndexError | a :: _ => Ok (distance a (last l a)) end.

(** geometry.py:571-591 [distances_to], [nearest_vertex_to]: numpy's argmin takes
    the first of the smallest. *)
Fixpoint argmin_from (l : list R) (i best : nat) (m : R) : nat :=
  match l with
  | [] => best
  | d :: l' => if Rlt_dec d m then argmin_from l' (S i) i d else argmin_from l' (S i) best m
  end.
(** geometry.py:584-591 [nearest_vertex_to]. *)
Definition nearest_vertex (l : list rp) (p : rp) : res nat :=
  match map (distance p) l with
  | [] => Err ValueError
  | d :: ds => Ok (argmin_from ds 1 0 d)
  end.

(** vectorgeo.pyx:31-34 [proj2] and 197-251 [pt_nearest_planar].  [dot2(v, v)] is
    zero for a segment of length zero: the division raises. *)
Definition fmaxr (a b : R) : R := if Rle_dec a b then b else a.
(** C's fmin, vectorgeo.pyx:197-251. *)
Definition fminr (a b : R) : R := if Rle_dec a b then a else b.
(** vectorgeo.pyx:37 and 197-251, the distance of two vertices. *)
Definition dist2 (a b : rpt) : R := pdist (fst b) (snd b) (fst a) (snd a).
(** vectorgeo.pyx:197-251 [pt_nearest_planar]. *)
Definition pt_nearest_planar (p a b : rpt) : res (rpt * R) :=
  let ux := fst p - fst a in let uy := snd p - snd a in
  let vx := fst b - fst a in let vy := snd b - snd a in
  if Req_EM_T (vx * vx + vy * vy) 0 then Err ZeroDivisionError
  else
    let k := (ux * vx + uy * vy) / (vx * vx + vy * vy) in
    let q := (k * vx + fst a, k * vy + snd a) in
    if Rlt_dec (Rabs (fst a - fst b)) (1 / 10000) then
      if Rlt_dec (fmaxr (snd a) (snd b)) (snd q) then
        if Rlt_dec (snd b) (snd a) then Ok (a, dist2 a p) else Ok (b, dist2 b p)
      else if Rlt_dec (snd q) (fminr (snd a) (snd b)) then
        if Rlt_dec (snd a) (snd b) then Ok (a, dist2 a p) else Ok (b, dist2 b p)
      else Ok (q, dist2 q p)
    else
      if Rlt_dec (fmaxr (fst a) (fst b)) (fst q) then
        if Rlt_dec (fst b) (fst a) then Ok (a, dist2 a p) else Ok (b, dist2 b p)
      else if Rlt_dec (fst q) (fminr (fst a) (fst b)) then
        if Rlt_dec (fst a) (fst b) then Ok (a, dist2 a p) else Ok (b, dist2 b p)
      else Ok (q, dist2 q p).

(** geometry.py:755-763, the loop of [_nearest_to_point]. *)
Fixpoint nearest_loop (l : list (rpt * R)) (i : nat) (mp : option rpt) (md : R) : R * option rpt :=
  match l with
  | [] => (md, mp)
  | (q, d) :: l' =>
      if Rlt_dec d md then nearest_loop l' (S i) (Some q) d
      else if (i =? 0)%nat then nearest_loop l' (S i) (Some q) d
      else nearest_loop l' (S i) mp md
  end.
(** geometry.py:725-763 [_nearest_to_point] for a Cartesian system.  Lines and
    polygons alike pair [vertices[0:-1]] with [vertices[1:]] (740-741). *)
Definition nearest_to_point (l : list rpt) (p : rpt) : res (R * option rpt) :=
  bind (mapM (fun s => pt_nearest_planar p (fst s) (snd s)) (pairs l)) (fun ds =>
  Ok (nearest_loop ds 0 None (-1))).
(** geometry.py:765-777 [shortest_distance_to]. *)
Definition shortest_distance_to (l : list rpt) (p : rpt) : res R :=
  bind (nearest_to_point l p) (fun r => Ok (fst r)).
(** geometry.py:794-807 [within_distance]: [all] stops at the first failure. *)
Fixpoint within_all (segs : list (rpt * rpt)) (p : rpt) (d : R) : res bool :=
  match segs with
  | [] => Ok true
  | s :: l =>
      bind (shortest_distance_to [fst s; snd s] p) (fun m =>
      if Rle_dec m d then within_all l p d else Ok false)
  end.
(** geometry.py:794-807 [within_distance]. *)
Definition within_distance (l : list rpt) (p : rpt) (d : R) : res bool := within_all (pairs l) p d.

(** geometry.py:920-960 [Line.to_npoints], rank 2.  The state of the loop: the
    distance [x] covered, the position, the current segment (its first vertex moved
    to each new point, 948), what is left of it and of the step, the segments to
    come, the points so far in reverse.  [None]: out of fuel. *)
Fixpoint npoints_loop (fuel : nat) (L step : R) (x : R) (pos : rp) (seg : rp * rp) (segrem steprem : R)
    (rest : list (rp * rp)) (out : list rp) : option (rp * rp * list rp) :=
  match fuel with
  | O => None
  | S fuel =>
      if Rlt_dec x (L - 1 / 100000000) then
        match azimuth (fst seg) (snd seg) with
        | dir =>
            if Rle_dec steprem segrem then
              match dir with
              | None => None  (* walking by nan; not reached *)
              | Some az =>
                  let pos' := walk pos steprem az in
                  npoints_loop fuel L step (x + steprem) pos' (pos', snd seg) (segrem - steprem) step rest (pos' :: out)
              end
            else
              let pos' := snd seg in
              match rest with
              | [] => npoints_loop fuel L step (x + segrem) pos' seg (distance (fst seg) (snd seg)) (steprem - segrem) [] out
              | s :: rest' => npoints_loop fuel L step (x + segrem) pos' s (distance (fst s) (snd s)) (steprem - segrem) rest' out
              end
        end
      else Some (seg, out)
  end.
(** geometry.py:920-960 [Line.to_npoints]. *)
Definition to_npoints (fuel : nat) (l : list rp) (n : Z) : option (res (list rp)) :=
  match l, combine l (tl l) with
  | a :: _, s :: rest =>
      if (n =? 1)%Z then Some (Err ZeroDivisionError)
      else
        match cumulength l with
        | Err e => Some (Err e)
        | Ok cs =>
            let L := last cs 0 in
            let step := L / IZR (n - 1) in
            match npoints_loop fuel L step 0 a s (distance (fst s) (snd s)) step rest [a] with
            | None => None
            | Some (seg, out) =>
                if (Z.of_nat (length out) =? n - 1)%Z then Some (Ok (rev (snd seg :: out))) else Some (Ok (rev out))
            end
        end
  | _, _ => Some (Err IndexError)  (* no vertex, or StopIteration from [next] *)
  end.

(** geometry.py:890-918 [Line.to_points], rank 2.  State: position in the segment,
    last point, remainder, points so far in reverse. *)
Fixpoint points_seg (fuel : nat) (dx len : R) (s1 : rp) (az : option R) (pos : R) (pt0 : rp) (rem : R) (out : list rp)
    : option (rp * R * list rp) :=
  match fuel with
  | O => None
  | S fuel =>
      if Rlt_dec pos len then
        let de := distance pt0 s1 in
        if Rle_dec dx de then
          match az with
          | None => None (* walking by nan; the segment would have length zero *)
          | Some a =>
              let pt1 := walk pt0 (dx - rem) a in
              points_seg fuel dx len s1 az (pos + (dx - rem)) pt1 0 (pt1 :: out)
          end
        else points_seg fuel dx len s1 az len s1 de out
      else Some (pt0, rem, out)
  end.
(** geometry.py:890-918, the loop over the segments. *)
Fixpoint points_segs (fuel : nat) (dx : R) (segs : list (rp * rp)) (pt0 : rp) (rem : R) (out : list rp)
    : option (list rp) :=
  match segs with
  | [] => Some out
  | s :: segs' =>
      match points_seg fuel dx (distance (fst s) (snd s)) (snd s) (azimuth (fst s) (snd s)) 0 pt0 rem out with
      | None => None
      | Some (pt0', rem', out') => points_segs fuel dx segs' pt0' rem' out'
      end
  end.
(** geometry.py:890-918 [Line.to_points]. *)
Definition to_points (fuel : nat) (l : list rp) (dx : R) : option (res (list rp)) :=
  match l with
  | [] => Some (Err IndexError)
  | a :: _ =>
      match points_segs fuel dx (combine l (tl l)) a 0 [a] with
      | None => None
      | Some out => Some (Ok (rev out))
      end
  end.
