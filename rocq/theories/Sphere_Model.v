(** Model of the geodesy on a plane and on a sphere: karta/geodesy.py, karta/crs.py
    [CartesianCRS] and the spherical functions of karta/vector/vectorgeo.pyx.  Numbers are
    reals; rounding is not modelled.  Where Python divides by zero the model says so;
    arguments of acos and asin are in [-1, 1] in exact arithmetic. *)
From Coq Require Import List ZArith Reals Bool Arith.
From Verif Require Import Geom_Model GeomR_Model.
Import ListNotations.
Open Scope R_scope.

(** Python's [a < b], geodesy.py:27-308. *)
Definition rlt (a b : R) : bool := if Rlt_dec a b then true else false.
(** Python's [a <= b], geodesy.py:27-308. *)
Definition rle (a b : R) : bool := if Rle_dec a b then true else false.
(** Python's [a == b], geodesy.py:27-308. *)
Definition req (a b : R) : bool := if Req_EM_T a b then true else false.

(** geodesy.py:70-74 [_degrees], [_radians]. *)
Definition degrees (r : R) : R := r * 180 / PI.
(** geodesy.py:73-74 [_radians]. *)
Definition radians (d : R) : R := d / 180 * PI.
(** geodesy.py:53-68 [unroll_rad], [reduce_rad], [unroll_deg], [reduce_deg]. *)
Definition unroll_rad (x : R) : R := pymod x (2 * PI).
(** geodesy.py:58-60 [reduce_rad]. *)
Definition reduce_rad (x : R) : R := pymod (x + PI) (2 * PI) - PI.
(** geodesy.py:62-64 [unroll_deg]. *)
Definition unroll_degr (x : R) : R := pymod x 360.
(** geodesy.py:66-68 [reduce_deg]. *)
Definition reduce_degr (x : R) : R := pymod (x + 180) 360 - 180.

(* ---- the plane *)
(** geodesy.py:81-83 [plane_distance]. *)
Definition plane_distance (x1 y1 x2 y2 : R) : R := sqrt ((x2 - x1) * (x2 - x1) + (y2 - y1) * (y2 - y1)).
(** geodesy.py:85-90 [plane_azimuth]; atan2(0, 0) is 0 (for positive zeros). *)
Definition plane_azimuth (x1 y1 x2 y2 : R) : R := atan2 0 (x2 - x1) (y2 - y1).
(** crs.py:175-187 [CartesianCRS.forward] (scalars, degrees). *)
Definition cart_forward (x y az dist : R) : R * R * R :=
  let a := az / 180 * PI in
  (x + dist * sin a, y + dist * cos a, unroll_rad (a + PI) * 180 / PI).
(** crs.py:189-199 [CartesianCRS.inverse] (scalars, degrees). *)
Definition cart_inverse (x1 y1 x2 y2 : R) : R * R * R :=
  let az := plane_azimuth x1 y1 x2 y2 in
  (az * 180 / PI, unroll_rad (az + PI) * 180 / PI, plane_distance x1 y1 x2 y2).

(* ---- positions on a sphere *)
(** The triples of geodesy.py:27-50. *)
Notation vec := (R * R * R)%type.
(** [v[0]], geodesy.py:27-50. *)
Definition vx (v : vec) : R := fst (fst v).
(** [v[1]], geodesy.py:27-50. *)
Definition vy (v : vec) : R := snd (fst v).
(** [v[2]], geodesy.py:27-50. *)
Definition vz (v : vec) : R := snd v.
(** geodesy.py:27-31 [cross]. *)
Definition cross (u v : vec) : vec :=
  (vy u * vz v - vz u * vy v, vz u * vx v - vx u * vz v, vx u * vy v - vy u * vx v).
(** geodesy.py:33-38 [sph2cart], also vectorgeo.pyx:131-138. *)
Definition sph2cart (lon lat : R) : vec :=
  let theta := 90 - lat in
  (sin (PI * theta / 180) * cos (PI * lon / 180), sin (PI * theta / 180) * sin (PI * lon / 180), cos (PI * theta / 180)).
(** geodesy.py:40-50 [cart2sph]; [None] is ZeroDivisionError. *)
Definition cart2sph (v : vec) : option (R * R) :=
  let '(x, y, z) := v in
  let theta := if rlt (1 / 10000) (Rabs z) then Some (atan (sqrt (x * x + y * y) / z))
               else if req (sqrt (x * x + y * y + z * z)) 0 then None
               else Some (acos (z / sqrt (x * x + y * y + z * z))) in
  let lon := if rlt (1 / 10000) (Rabs x) then Some (atan2 0 y x)
             else if req (sqrt (x * x + y * y)) 0 then None
             else Some (asin (y / sqrt (x * x + y * y))) in
  match theta, lon with
  | Some theta, Some lon => Some (lon * 180 / PI, (5 / 10 * PI - theta) * 180 / PI)
  | _, _ => None
  end.

(* ---- distances and azimuths *)
(** geodesy.py:96-109 [sphere_distance] with radius 1; angles in radians. *)
Definition sphere_distance (lon1 lat1 lon2 lat2 : R) : R :=
  let dx := Rabs (lon1 - lon2) in
  let dy := Rabs (lat1 - lat2) in
  if rlt (1 / 100) dx || rlt (1 / 100) dy then acos (sin lat1 * sin lat2 + cos lat1 * cos lat2 * cos dx)
  else 2 * asin (sqrt (sin (dy / 2) * sin (dy / 2) + cos lat1 * cos lat2 * (sin (dx / 2) * sin (dx / 2)))).
(** geodesy.py:111-113 [sphere_azimuth]: from degrees to radians; also vectorgeo.pyx:170-176. *)
Definition sphere_azimuth (lon1 lat1 lon2 lat2 : R) : R :=
  let dlon := lon2 - lon1 in
  atan2 0 (sin (radians dlon))
    (cos (radians lat1) * tan (radians lat2) - sin (radians lat1) * cos (radians dlon)).
(** vectorgeo.pyx:39-55 [dist_sph]: degrees. *)
Definition dist_sph (p q : rpt) : R :=
  let dx := Rabs (fst p - fst q) * PI / 180 in
  let dy := Rabs (snd p - snd q) * PI / 180 in
  let y0 := snd p * PI / 180 in
  let y1 := snd q * PI / 180 in
  if rlt (1 / 100) dx || rlt (1 / 100) dy then acos (sin y0 * sin y1 + cos y0 * cos y1 * cos dx)
  else 2 * asin (sqrt (sin (5 / 10 * dy) * sin (5 / 10 * dy) + cos y0 * cos y1 * (sin (5 / 10 * dx) * sin (5 / 10 * dx)))).

(* ---- intersection of great circles *)
(** geodesy.py:128-134 [isbetween_circular], over the reals. *)
Definition isbetween_circularr (x x0 x1 : R) : bool :=
  let '(x0, x1) := if rlt 180 (unroll_degr (x1 - x0)) then (x1, x0) else (x0, x1) in
  let x := reduce_degr (x - x0) in
  let x1 := reduce_degr (x1 - x0) in
  rle 0 x && rle x x1.
(** geodesy.py:136-140 [eulerpole]. *)
Definition eulerpole (p q : rpt) : vec := cross (sph2cart (fst p) (snd p)) (sph2cart (fst q) (snd q)).
(** geodesy.py:142-156 [check_in_segment_range]. *)
Definition check_in_segment_range (pt : rpt) (a b : rpt) : bool :=
  let lon_1 := unroll_degr (fst a) in
  let lon_2 := unroll_degr (fst b) in
  let dlon := Rabs (reduce_degr (lon_2 - lon_1)) in
  if rlt dlon (1 / 100000000) && rlt dlon (Rabs (snd a - snd b)) then
    rlt (Rabs (pymod (fst pt + 360) 360 - lon_1)) 180 && (rle (snd a) (snd pt) && rle (snd pt) (snd b))
  else isbetween_circularr (fst pt) lon_1 lon_2.
(** What geodesy.py:158-181 gives: a point, NoIntersection, or a ZeroDivisionError. *)
Inductive inter := Point_ (p : rpt) | NoIntersection | ZeroDivision.
(** geodesy.py:158-181 [intersection_spherical]. *)
Definition intersection_spherical (a b c d : rpt) : inter :=
  match cart2sph (cross (eulerpole a b) (eulerpole c d)) with
  | None => ZeroDivision
  | Some (lon, lat) =>
      let pt := (lon, lat) in
      let pt_antipodal := (pymod (lon + 360) 360 - 180, - lat) in
      if check_in_segment_range pt a b && check_in_segment_range pt c d then Point_ pt
      else if check_in_segment_range pt_antipodal a b && check_in_segment_range pt_antipodal c d then Point_ pt_antipodal
      else NoIntersection
  end.

(* ---- area *)
(** geodesy.py:222-266 [solve_vincenty]; [flat] is atan2 at the origin. *)
Definition solve_vincenty (flat a f lambda12 phi1 phi2 : R) : R * R * R :=
  let eccn2 := f * (2 - f) in
  let beta1 := atan ((1 - f) * tan phi1) in
  let beta2 := atan ((1 - f) * tan phi2) in
  let w := sqrt (1 - eccn2 * ((5 / 10 * (cos beta1 + cos beta2)) * (5 / 10 * (cos beta1 + cos beta2)))) in
  let omega12 := lambda12 / w in
  let z1_r := cos beta1 * sin beta2 - sin beta1 * cos beta2 * cos omega12 in
  let z1_i := cos beta2 * sin omega12 in
  let z1 := sqrt (z1_r * z1_r + z1_i * z1_i) in
  let sigma12 := atan2 flat z1 (sin beta1 * sin beta2 + cos beta1 * cos beta2 * cos omega12) in
  let z2_r := - sin beta1 * cos beta2 + cos beta1 * sin beta2 * cos omega12 in
  let z2_i := cos beta1 * sin omega12 in
  (atan2 flat z1_i z1_r, atan2 flat z2_i z2_r, a * w * sigma12).
(** geodesy.py:285-308 [_canonical_configuration] without the flags; see Lon_Model. *)
Definition canonicalr (x1 y1 x2 y2 : R) : R * R * R * R :=
  let '(y1, y2) := if rlt (Rabs y1) (Rabs y2) then (y2, y1) else (y1, y2) in
  let '(y1, y2) := if rlt 0 y1 then (- y1, - y2) else (y1, y2) in
  let x2 := reduce_degr (x2 - x1) in
  let x2 := if rlt x2 0 || rlt 180 x2 then - x2 else x2 in
  (0, y1, x2, y2).
(** geodesy.py:115-126 [spherical_area]. *)
Definition spherical_area (flat r x1 y1 x2 y2 : R) : R :=
  let reverse := if rlt x2 x1 then -1 else 1 in
  let '(x1, y1, x2, y2) := canonicalr x1 y1 x2 y2 in
  let '(alpha1, alpha2, _) := solve_vincenty flat r 0 (radians (x2 - x1)) (radians y1) (radians y2) in
  reverse * (r * r) * (alpha2 - alpha1).
(** geometry.py:1117-1129, 1143 [Polygon.area] for spherical systems, of the ring: the sum
    over the edges, and its absolute value. *)
Fixpoint area_sum (flat r : R) (p : rpt) (l : list rpt) : R :=
  match l with
  | [] => 0
  | q :: l' => spherical_area flat r (fst p) (snd p) (fst q) (snd q) + area_sum flat r q l'
  end.
(** geometry.py:1117-1129, 1143 [Polygon.area] for spherical systems. *)
Definition polygon_area_sph (flat r : R) (l : list rpt) : R :=
  match l with [] => 0 | v :: l' => Rabs (area_sum flat r v (l' ++ [v])) end.

(* ---- bounding latitudes *)
Definition rsign (a : R) : bool := rle 0 a.       (* vectorgeo.pyx:57-62 [fsign] is 1 *)
(** vectorgeo.pyx:78, 88-89, 97-98: [fabs((az + pi) % (2*pi) - pi)]. *)
Definition folded (az : R) : R := Rabs (pymod (az + PI) (2 * PI) - PI).
(** vectorgeo.pyx:64-106 [bndlat_sph]; [None] is the return value 1. *)
Definition bndlat_sph (p q : rpt) : option (R * R) :=
  let dlam := (fst q - fst p) * PI / 180 in
  let phi0 := snd p * PI / 180 in
  let phi1 := snd q * PI / 180 in
  let faz := atan2 0 (sin dlam * cos phi1) (cos phi0 * sin phi1 - sin phi0 * cos phi1 * cos dlam) in
  let baz := atan2 0 (sin (- dlam) * cos phi0) (cos phi1 * sin phi0 - sin phi1 * cos phi0 * cos (- dlam)) in
  if req dlam 0 && req phi0 phi1 then None
  else if req dlam 0 || xorb (rsign (snd p)) (rsign (snd q)) then Some (fminr (snd p) (snd q), fmaxr (snd p) (snd q))
  else if rsign (snd p) then
    Some (fminr phi0 phi1 * 180 / PI,
          if rlt (folded faz) (5 / 10 * PI) && rlt (folded baz) (5 / 10 * PI)
          then acos (Rabs (sin faz * cos phi0)) * 180 / PI else fmaxr phi0 phi1 * 180 / PI)
  else
    Some (if rlt (5 / 10 * PI) (folded faz) && rlt (5 / 10 * PI) (folded baz)
          then - acos (Rabs (sin faz * cos phi0)) * 180 / PI else fminr phi0 phi1 * 180 / PI,
          fmaxr phi0 phi1 * 180 / PI).
