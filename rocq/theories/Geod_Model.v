(** Model of the geodesy on an ellipsoid: karta/geodesy.py [ellipsoidal_forward],
    [ellipsoidal_inverse], [ellipsoidal_area] and their helpers, and [Polygon.area] for
    geographical systems that are not spheres.  Numbers are reals; rounding is not modelled.
    The radii are taken to be positive, so that the flattening and the eccentricities can be
    computed; tan is not defined at the poles.  [flat] is atan2 at the origin. *)
From Coq Require Import List ZArith Reals Bool Arith.
From Verif Require Import Geom_Model GeomR_Model Sphere_Model.
From Verif Require Brent_Model.
Import ListNotations.
Open Scope R_scope.

(** What a call does: returns a value or raises. geodesy.py:187-731. *)
Inductive error := ZeroDivisionError | ValueError | RuntimeError | UnboundLocalError.
(** A value or one of the exceptions of geodesy.py:187-731. *)
Inductive outcome (A : Type) := Done (v : A) | Raises (e : error).
Arguments Done {A} v. Arguments Raises {A} e.
(** Statements one after the other (geodesy.py:187-731): an exception ends the call. *)
Definition andthen {A B} (r : outcome A) (k : A -> outcome B) : outcome B :=
  match r with Done v => k v | Raises e => Raises e end.

(* ---- series *)
(** geodesy.py:368, 380, 404-405 and the like: [sum(c*sin(2*(i+1)*s) for i,c in enumerate(cs))]. *)
Fixpoint sines (i : nat) (cs : list R) (s : R) : R :=
  match cs with [] => 0 | c :: cs' => c * sin (2 * (INR i + 1) * s) + sines (S i) cs' s end.
(** geodesy.py:690-691: [sum(c*cos((2*i+1)*s) for i,c in enumerate(cs))]. *)
Fixpoint cosines (i : nat) (cs : list R) (s : R) : R :=
  match cs with [] => 0 | c :: cs' => c * cos ((2 * INR i + 1) * s) + cosines (S i) cs' s end.
(** geodesy.py:360 (also 563, 607). *)
Definition A1 (eps : R) : R := 1 / (1 - eps) * (1 + eps ^ 2 / 4 + eps ^ 4 / 64 + eps ^ 6 / 256).
(** geodesy.py:361-366 (also 564-569, 608-613). *)
Definition C1 (eps : R) : list R :=
  [- 1 / 2 * eps + 3 / 16 * eps ^ 3 - 1 / 32 * eps ^ 5;
   - 1 / 16 * eps ^ 2 + 1 / 32 * eps ^ 4 - 9 / 2048 * eps ^ 6;
   - 1 / 48 * eps ^ 3 + 3 / 256 * eps ^ 5;
   - 5 / 512 * eps ^ 4 + 3 / 512 * eps ^ 6;
   - 7 / 1280 * eps ^ 5;
   - 7 / 2048 * eps ^ 6].
(** geodesy.py:373-378. *)
Definition C1p (eps : R) : list R :=
  [eps / 2 - 9 / 32 * eps ^ 3 + 205 / 1536 * eps ^ 5;
   5 / 16 * eps ^ 2 - 37 / 96 * eps ^ 4 + 1335 / 4096 * eps ^ 6;
   29 / 96 * eps ^ 3 - 75 / 128 * eps ^ 5;
   539 / 1536 * eps ^ 4 - 2391 / 2560 * eps ^ 6;
   3467 / 7680 * eps ^ 5;
   38081 / 61440 * eps ^ 6].
(** geodesy.py:574. *)
Definition A2 (eps : R) : R := (1 - eps) * (1 + 1 / 4 * eps ^ 2 + 9 / 64 * eps ^ 4 + 25 / 256 * eps ^ 6).
(** geodesy.py:575-580. *)
Definition C2 (eps : R) : list R :=
  [1 / 2 * eps + 1 / 16 * eps ^ 3 + 1 / 32 * eps ^ 5;
   3 / 16 * eps ^ 2 + 1 / 32 * eps ^ 4 + 35 / 2048 * eps ^ 6;
   5 / 48 * eps ^ 3 + 5 / 256 * eps ^ 5;
   35 / 512 * eps ^ 4 + 7 / 512 * eps ^ 6;
   63 / 1280 * eps ^ 5;
   77 / 2048 * eps ^ 6].
(** geodesy.py:391-393 (also 540-542). *)
Definition A3 (n eps : R) : R :=
  1 - (1 / 2 - n / 2) * eps - (1 / 4 + n / 8 - 3 * n ^ 2 / 8) * eps ^ 2
  - (1 / 16 + 3 * n / 16 + n ^ 2 / 16) * eps ^ 3 - (3 / 64 + n / 32) * eps ^ 4 - 3 / 128 * eps ^ 5.
(** geodesy.py:395-402 (also 544-551). *)
Definition C3 (n eps : R) : list R :=
  [(1 / 4 - n / 4) * eps + (1 / 8 - n ^ 2 / 8) * eps ^ 2 + (3 / 64 + 3 * n / 64 - n ^ 2 / 64) * eps ^ 3
     + (5 / 128 + n / 64) * eps ^ 4 + 3 / 128 * eps ^ 5;
   (1 / 16 - 3 * n / 32 + n ^ 2 / 32) * eps ^ 2 + (3 / 64 - n / 32 - 3 * n ^ 2 / 64) * eps ^ 3
     + (3 / 128 + n / 128) * eps ^ 4 + 5 / 256 * eps ^ 5;
   (5 / 192 - 3 * n / 64 + 5 * n ^ 2 / 192) * eps ^ 3 + (3 / 128 - 5 * n / 192) * eps ^ 4 + 7 / 512 * eps ^ 5;
   (7 / 512 - 7 * n / 256) * eps ^ 4 + 7 * eps ^ 5 / 512;
   21 * eps ^ 5 / 2560].
(** geodesy.py:368, 582-583, 404-405: A * (s + sum(...)). *)
Definition I1 (eps s : R) : R := A1 eps * (s + sines 0 (C1 eps) s).
(** geodesy.py:582-583, the second integral. *)
Definition I2 (eps s : R) : R := A2 eps * (s + sines 0 (C2 eps) s).
(** geodesy.py:404-405, 553-554, the third integral. *)
Definition I3 (n eps s : R) : R := A3 n eps * (s + sines 0 (C3 n eps) s).

(* ---- triangles *)
(** geodesy.py:340 (also 476, 641). *)
Definition flattening (a b : R) : R := (a - b) / a.
(** geodesy.py:346 (also 478-479, 649-650): the reduced latitude. *)
Definition reduced (f phi : R) : R := atan ((1 - f) * tan phi).
(** geodesy.py:354-355 (also 481-482). *)
Definition second_eccn2 (f : R) : R := f * (2 - f) / (1 - f * (2 - f)).
(** geodesy.py:358-359 (also 535-536, 603-604). *)
Definition eps_of (k2 : R) : R := (sqrt (1 + k2) - 1) / (sqrt (1 + k2) + 1).
(** geodesy.py:347-348 (also 488-489, 528-529, 652-653). *)
Definition azimuth0 (flat alpha1 beta1 : R) : R :=
  atan2 flat (sin alpha1 * cos beta1) (sqrt (cos alpha1 ^ 2 + (sin alpha1 * sin beta1) ^ 2)).
(** geodesy.py:268-272 [_solve_NEA]. *)
Definition solve_NEA (flat alpha0 alpha1 beta1 : R) : R * R :=
  let sigma1 := atan2 flat (sin beta1) (cos alpha1 * cos beta1) in
  (sigma1, atan2 flat (sin alpha0 * sin sigma1) (cos sigma1)).
(** geodesy.py:274-283 [_solve_NEB]; math.sqrt and math.acos outside of their domains raise
    ValueError, which is caught, and so does math.asin, which is not. *)
Definition solve_NEB (flat alpha0 alpha1 beta1 beta2 : R) : outcome (R * R * R) :=
  let q := cos alpha1 ^ 2 * cos beta1 ^ 2 + (cos beta2 ^ 2 - cos beta1 ^ 2) in
  let c := sqrt q / cos beta2 in
  let s := sin alpha0 / cos beta2 in
  andthen (if rle 0 q && rle (-1) c && rle c 1 then Done (acos c)
           else if rle (-1) s && rle s 1 then Done (asin s) else Raises ValueError) (fun alpha2 =>
  let sigma2 := atan2 flat (sin beta2) (cos alpha2 * cos beta2) in
  Done (alpha2, sigma2, atan2 flat (sin alpha0 * sin sigma2) (cos sigma2))).

(* ---- the direct problem *)
(** geodesy.py:310-419 [ellipsoidal_forward]. *)
Definition forward (flat a b x y azimuth distance : R) : R * R * R :=
  let f := flattening a b in
  let phi1 := PI * y / 180 in
  let alpha1 := PI * azimuth / 180 in
  let beta1 := reduced f phi1 in
  let alpha0 := azimuth0 flat alpha1 beta1 in
  let '(sigma1, omega1) := solve_NEA flat alpha0 alpha1 beta1 in
  let k2 := second_eccn2 f * cos alpha0 ^ 2 in
  let eps := eps_of k2 in
  let s2 := I1 eps sigma1 * b + distance in
  let tau2 := s2 / (b * A1 eps) in
  let sigma2 := tau2 + sines 0 (C1p eps) tau2 in
  let alpha2 := atan2 flat (sin alpha0) (cos alpha0 * cos sigma2) in
  let beta2 := atan2 flat (cos alpha0 * sin sigma2) (sqrt ((cos alpha0 * cos sigma2) ^ 2 + sin alpha0 ^ 2)) in
  let omega2 := atan2 flat (sin alpha0 * sin sigma2) (cos sigma2) in
  let n := f / (2 - f) in
  let lambda1 := omega1 - f * sin alpha0 * I3 n eps sigma1 in
  let lambda2 := omega2 - f * sin alpha0 * I3 n eps sigma2 in
  let lambda12 := lambda2 - lambda1 in
  let phi2 := atan (tan beta2 / (1 - f)) in
  let x2 := x + lambda12 * 180 / PI in
  let x2 := if rle 180 x2 then x2 - 360 else x2 in
  (pymod (x2 + 180) 360 - 180, phi2 * 180 / PI, pymod ((alpha2 + PI) * 180 / PI + 180) 360 - 180).

(* ---- the inverse problem *)
(** geodesy.py:187-220 [solve_astroid]. *)
Definition solve_astroid (flat a f lambda12 phi1 phi2 : R) : outcome R :=
  let beta1 := reduced f phi1 in
  let beta2 := reduced f phi2 in
  let delta := f * a * PI * cos beta1 ^ 2 in
  if req delta 0 then Raises ZeroDivisionError else
  let x := (lambda12 - PI) * (a * cos beta1) / delta in
  let y := (beta2 + beta1) * a / delta in
  match Brent_Model.fzero_brent (1 / 1000000) (PI * a)
          (fun mu => mu ^ 4 + 2 * mu ^ 3 + (1 - x ^ 2 - y ^ 2) * mu ^ 2 - 2 * y ^ 2 * mu - y ^ 2) (1 / 1000000000000) with
  | Brent_Model.Root mu =>
    if req (1 + mu) 0 || req mu 0 then Raises ZeroDivisionError else Done (atan2 flat (- x / (1 + mu)) (y / mu))
  | Brent_Model.NotBracketed => Raises ValueError
  | Brent_Model.TooManyIterations => Raises RuntimeError
  | Brent_Model.ZeroDivision => Raises ZeroDivisionError
  end.
(** geodesy.py:285-308 [_canonical_configuration]: the flags yflip, xflip and ysignswap. *)
Definition canonicalf (x1 y1 x2 y2 : R) : bool * bool * bool * (R * R * R * R) :=
  let yflip := rlt (Rabs y1) (Rabs y2) in
  let '(y1, y2) := if yflip then (y2, y1) else (y1, y2) in
  let ysignswap := rlt 0 y1 in
  let '(y1, y2) := if ysignswap then (- y1, - y2) else (y1, y2) in
  let x2 := reduce_degr (x2 - x1) in
  let xflip := rlt x2 0 || rlt 180 x2 in
  (yflip, xflip, ysignswap, (0, y1, if xflip then - x2 else x2, y2)).
(** alpha0, sigma1, alpha2 and sigma2 of the last pass. geodesy.py:602-605 uses them after the
    loop. *)
Record solved := mkSolved { s_alpha0 : R; s_sigma1 : R; s_alpha2 : R; s_sigma2 : R }.
(** geodesy.py:527-593, one pass of the loop: the triangles, dlambda12 and the next alpha1. *)
Definition newton_step (flat a b f lambda12 beta1 beta2 tol alpha1 : R) : outcome (solved * R * R) :=
  let alpha0 := azimuth0 flat alpha1 beta1 in
  let '(sigma1, omega1) := solve_NEA flat alpha0 alpha1 beta1 in
  andthen (solve_NEB flat alpha0 alpha1 beta1 beta2) (fun '(alpha2, sigma2, omega2) =>
  let k2 := second_eccn2 f * cos alpha0 ^ 2 in
  let eps := eps_of k2 in
  let n := f / (2 - f) in
  let lambda1 := omega1 - f * sin alpha0 * I3 n eps sigma1 in
  let lambda2 := omega2 - f * sin alpha0 * I3 n eps sigma2 in
  let dlambda12 := lambda2 - lambda1 - lambda12 in
  let now := mkSolved alpha0 sigma1 alpha2 sigma2 in
  if rlt tol (Rabs dlambda12) then
    let Js1 := I1 eps sigma1 - I2 eps sigma1 in
    let Js2 := I1 eps sigma2 - I2 eps sigma2 in
    let m12 := b * (sqrt (1 + k2 * sin sigma2 ^ 2) * cos sigma1 * sin sigma2
                    - sqrt (1 + k2 * sin sigma1 ^ 2) * sin sigma1 * cos sigma2
                    - cos sigma1 * cos sigma2 * (Js2 - Js1)) in
    let den := a * cos alpha2 * cos beta2 in
    if req den 0 then Raises ZeroDivisionError
    else if req (m12 / den) 0 then Raises ZeroDivisionError
    else Done (now, dlambda12, pymod (alpha1 + - dlambda12 / (m12 / den)) (2 * PI))
  else Done (now, dlambda12, alpha1)).
(** geodesy.py:523-600, the loop; [n] is the number of passes left.  The boolean says that
    the hundredth pass was made, after which a warning is given. *)
Fixpoint newton (flat a b f lambda12 beta1 beta2 tol : R) (n : nat) (alpha1 dlambda12 : R) (last : option solved)
    : outcome (R * solved * bool) :=
  let stop w := match last with Some s => Done (alpha1, s, w) | None => Raises UnboundLocalError end in
  match n with
  | O => stop true
  | S n' =>
    if rlt tol (Rabs dlambda12) then
      andthen (newton_step flat a b f lambda12 beta1 beta2 tol alpha1) (fun '(now, d, alpha1') =>
      newton flat a b f lambda12 beta1 beta2 tol n' alpha1' d (Some now))
    else stop false
  end.
(** geodesy.py:474-600: alpha1 and the triangles, for coordinates in the canonical
    configuration. *)
Definition solve_inverse (flat a b y1 x2 y2 tol : R) : outcome (R * solved * bool) :=
  let phi1 := y1 * PI / 180 in
  let phi2 := y2 * PI / 180 in
  let lambda12 := (x2 - 0) * PI / 180 in
  let f := flattening a b in
  let beta1 := reduced f phi1 in
  let beta2 := reduced f phi2 in
  if req 0 x2 then
    let alpha0 := azimuth0 flat 0 beta1 in
    let '(sigma1, _) := solve_NEA flat alpha0 0 beta1 in
    andthen (solve_NEB flat alpha0 0 beta1 beta2) (fun '(_, sigma2, _) =>
    Done (0, mkSolved alpha0 sigma1 0 sigma2, false))
  else if rlt (Rabs (pymod lambda12 (2 * PI) - PI)) (1 / 1000000000000) then
    let '(alpha0, alpha1, alpha2) := if rlt 0 (y1 + y2) then (0, 0, PI) else (PI, PI, 0) in
    let '(sigma1, _) := solve_NEA flat alpha0 alpha1 beta1 in
    andthen (solve_NEB flat alpha0 alpha1 beta1 beta2) (fun '(_, sigma2, _) =>
    Done (alpha1, mkSolved alpha0 sigma1 alpha2 sigma2, false))
  else
    andthen (if rlt (87 / 10000) (Rabs (lambda12 - PI)) && rlt (87 / 10000) (Rabs (phi1 + phi2))
             then let '(alpha1, _, _) := solve_vincenty flat a f lambda12 phi1 phi2 in Done alpha1
             else solve_astroid flat a f lambda12 phi1 phi2) (fun alpha1 =>
    newton flat a b f lambda12 beta1 beta2 tol 100 alpha1 (tol + 1) None).
(** geodesy.py:421-430 [_ellipsoidal_inverse_equatorial]; see Lon_Model. *)
Definition inverse_equatorial (a x1 x2 : R) : R * R * R :=
  let diff := pymod (x2 - x1 + 180) 360 - 180 in
  let '(az, baz) := if rlt diff 0 then (-90, 90) else (90, -90) in
  (az, baz, 2 * PI * a * Rabs (x1 - x2) / 360).
(** geodesy.py:602-635: the distance, and the azimuths of the original configuration. *)
Definition finish (a b : R) (flags : bool * bool * bool) (r : R * solved) : R * R * R :=
  let '(yflip, xflip, ysignswap) := flags in
  let '(alpha1, s) := r in
  let k2 := second_eccn2 (flattening a b) * cos (s_alpha0 s) ^ 2 in
  let eps := eps_of k2 in
  let s12 := I1 eps (s_sigma2 s) * b - I1 eps (s_sigma1 s) * b in
  let alpha2 := s_alpha2 s in
  let '(alpha1, alpha2) := if xflip then (- alpha1, - alpha2) else (alpha1, alpha2) in
  let '(alpha1, alpha2) := if yflip then (PI - alpha2, PI - alpha1) else (alpha1, alpha2) in
  let '(alpha1, alpha2) := if ysignswap then (PI - alpha1, PI - alpha2) else (alpha1, alpha2) in
  (pymod (alpha1 * 180 / PI + 180) 360 - 180, pymod ((alpha2 + PI) * 180 / PI + 180) 360 - 180, s12).
(** geodesy.py:432-635 [ellipsoidal_inverse]; the boolean is the warning of a convergence
    failure. *)
Definition inverse (flat a b x1 y1 x2 y2 tol : R) : outcome (R * R * R * bool) :=
  if req y1 y2 && req y2 0 then Done (inverse_equatorial a x1 x2, false)
  else
    let '(flags, (_, y1, x2, y2)) := canonicalf x1 y1 x2 y2 in
    andthen (solve_inverse flat a b y1 x2 y2 tol) (fun '(r, w) => Done (finish a b flags r, w)).

(* ---- areas *)
(** math.atanh. geodesy.py:647. *)
Definition atanh (x : R) : R := 1 / 2 * ln ((1 + x) / (1 - x)).
(** geodesy.py:667-687. *)
Definition C4 (ep2 k2 : R) : list R :=
  [(2 / 3 - ep2 / 15 + 4 * ep2 ^ 2 / 105 - 8 * ep2 ^ 3 / 315 + 64 * ep2 ^ 4 / 3465 - 128 * ep2 ^ 5 / 9009)
     - (1 / 20 - ep2 / 35 + 2 * ep2 ^ 2 / 105 - 16 * ep2 ^ 3 / 1155 + 32 * ep2 ^ 4 / 3003) * k2
     + (1 / 42 - ep2 / 63 + 8 * ep2 ^ 2 / 693 - 90 * ep2 ^ 3 / 9009) * k2 ^ 2
     - (1 / 72 - ep2 / 99 + 10 * ep2 ^ 2 / 1287) * k2 ^ 3
     + (1 / 110 - ep2 / 143) * k2 ^ 4 - k2 ^ 5 / 156;
   (1 / 180 - ep2 / 315 + 2 * ep2 ^ 2 / 945 - 16 * ep2 ^ 3 / 10395 + 32 * ep2 ^ 4 / 27027) * k2
     - (1 / 252 - ep2 / 378 + 4 * ep2 ^ 2 / 2079 - 40 * ep2 ^ 3 / 27027) * k2 ^ 2
     + (1 / 360 - ep2 / 495 + 2 * ep2 ^ 2 / 1287) * k2 ^ 3
     - (1 / 495 - 2 * ep2 / 1287) * k2 ^ 4 + 5 * k2 ^ 5 / 3276;
   (1 / 2100 - ep2 / 3150 + 4 * ep2 ^ 2 / 17325 - 8 * ep2 ^ 3 / 45045) * k2 ^ 2
     - (1 / 1800 - ep2 / 2475 + 2 * ep2 ^ 2 / 6435) * k2 ^ 3
     + (1 / 1925 - 2 * ep2 / 5005) * k2 ^ 4 - k2 ^ 5 / 2184;
   (1 / 17640 - ep2 / 24255 + 2 * ep2 ^ 2 / 63063) * k2 ^ 3
     - (1 / 10780 - ep2 / 14014) * k2 ^ 4 + 5 * k2 ^ 5 / 45864;
   (1 / 124740 - ep2 / 162162) * k2 ^ 4 - 1 * k2 ^ 5 / 58968;
   k2 ^ 5 / 792792].
(** geodesy.py:637-695 [_ellipsoidal_area]; alpha2 and lambda12 are not used.  math.sqrt of a
    negative number (b > a) raises ValueError, atanh(e)/e of a sphere ZeroDivisionError. *)
Definition area_canonical (flat a b phi1 phi2 alpha1 : R) : outcome R :=
  let f := flattening a b in
  let e2 := f * (2 - f) in
  let ep2 := second_eccn2 f in
  if rlt e2 0 then Raises ValueError else
  let e := sqrt e2 in
  if req e 0 then Raises ZeroDivisionError else
  let c := sqrt (a ^ 2 / 2 + b ^ 2 / 2 * atanh e / e) in
  let beta1 := reduced f phi1 in
  let beta2 := reduced f phi2 in
  let alpha0 := azimuth0 flat alpha1 beta1 in
  let '(sigma1, omega1) := solve_NEA flat alpha0 alpha1 beta1 in
  andthen (solve_NEB flat alpha0 alpha1 beta1 beta2) (fun '(_, sigma2, omega2) =>
  let omega12 := omega2 - omega1 in
  let alpha12 := 2 * atan (sin (5 / 10 * beta1 + 5 / 10 * beta2) / cos (5 / 10 * beta2 - 5 / 10 * beta1) * tan (5 / 10 * omega12)) in
  let k2 := ep2 * cos alpha0 ^ 2 in
  Done (c ^ 2 * alpha12 + e ^ 2 * a ^ 2 * cos alpha0 * sin alpha0
        * (cosines 0 (C4 ep2 k2) sigma2 - cosines 0 (C4 ep2 k2) sigma1))).
(** geodesy.py:697-731 [ellipsoidal_area]. *)
Definition area_edge (flat a b x1 y1 x2 y2 : R) : outcome R :=
  let reverse := if rlt x2 x1 then -1 else 1 in
  let '(_, (x1, y1, x2, y2)) := canonicalf x1 y1 x2 y2 in
  andthen (inverse flat a b x1 y1 x2 y2 (1 / 1000000000000)) (fun '(az, _, _, _) =>
  andthen (area_canonical flat a b (y1 * PI / 180) (y2 * PI / 180) (az * PI / 180)) (fun v => Done (reverse * v))).
(** geometry.py:1120, 1130-1134, 1143 [Polygon.area] of the ring; the edges are those of
    geometry.py:1085-1091, the last vertex to the first one first. *)
Fixpoint edges_area (flat a b : R) (l : list (rpt * rpt)) : outcome R :=
  match l with
  | [] => Done 0
  | (p, q) :: l' => andthen (area_edge flat a b (fst p) (snd p) (fst q) (snd q)) (fun v =>
                    andthen (edges_area flat a b l') (fun w => Done (v + w)))
  end.
(** geometry.py:1085-1091 [segment_tuples] of a Polygon. *)
Definition ring_pairs (l : list rpt) : list (rpt * rpt) :=
  match l with [] => [] | v :: _ => combine (last l v :: l) l end.
(** geometry.py:1110-1143 [Polygon.area] of a ring without holes on an ellipsoid. *)
Definition polygon_area (flat a b : R) (l : list rpt) : outcome R :=
  andthen (edges_area flat a b (ring_pairs l)) (fun v => Done (Rabs v)).
