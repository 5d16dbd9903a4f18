(** Vocabulary for geodesics on an ellipsoid of revolution. *)
From Coq Require Import ZArith Reals.
From Coquelicot Require Import Coquelicot.
From Verif Require Import Sphere_Spec.
Open Scope R_scope.

(** The normal of the ellipse at (a cos beta, b sin beta) has the geographical latitude phi:
    tan beta = b / a * tan phi. *)
Definition reduced_latitude (a b phi beta : R) : Prop :=
  - (PI / 2) < phi < PI / 2 /\ - (PI / 2) < beta < PI / 2 /\ a * sin beta * cos phi = b * sin phi * cos beta.
(** A great circle of the auxiliary sphere that crosses the equator northwards with the azimuth
    whose sine and cosine are S and C: after an arc sigma from there the longitude has grown by
    omega, the latitude is beta and the azimuth is alpha. *)
Definition on_circle (S C sigma omega beta alpha : R) : Prop :=
  cos beta * cos omega = cos sigma /\ cos beta * sin omega = S * sin sigma /\ sin beta = C * sin sigma /\
  cos beta * sin alpha = S /\ cos beta * cos alpha = C * cos sigma.
(** The length of a geodesic of the ellipsoid between the arcs s1 and s2 of its great circle. *)
Definition speed (a b C s : R) : R := sqrt (b ^ 2 + (a ^ 2 - b ^ 2) * C ^ 2 * sin s ^ 2).
Definition geodesic_length (a b C s1 s2 : R) : R := RInt (speed a b C) s1 s2.
(** By how much the longitude on the ellipsoid grows less than that on the sphere. *)
Definition lag (a b S C s : R) : R := (a ^ 2 - b ^ 2) * S / (a * (a + speed a b C s)).
(** A geodesic from longitude l1, latitude p1 in direction a1 to l2, p2, where its direction is
    a2, of length d (Bessel's equations; longitudes are not reduced). *)
Definition geodesic (a b l1 p1 a1 l2 p2 a2 d : R) : Prop :=
  exists S C s1 s2 o1 o2 b1 b2,
    S ^ 2 + C ^ 2 = 1 /\ reduced_latitude a b p1 b1 /\ reduced_latitude a b p2 b2 /\
    on_circle S C s1 o1 b1 a1 /\ on_circle S C s2 o2 b2 a2 /\
    d = geodesic_length a b C s1 s2 /\ congr (l2 - l1) (o2 - o1 - RInt (lag a b S C) s1 s2).
(** Travelling a length d from latitude phi in direction az does not end closer than tol to a
    pole (poles are only met along meridians). *)
Definition misses_poles (a b phi az d tol : R) : Prop :=
  forall s1 o1 b1 (k : Z), reduced_latitude a b phi b1 -> on_circle 0 1 s1 o1 b1 az ->
    tol < Rabs (geodesic_length a b 1 s1 (PI / 2 + IZR k * PI) - d).
(** The third flattening of an ellipsoid. *)
Definition third (a b : R) : R := (a - b) / (a + b).
