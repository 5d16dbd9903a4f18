(** Vocabulary for the sphere and for angles over the reals: unit vectors, the direction
    east and north, travelling along a great circle. *)
From Coq Require Import ZArith Reals.
Open Scope R_scope.

Notation v3 := (R * R * R)%type.
Definition rad (d : R) : R := d * PI / 180.
(** The unit vector of a position; longitude and latitude in radians. *)
Definition upos (lam phi : R) : v3 := (cos phi * cos lam, cos phi * sin lam, sin phi).
(** The same in degrees. *)
Definition pos (lon lat : R) : v3 := upos (rad lon) (rad lat).
Definition dot (u v : v3) : R := fst (fst u) * fst (fst v) + snd (fst u) * snd (fst v) + snd u * snd v.
Definition vadd (u v : v3) : v3 := (fst (fst u) + fst (fst v), snd (fst u) + snd (fst v), snd u + snd v).
Definition vscale (k : R) (u : v3) : v3 := (k * fst (fst u), k * snd (fst u), k * snd u).
Definition vprod (u v : v3) : v3 :=
  (snd (fst u) * snd v - snd u * snd (fst v), snd u * fst (fst v) - fst (fst u) * snd v,
   fst (fst u) * snd (fst v) - snd (fst u) * fst (fst v)).
(** Unit vectors to the east and to the north at a position. *)
Definition east (lam : R) : v3 := (- sin lam, cos lam, 0).
Definition north (lam phi : R) : v3 := (- sin phi * cos lam, - sin phi * sin lam, cos phi).
(** Starting at a position in the compass direction [az] along a great circle for an arc [d]. *)
Definition travel (lam phi az d : R) : v3 :=
  vadd (vscale (cos d) (upos lam phi))
       (vscale (sin d) (vadd (vscale (sin az) (east lam)) (vscale (cos az) (north lam phi)))).
(** [d] is the angle between two directions. *)
Definition central_angle (u v : v3) (d : R) : Prop := 0 <= d <= PI /\ cos d = dot u v.
(** The unit vectors on the shorter great circle arc from [u] to [v]. *)
Definition on_arc3 (u v p : v3) : Prop :=
  dot p p = 1 /\ exists s t, 0 <= s /\ 0 <= t /\ p = vadd (vscale s u) (vscale t v).
(** Equal up to full turns, in degrees. *)
Definition congd (x y : R) : Prop := exists k : Z, x = y + 360 * IZR k.
Definition congr (x y : R) : Prop := exists k : Z, x = y + 2 * PI * IZR k.
(** Longitudes on the shorter way between two others. *)
Definition lon_between (x x0 x1 : R) : Prop :=
  exists s d, 0 <= s <= d /\ d < 180 /\ ((congd x1 (x0 + d) /\ congd x (x0 + s)) \/ (congd x0 (x1 + d) /\ congd x (x1 + s))).
(** Two positions whose longitudes are not the same nor opposite. *)
Definition apart (a b : R * R) : Prop :=
  exists d, 1 / 100000000 <= d < 180 /\ (congd (fst b) (fst a + d) \/ congd (fst a) (fst b + d)).
(** The direction in which two great circles cross (up to sign and length). *)
Definition crossing (a b c d : R * R) : v3 :=
  vprod (vprod (pos (fst a) (snd a)) (pos (fst b) (snd b))) (vprod (pos (fst c) (snd c)) (pos (fst d) (snd d))).
(** Where the code finds the direction of the crossing right. *)
Definition good_crossing (n : v3) : Prop :=
  (Rabs (snd n) <= 1 / 10000 \/ 0 < snd n) /\ (1 / 10000 < Rabs (fst (fst n)) \/ 0 <= fst (fst n)) /\ (fst (fst n) <> 0 \/ snd (fst n) <> 0).
(** Two latitudes in one hemisphere. *)
Definition samesphere (a b : R) : Prop := (0 <= a /\ 0 <= b) \/ (a < 0 /\ b < 0).
