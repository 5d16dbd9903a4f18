(** The exact values of doubles, and when a test can be trusted. *)
From Coq Require Import List ZArith QArith Qabs.
From Flocq Require Import Core IEEE754.BinarySingleNaN.
From Verif Require Import Geom_Spec Dbl_Model.
Import ListNotations.
Open Scope Q_scope.

(** The number that a finite double stands for. *)
Definition value (a : double) : Q :=
  match a with
  | B754_finite s m e _ => inject_Z (if s then Z.neg m else Z.pos m) * Qpower 2 e
  | _ => 0
  end.
Definition values (p : double * double) : Q * Q := (value (fst p), value (snd p)).
(** A number (no infinity, no NaN) of absolute value at most 2^k. *)
Definition upto (k : Z) (a : double) : Prop := is_finite a = true /\ Qabs (value a) <= Qpower 2 k.
Definition upto2 (k : Z) (p : double * double) : Prop := upto k (fst p) /\ upto k (snd p).
(** A multiple of 2^e, at most 2^k of them. *)
Definition raster (k e : Z) (a : double) : Prop :=
  is_finite a = true /\ exists n, value a == inject_Z n * Qpower 2 e /\ (Z.abs n <= 2 ^ k)%Z.
Definition raster2 (k e : Z) (p : double * double) : Prop := raster k e (fst p) /\ raster k e (snd p).

(** The point is far enough from the line through [a] and [b] for its side to be
    computed: by about 2^-51 of the size of the two products compared. *)
Definition clear_of (pt a b : Q * Q) : Prop :=
  let p := (fst b - fst a) * (snd pt - snd a) in
  let q := (fst pt - fst a) * (snd b - snd a) in
  (Qabs p + Qabs q) * Qpower 2 (-51) + Qpower 2 (-1074) < Qabs (p - q).
(** The edge reaches from one side of the level of the point to the other. *)
Definition at_level (pt a b : Q * Q) : Prop :=
  (snd a <= snd pt /\ snd pt < snd b) \/ (snd pt < snd a /\ snd b <= snd pt).

(** A cell size between 2^-200 and 2^200, of either sign. *)
Definition sized (a : double) : Prop :=
  is_finite a = true /\ Qpower 2 (-200) <= Qabs (value a) /\ Qabs (value a) <= Qpower 2 200.
Definition nought (a : double) : Prop := is_finite a = true /\ value a == 0.
(** A transform without rotation, its origin and cell sizes of reasonable magnitude. *)
Definition plain (T : transform) : Prop :=
  upto 300 (x0 T) /\ upto 300 (y0 T) /\ sized (dx T) /\ sized (dy T) /\ nought (sx T) /\ nought (sy T).
(** How far from the origin of coordinates, counted in cells. *)
Definition cells (a d : double) : Q := Qabs (value a) / Qabs (value d).
(** The computed [p] is the position of [a] along an axis with origin [o] and cell
    size [d], but for an error that grows with the distance from the origin of
    coordinates. *)
Definition located (a o d p : double) : Prop :=
  is_finite p = true /\
  Qabs (value p - ((value a - value o) / value d - (1 # 2))) <= Qpower 2 (-50) * (1 + cells a d + cells o d).
(** [a] is in the cell number [n] (from [o + n d] to [o + (n + 1) d]), further from
    the ends of the cell than that error. *)
Definition well_in (a o d : double) (n : Z) : Prop :=
  Qabs ((value a - value o) / value d - (inject_Z n + (1 # 2))) + Qpower 2 (-50) * (1 + cells a d + cells o d) < 1 # 2.
(** Within reach: fewer than 2^47 cells from the origin of coordinates. *)
Definition near (o d : double) (n : Z) : Prop := cells o d + inject_Z (Z.abs n) + 1 <= Qpower 2 47.
Definition int32 (n : Z) : Prop := (-2147483648 <= n < 2147483648)%Z.

(** How much a ring goes up and down, all edges together. *)
Definition climb (l : list (Q * Q)) : Q := ring_sum (fun a b => Qabs (snd b - snd a)) l.
