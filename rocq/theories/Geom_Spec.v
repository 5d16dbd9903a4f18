(** Vocabulary for the planar geometry properties, said of vertex lists alone. *)
From Coq Require Import List ZArith QArith.
From Verif Require Import Geom_Model.
Import ListNotations.
Open Scope Q_scope.

Notation pt := (Q * Q)%type.
Definition same (p q : pt) : Prop := fst p == fst q /\ snd p == snd q.

(** [x0, y0, x1, y1] is the smallest box with all of [l] in it. *)
Definition covers (x0 y0 x1 y1 : Q) (p : pt) : Prop := x0 <= fst p <= x1 /\ y0 <= snd p <= y1.
Definition tight_box (x0 y0 x1 y1 : Q) (l : list pt) : Prop :=
  (forall p, In p l -> covers x0 y0 x1 y1 p) /\
  (exists p, In p l /\ fst p == x0) /\ (exists p, In p l /\ snd p == y0) /\
  (exists p, In p l /\ fst p == x1) /\ (exists p, In p l /\ snd p == y1).

(** Sum of [f] over the edges of the path [a, l], and over the edges of the ring
    [l], the edge from the last vertex to the first included. *)
Fixpoint path_sum (f : pt -> pt -> Q) (a : pt) (l : list pt) : Q :=
  match l with [] => 0 | b :: l' => f a b + path_sum f b l' end.
Definition ring_sum (f : pt -> pt -> Q) (l : list pt) : Q :=
  match l with [] => 0 | v :: l' => path_sum f v (l' ++ [v]) end.

(** Area of the triangle [o, a, b], positive if it winds counterclockwise. *)
Definition tri (o a b : pt) : Q :=
  (1 # 2) * ((fst a - fst o) * (snd b - snd o) - (fst b - fst o) * (snd a - snd o)).
(** Area of a ring as a sum of such triangles with a common corner [o]. *)
Definition signed_area (o : pt) (l : list pt) : Q := ring_sum (tri o) l.
(** Moment of area: each triangle's area at its centre. *)
Definition moment_x (o : pt) (l : list pt) : Q :=
  ring_sum (fun a b => tri o a b * ((fst o + fst a + fst b) / 3)) l.
Definition moment_y (o : pt) (l : list pt) : Q :=
  ring_sum (fun a b => tri o a b * ((snd o + snd a + snd b) / 3)) l.

(** Affine maps of the plane. *)
Definition affine (a b c d e f : Q) (p : pt) : pt :=
  (a * fst p + b * snd p + c, d * fst p + e * snd p + f).
Definition translate (u v : Q) (p : pt) : pt := (fst p + u, snd p + v).
Definition affine3 (a b c d e f g h i j k l : Q) (p : Q * Q * Q) : Q * Q * Q :=
  let '(x, y, z) := p in
  (a * x + b * y + c * z + d, e * x + f * y + g * z + h, i * x + j * y + k * z + l).
Definition same3 (p q : Q * Q * Q) : Prop := same (fst p) (fst q) /\ snd p == snd q.

(** The [i]-th edge of a path or ring joins [a] to [b]. *)
Definition path_edge {A} (l : list A) (i : nat) (a b : A) : Prop :=
  nth_error l i = Some a /\ nth_error l (S i) = Some b.
Definition ring_edge {A} (l : list A) (i : nat) (a b : A) : Prop :=
  nth_error l i = Some a /\ nth_error l (if Nat.eqb (S i) (length l) then 0%nat else S i) = Some b.

(** The [i]-th vertex with its third coordinate, if any. *)
Definition nth_v (v : verts) (i : nat) : option (Q * Q * option Q) :=
  match v with
  | V2 l => match nth_error l i with Some p => Some (p, None) | None => None end
  | V3 l => match nth_error l i with Some p => Some (fst p, Some (snd p)) | None => None end
  end.
(** [s] is a line of two vertices, the [i]-th and [j]-th of [g]. *)
Definition seg_of (P D C : Type) (g s : geom P D C) (i j : nat) : Prop :=
  gkind _ _ _ s = KLine /\ gprops _ _ _ s = gprops _ _ _ g /\ gcrs _ _ _ s = gcrs _ _ _ g /\
  nverts (gverts _ _ _ s) = 2%nat /\
  exists a b, nth_v (gverts _ _ _ g) i = Some a /\ nth_v (gverts _ _ _ g) j = Some b /\
    nth_v (gverts _ _ _ s) 0 = Some a /\ nth_v (gverts _ _ _ s) 1 = Some b.
