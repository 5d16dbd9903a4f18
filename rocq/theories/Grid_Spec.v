(** Specification of georeferenced grids. *)
From Coq Require Import List ZArith QArith Bool.
From Verif Require Import Band_Model Band_Spec Band_IndexModel Band_IndexSpec Grid_Model.
Import ListNotations.
Open Scope Q_scope.

(** Equality of points and boxes with rational coordinates. *)
Definition peq (p q : Q * Q) : Prop := fst p == fst q /\ snd p == snd q.

(** The documented map from a (fractional) row u and column v, counted from the
    outer corner of cell (0, 0), to world coordinates.  Cell (i, j) is the image
    of i <= u <= i+1, j <= v <= j+1. *)
Definition world (T : transform) (u v : Q) : Q * Q :=
  (x0 T + v * dx T + u * sx T, y0 T + u * dy T + v * sy T).

Definition centre (T : transform) (i j : Z) : Q * Q :=
  world T (inject_Z i + (1 # 2)) (inject_Z j + (1 # 2)).

(** The transform can be inverted. *)
Definition invertible (T : transform) : Prop := ~ dx T * dy T - sx T * sy T == 0.

(** The map of cell indices to the world is that of [T] from (i0, j0) on. *)
Definition same_place (T' T : transform) (i0 j0 : Z) : Prop :=
  forall u v, peq (world T' u v) (world T (u + inject_Z i0) (v + inject_Z j0)).

(** [g] is a grid with transform [T], H rows, W columns, nb bands, the values
    [F band row column] and nodata value [nodata]. *)
Definition grid_is {V} (g : grid V) (T : transform) (H W nb : Z)
    (F : Z -> Z -> Z -> V) (nodata : V) : Prop :=
  gT g = T /\ stack_holds (gbands g) H W F /\ Z.of_nat (length (gbands g)) = nb /\
  gnodata g = nodata.

(** (a, b, c, d) = (xmin, xmax, ymin, ymax) is the smallest box containing the
    given points. *)
Definition tight_box (P : Q * Q -> Prop) (bx : Q * Q * Q * Q) : Prop :=
  let '(a, b, c, d) := bx in
  (forall p, P p -> a <= fst p <= b /\ c <= snd p <= d) /\
  (exists p, P p /\ fst p == a) /\ (exists p, P p /\ fst p == b) /\
  (exists p, P p /\ snd p == c) /\ (exists p, P p /\ snd p == d).

(** The points of the cells, and the cell centres, of an H x W grid. *)
Definition cell_point (T : transform) (H W : Z) (p : Q * Q) : Prop :=
  exists u v, 0 <= u <= inject_Z H /\ 0 <= v <= inject_Z W /\ p = world T u v.
Definition cell_centre (T : transform) (H W : Z) (p : Q * Q) : Prop :=
  exists i j, (0 <= i < H)%Z /\ (0 <= j < W)%Z /\ p = centre T i j.

(** A skew that is absent or has the sign of the resolution. *)
Definition skew_agrees (d s : Q) : Prop := s == 0 \/ 0 < d * s.

(** [g'] shows the part of the grid (T, H, W, nb, F, nodata) that starts at row
    and column [o] and has at most the given (columns, rows) [size]. *)
Definition chunk_is {V} (T : transform) (H W nb : Z) (F : Z -> Z -> Z -> V) (nodata : V)
    (size : Z * Z) (g' : grid V) (o : Z * Z) : Prop :=
  exists T', same_place T' T (fst o) (snd o) /\
    grid_is g' T' (Z.min (snd size) (H - fst o)) (Z.min (fst size) (W - snd o)) nb
      (fun k i j => F k (fst o + i)%Z (snd o + j)%Z) nodata.
Definition in_chunk (size o : Z * Z) (y x : Z) : Prop :=
  (fst o <= y < fst o + snd size /\ snd o <= x < snd o + fst size)%Z.

(** The rectangle xmin..xmax, ymin..ymax. *)
Definition in_box (xmin xmax ymin ymax : Q) (p : Q * Q) : Prop :=
  xmin <= fst p <= xmax /\ ymin <= snd p <= ymax.

(** Cells holding data: numpy's notion, with nan as a possible nodata value. *)
Definition is_data {V} (isnan : V -> bool) (veq : V -> V -> bool) (nodata v : V) : Prop :=
  (isnan nodata = true -> isnan v = false) /\ (isnan nodata = false -> veq v nodata = false).
