(** Specification of sampling, merging and gridding. *)
From Coq Require Import List ZArith QArith Bool.
From Verif Require Import Band_Model Band_Spec Band_IndexModel Band_IndexSpec Grid_Model Grid_Spec
  GridSample_Model.
Import ListNotations.
Open Scope Z_scope.

(** The point lies in cell (i, j), its border included; strictly inside. *)
Definition in_cell (T : transform) (p : Q * Q) (c : Z * Z) : Prop :=
  exists u v, peq (world T u v) p /\
    (inject_Z (fst c) <= u <= inject_Z (fst c) + 1)%Q /\
    (inject_Z (snd c) <= v <= inject_Z (snd c) + 1)%Q.
Definition inside_cell (T : transform) (p : Q * Q) (c : Z * Z) : Prop :=
  exists u v, peq (world T u v) p /\
    (inject_Z (fst c) < u < inject_Z (fst c) + 1)%Q /\
    (inject_Z (snd c) < v < inject_Z (snd c) + 1)%Q.
Definition in_grid (H W : Z) (c : Z * Z) : Prop := 0 <= fst c < H /\ 0 <= snd c < W.

(** Bilinear interpolation of [f] at (u, v) = (row, column) in the unit square
    with lower corner (i, j). *)
Definition interpolate (f : Z -> Z -> Q) (i j : Z) (u v : Q) : Q :=
  let a := (u - inject_Z i)%Q in
  let b := (v - inject_Z j)%Q in
  ((1 - a) * (1 - b) * f i j + a * (1 - b) * f (i + 1)%Z j
   + (1 - a) * b * f i (j + 1)%Z + a * b * f (i + 1)%Z (j + 1)%Z)%Q.

(** [z] is the right result at fractional indices (u, v), counted from the
    centre of cell (0, 0), in an H x W grid of the values [f]: in every square
    of four cell centres around (u, v) it is the bilinear interpolation,
    provided the cells nearer than, or at, distance one are numbers; outside of
    the centres it is nodata. *)
Definition bilinear_value (f : Z -> Z -> fl) (H W : Z) (nodata : fl) (u v : Q) (z : fl) : Prop :=
  (forall i j n,
     0 <= i -> i + 1 < H -> 0 <= j -> j + 1 < W ->
     (inject_Z i <= u <= inject_Z i + 1)%Q -> (inject_Z j <= v <= inject_Z j + 1)%Q ->
     (forall a b, 0 <= a < H -> 0 <= b < W -> (u - 1 <= inject_Z a <= u + 1)%Q ->
        (v - 1 <= inject_Z b <= v + 1)%Q -> f a b = Some (n a b)) ->
     exists q, z = Some q /\ (q == interpolate n i j u v)%Q) /\
  ((u < 0 \/ inject_Z (H - 1) < u \/ v < 0 \/ inject_Z (W - 1) < v)%Q -> z = nodata).

(** Fractional indices of a point. *)
Definition at_position (T : transform) (p : Q * Q) (u v : Q) : Prop :=
  peq (world T (u + (1 # 2)) (v + (1 # 2)))%Q p.

(** A grid taking part in a mosaic: where its cell (0, 0) lies, in rows and
    columns of the reference transform, its size, values and nodata value. *)
Record source := mkS { s_row : Z; s_col : Z; s_h : Z; s_w : Z;
                       s_val : Z -> Z -> Z -> fl; s_nodata : fl }.
Definition describes (T : transform) (nb : Z) (g : grid fl) (s : source) : Prop :=
  exists Tg, grid_is g Tg (s_h s) (s_w s) nb (s_val s) (s_nodata s) /\
    (dx Tg == dx T /\ dy Tg == dy T /\ sx Tg == sx T /\ sy Tg == sy T)%Q /\
    (x0 Tg == x0 T + inject_Z (s_col s) * dx T /\ y0 Tg == y0 T + inject_Z (s_row s) * dy T)%Q.

(** Cell (i, j), counted from the same reference, is a cell of the source and
    holds data in every band. *)
Definition has_data (nb : Z) (s : source) (i j : Z) : Prop :=
  s_row s <= i < s_row s + s_h s /\ s_col s <= j < s_col s + s_w s /\
  forall k, 0 <= k < nb -> is_data fnan feq (s_nodata s) (s_val s k (i - s_row s) (j - s_col s)).

(** The weighted values of band k that lie at cell (i, j). *)
Inductive gathers (nb k i j : Z) : list (source * Q) -> list (Q * fl) -> Prop :=
| ga_nil : gathers nb k i j [] []
| ga_skip : forall s w l r, ~ has_data nb s i j -> gathers nb k i j l r ->
    gathers nb k i j ((s, w) :: l) r
| ga_take : forall s w l r, has_data nb s i j -> gathers nb k i j l r ->
    gathers nb k i j ((s, w) :: l) ((w, s_val s k (i - s_row s) (j - s_col s)) :: r).

Definition weight_sum (l : list (Q * fl)) : Q := fold_right (fun p a => (fst p + a)%Q) 0%Q l.
(** [z] is the weighted mean of [l]; the nodata value if the weights add up to 0
    (in particular if there are none); nan if a nan takes part. *)
Definition weighted_mean (nodata : fl) (l : list (Q * fl)) (z : fl) : Prop :=
  ((weight_sum l == 0)%Q -> z = nodata) /\
  (~ (weight_sum l == 0)%Q ->
   (In None (map snd l) -> z = None) /\
   (forall ws vs, l = combine ws (map Some vs) -> length ws = length vs ->
      exists q, z = Some q /\
        (q * weight_sum l == fold_right (fun p a => (fst p * snd p + a)%Q) 0%Q (combine ws vs))%Q)).

(** Mean of the given numbers, nan if there are none. *)
Definition mean (l : list Q) (z : fl) : Prop :=
  (l = [] -> z = None) /\
  (l <> [] -> exists q, z = Some q /\
     (q * inject_Z (Z.of_nat (length l)) == fold_right Qplus 0 l)%Q).

(** The values among [zs] whose cell, in the parallel list [cs], is [c]. *)
Inductive values_in (c : Z * Z) : list (Z * Z) -> list Q -> list Q -> Prop :=
| vi_nil : values_in c [] [] []
| vi_in : forall z cs zs r, values_in c cs zs r -> values_in c (c :: cs) (z :: zs) (z :: r)
| vi_out : forall c' z cs zs r, c' <> c -> values_in c cs zs r ->
    values_in c (c' :: cs) (z :: zs) r.

(** Equal numbers, or both nan. *)
Definition fsame (a b : fl) : Prop :=
  match a, b with Some p, Some q => (p == q)%Q | None, None => True | _, _ => False end.

(** [z] is the bilinear interpolation of the H x W values [f] at the point [p]. *)
Definition sampled (T : transform) (f : Z -> Z -> fl) (H W : Z) (nodata : fl) (p : Q * Q) (z : fl) : Prop :=
  exists u v, at_position T p u v /\ bilinear_value f H W nodata u v z.

(** The point lies between the outermost cell centres. *)
Definition between_centres (T : transform) (H W : Z) (p : Q * Q) : Prop :=
  exists u v, at_position T p u v /\ (0 <= u <= inject_Z (H - 1) /\ 0 <= v <= inject_Z (W - 1))%Q.

(** The grid of values [f] holds the numbers of a function of position. *)
Definition samples_of (T : transform) (H W : Z) (f : Z -> Z -> fl) (h : Q * Q -> Q) : Prop :=
  forall i j, 0 <= i < H -> 0 <= j < W -> exists q, f i j = Some q /\ (q == h (centre T i j))%Q.

(** Centres, and points, of the cells holding data in an H x W grid of values. *)
Definition data_centre (T : transform) (H W : Z) (f : Z -> Z -> fl) (nodata : fl) (p : Q * Q) : Prop :=
  exists i j, 0 <= i < H /\ 0 <= j < W /\ is_data fnan feq nodata (f i j) /\ peq p (centre T i j).
Definition data_point (T : transform) (H W : Z) (f : Z -> Z -> fl) (nodata : fl) (p : Q * Q) : Prop :=
  exists i j, 0 <= i < H /\ 0 <= j < W /\ is_data fnan feq nodata (f i j) /\ in_cell T p (i, j).
