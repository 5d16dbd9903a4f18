(** What the properties of GeoTIFF files are stated with. *)
From Coq Require Import List ZArith QArith Bool.
From Verif Require Import Band_Model Band_Spec Band_IndexModel Tif_Model.
Import ListNotations.
Open Scope Q_scope.

(** The place of grid node (row i, column j), grid.py:91-92, and GDAL's definition of the
    place of the upper left corner of the pixel in row r from the top and column c. *)
Definition node (t : transform) (i j : Z) : Q * Q :=
  (t_x0 t + inject_Z j * t_dx t + inject_Z i * t_sx t, t_y0 t + inject_Z i * t_dy t + inject_Z j * t_sy t).
Definition pixel (g : geotransform) (r c : Z) : Q * Q :=
  (gt0 g + inject_Z c * gt1 g + inject_Z r * gt2 g, gt3 g + inject_Z c * gt4 g + inject_Z r * gt5 g).
Definition same_place (p q : Q * Q) : Prop := fst p == fst q /\ snd p == snd q.
Definition same_transform (s t : transform) : Prop :=
  t_x0 s == t_x0 t /\ t_y0 s == t_y0 t /\ t_dx s == t_dx t /\ t_dy s == t_dy t /\ t_sx s == t_sx t /\ t_sy s == t_sy t.

Open Scope Z_scope.
Section Spec.
Variable V : Type.
Variable junk : Z -> Z -> V.
(** Reading any window of the band that is not empty gives the values [f] (row, column). *)
Definition reads (b : gband V) (H W : Z) (f : Z -> Z -> V) : Prop :=
  forall y x h w, in_bounds H W y x h w -> 0 < h -> 0 < w ->
    exists r, gband_getblock junk b y x h w = Ok r /\ shows r h w (fun i j v => v = f (y + i) (x + j)).
(** The bands of a grid read as F (band, row, column). *)
Definition all_read (bs : list (gband V)) (H W : Z) (F : Z -> Z -> Z -> V) : Prop :=
  forall k b, nth_error bs k = Some b -> gband_size b = (H, W) /\ reads b H W (F (Z.of_nat k)).
(** A dataset of ny rows and nx columns whose bands have that size, as GDAL makes them. *)
Definition valid (d : dataset V) : Prop :=
  0 < d_ny d /\ 0 < d_nx d /\ Forall (fun b => nrow (fst b) = d_ny d /\ ncol (fst b) = d_nx d) (d_bands d).
(** Pixel values are unchanged by the conversion to the data type of the file. *)
Definition representable (conv : gtype -> V -> V) (g : gtype) (n H W : Z) (F : Z -> Z -> Z -> V) : Prop :=
  forall k i j, 0 <= k < n -> 0 <= i < H -> 0 <= j < W -> conv g (F k i j) = F k i j.
(** The bands asked for, in order, counting from 1. *)
Definition asked (d : dataset V) (s : selection) (rbs : list (arr V * option V)) : Prop :=
  match s with
  | All => rbs = d_bands d
  | One i => exists b, rbs = [b] /\ 1 <= i /\ nth_error (d_bands d) (Z.to_nat i - 1) = Some b
  | Several l => Forall2 (fun i b => 1 <= i /\ nth_error (d_bands d) (Z.to_nat i - 1) = Some b) l rbs
  end.
End Spec.
Arguments reads {V}. Arguments all_read {V}. Arguments valid {V}. Arguments representable {V}. Arguments asked {V}.
