(** C104: grids sampled at the cells of another transform. *)
From Coq Require Import List ZArith QArith Qround Qabs Bool Lia Lqa.
From Verif Require Import Band_Model Band_Spec Band_IndexModel Band_IndexSpec Grid_Model Grid_Spec Grid_Props
  GridSample_Model GridSample_Spec GridSample_Props Resample_Model Resample_Spec Resample_Proofs.
Import ListNotations.
Open Scope Z_scope.

(** C104: a grid resampled linearly has the asked for cells, starts at the same centre, and holds
    in every band the bilinear interpolation at the centre of each cell, which is never outside. *)
Theorem C104_resample_linear_partial : forall junk (g : grid fl) T H W nb F nodata dx' dy',
  grid_is g T H W nb F nodata -> (0 < dx T)%Q -> (0 < dy T)%Q -> (sx T == 0)%Q -> (sy T == 0)%Q ->
  (0 < dx')%Q -> (0 < dy')%Q ->
  (dx' <= inject_Z (W - 1) * dx T)%Q -> (dy' <= inject_Z (H - 1) * dy T)%Q ->
  exists g' T' ny nx F', resample junk g DFloat dx' dy' Linear = Ok g' /\
    grid_is g' T' ny nx nb F' nodata /\
    (dx T' = dx' /\ dy T' = dy' /\ sx T' = sx T /\ sy T' = sy T) /\
    peq (centre T' 0 0) (centre T 0 0) /\
    ny = Qfloor (inject_Z (H - 1) * dy T / dy') + 1 /\ nx = Qfloor (inject_Z (W - 1) * dx T / dx') + 1 /\
    forall k i j, 0 <= k < nb -> 0 <= i < ny -> 0 <= j < nx ->
      between_centres T H W (centre T' i j) /\ sampled T (F k) H W nodata (centre T' i j) (F' k i j).
Proof. exact resample_linear. Qed.
Print Assumptions C104_resample_linear_partial.

(** C104: the values of any other transform, if one of its cells is over the grid. *)
Theorem C104_transform_nearest_partial : forall junk (g : grid fl) T H W F nodata dt tnew i0 j0,
  grid_is g T H W 1 F nodata -> invertible T -> ~ (dy T == 0)%Q -> 2 <= H -> 2 <= W ->
  0 <= i0 < H -> 0 <= j0 < W -> between_centres T H W (centre tnew i0 j0) ->
  exists g' F', resample_transform junk g dt tnew Nearest = Ok g' /\ grid_is g' tnew H W 1 F' nodata /\
    forall i j, 0 <= i < H -> 0 <= j < W -> shown T (F 0) H W nodata (centre tnew i j) (F' 0 i j).
Proof. exact transform_nearest. Qed.
Print Assumptions C104_transform_nearest_partial.
Theorem C104_transform_linear_partial : forall junk (g : grid fl) T H W nb F nodata tnew i0 j0 u v,
  grid_is g T H W nb F nodata -> invertible T -> ~ (dy T == 0)%Q -> 2 <= H -> 2 <= W ->
  0 <= i0 < H -> 0 <= j0 < W -> at_position T (centre tnew i0 j0) u v -> (0 < u < inject_Z H)%Q -> (0 < v < inject_Z W)%Q ->
  exists g' F', resample_transform junk g DFloat tnew Linear = Ok g' /\ grid_is g' tnew H W nb F' nodata /\
    forall k i j, 0 <= k < nb -> 0 <= i < H -> 0 <= j < W -> sampled T (F k) H W nodata (centre tnew i j) (F' k i j).
Proof. exact transform_linear. Qed.
Print Assumptions C104_transform_linear_partial.

(** C104: aligning moves the anchor to the nearest multiples and samples the grid there. *)
Theorem C104_align_nearest_partial : forall junk (g : grid fl) T H W F nodata dt x y,
  grid_is g T H W 1 F nodata -> unskewed T -> 2 <= H -> 2 <= W -> ~ (x == 0)%Q -> ~ (y == 0)%Q ->
  (Qabs x < 2 * inject_Z (W - 1) * Qabs (dx T))%Q -> (Qabs y < 2 * inject_Z (H - 1) * Qabs (dy T))%Q ->
  exists g' T' F', align_origin junk g dt x y Nearest = Ok g' /\ grid_is g' T' H W 1 F' nodata /\
    same_cells T T' /\ nearest_multiple x (x0 T) (x0 T') /\ nearest_multiple y (y0 T) (y0 T') /\
    forall i j, 0 <= i < H -> 0 <= j < W -> shown T (F 0) H W nodata (centre T' i j) (F' 0 i j).
Proof. exact align_nearest. Qed.
Print Assumptions C104_align_nearest_partial.
Theorem C104_align_linear_partial : forall junk (g : grid fl) T H W nb F nodata x y,
  grid_is g T H W nb F nodata -> unskewed T -> 2 <= H -> 2 <= W -> ~ (x == 0)%Q -> ~ (y == 0)%Q ->
  (Qabs x < 2 * inject_Z (W - 1) * Qabs (dx T))%Q -> (Qabs y < 2 * inject_Z (H - 1) * Qabs (dy T))%Q ->
  exists g' T' F', align_origin junk g DFloat x y Linear = Ok g' /\ grid_is g' T' H W nb F' nodata /\
    same_cells T T' /\ nearest_multiple x (x0 T) (x0 T') /\ nearest_multiple y (y0 T) (y0 T') /\
    forall k i j, 0 <= k < nb -> 0 <= i < H -> 0 <= j < W -> sampled T (F k) H W nodata (centre T' i j) (F' k i j).
Proof. exact align_linear. Qed.
Print Assumptions C104_align_linear_partial.

(** C104: a grid that is aligned already, skewed or not, is not changed. *)
Theorem C104_aligned_nearest : forall junk (g : grid fl) T H W F nodata dt x y k l,
  grid_is g T H W 1 F nodata -> invertible T -> ~ (dy T == 0)%Q -> 2 <= H -> 2 <= W -> ~ (x == 0)%Q -> ~ (y == 0)%Q ->
  (x0 T == inject_Z k * x)%Q -> (y0 T == inject_Z l * y)%Q ->
  exists g' T' F', align_origin junk g dt x y Nearest = Ok g' /\ grid_is g' T' H W 1 F' nodata /\
    same_cells T T' /\ (x0 T' == x0 T)%Q /\ (y0 T' == y0 T)%Q /\
    forall i j, 0 <= i < H -> 0 <= j < W -> F' 0 i j = F 0 i j.
Proof. exact align_fixed. Qed.
Print Assumptions C104_aligned_nearest.
Theorem C104_aligned_linear : forall junk (g : grid fl) T H W nb F n nodata x y k l,
  grid_is g T H W nb F nodata -> invertible T -> ~ (dy T == 0)%Q -> 2 <= H -> 2 <= W -> ~ (x == 0)%Q -> ~ (y == 0)%Q ->
  (x0 T == inject_Z k * x)%Q -> (y0 T == inject_Z l * y)%Q ->
  (forall c a b, 0 <= c < nb -> 0 <= a < H -> 0 <= b < W -> F c a b = Some (n c a b)) ->
  exists g' T' F', align_origin junk g DFloat x y Linear = Ok g' /\ grid_is g' T' H W nb F' nodata /\
    same_cells T T' /\ (x0 T' == x0 T)%Q /\ (y0 T' == y0 T)%Q /\
    forall c i j, 0 <= c < nb -> 0 <= i < H -> 0 <= j < W -> exists q, F' c i j = Some q /\ (q == n c i j)%Q.
Proof. exact align_fixed_linear. Qed.
Print Assumptions C104_aligned_linear.

(** C104: what is refused. *)
Theorem C104_refused : forall junk (g : grid fl) dt x y m,
  ((x == 0 \/ y == 0)%Q -> align_origin junk g dt x y m = Err ZeroDivisionError) /\
  ((x <= 0 \/ y <= 0)%Q -> resample junk g dt x y m = Err ValueError) /\
  (forall T H W nb F nodata, grid_is g T H W nb F nodata -> 2 <= H -> 2 <= W ->
   forall tnew, resample_transform junk g dt tnew Other = Err NotImplementedError).
Proof. exact refused. Qed.
Print Assumptions C104_refused.

(** The grid of the docstring, and what becomes of it. *)
Definition ag : grid fl := fget (mkT (16 # 5) (16 # 5) 1 1 0 0) (fnd 3 3 (map Some [0; 1; 2; 10; 11; 12; 20; 21; 22]%Q)) None.
Definition anchor (g : res (grid fl)) : option (Q * Q) :=
  match g with Ok g => Some (Qred (x0 (gT g)), Qred (y0 (gT g))) | Err _ => None end.
Example C104_nonvacuous :
  anchor (align_origin fj ag DFloat 1 1 Nearest) = Some (3, 3)%Q /\
  fshow (align_origin fj ag DFloat 1 1 Nearest) = Some (3, 3, [[[Some 0; Some 1; Some 2]; [Some 10; Some 11; Some 12]; [Some 20; Some 21; Some 22]]]%Q) /\
  anchor (align_origin fj ag DFloat (5 # 1) (5 # 1) Nearest) = Some (5, 5)%Q /\
  fshow (align_origin fj ag DFloat 1 1 Linear) = Some (3, 3, [[[None; None; None]; [None; Some (44 # 5); Some (49 # 5)]; [None; Some (94 # 5); Some (99 # 5)]]]%Q) /\
  fshow (resample fj ag DFloat (1 # 2) 2 Linear) = Some (2, 5, [[[Some 0; Some (1 # 2); Some 1; Some (3 # 2); Some 2]; [Some 20; Some (41 # 2); Some 21; Some (43 # 2); Some 22]]]%Q).
Proof. vm_compute. repeat split. Qed.

(** Finding: aligned to multiples larger than the grid, the grid may be moved away from all its
    data, and ValueError is raised instead of a grid of nodata. *)
Theorem C104_far_refuted : err (align_origin fj ag DFloat (10 # 1) (10 # 1) Nearest) = Some ValueError.
Proof. vm_compute. reflexivity. Qed.
Print Assumptions C104_far_refuted.

(** Finding: aligning an integer grid linearly mixes values of the opposite edges into the first
    row and column, or raises IndexError if it is moved the other way. *)
Theorem C104_integers_refuted :
  fshow (align_origin fj ag DInt 1 1 Linear) = Some (3, 3, [[[Some 4; Some 4; Some 5]; [Some 8; Some 8; Some 9]; [Some 18; Some 18; Some 19]]]%Q) /\
  err (align_origin fj ag DInt (4 # 1) (4 # 1) Linear) = Some IndexError.
Proof. vm_compute. split; reflexivity. Qed.
Print Assumptions C104_integers_refuted.

(** Finding: a single nan spreads to the cells around it even if no cell is moved: of nine cells
    with a nan in the middle none is left. *)
Theorem C104_nan_refuted :
  let g := fget (mkT 3 3 1 1 0 0) (fnd 3 3 [Some 0; Some 1; Some 2; Some 10; None; Some 12; Some 20; Some 21; Some 22]%Q) None in
  fshow (align_origin fj g DFloat 1 1 Linear) = Some (3, 3, [[[None; None; None]; [None; None; None]; [None; None; None]]]%Q).
Proof. vm_compute. reflexivity. Qed.
Print Assumptions C104_nan_refuted.
