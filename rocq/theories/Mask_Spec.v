(** Vocabulary for masking by polygons. *)
From Coq Require Import List ZArith QArith Qabs.
From Verif Require Import Geom_Model Geom_Spec Inter_Spec Contains_Spec Grid_Model Grid_Spec Mask_Model.
Import ListNotations.
Open Scope Q_scope.

(** North-up cells, and square ones. *)
Definition upright_cells (T : transform) : Prop := 0 < dx T /\ 0 < dy T /\ sx T == 0 /\ sy T == 0.
Definition square_cells (T : transform) : Prop := upright_cells T /\ dx T == dy T.
(** No point of the ring [l] is within a cell's width and height of the centre of the cell
    in row [i] and column [j]. *)
Definition clear_of (T : transform) (i j : Z) (l : list pt) : Prop :=
  forall e q, edge_of l true e -> on_seg e q ->
    ~ (Qabs (fst q - fst (centre T i j)) <= dx T /\ Qabs (snd q - snd (centre T i j)) <= dy T).
(** All edges are horizontal or vertical. *)
Definition rectilinear (l : list pt) : Prop :=
  forall e, edge_of l true e -> fst (fst e) == fst (snd e) \/ snd (fst e) == snd (snd e).
(** The ring winds round [p]. *)
Definition enclosed (p : pt) (l : list pt) : Prop := exists w, winding p l w /\ w <> 0%Z.

Section S.
Variables P D C : Type.
(** The polygons in the argument of [mask_by_poly]. *)
Inductive part_of (p : geom P D C) : shape P D C -> Prop :=
| part_self : part_of p (Poly p)
| part_multi : forall l, In p l -> part_of p (MultiPoly l)
| part_list : forall l s, In s l -> part_of p s -> part_of p (Shapes l).
Definition outline (p : geom P D C) : list pt := xys (gverts P D C p).
End S.
Arguments part_of {P D C}. Arguments outline {P D C}.

Open Scope Z_scope.
(** What both ways of calling [mask_by_poly] do to the cells, given the kept ones. *)
Definition masks {V P D C} (junk : Z -> Z -> V) (v0 : V) (g : grid V) (s : shape P D C) (T : transform) (H W nb : Z)
    (F : Z -> Z -> Z -> V) (nodata : V) (kept : Z -> Z -> bool) : Prop :=
  forall inplace, exists g' F', mask_by_poly junk v0 g s inplace = Done g' /\ grid_is g' T H W nb F' nodata /\
    forall k i j, 0 <= k < nb -> 0 <= i < H -> 0 <= j < W -> F' k i j = if kept i j then F k i j else nodata.

