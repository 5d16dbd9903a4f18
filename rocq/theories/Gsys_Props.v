(** C117: regions of grids in other coordinate systems. *)
From Coq Require Import List ZArith QArith Lqa Bool.
From Verif Require Import Band_Model Band_Spec Band_IndexModel Band_IndexSpec Grid_Model Grid_Spec Gsys_Model Gsys_Spec Gsys_Proofs.
Import ListNotations.
Open Scope Q_scope.

(** C117: all of the grid, in another system, is in the extent of the grid in that system, if the
    transformation keeps straight lines (and the skew is absent or of the sign of the resolution,
    as in C18). *)
Theorem C117_extent_partial : forall tr T H W p, (0 <= H)%Z -> (0 <= W)%Z -> skew_agrees (dx T) (sx T) -> skew_agrees (dy T) (sy T) ->
  affine tr -> cell_point T H W p -> holds (extent_in tr T H W false) (tr p).
Proof. exact extent_in_holds. Qed.
Print Assumptions C117_extent_partial.
Theorem C117_centres_partial : forall tr T H W p, (0 < H)%Z -> (0 < W)%Z -> skew_agrees (dx T) (sx T) -> skew_agrees (dy T) (sy T) ->
  affine tr -> cell_centre T H W p -> holds (extent_in tr T H W true) (tr p).
Proof. exact centres_in_holds. Qed.
Print Assumptions C117_centres_partial.
(** C117: and it is not larger than need be: it is the smallest box around the extent of the grid in
    its own system. *)
Theorem C117_tight_partial : forall tr T H W centre, affine tr ->
  match extent T H W centre with (a, b, c, d) =>
    tight_box (fun q => exists p, in_box a b c d p /\ q = tr p) (extent_in tr T H W centre) end.
Proof. exact extent_in_tight. Qed.
Print Assumptions C117_tight_partial.
Theorem C117_bbox : forall tr T H W xmin xmax ymin ymax, extent_in tr T H W false = (xmin, xmax, ymin, ymax) ->
  bbox_in tr T H W = (xmin, ymin, xmax, ymax).
Proof. intros tr T H W a b c d E; unfold bbox_in; rewrite E; reflexivity. Qed.
Print Assumptions C117_bbox.
(** A grid of 8 rows and 15 columns, and a turn of 45 degrees that also enlarges. *)
Definition unit_cells : transform := mkT 0 0 1 1 0 0.
Definition turn (p : Q * Q) : Q * Q := (fst p - snd p + 10, fst p + snd p).
(** A transformation that bends straight lines. *)
Definition bend (p : Q * Q) : Q * Q := (fst p, (fst p - 2) * (fst p - 2) + snd p).
Lemma turn_affine : affine turn.
Proof. exists 1, (-1), 10, 1, 1, 0. intros p; split; cbn; ring. Qed.
Example C117_extent_ex : affine turn /\ skew_agrees (dx unit_cells) (sx unit_cells) /\ skew_agrees (dy unit_cells) (sy unit_cells) /\
  (let '(a, b, c, d) := extent_in turn unit_cells 8 15 false in a == 2 /\ b == 25 /\ c == 0 /\ d == 23).
Proof. split; [exact turn_affine |]. split; [left; reflexivity |]. split; [left; reflexivity |]. cbn; repeat split; reflexivity. Qed.
(** Finding: only the corners are transformed, so with a transformation that bends lines, as map
    projections do, parts of the grid are outside of its extent. *)
Theorem C117_bend_refuted : exists tr T H W p, (0 < H)%Z /\ (0 < W)%Z /\ sx T == 0 /\ sy T == 0 /\
  cell_point T H W p /\ ~ holds (extent_in tr T H W false) (tr p).
Proof.
  exists bend, unit_cells, 1%Z, 4%Z, (world unit_cells 0 2). split; [reflexivity |]. split; [reflexivity |]. split; [reflexivity |]. split; [reflexivity |].
  split; [exists 0, 2; repeat split; discriminate |].
  intros [_ [K _]]. vm_compute in K. apply K; reflexivity.
Qed.
Print Assumptions C117_bend_refuted.

(** C117: clipping to a box in another system keeps every cell whose centre is in the box there, if
    the transformation keeps straight lines (and the box in the grid's system does not reach beyond
    the first row or column, C16). *)
Theorem C117_clip_partial : forall (V : Type) (junk : Z -> Z -> V) v0 tr (g : grid V) T H W nb F nodata xmin xmax ymin ymax,
  grid_is g T H W nb F nodata -> invertible T -> ~ dy T == 0 -> xmin <= xmax -> ymin <= ymax -> affine tr ->
  (forall p, holds (around (tr (xmin, ymin)) (tr (xmin, ymax)) (tr (xmax, ymin)) (tr (xmax, ymax))) p ->
     exists u v, 0 <= u /\ 0 <= v /\ peq p (world T u v)) ->
  exists g' T' i0 j0 h w, clip_in junk v0 tr g xmin xmax ymin ymax = Ok g' /\
    grid_is g' T' h w nb (fun k i j => F k (i0 + i)%Z (j0 + j)%Z) nodata /\ same_place T' T i0 j0 /\
    forall i j q, (0 <= i < H)%Z -> (0 <= j < W)%Z -> in_box xmin xmax ymin ymax q -> peq (tr q) (centre T i j) ->
      (i0 <= i < i0 + h)%Z /\ (j0 <= j < j0 + w)%Z.
Proof. exact clip_in_keeps. Qed.
Print Assumptions C117_clip_partial.
(** The cells numbered row by row. *)
Definition zj (i j : Z) : Z := (-77)%Z.
Definition numbers (h w : Z) : nd Z := mkN [h; w] (fun l => match l with [i; j] => (i * w + j)%Z | _ => 0%Z end).
Definition plane (h w : Z) : res (grid Z) := make_grid zj 0%Z ClsComp unit_cells (numbers h w) (-9)%Z.
Definition first_row (g : res (grid Z)) : option (Z * Z * list Z) :=
  match g with
  | Ok g => let (h, w) := gsize g in
    match gbands g with
    | b :: _ => match getblock zj b 0 0 h w with Ok a => Some (h, w, map (at_ a 0%Z) (zrange 0 w)) | Err _ => None end
    | [] => None
    end
  | Err _ => None
  end.
Example C117_clip_ex :
  (forall p, holds (around (turn (0, 0)) (turn (0, 4)) (turn (4, 0)) (turn (4, 4))) p ->
     exists u v, 0 <= u /\ 0 <= v /\ peq p (world unit_cells u v)) /\
  first_row (bind (plane 8 15) (fun g => clip_in zj 0%Z turn g 0 4 0 4)) = Some (8, 8, [6; 7; 8; 9; 10; 11; 12; 13])%Z.
Proof.
  split; [| vm_compute; reflexivity].
  intros [x y] K. vm_compute around in K. destruct K as [[K1 K2] [K3 K4]]. cbn [fst snd] in *.
  exists y, x. unfold peq, world, unit_cells; cbn. repeat split; try lra; ring.
Qed.
(** Finding: cells outside of the box are kept as well: here that of number 6, in the corner. *)
Theorem C117_clip_more_refuted :
  first_row (bind (plane 8 15) (fun g => clip_in zj 0%Z turn g 0 4 0 4)) = Some (8, 8, [6; 7; 8; 9; 10; 11; 12; 13])%Z /\
  forall q, peq (turn q) (centre unit_cells 0 6) -> ~ in_box 0 4 0 4 q.
Proof.
  split; [vm_compute; reflexivity |].
  intros [x y] [P1 P2] [[I1 _] _]. cbn [turn fst snd] in *.
  assert (A1 : x - y + 10 == 13 # 2) by (rewrite P1; reflexivity). assert (A2 : x + y == 1 # 2) by (rewrite P2; reflexivity). lra.
Qed.
Print Assumptions C117_clip_more_refuted.
(** Finding: with a transformation that bends lines, cells inside the box are lost: the first row
    kept is the fifth, and the cell of row 0, column 1 is in the box. *)
Theorem C117_clip_lost_refuted :
  first_row (bind (plane 8 15) (fun g => clip_in zj 0%Z bend g 0 4 0 1)) = Some (1, 4, [60; 61; 62; 63])%Z /\
  exists q, in_box 0 4 0 1 q /\ peq (bend q) (centre unit_cells 0 1).
Proof.
  split; [vm_compute; reflexivity |].
  exists (3 # 2, 1 # 4). split; [unfold in_box; cbn; lra |]. split; vm_compute; reflexivity.
Qed.
Print Assumptions C117_clip_lost_refuted.

(** Finding: grids in different systems can be added if their transforms have the same numbers; the
    sum is in the system of the first. *)
Theorem C117_sum_refuted : forall (V C : Type) (junk : Z -> Z -> V) v0 op (g h : grid V) (s s' : C) r,
  combine_grids junk v0 op g h = Ok r -> combine_in junk v0 op (s, g) (s', h) = Ok (s, r).
Proof. exact combine_blind. Qed.
Print Assumptions C117_sum_refuted.
Example C117_sum_ex : first_row (bind (plane 2 3) (fun g => bind (combine_in zj 0%Z Z.add (true, g) (false, g)) (fun r => Ok (snd r)))) =
  Some (2, 3, [0; 2; 4])%Z.
Proof. vm_compute; reflexivity. Qed.
