(** C107: what rounding does to points in polygons, positions in grids and areas. *)
From Coq Require Import List ZArith QArith Qabs.
From Flocq Require Import Core IEEE754.BinarySingleNaN.
From Verif Require Import Geom_Model Geom_Spec Contains_Spec Dbl_Model Dbl_Spec.
From Verif Require Dbl_Contains Dbl_Grid Dbl_Area Dbl_Proofs.
From Verif Require Import Dbl_Proofs.
Import ListNotations.
Open Scope Q_scope.

(** A point that is clear of the edges at its level is in the polygon if and only
    if the ring winds round it. *)
Theorem C107_contains : forall (pt : double * double) (l : list (double * double)), upto2 400 pt -> Forall (upto2 400) l ->
  off (values pt) (map values l) ->
  (forall i a b, ring_edge l i a b -> at_level (values pt) (values a) (values b) -> clear_of (values pt) (values a) (values b)) ->
  (contains pt l = true <-> exists w, winding (values pt) (map values l) w /\ w <> 0%Z).
Proof. exact Dbl_Contains.contains_clear. Qed.
Print Assumptions C107_contains.
Example C107_contains_example :
  let l := [(D 1 (-3), D 3 (-4)); (D 7 0, D 1 1); (D 5 0, D 9 0)] in let pt := (D 4 0, D 3602879701896397 (-50)) in
  upto2 400 pt /\ Forall (upto2 400) l /\ off (values pt) (map values l) /\ contains pt l = true /\
  forall i a b, ring_edge l i a b -> at_level (values pt) (values a) (values b) -> clear_of (values pt) (values a) (values b).
Proof.
  split; [split; apply upto_check; vm_compute; reflexivity|]. split; [apply upto2_check; vm_compute; reflexivity|].
  split; [apply (inside_check _ _ true); vm_compute; reflexivity|]. split; [vm_compute; reflexivity|].
  intros i a b E _. refine (edge_clear_check _ _ _ _ _ i a b E). vm_compute; reflexivity.
Qed.

(** Coordinates that are multiples of a power of two, at most 2^25 times that: no
    rounding error at all, on the boundary neither. *)
Theorem C107_contains_raster : forall e (pt : double * double) (l : list (double * double)), (-537 <= e <= 300)%Z ->
  raster2 25 e pt -> Forall (raster2 25 e) l ->
  (off (values pt) (map values l) -> (contains pt l = true <-> exists w, winding (values pt) (map values l) w /\ w <> 0%Z)) /\
  Contains_Model.contains_c (values pt) (map values l) true = Ok (contains pt l).
Proof.
  intros e pt l He Hp Hl. split; [exact (Dbl_Contains.contains_raster e pt l He Hp Hl)|exact (Dbl_Contains.contains_raster_count e pt l He Hp Hl)].
Qed.
Print Assumptions C107_contains_raster.
Example C107_contains_raster_example :
  let l := [(D 0 0, D 0 0); (D 30000001 (-2), D 1 0); (D 15 0, D 29999999 (-2))] in
  Forall (raster2 25 (-2)) l /\ contains (D 22 (-2), D 100 0) l = true.
Proof.
  split; [|vm_compute; reflexivity].
  constructor; [split; [apply (raster_check _ _ 0 (-2))|apply (raster_check _ _ 0 (-2))]; vm_compute; reflexivity|].
  constructor; [split; [apply (raster_check _ _ 30000001 (-2))|apply (raster_check _ _ 4 (-2))]; vm_compute; reflexivity|].
  constructor; [split; [apply (raster_check _ _ 60 (-2))|apply (raster_check _ _ 29999999 (-2))]; vm_compute; reflexivity|].
  constructor.
Qed.

(** Finding: with coordinates below 16 a point outside a triangle is said to be
    inside, so that it is in both of two triangles on either side of an edge. *)
Theorem C107_contains_refuted : exists a b c d p : double * double, Forall (upto2 4) [a; b; c; d; p] /\
  off (values p) (map values [a; b; c]) /\ off (values p) (map values [b; a; d]) /\
  ~ (exists w, winding (values p) (map values [a; b; c]) w /\ w <> 0%Z) /\
  (exists w, winding (values p) (map values [b; a; d]) w /\ w <> 0%Z) /\
  contains p [a; b; c] = true /\ contains p [b; a; d] = true.
Proof. exact in_both. Qed.
Print Assumptions C107_contains_refuted.
(** Finding: a point inside one of two triangles on either side of an edge is said
    to be in neither. *)
Theorem C107_gap_refuted : exists a b c d p : double * double, Forall (upto2 4) [a; b; c; d; p] /\
  off (values p) (map values [a; b; c]) /\ off (values p) (map values [b; a; d]) /\
  (exists w, winding (values p) (map values [a; b; c]) w /\ w <> 0%Z) /\
  ~ (exists w, winding (values p) (map values [b; a; d]) w /\ w <> 0%Z) /\
  contains p [a; b; c] = false /\ contains p [b; a; d] = false.
Proof. exact in_neither. Qed.
Print Assumptions C107_gap_refuted.

(** Positions in a grid that is not rotated. *)
Theorem C107_positions_partial : forall T x y, plain T -> upto 300 x -> upto 300 y ->
  located y (y0 T) (dy T) (fst (positions T x y)) /\ located x (x0 T) (dx T) (snd (positions T x y)).
Proof. exact Dbl_Grid.positions_located. Qed.
Print Assumptions C107_positions_partial.
Example C107_positions_example : plain grid02 /\ upto 300 (D 2476979795053773 (-50)).
Proof. split; [exact plain02|apply upto_check; vm_compute; reflexivity]. Qed.
Theorem C107_indices_partial : forall T x y i j, plain T -> upto 300 x -> upto 300 y -> int32 i -> int32 j ->
  well_in y (y0 T) (dy T) i -> well_in x (x0 T) (dx T) j -> indices T x y = Some (i, j).
Proof. exact Dbl_Grid.indices_well_in. Qed.
Print Assumptions C107_indices_partial.
Example C107_indices_example : well_in (D 1 0) (y0 far) (dy far) 0 /\ well_in (D 239 (-3)) (x0 grid02) (dx grid02) 149.
Proof. split; vm_compute; reflexivity. Qed.
(** The centre of each cell is found in that cell. *)
Theorem C107_centres_partial : forall T i j, plain T -> int32 i -> int32 j -> near (y0 T) (dy T) i -> near (x0 T) (dx T) j ->
  indices T (fst (center T i j)) (snd (center T i j)) = Some (i, j).
Proof. exact Dbl_Grid.indices_center. Qed.
Print Assumptions C107_centres_partial.
Example C107_centres_example : plain grid02 /\ int32 2000000000 /\ near (x0 grid02) (dx grid02) 2000000000.
Proof. split; [exact plain02|]. split; [unfold int32; split; vm_compute; congruence|apply Qle_bool_iff; vm_compute; reflexivity]. Qed.
(** Rounding never turns the order of columns or rows round. *)
Theorem C107_columns : forall T x x' y y', plain T -> upto 300 x -> upto 300 x' -> upto 300 y -> upto 300 y' ->
  (0 < value (dx T) /\ value x <= value x') \/ (value (dx T) < 0 /\ value x' <= value x) ->
  value (snd (positions T x y)) <= value (snd (positions T x' y')) /\
  forall i j i' j', indices T x y = Some (i, j) -> indices T x' y' = Some (i', j') -> (j <= j')%Z.
Proof. exact columns_in_order. Qed.
Print Assumptions C107_columns.
Example C107_columns_example : 0 < value (dx grid02) /\ value (D 2476979795053773 (-50)) <= value (D 9 (-2)) /\
  indices grid02 (D 2476979795053773 (-50)) (D 1 0) = Some (4%Z, 10%Z) /\ indices grid02 (D 9 (-2)) (D 1 0) = Some (4%Z, 11%Z).
Proof. repeat split; try (vm_compute; reflexivity). vm_compute. discriminate. Qed.
Theorem C107_rows : forall T x x' y y', plain T -> upto 300 x -> upto 300 x' -> upto 300 y -> upto 300 y' ->
  (0 < value (dy T) /\ value y <= value y') \/ (value (dy T) < 0 /\ value y' <= value y) ->
  value (fst (positions T x y)) <= value (fst (positions T x' y')) /\
  forall i j i' j', indices T x y = Some (i, j) -> indices T x' y' = Some (i', j') -> (i <= i')%Z.
Proof. exact rows_in_order. Qed.
Print Assumptions C107_rows.
Example C107_rows_example : 0 < value (dy grid02) /\ value (D 1 0) <= value (D 9 (-2)) /\
  indices grid02 (D 1 0) (D 1 0) = Some (4%Z, 4%Z) /\ indices grid02 (D 1 0) (D 9 (-2)) = Some (11%Z, 4%Z).
Proof. repeat split; try (vm_compute; reflexivity). vm_compute. discriminate. Qed.
(** Finding: in a grid of cells of 0.2 from 0 the point 2.2, which is in the cell 11,
    is found in the cell 10. *)
Theorem C107_cell_refuted : exists T x y i j j', plain T /\ upto 2 x /\ upto 2 y /\
  value (x0 T) + inject_Z j * value (dx T) < value x /\ value x < value (x0 T) + inject_Z (j + 1) * value (dx T) /\
  indices T x y = Some (i, j') /\ j' <> j.
Proof. exact other_cell. Qed.
Print Assumptions C107_cell_refuted.
(** Finding: in a grid little more than 2^51 cells from the origin of coordinates the centre of a
    cell is not found in its cell. *)
Theorem C107_centre_refuted : exists T i j i' j', plain T /\ cells (x0 T) (dx T) <= Qpower 2 52 /\ cells (y0 T) (dy T) == 0 /\
  (0 <= i < 1000)%Z /\ (0 <= j < 1000)%Z /\ indices T (fst (center T i j)) (snd (center T i j)) = Some (i', j') /\ j' <> j.
Proof. exact lost_centre. Qed.
Print Assumptions C107_centre_refuted.

(** The area of a ring of [n] vertices with coordinates at most 2^k times a power of
    two is exact if [n 2^(2 k + 3) <= 2^53]. *)
Theorem C107_area_raster : forall k e, (0 <= k <= 24)%Z -> (-500 <= e <= 300)%Z -> forall (l : list (double * double)) o,
  l <> [] -> Forall (raster2 k e) l -> (Z.of_nat (length l) * 2 ^ (2 * k + 3) <= 2 ^ 53)%Z ->
  is_finite (ring_area l) = true /\ value (ring_area l) == signed_area o (map values l).
Proof. exact Dbl_Area.area_exact. Qed.
Print Assumptions C107_area_raster.
Example C107_area_raster_example : let l := [(D 0 0, D 0 0); (D 1000 0, D 1 0); (D 15 0, D 999 0)] in
  (Z.of_nat (length l) * 2 ^ (2 * 10 + 3) <= 2 ^ 53)%Z /\ value (ring_area l) == 998985 # 2.
Proof. split; vm_compute; [discriminate|reflexivity]. Qed.
(** In general the error is at most about [n + 4] times 2^-51 of the product of the
    greatest abscissa and the climb of the ring. *)
Theorem C107_area : forall (l : list (double * double)) X o, l <> [] -> 0 <= X -> X <= Qpower 2 100 -> (Z.of_nat (length l) <= 2 ^ 40)%Z ->
  Forall (fun p => is_finite (fst p) = true /\ Qabs (value (fst p)) <= X /\ upto 100 (snd p)) l ->
  is_finite (ring_area l) = true /\
  Qabs (value (ring_area l) - signed_area o (map values l)) <=
    inject_Z (Z.of_nat (length l) + 4) * Qpower 2 (-51) * (X * climb (map values l) + inject_Z (Z.of_nat (length l)) * Qpower 2 (-918)).
Proof. exact Dbl_Area.area_err. Qed.
Print Assumptions C107_area.
Example C107_area_example : let l := [va; vb; vc] in
  Forall (fun p => is_finite (fst p) = true /\ Qabs (value (fst p)) <= 6 /\ upto 100 (snd p)) l /\ climb (map values l) < 14.
Proof.
  split; [|vm_compute; reflexivity].
  repeat (apply Forall_cons; [split; [vm_compute; reflexivity|split; [apply Qle_bool_iff; vm_compute; reflexivity|apply upto_check; vm_compute; reflexivity]]|]).
  apply Forall_nil.
Qed.
(** Finding: far from the origin two triangles of area 2 are given the areas 4 and 0. *)
Theorem C107_area_refuted : exists l m : list (double * double), length l = 3%nat /\ length m = 3%nat /\ Forall (upto2 54) (l ++ m) /\
  signed_area (0, 0) (map values l) == 2 /\ Qabs (signed_area (0, 0) (map values m)) == 2 /\
  value (ring_area l) == 4 /\ value (ring_area m) == 0.
Proof. exact area_lost. Qed.
Print Assumptions C107_area_refuted.
