(** Properties of sampling, merging and gridding (C19, C21-C23, C54, C55). *)
From Coq Require Import List ZArith QArith Qround Qabs Bool Lia Lqa Permutation.
From Verif Require Import Band_Model Band_Spec Band_IndexModel Band_IndexSpec Band_Proofs
  Band_IndexProofs Grid_Model Grid_Spec Grid_Proofs Grid_OpsProofs Grid_ResizeProofs Grid_MoreProofs
  Grid_Props GridSample_Model GridSample_Spec GridSample_Proofs GridBilinear_Proofs GridBilinear_More
  GridMerge_Proofs GridPoints_Proofs GridExtent_Proofs GridResample_Proofs.
Import ListNotations.
Open Scope Z_scope.

(** Floating point grids for the examples and findings. *)
Definition fj : Z -> Z -> fl := fun _ _ => Some 77%Q.
Definition fnd (h w : Z) (l : list fl) : nd fl :=
  mkN [h; w] (fun i => match i with [a; b] => nth (Z.to_nat (a * w + b)) l None | _ => None end).
Definition fget (T : transform) (v : nd fl) (nodata : fl) : grid fl :=
  match make_grid fj (Some 0%Q) ClsComp T v nodata with Ok g => g | Err _ => mkG T [] ClsComp nodata end.
Definition fred (v : fl) : fl := match v with Some q => Some (Qred q) | None => None end.
Definition fshow (g : res (grid fl)) : option (Z * Z * list (list (list fl))) :=
  match g with
  | Err _ => None
  | Ok g =>
      let (h, w) := gsize g in
      match mapM (fun b => getblock fj b 0 0 h w) (gbands g) with
      | Ok l => Some (h, w, map (fun a => map (fun i => map (fun j => fred (at_ a i j)) (zrange 0 w)) (zrange 0 h)) l)
      | Err _ => None
      end
  end.
Definition num (z : Z) : fl := Some (inject_Z z).
Definition unitT : transform := mkT 0 0 1 1 0 0.
Lemma fget_is : forall T h w l nodata, 0 <= h -> 0 <= w ->
  grid_is (fget T (fnd h w l) nodata) T h w 1 (fun _ i j => nth (Z.to_nat (i * w + j)) l None) nodata.
Proof.
  intros T h w l nodata Hh Hw. unfold fget.
  destruct (make_grid_spec2 fl fj (Some 0%Q) ClsComp T (fnd h w l) nodata h w
              (fun _ i j => nth (Z.to_nat (i * w + j)) l None)) as (g & E & G & _); try assumption; try reflexivity.
  rewrite E. exact G.
Qed.

(** C19, for unskewed grids of positive resolution.  The mosaic covers the
    sources exactly, and each cell is the weighted mean of the values gathered
    there; the nodata value is that of the first grid. *)
Theorem C19_merge_partial :
  forall junk g0 rest s0 ss ws nb,
  let T := gT g0 in
  (0 < dx T)%Q -> (0 < dy T)%Q -> (sx T == 0)%Q -> (sy T == 0)%Q ->
  Forall2 (describes T nb) (g0 :: rest) (s0 :: ss) ->
  length ws = length (g0 :: rest) -> ~ (fold_right Qplus 0 ws == 0)%Q ->
  exists g' Tm r0 c0 ny nx F',
    merge junk (g0 :: rest) ws = Ok g' /\ grid_is g' Tm ny nx nb F' (s_nodata s0) /\
    same_place Tm T r0 c0 /\
    (forall s, In s (s0 :: ss) ->
       r0 <= s_row s /\ s_row s + s_h s <= r0 + ny /\ c0 <= s_col s /\ s_col s + s_w s <= c0 + nx) /\
    (exists s, In s (s0 :: ss) /\ s_row s = r0) /\ (exists s, In s (s0 :: ss) /\ s_row s + s_h s = r0 + ny) /\
    (exists s, In s (s0 :: ss) /\ s_col s = c0) /\ (exists s, In s (s0 :: ss) /\ s_col s + s_w s = c0 + nx) /\
    (forall k i j, 0 <= k < nb -> 0 <= i < ny -> 0 <= j < nx ->
       exists l, gathers nb k (i + r0) (j + c0) (combine (s0 :: ss) ws) l /\
         weighted_mean (s_nodata s0) l (F' k i j)).
Proof. exact merge_values. Qed.
Print Assumptions C19_merge_partial.

Definition m1 : grid fl := fget unitT (fnd 2 2 [num 1; num 2; num 3; None]) None.
Definition m2 : grid fl := fget (mkT 1 0 1 1 0 0) (fnd 2 2 [num 10; num 20; num (-1); num 40]) (num (-1)).
Example C19_nonvacuous :
  Forall2 (describes (gT m1) 1) [m1; m2]
    [mkS 0 0 2 2 (fun _ i j => nth (Z.to_nat (i * 2 + j)) [num 1; num 2; num 3; None] None) None;
     mkS 0 1 2 2 (fun _ i j => nth (Z.to_nat (i * 2 + j)) [num 10; num 20; num (-1); num 40] None) (num (-1))] /\
  fshow (merge fj [m1; m2] [1; 3]%Q)
  = Some (2, 3, [[[num 1; num 8; num 20]; [num 3; None; num 40]]]).
Proof.
  split; [|vm_compute; reflexivity]. constructor; [|constructor; [|constructor]].
  - exists unitT. split; [apply (fget_is unitT 2 2); lia|]. vm_compute. repeat split; reflexivity.
  - exists (mkT 1 0 1 1 0 0). split; [apply (fget_is (mkT 1 0 1 1 0 0) 2 2); lia|]. vm_compute. repeat split; reflexivity.
Qed.

(** Finding: with a negative row spacing (a grid whose first row is the
    northernmost) the mosaic cannot be formed. *)
Theorem C19_negative_resolution_refuted :
  let a := fget (mkT 0 2 1 (-1) 0 0) (fnd 2 1 [num 1; num 2]) None in
  let b := fget (mkT 0 1 1 (-1) 0 0) (fnd 2 1 [num 3; num 4]) None in
  err (merge fj [a; b] [1; 1]%Q) = Some ValueError.
Proof. vm_compute. reflexivity. Qed.
Print Assumptions C19_negative_resolution_refuted.

(** C21.  One point. *)
Theorem C21_sample_nearest_point :
  forall (V : Type) (junk : Z -> Z -> V) (g : grid V) T H W nb F nodata x y,
  grid_is g T H W nb F nodata -> invertible T -> ~ (dy T == 0)%Q ->
  exists c, in_cell T (x, y) c /\
    (in_grid H W c -> sample_nearest1 junk g x y =
       Ok (inr (map (fun k => F k (fst c) (snd c)) (zrange 0 nb)))) /\
    (~ in_grid H W c -> sample_nearest1 junk g x y = Ok (inl nodata)).
Proof. exact nearest1_spec. Qed.
Print Assumptions C21_sample_nearest_point.

(** Away from cell borders the cell is the only one that contains the point. *)
Theorem C21_cell_unique :
  forall T p c c', invertible T -> inside_cell T p c -> in_cell T p c' -> c = c'.
Proof. exact in_cell_unique. Qed.
Print Assumptions C21_cell_unique.

(** Vectors of points: one band, or one point; some point in the grid. *)
Theorem C21_sample_nearest_partial :
  forall (V : Type) (junk : Z -> Z -> V) (g : grid V) T H W nb F nodata pts,
  grid_is g T H W nb F nodata -> invertible T -> ~ (dy T == 0)%Q ->
  nb = 1 \/ length pts = 1%nat ->
  exists cs, Forall2 (in_cell T) pts cs /\
    ((exists c, In c cs /\ in_grid H W c) ->
     exists r, sample_nearest junk g pts = Ok r /\ nrow r = nb /\ ncol r = Z.of_nat (length pts) /\
       forall k n c, 0 <= k < nb -> nth_error cs n = Some c ->
         (in_grid H W c -> at_ r k (Z.of_nat n) = F k (fst c) (snd c)) /\
         (~ in_grid H W c -> at_ r k (Z.of_nat n) = nodata)).
Proof. exact nearest_spec. Qed.
Print Assumptions C21_sample_nearest_partial.

Definition shown {V} (r : res (arr V)) : option (list (list V)) :=
  match r with
  | Ok a => Some (map (fun i => map (at_ a i) (zrange 0 (ncol a))) (zrange 0 (nrow a)))
  | Err _ => None
  end.
Example C21_nonvacuous :
  invertible exT /\ ~ (dy exT == 0)%Q /\
  sample_nearest1 zj exg (114 # 1) (211 # 1) = Ok (inr [21]) /\
  sample_nearest1 zj exg (99 # 1) (211 # 1) = Ok (inl (-1)) /\
  shown (sample_nearest zj exg [(114, 211); (99, 211); (141, 201)]%Q) = Some [[21; -1; 4]].
Proof. vm_compute. repeat split; try reflexivity; discriminate. Qed.

(** Finding: with two bands and two points the values are interchanged: row k
    of the result should hold band k. *)
Theorem C21_two_bands_refuted :
  let g := zget unitT (nd3_of 1 2 2 (fun i j k => 10 * k + j)) (-1) in
  show (Ok g) = Some (1, 2, [[[0; 1]]; [[10; 11]]]) /\
  shown (sample_nearest zj g [(1 # 2, 1 # 2); (3 # 2, 1 # 2)]%Q) = Some [[0; 10]; [1; 11]].
Proof. vm_compute. split; reflexivity. Qed.
Print Assumptions C21_two_bands_refuted.

(** Finding: a vector of points that all lie outside of the grid raises instead
    of giving nodata, although one such point gives nodata. *)
Theorem C21_all_outside_refuted :
  sample_nearest1 zj exg (99 # 1) (211 # 1) = Ok (inl (-1)) /\
  err (sample_nearest zj exg [(99, 211)]%Q) = Some ValueError.
Proof. vm_compute. split; reflexivity. Qed.
Print Assumptions C21_all_outside_refuted.

(** Finding: points on a cell border go to the cell with the even index, so
    that on two borders of the outer edge one is inside and one outside. *)
Theorem C21_edge_parity_refuted :
  let g := zget unitT (nd_of 1 2 [10; 11]) (-1) in
  sample_nearest1 zj g 1 (1 # 2) = Ok (inr [10]) /\
  sample_nearest1 zj g 2 (1 # 2) = Ok (inl (-1)) /\
  (let h := zget unitT (nd_of 1 3 [10; 11; 12]) (-1) in
   sample_nearest1 zj h 3 (1 # 2) = Ok (inr [12])).
Proof. vm_compute. repeat split; reflexivity. Qed.
Print Assumptions C21_edge_parity_refuted.

(** C22, for floating point grids with at least two rows and columns: one
    point; or several, of which some lies beyond the first row and column of
    centres and some before the end of the grid. *)
Theorem C22_sample_bilinear_partial :
  forall junk (g : grid fl) T H W nb F nodata pts,
  grid_is g T H W nb F nodata -> invertible T -> ~ (dy T == 0)%Q ->
  2 <= H -> 2 <= W -> pts <> [] ->
  (length pts = 1%nat \/
   (exists p u v, In p pts /\ at_position T p u v /\ (0 < u)%Q) /\
   (exists p u v, In p pts /\ at_position T p u v /\ (u < inject_Z H)%Q) /\
   (exists p u v, In p pts /\ at_position T p u v /\ (0 < v)%Q) /\
   (exists p u v, In p pts /\ at_position T p u v /\ (v < inject_Z W)%Q)) ->
  exists rows, sample_bilinear junk g DFloat pts = Ok rows /\ Z.of_nat (length rows) = nb /\
    forall k row, nth_error rows k = Some row ->
      Forall2 (sampled T (F (Z.of_nat k)) H W nodata) pts row.
Proof. exact bilinear_spec. Qed.
Print Assumptions C22_sample_bilinear_partial.

(** What [sampled] means: it reproduces linear functions of the coordinates, *)
Theorem C22_reproduces_linear :
  forall T H W f nodata p z a b c, invertible T -> 2 <= H -> 2 <= W ->
  samples_of T H W f (fun r => a + b * fst r + c * snd r)%Q ->
  sampled T f H W nodata p z -> between_centres T H W p ->
  exists q, z = Some q /\ (q == a + b * fst p + c * snd p)%Q.
Proof. exact sampled_affine. Qed.
Print Assumptions C22_reproduces_linear.

(** and bilinear ones where rows and columns run along the axes; *)
Theorem C22_reproduces_bilinear :
  forall T H W f nodata p z a b c d, invertible T -> 2 <= H -> 2 <= W ->
  (sx T == 0)%Q -> (sy T == 0)%Q ->
  samples_of T H W f (fun r => a + b * fst r + c * snd r + d * fst r * snd r)%Q ->
  sampled T f H W nodata p z -> between_centres T H W p ->
  exists q, z = Some q /\ (q == a + b * fst p + c * snd p + d * fst p * snd p)%Q.
Proof. exact sampled_biaffine. Qed.
Print Assumptions C22_reproduces_bilinear.

(** it lies between the values of the cells around the point; *)
Theorem C22_bounded :
  forall T H W f nodata p z u v n lo hi, invertible T -> 2 <= H -> 2 <= W ->
  sampled T f H W nodata p z -> at_position T p u v ->
  (0 <= u <= inject_Z (H - 1) /\ 0 <= v <= inject_Z (W - 1))%Q ->
  (forall a b, 0 <= a < H -> 0 <= b < W -> (u - 1 <= inject_Z a <= u + 1)%Q ->
     (v - 1 <= inject_Z b <= v + 1)%Q -> f a b = Some (n a b) /\ (lo <= n a b <= hi)%Q) ->
  exists q, z = Some q /\ (lo <= q <= hi)%Q.
Proof. exact sampled_bounded. Qed.
Print Assumptions C22_bounded.

(** and it is the cell's value at a cell centre. *)
Theorem C22_exact_at_centres :
  forall T H W f nodata p z i j n, invertible T -> 2 <= H -> 2 <= W ->
  sampled T f H W nodata p z -> peq (centre T i j) p -> 0 <= i < H -> 0 <= j < W ->
  (forall a b, 0 <= a < H -> 0 <= b < W -> i - 1 <= a <= i + 1 -> j - 1 <= b <= j + 1 -> f a b = Some (n a b)) ->
  exists q, z = Some q /\ (q == n i j)%Q.
Proof. exact sampled_centre. Qed.
Print Assumptions C22_exact_at_centres.

Definition bi (dt : dtype) (g : grid fl) (pts : list (Q * Q)) : option (list (list fl)) :=
  match sample_bilinear fj g dt pts with Ok l => Some (map (map fred) l) | Err _ => None end.
Definition bg : grid fl := fget unitT (fnd 3 3 (map num [0; 1; 2; 10; 11; 12; 20; 21; 22])) (num (-1)).
Example C22_nonvacuous :
  invertible unitT /\ at_position unitT (2, 3 # 2)%Q 1 (3 # 2) /\
  bi DFloat bg [(2, 3 # 2); (1, 1); (5 # 2, 5 # 2); (3, 1)]%Q
  = Some [[Some (23 # 2); Some (11 # 2); num 22; num (-1)]]%Q.
Proof. vm_compute. repeat split; try reflexivity; discriminate. Qed.

(** Finding: the nodata value takes part in the interpolation like a number. *)
Theorem C22_nodata_blended_refuted :
  bi DFloat (fget unitT (fnd 2 2 (map num [0; -9999; 0; 0])) (num (-9999))) [(1, 1 # 2)]%Q
  = Some [[Some (-9999 # 2)]]%Q.
Proof. vm_compute. reflexivity. Qed.
Print Assumptions C22_nodata_blended_refuted.

(** Finding: at the centre of a valid cell the result is nan when a neighbour
    with weight zero is nan. *)
Theorem C22_nan_neighbour_refuted :
  bi DFloat (fget unitT (fnd 2 2 [num 5; None; num 7; num 8]) None) [(1 # 2, 1 # 2)]%Q = Some [[None]].
Proof. vm_compute. reflexivity. Qed.
Print Assumptions C22_nan_neighbour_refuted.

(** Finding: several points on the first row of centres raise, one does not. *)
Theorem C22_first_row_refuted :
  bi DFloat bg [(1, 1 # 2)]%Q = Some [[Some (1 # 2)]]%Q /\
  err (sample_bilinear fj bg DFloat [(1, 1 # 2); (2, 1 # 2)]%Q) = Some ValueError.
Proof. vm_compute. split; reflexivity. Qed.
Print Assumptions C22_first_row_refuted.

(** Finding: on signed integer grids a point outside of the centres is not
    nodata: the index -1 wraps around, and an index beyond the end raises. *)
Theorem C22_integer_outside_refuted :
  bi DInt bg [(1 # 4, 3 # 2)]%Q = Some [[num 10]] /\
  bi DFloat bg [(1 # 4, 3 # 2)]%Q = Some [[num (-1)]] /\
  err (sample_bilinear fj bg DInt [(11 # 4, 3 # 2)]%Q) = Some IndexError.
Proof. vm_compute. repeat split; reflexivity. Qed.
Print Assumptions C22_integer_outside_refuted.

(** C23.  Points at or above the origin of an unskewed transform. *)
Theorem C23_gridpoints_means_partial :
  forall junk T pts,
  (0 < dx T)%Q -> (0 < dy T)%Q -> (sx T == 0)%Q -> (sy T == 0)%Q -> pts <> [] ->
  (forall p, In p pts -> (x0 T <= fst (fst p))%Q /\ (y0 T <= snd (fst p))%Q) ->
  exists g H W F cs, gridpoints junk T pts = Ok g /\ grid_is g T H W 1 F None /\
    Forall2 (fun p c => in_cell T (fst p) c /\ in_grid H W c) pts cs /\
    (exists p, In p pts /\ (y0 T + inject_Z (H - 1) * dy T <= snd (fst p))%Q) /\
    (exists p, In p pts /\ (x0 T + inject_Z (W - 1) * dx T <= fst (fst p))%Q) /\
    forall i j, 0 <= i < H -> 0 <= j < W ->
      exists zs, values_in (i, j) cs (map snd pts) zs /\ mean zs (F 0 i j).
Proof. exact gridpoints_spec. Qed.
Print Assumptions C23_gridpoints_means_partial.

Theorem C23_gridpoints_order_partial :
  forall junk T pts pts',
  (0 < dx T)%Q -> (0 < dy T)%Q -> (sx T == 0)%Q -> (sy T == 0)%Q -> pts <> [] ->
  (forall p, In p pts -> (x0 T <= fst (fst p))%Q /\ (y0 T <= snd (fst p))%Q) ->
  Permutation pts pts' ->
  exists g g' H W F F', gridpoints junk T pts = Ok g /\ gridpoints junk T pts' = Ok g' /\
    grid_is g T H W 1 F None /\ grid_is g' T H W 1 F' None /\
    forall i j, 0 <= i < H -> 0 <= j < W -> fsame (F 0 i j) (F' 0 i j).
Proof. exact gridpoints_order. Qed.
Print Assumptions C23_gridpoints_order_partial.

Example C23_nonvacuous :
  fshow (gridpoints fj unitT [((1 # 2, 1 # 2), 4); ((3 # 2, 1 # 4), 1); ((1 # 3, 1 # 5), 5)]%Q)
  = Some (1, 2, [[[Some (9 # 2)%Q; num 1]]]).
Proof. vm_compute. reflexivity. Qed.

(** Finding: points below the origin raise IndexError. *)
Theorem C23_below_origin_refuted :
  err (gridpoints fj unitT [((1 # 2, 1 # 2), 4); ((-3 # 2, 1 # 4), 1)]%Q) = Some IndexError.
Proof. vm_compute. reflexivity. Qed.
Print Assumptions C23_below_origin_refuted.

(** C54. *)
Theorem C54_data_extent_partial :
  forall junk (g : grid fl) T H W F nodata,
  grid_is g T H W 1 F nodata -> (0 < dx T)%Q -> (0 < dy T)%Q -> (sx T == 0)%Q -> (sy T == 0)%Q ->
  (exists p, data_centre T H W (F 0) nodata p /\ (snd (centre T 0 0) <= fst p)%Q) ->
  exists c e, data_extent junk g true = Ok c /\ tight_box (data_centre T H W (F 0) nodata) c /\
    data_extent junk g false = Ok e /\ tight_box (data_point T H W (F 0) nodata) e.
Proof. exact data_extent_spec. Qed.
Print Assumptions C54_data_extent_partial.

Definition box4 (r : res (Q * Q * Q * Q)) : option (list Q) :=
  match r with Ok (a, b, c, d) => Some (map Qred [a; b; c; d]) | Err _ => None end.
Definition dg (y : Q) : grid fl := fget (mkT 0 y 1 1 0 0) (fnd 2 3 [None; num 5; None; None; num 6; None]) None.
Example C54_nonvacuous :
  (exists p, data_centre (mkT 0 0 1 1 0 0) 2 3 (fun i j => nth (Z.to_nat (i * 3 + j)) [None; num 5; None; None; num 6; None] None) None p
     /\ (snd (centre (mkT 0 0 1 1 0 0) 0 0) <= fst p)%Q) /\
  box4 (data_extent fj (dg 0) true) = Some [3 # 2; 3 # 2; 1 # 2; 3 # 2]%Q /\
  box4 (data_extent fj (dg 0) false) = Some [1; 2; 0; 2]%Q.
Proof.
  split; [|vm_compute; split; reflexivity]. exists (centre (mkT 0 0 1 1 0 0) 0 1). split.
  - exists 0, 1. repeat split; try lia; vm_compute; congruence.
  - vm_compute. discriminate.
Qed.

(** Finding: [data_extent] raises IndexError for every grid with several bands. *)
Theorem C54_bands_refuted : forall junk (g : grid fl) T H W nb F nodata center,
  grid_is g T H W nb F nodata -> 0 < H -> nb <> 1 -> data_extent junk g center = Err IndexError.
Proof. exact data_extent_bands. Qed.
Print Assumptions C54_bands_refuted.

Example C54_bands_case :
  let g := fget (mkT 0 0 1 1 0 0) (mkN [2; 1; 2] (fun i => match i with [a; _; c] => num (a + c) | _ => None end)) None in
  length (gbands g) = 2%nat /\ gsize g = (2, 1) /\ err (data_extent fj g true) = Some IndexError.
Proof. vm_compute. repeat split. Qed.

(** Finding: the search for the right-hand end starts at a y coordinate, so a
    grid lying above the diagonal reports that instead. *)
Theorem C54_right_end_refuted :
  box4 (data_extent fj (dg 100) true) = Some [3 # 2; 201 # 2; 201 # 2; 203 # 2]%Q.
Proof. vm_compute. reflexivity. Qed.
Print Assumptions C54_right_end_refuted.

(** C55. *)
Theorem C55_resample_nearest_partial :
  forall (V : Type) (junk : Z -> Z -> V) v0 (g : grid V) T H W F nodata dx' dy',
  grid_is g T H W 1 F nodata -> (0 < dx T)%Q -> (0 < dy T)%Q -> (sx T == 0)%Q -> (sy T == 0)%Q ->
  (0 < dx')%Q -> (0 < dy')%Q ->
  (dx' <= inject_Z (W - 1) * dx T)%Q -> (dy' <= inject_Z (H - 1) * dy T)%Q ->
  exists g' T' ny nx F', resample_nearest junk v0 g dx' dy' = Ok g' /\
    grid_is g' T' ny nx 1 F' nodata /\
    (dx T' = dx' /\ dy T' = dy' /\ sx T' = sx T /\ sy T' = sy T) /\
    peq (centre T' 0 0) (centre T 0 0) /\
    ny = Qfloor (inject_Z (H - 1) * dy T / dy') + 1 /\ nx = Qfloor (inject_Z (W - 1) * dx T / dx') + 1 /\
    forall i j, 0 <= i < ny -> 0 <= j < nx ->
      exists c, in_cell T (centre T' i j) c /\ in_grid H W c /\ F' 0 i j = F 0 (fst c) (snd c).
Proof. exact resample_spec. Qed.
Print Assumptions C55_resample_nearest_partial.

Theorem C55_nonpositive_resolution :
  forall (V : Type) (junk : Z -> Z -> V) v0 (g : grid V) dx' dy', (dx' <= 0 \/ dy' <= 0)%Q ->
  resample_nearest junk v0 g dx' dy' = Err ValueError.
Proof. exact resample_nonpositive. Qed.
Print Assumptions C55_nonpositive_resolution.

Example C55_nonvacuous :
  show (resample_nearest zj 0 exg 20 5) = Some (3, 3, [[[0; 2; 4]; [10; 12; 14]; [20; 22; 24]]]).
Proof. vm_compute. reflexivity. Qed.

(** Finding: a grid of one column is laid out as one row. *)
Theorem C55_one_column_refuted :
  let g := zget unitT (nd_of 3 1 [0; 1; 2]) (-1) in
  show (Ok g) = Some (3, 1, [[[0]; [1]; [2]]]) /\
  show (resample_nearest zj 0 g 1 1) = Some (1, 3, [[[0; 1; 2]]]).
Proof. vm_compute. split; reflexivity. Qed.
Print Assumptions C55_one_column_refuted.

(** Finding: two bands are mixed up. *)
Theorem C55_two_bands_refuted :
  let g := zget unitT (nd3_of 2 2 2 (fun i j k => 100 * k + 10 * i + j)) (-1) in
  show (Ok g) = Some (2, 2, [[[0; 1]; [10; 11]]; [[100; 101]; [110; 111]]]) /\
  show (resample_nearest zj 0 g 1 1) = Some (2, 2, [[[0; 100]; [1; 101]]; [[10; 110]; [11; 111]]]).
Proof. vm_compute. split; reflexivity. Qed.
Print Assumptions C55_two_bands_refuted.
