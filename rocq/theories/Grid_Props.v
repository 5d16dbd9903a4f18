(** Properties of RegularGrid (C14-C18, C20, C52, C53). *)
From Coq Require Import List ZArith QArith Qround Qabs Bool Lia Lqa.
From Verif Require Import Band_Model Band_Spec Band_IndexModel Band_IndexSpec Band_Proofs
  Band_IndexProofs Grid_Model Grid_Spec Grid_Proofs Grid_OpsProofs Grid_ResizeProofs Grid_MoreProofs.
Import ListNotations.
Open Scope Z_scope.

(** An integer grid made from rows, for the examples and findings. *)
Definition zj : Z -> Z -> Z := fun _ _ => 77.
Definition nd_of (h w : Z) (l : list Z) : nd Z :=
  mkN [h; w] (fun i => match i with [a; b] => nth (Z.to_nat (a * w + b)) l 0 | _ => 0 end).
Definition nd3_of (h w n : Z) (f : Z -> Z -> Z -> Z) : nd Z :=
  mkN [h; w; n] (fun i => match i with [a; b; c] => f a b c | _ => 0 end).
Definition zgrid (T : transform) (v : nd Z) (nodata : Z) : res (grid Z) := make_grid zj 0 ClsComp T v nodata.
Definition zget (T : transform) (v : nd Z) (nodata : Z) : grid Z :=
  match zgrid T v nodata with Ok g => g | Err _ => mkG T [] ClsComp nodata end.
Definition show (g : res (grid Z)) : option (Z * Z * list (list (list Z))) :=
  match g with
  | Err _ => None
  | Ok g =>
      let (h, w) := gsize g in
      match mapM (fun b => getblock zj b 0 0 h w) (gbands g) with
      | Ok l => Some (h, w, map (fun a => map (fun i => map (at_ a i) (zrange 0 w)) (zrange 0 h)) l)
      | Err _ => None
      end
  end.
Definition origin (g : res (grid Z)) : option (Q * Q) :=
  match g with Ok g => Some (Qred (x0 (gT g)), Qred (y0 (gT g))) | Err _ => None end.
Definition err {A} (r : res A) : option exn := match r with Err e => Some e | Ok _ => None end.

(** C14. *)
Theorem C14_positions_of_world :
  forall T u v, invertible T -> ~ (dy T == 0)%Q ->
  exists i j, positions T (fst (world T (u + (1 # 2)) (v + (1 # 2)))%Q)
                          (snd (world T (u + (1 # 2)) (v + (1 # 2)))%Q) = Some (i, j)
              /\ (i == u /\ j == v)%Q.
Proof. exact positions_world. Qed.
Print Assumptions C14_positions_of_world.

Theorem C14_world_of_positions :
  forall T x y, invertible T -> ~ (dy T == 0)%Q ->
  exists i j, positions T x y = Some (i, j) /\
    peq (world T (i + (1 # 2)) (j + (1 # 2)))%Q (x, y).
Proof. exact world_positions. Qed.
Print Assumptions C14_world_of_positions.

(** [_indices] of the coordinates that [coordinates()[i, j]] returns. *)
Theorem C14_indices_of_coordinates :
  forall T i j ny nx, invertible T -> ~ (dy T == 0)%Q ->
  exists r, coord_getitem T ny nx (KInt i) (KInt j) = Ok r /\ shp r = [] /\
    peq (elt r []) (centre T i j) /\
    indices_ T (fst (elt r [])) (snd (elt r [])) = Some (i, j).
Proof. exact coord_int. Qed.
Print Assumptions C14_indices_of_coordinates.

(** [_indices] finds a cell that contains the point. *)
Theorem C14_indices_contain :
  forall T x y, invertible T -> ~ (dy T == 0)%Q ->
  exists i j u v, indices_ T x y = Some (i, j) /\ peq (world T u v) (x, y) /\
    (inject_Z i <= u <= inject_Z i + 1 /\ inject_Z j <= v <= inject_Z j + 1)%Q.
Proof. exact indices_contain. Qed.
Print Assumptions C14_indices_contain.

Theorem C14_coordinates_of_slices :
  forall T ny nx a b c a' b' c' li lj,
  selects ny (KSlice a b c) false li -> selects nx (KSlice a' b' c') false lj ->
  (1 < length li)%nat -> (1 < length lj)%nat ->
  exists r, coord_getitem T ny nx (KSlice a b c) (KSlice a' b' c') = Ok r /\
    shp r = [Z.of_nat (length li); Z.of_nat (length lj)] /\
    forall p q i j, nth_error li p = Some i -> nth_error lj q = Some j ->
      peq (elt r [Z.of_nat p; Z.of_nat q]) (centre T i j).
Proof. exact coord_slices. Qed.
Print Assumptions C14_coordinates_of_slices.

Theorem C14_center_coords :
  forall T ny nx i j,
  nrow (center_coords T ny nx) = ny /\ ncol (center_coords T ny nx) = nx /\
  peq (at_ (center_coords T ny nx) i j) (centre T i j).
Proof. exact center_coords_spec. Qed.
Print Assumptions C14_center_coords.

Definition skewT : transform := mkT 10 20 2 3 1 (-1).
Example C14_nonvacuous :
  invertible skewT /\ ~ (dy skewT == 0)%Q /\
  indices_ skewT (20 # 1) (33 # 1) = Some (5, 2) /\
  selects 5 (KSlice (Some 1) None (Some 2)) false [1; 3] /\
  selects 4 (KSlice None None (Some (-1))) false [3; 2; 1; 0].
Proof.
  split; [intro E; vm_compute in E; discriminate|]. split; [intro E; vm_compute in E; discriminate|].
  split; [vm_compute; reflexivity|].
  split; [apply (sel_slice 5 _ _ _ 1 5 2); reflexivity|apply (sel_slice 4 _ _ _ 3 (-1) (-1)); reflexivity].
Qed.

(** Finding: a grid rotated by ninety degrees (dy = 0) has an invertible
    transform, but no positions. *)
Theorem C14_rotated_refuted :
  exists T, invertible T /\ forall x y, positions T x y = None.
Proof.
  exists (mkT 0 0 0 0 1 1). split; [intro E; vm_compute in E; discriminate|]. reflexivity.
Qed.
Print Assumptions C14_rotated_refuted.

(** Finding: negative indices of [coordinates()] are not counted from the end,
    and a slice selecting one row does not give a two-dimensional result. *)
Theorem C14_negative_index_refuted :
  exists T ny nx r, selects ny (KInt (-1)) true [ny - 1] /\ 0 < nx /\
    coord_getitem T ny nx (KInt (-1)) (KInt 0) = Ok r /\ ~ peq (elt r []) (centre T (ny - 1) 0).
Proof.
  exists (mkT 0 0 1 1 0 0), 3, 3. eexists.
  split; [apply (sel_neg 3 (-1)); lia|]. split; [lia|]. split; [reflexivity|].
  intros [E1 E2]. vm_compute in E2. discriminate.
Qed.
Print Assumptions C14_negative_index_refuted.
Theorem C14_single_row_refuted :
  exists T ny nx r, selects ny (KSlice (Some 0) (Some 1) None) false [0] /\
    coord_getitem T ny nx (KSlice (Some 0) (Some 1) None) (KSlice None None None) = Ok r /\
    shp r <> [1; nx].
Proof.
  exists (mkT 0 0 1 1 0 0), 3, 3. eexists.
  split; [apply (sel_slice 3 _ _ _ 0 1 1); reflexivity|]. split; [reflexivity|]. discriminate.
Qed.
Print Assumptions C14_single_row_refuted.

(** C15.  The chunks, their order in [os] (row, column of their first cell):
    they show the right part of the grid, cover every cell and, without
    overlap, cover it once. *)
Theorem C15_aschunks_tiles :
  forall (V : Type) (junk : Z -> Z -> V) v0 g T H W nb F nodata szx szy ox oy,
  grid_is g T H W nb F nodata -> 0 < W -> 0 <= ox < szx -> 0 <= oy < szy ->
  exists (n : nat) gs os,
    (forall fuel, (n <= fuel)%nat -> aschunks junk v0 fuel g (szx, szy) (ox, oy) = Some (Ok gs)) /\
    Forall2 (chunk_is T H W nb F nodata (szx, szy)) gs os /\
    NoDup os /\
    (forall o, In o os -> 0 <= fst o < H /\ 0 <= snd o < W) /\
    (forall y x, 0 <= y < H -> 0 <= x < W -> exists o, In o os /\ in_chunk (szx, szy) o y x) /\
    (ox = 0 -> oy = 0 -> forall y x o o', In o os -> In o' os ->
       in_chunk (szx, szy) o y x -> in_chunk (szx, szy) o' y x -> o = o').
Proof. exact aschunks_spec. Qed.
Print Assumptions C15_aschunks_tiles.

(** The default size is a quarter of the grid along each axis. *)
Theorem C15_default_size :
  forall (V : Type) (junk : Z -> Z -> V) v0 fuel g T H W nb F nodata ov,
  grid_is g T H W nb F nodata ->
  aschunks junk v0 fuel g (-1, -1) ov = aschunks junk v0 fuel g (W / 4, H / 4) ov.
Proof. exact default_size. Qed.
Print Assumptions C15_default_size.

Definition exT : transform := mkT 100 200 10 5 0 0.
Definition exg : grid Z := zget exT (nd_of 3 5 [0;1;2;3;4;10;11;12;13;14;20;21;22;23;24]) (-1).
Lemma exg_is : grid_is exg exT 3 5 1 (fun k i j => nth (Z.to_nat (i * 5 + j)) [0;1;2;3;4;10;11;12;13;14;20;21;22;23;24] 0) (-1).
Proof.
  destruct (make_grid_spec2 Z zj 0 ClsComp exT (nd_of 3 5 [0;1;2;3;4;10;11;12;13;14;20;21;22;23;24]) (-1) 3 5
              (fun k i j => nth (Z.to_nat (i * 5 + j)) [0;1;2;3;4;10;11;12;13;14;20;21;22;23;24] 0))
    as (g & E & G & _); try lia; try reflexivity.
  unfold exg, zget, zgrid. rewrite E. exact G.
Qed.
Example C15_nonvacuous :
  match aschunks zj 0 10 exg (3, 2) (0, 0) with
  | Some (Ok l) => map (fun g => (origin (Ok g), show (Ok g))) l
  | _ => []
  end =
  [(Some (100%Q, 200%Q), Some (2, 3, [[[0;1;2];[10;11;12]]]));
   (Some (130%Q, 200%Q), Some (2, 2, [[[3;4];[13;14]]]));
   (Some (100%Q, 210%Q), Some (1, 3, [[[20;21;22]]]));
   (Some (130%Q, 210%Q), Some (1, 2, [[[23;24]]]))].
Proof. vm_compute. reflexivity. Qed.

(** Finding: with an overlap equal to the size, or the default size on a grid
    of fewer than four columns, aschunks never ends. *)
Theorem C15_overlap_never_ends_refuted :
  exists g T H W nb F nodata, grid_is g T H W nb F nodata /\ 0 < H /\ 0 < W /\
    forall fuel, aschunks zj 0 fuel g (3, 3) (3, 0) = None.
Proof.
  exists exg. eexists _, _, _, _, _, _. split; [exact exg_is|]. split; [lia|]. split; [lia|].
  intro fuel. unfold aschunks.
  destruct (grid_size _ _ _ _ _ _ _ _ exg_is) as (-> & _). cbn [fst snd Z.eqb andb].
  apply (loop_forever Z zj 0 _ _ _ _ _ _ _ 3 3 0 exg_is); lia.
Qed.
Print Assumptions C15_overlap_never_ends_refuted.
Theorem C15_narrow_default_refuted :
  forall (V : Type) (junk : Z -> Z -> V) v0 g T H W nb F nodata,
  grid_is g T H W nb F nodata -> 0 < H -> 0 < W < 4 ->
  forall fuel, aschunks junk v0 fuel g (-1, -1) (0, 0) = None.
Proof. exact narrow_default. Qed.
Print Assumptions C15_narrow_default_refuted.

(** C16, for boxes that do not reach beyond the first row or column. *)
Theorem C16_clip_partial :
  forall (V : Type) (junk : Z -> Z -> V) v0 g T H W nb F nodata xmin xmax ymin ymax,
  grid_is g T H W nb F nodata -> invertible T -> ~ (dy T == 0)%Q ->
  (xmin <= xmax)%Q -> (ymin <= ymax)%Q ->
  (forall p, in_box xmin xmax ymin ymax p ->
     exists u v, (0 <= u)%Q /\ (0 <= v)%Q /\ peq p (world T u v)) ->
  exists g' T' i0 j0 h w,
    clip junk v0 g xmin xmax ymin ymax = Ok g' /\
    grid_is g' T' h w nb (fun k i j => F k (i0 + i) (j0 + j)) nodata /\
    same_place T' T i0 j0 /\
    0 <= i0 /\ 0 <= j0 /\ 0 <= h /\ 0 <= w /\
    (0 < h -> i0 + h <= H) /\ (0 < w -> j0 + w <= W) /\
    (forall i j, 0 <= i < H -> 0 <= j < W -> in_box xmin xmax ymin ymax (centre T i j) ->
       i0 <= i < i0 + h /\ j0 <= j < j0 + w) /\
    ((sx T == 0)%Q -> (sy T == 0)%Q ->
     forall i j, i0 <= i < i0 + h -> j0 <= j < j0 + w -> in_box xmin xmax ymin ymax (centre T i j)).
Proof. exact clip_spec. Qed.
Print Assumptions C16_clip_partial.

Example C16_nonvacuous :
  (forall p, in_box 104 136 203 300 p ->
     exists u v, (0 <= u)%Q /\ (0 <= v)%Q /\ peq p (world exT u v)) /\
  origin (clip zj 0 exg 104 136 203 300) = Some (100%Q, 205%Q) /\
  show (clip zj 0 exg 104 136 203 300) = Some (2, 4, [[[10;11;12;13];[20;21;22;23]]]).
Proof.
  split; [|split; vm_compute; reflexivity].
  intros [x y] [[A B] [C D]]. cbn [fst snd] in *.
  exists ((y - 200) / 5)%Q, ((x - 100) / 10)%Q. unfold peq, world, exT. cbn [fst snd x0 y0 dx dy sx sy].
  split; [apply Qle_shift_div_l; lra|]. split; [apply Qle_shift_div_l; lra|]. split; field.
Qed.

(** Finding: a box reaching beyond the first column is cut with a negative
    index, which counts from the last column: the cell shown at x = -1..0 holds
    the value of the last cell, and the requested cells are missing. *)
Theorem C16_beyond_corner_refuted :
  let T := mkT 0 0 1 1 0 0 in
  let g := zget T (nd_of 1 4 [0; 1; 2; 3]) (-9) in
  show (Ok g) = Some (1, 4, [[[0; 1; 2; 3]]]) /\
  origin (clip zj 0 g (-12 # 10) 4 0 1) = Some ((-1)%Q, 0%Q) /\
  show (clip zj 0 g (-12 # 10) 4 0 1) = Some (1, 1, [[[3]]]).
Proof. vm_compute. repeat split; reflexivity. Qed.
Print Assumptions C16_beyond_corner_refuted.

(** C17, for grids without skew and with positive resolution; the corner of the
    new box lies strictly within half a cell of the corner of cell (b, a). *)
Theorem C17_resize_partial :
  forall (V : Type) (junk : Z -> Z -> V) v0 g T H W nb F nodata n0 n1 n2 n3 a b,
  grid_is g T H W nb F nodata ->
  (0 < dx T)%Q -> (0 < dy T)%Q -> (sx T == 0)%Q -> (sy T == 0)%Q ->
  (inject_Z a - (1 # 2) < (n0 - x0 T) / dx T < inject_Z a + (1 # 2))%Q ->
  (inject_Z b - (1 # 2) < (n1 - y0 T) / dy T < inject_Z b + (1 # 2))%Q ->
  let nx := Qceiling ((n2 - n0) / dx T)%Q in
  let ny := Qceiling ((n3 - n1) / dy T)%Q in
  0 <= nx -> 0 <= ny -> a <= W -> 0 <= a + nx -> b <= H -> 0 <= b + ny ->
  exists g' F', resize junk v0 g (n0, n1, n2, n3) = Ok g' /\
    grid_is g' (mkT n0 n1 (dx T) (dy T) (sx T) (sy T)) ny nx nb F' nodata /\
    (forall k i j, 0 <= k < nb -> 0 <= i < ny -> 0 <= j < nx ->
      (0 <= i + b < H -> 0 <= j + a < W -> F' k i j = F k (i + b) (j + a)) /\
      (~ (0 <= i + b < H /\ 0 <= j + a < W) -> F' k i j = nodata)).
Proof. exact resize_spec. Qed.
Print Assumptions C17_resize_partial.

Example C17_nonvacuous :
  (inject_Z (-1) - (1 # 2) < (90 - x0 exT) / dx exT < inject_Z (-1) + (1 # 2))%Q /\
  (inject_Z 1 - (1 # 2) < (206 - y0 exT) / dy exT < inject_Z 1 + (1 # 2))%Q /\
  origin (resize zj 0 exg (90%Q, 206%Q, 125%Q, 226%Q)) = Some (90%Q, 206%Q) /\
  show (resize zj 0 exg (90%Q, 206%Q, 125%Q, 226%Q)) =
    Some (4, 4, [[[-1;10;11;12];[-1;20;21;22];[-1;-1;-1;-1];[-1;-1;-1;-1]]]).
Proof.
  split; [split; reflexivity|]. split; [split; reflexivity|]. split; vm_compute; reflexivity.
Qed.

(** Finding: moved by exactly half a cell, rounding is not consistent: the new
    grid has four columns, covers 3.5 of the four source columns, and its last
    column is nodata although it lies half in the source. *)
Theorem C17_half_cell_refuted :
  let T := mkT 0 0 1 1 0 0 in
  let g := zget T (nd_of 1 4 [0; 1; 2; 3]) (-9) in
  show (resize zj 0 g (-1 # 2, 0, 7 # 2, 1)%Q) = Some (1, 4, [[[0; 1; 2; -9]]]) /\
  show (resize zj 0 g (1 # 2, 0, 9 # 2, 1)%Q) = Some (1, 4, [[[0; 1; 2; 3]]]).
Proof. vm_compute. split; reflexivity. Qed.
Print Assumptions C17_half_cell_refuted.

(** Finding: a box that misses the grid raises instead of giving nodata. *)
Theorem C17_disjoint_refuted :
  let T := mkT 0 0 1 1 0 0 in
  let g := zget T (nd_of 1 4 [0; 1; 2; 3]) (-9) in
  err (resize zj 0 g (10, 0, 12, 1)%Q) = Some ValueError.
Proof. vm_compute. reflexivity. Qed.
Print Assumptions C17_disjoint_refuted.

(** C18, for skew that is absent or of the sign of the resolution. *)
Theorem C18_extent_edge_partial :
  forall T H W, 0 <= H -> 0 <= W ->
  skew_agrees (dx T) (sx T) -> skew_agrees (dy T) (sy T) ->
  tight_box (cell_point T H W) (extent T H W false).
Proof. exact extent_edge. Qed.
Print Assumptions C18_extent_edge_partial.

Theorem C18_extent_centre_partial :
  forall T H W, 0 < H -> 0 < W ->
  skew_agrees (dx T) (sx T) -> skew_agrees (dy T) (sy T) ->
  tight_box (cell_centre T H W) (extent T H W true).
Proof. exact extent_centre. Qed.
Print Assumptions C18_extent_centre_partial.

(** bbox is (xmin, ymin, xmax, ymax) of the edge extent. *)
Theorem C18_bbox :
  forall T H W xmin xmax ymin ymax, extent T H W false = (xmin, xmax, ymin, ymax) ->
  bbox T H W = (xmin, ymin, xmax, ymax).
Proof. exact bbox_extent. Qed.
Print Assumptions C18_bbox.

Example C18_nonvacuous :
  let T := mkT 10 20 2 (-3) 1 (-1) in
  skew_agrees (dx T) (sx T) /\ skew_agrees (dy T) (sy T) /\
  bbox T 3 5 = (10, 6, 23, 20)%Q.
Proof. split; [right; reflexivity|]. split; [right; reflexivity|]. vm_compute. reflexivity. Qed.

(** Finding: where skew and resolution have opposite signs, cells lie outside
    the box. *)
Theorem C18_opposite_skew_refuted :
  exists T H W p, cell_point T H W p /\ 0 < H /\ 0 < W /\
    let '(xmin, xmax, ymin, ymax) := extent T H W false in (fst p < xmin)%Q.
Proof.
  exists (mkT 0 0 1 1 (-1) 0), 2, 2, (world (mkT 0 0 1 1 (-1) 0) 2 0).
  split; [exists 2%Q, 0%Q; repeat split; vm_compute; congruence|]. split; [lia|]. split; [lia|].
  vm_compute. reflexivity.
Qed.
Print Assumptions C18_opposite_skew_refuted.

(** C20. *)
Theorem C20_data_mask :
  forall (V : Type) (junk : Z -> Z -> V) isnan veq g T H W nb F nodata,
  grid_is g T H W nb F nodata ->
  exists m, data_mask junk isnan veq g = Ok (Mask2 H W m) /\
    forall y x, 0 <= y < H -> 0 <= x < W ->
      m y x = true <-> (forall k, 0 <= k < nb -> is_data isnan veq nodata (F k y x)).
Proof. exact data_mask_ok. Qed.
Print Assumptions C20_data_mask.

(** Only nodata cells change; they hold the new marker; and when the marker is
    a proper one that no valid cell holds, the same cells are data afterwards. *)
Theorem C20_set_nodata_value :
  forall (V : Type) (junk : Z -> Z -> V) isnan veq g T H W nb F nodata val,
  grid_is g T H W nb F nodata ->
  exists g' F', set_nodata_value junk isnan veq g val = (g', None) /\
    grid_is g' T H W nb F' val /\
    (forall k y x, 0 <= k < nb -> 0 <= y < H -> 0 <= x < W ->
      (is_data isnan veq nodata (F k y x) -> F' k y x = F k y x) /\
      (~ is_data isnan veq nodata (F k y x) -> F' k y x = val)) /\
    ((isnan val = true \/ veq val val = true) ->
     (forall k y x, 0 <= k < nb -> 0 <= y < H -> 0 <= x < W ->
        is_data isnan veq nodata (F k y x) -> is_data isnan veq val (F k y x)) ->
     forall k y x, 0 <= k < nb -> 0 <= y < H -> 0 <= x < W ->
        (is_data isnan veq val (F' k y x) <-> is_data isnan veq nodata (F k y x))).
Proof. exact set_nodata_ok. Qed.
Print Assumptions C20_set_nodata_value.

(** [apply] of an elementwise function to a single-band grid. *)
Theorem C20_apply_partial :
  forall (V : Type) (junk : Z -> Z -> V) isnan veq g T H W F nodata (f : V -> V),
  grid_is g T H W 1 F nodata ->
  exists g' F', apply junk isnan veq g (map f) = (g', None) /\
    grid_is g' T H W 1 F' nodata /\
    forall y x, 0 <= y < H -> 0 <= x < W ->
      (is_data isnan veq nodata (F 0 y x) -> F' 0 y x = f (F 0 y x)) /\
      (~ is_data isnan veq nodata (F 0 y x) -> F' 0 y x = F 0 y x).
Proof. exact apply_elementwise. Qed.
Print Assumptions C20_apply_partial.

Definition maskg : grid Z := zget exT (nd_of 2 2 [5; -1; -1; 7]) (-1).
Example C20_nonvacuous :
  match data_mask zj (fun _ => false) Z.eqb maskg with
  | Ok (Mask2 2 2 m) => map (fun p => m (fst p) (snd p)) [(0, 0); (0, 1); (1, 0); (1, 1)]
  | _ => []
  end = [true; false; false; true] /\
  show (Ok (fst (set_nodata_value zj (fun _ => false) Z.eqb maskg 0))) = Some (2, 2, [[[5; 0]; [0; 7]]]) /\
  show (Ok (fst (apply zj (fun _ => false) Z.eqb maskg (map (fun v => v * v))))) =
    Some (2, 2, [[[25; -1]; [-1; 49]]]).
Proof. vm_compute. repeat split; reflexivity. Qed.

(** Finding: apply on a grid of two bands raises ValueError. *)
Theorem C20_apply_two_bands_refuted :
  let g := zget exT (nd3_of 2 2 2 (fun i j k => i + j + k)) (-1) in
  show (Ok g) = Some (2, 2, [[[0; 1]; [1; 2]]; [[1; 2]; [2; 3]]]) /\
  snd (apply zj (fun _ => false) Z.eqb g (map (fun v => v))) = Some ValueError.
Proof. vm_compute. split; reflexivity. Qed.
Print Assumptions C20_apply_two_bands_refuted.

(** C52.  Sums and differences of grids, [op] on two pixel values. *)
Theorem C52_add_grids_cellwise :
  forall (V : Type) (junk : Z -> Z -> V) v0 (op : V -> V -> V) g h T H W nb F F2 nodata nodata2,
  grid_is g T H W nb F nodata -> grid_is h T H W nb F2 nodata2 ->
  exists r, combine_grids junk v0 op g h = Ok r /\
    grid_is r T H W nb (fun k i j => op (F k i j) (F2 k i j)) nodata.
Proof. exact combine_ok. Qed.
Print Assumptions C52_add_grids_cellwise.

Theorem C52_add_grids_mismatch :
  forall (V : Type) (junk : Z -> Z -> V) v0 (op : V -> V -> V) g h T H W nb F nodata T2 H2 W2 nb2 F2 nodata2,
  grid_is g T H W nb F nodata -> grid_is h T2 H2 W2 nb2 F2 nodata2 ->
  (H <> H2 \/ W <> W2 \/ ~ (x0 T == x0 T2)%Q \/ ~ (y0 T == y0 T2)%Q \/ ~ (dx T == dx T2)%Q \/
   ~ (dy T == dy T2)%Q \/ ~ (sx T == sx T2)%Q \/ ~ (sy T == sy T2)%Q) ->
  combine_grids junk v0 op g h = Err ValueError.
Proof. exact combine_mismatch. Qed.
Print Assumptions C52_add_grids_mismatch.

Example C52_nonvacuous :
  show (combine_grids zj 0 Z.add maskg (zget exT (nd_of 2 2 [1; 2; 3; 4]) (-1)))
  = Some (2, 2, [[[6; 1]; [2; 11]]]).
Proof. vm_compute. reflexivity. Qed.

(** Finding: nodata cells take part in the sum and are data afterwards. *)
Theorem C52_nodata_added_refuted :
  exists g h T H W F F2 nodata r,
    grid_is g T H W 1 F nodata /\ grid_is h T H W 1 F2 nodata /\
    ~ is_data (fun _ => false) Z.eqb nodata (F 0 0 0) /\
    combine_grids zj 0 Z.add g h = Ok r /\
    exists F', grid_is r T H W 1 F' nodata /\ is_data (fun _ => false) Z.eqb nodata (F' 0 0 0).
Proof.
  set (v := nd_of 1 1 [-9999]). set (w := nd_of 1 1 [5]).
  destruct (make_grid_spec2 Z zj 0 ClsComp exT v (-9999) 1 1
              (fun _ i j => elt v [i; j])) as (g & E & G & _); try lia; try reflexivity.
  destruct (make_grid_spec2 Z zj 0 ClsComp exT w (-9999) 1 1
              (fun _ i j => elt w [i; j])) as (h & E2 & G2 & _); try lia; try reflexivity.
  destruct (combine_ok Z zj 0 Z.add g h _ _ _ _ _ _ _ _ G G2) as (r & Er & Gr).
  exists g, h, exT, 1, 1. eexists _, _, (-9999), r.
  split; [exact G|]. split; [exact G2|]. split.
  { intros [_ A]. specialize (A eq_refl). vm_compute in A. discriminate. }
  split; [exact Er|]. eexists. split; [exact Gr|]. split; [discriminate|]. intros _. reflexivity.
Qed.
Print Assumptions C52_nodata_added_refuted.

(** C53.  [vertex_coords] has one more row and column than the grid, and all
    rows but the last hold the cell corners. *)
Theorem C53_vertex_coords_partial :
  forall junk T ny nx i j, 0 <= i < ny -> 0 <= j <= nx ->
  nrow (vertex_coords junk T ny nx) = ny + 1 /\ ncol (vertex_coords junk T ny nx) = nx + 1 /\
  peq (at_ (vertex_coords junk T ny nx) i j) (world T (inject_Z i) (inject_Z j)).
Proof. exact vertex_spec. Qed.
Print Assumptions C53_vertex_coords_partial.
Example C53_nonvacuous :
  0 <= 1 < 3 /\ 0 <= 5 <= 5 /\ world exT 1 5 = (150, 205)%Q.
Proof. repeat split; try lia. Qed.

(** Finding: the last row is uninitialised memory. *)
Theorem C53_last_row_refuted :
  forall junk T ny nx j, at_ (vertex_coords junk T ny nx) ny j = junk ny j.
Proof. exact vertex_last. Qed.
Print Assumptions C53_last_row_refuted.
