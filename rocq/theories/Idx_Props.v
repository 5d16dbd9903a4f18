(** C113: [RegularGrid.indices].  [in_cell], [inside_cell], [in_grid] (GridSample_Spec) and
    [world] (Grid_Spec) say where the cells are. *)
From Coq Require Import List ZArith QArith Bool Lia Lqa.
From Verif Require Import Band_Model Band_IndexModel Grid_Model Grid_Spec GridSample_Model GridSample_Spec Idx_Model Idx_Proofs.
Import ListNotations.
Open Scope Z_scope.

(** C113: what is returned is a cell of the grid that contains the point. *)
Theorem C113_point : forall T H W x y c, invertible T -> ~ (dy T == 0)%Q ->
  indices1 T H W x y = Ok c -> in_cell T (x, y) c /\ in_grid H W c.
Proof. exact point. Qed.
Print Assumptions C113_point.

(** C113: a point inside a cell of the grid gets that cell. *)
Theorem C113_inside : forall T H W x y c, invertible T -> ~ (dy T == 0)%Q ->
  inside_cell T (x, y) c -> in_grid H W c -> indices1 T H W x y = Ok c.
Proof. exact inside. Qed.
Print Assumptions C113_inside.

(** C113: a point that no cell of the grid contains is an IndexError. *)
Theorem C113_outside : forall T H W x y, invertible T -> ~ (dy T == 0)%Q ->
  (forall c, in_grid H W c -> ~ in_cell T (x, y) c) -> indices1 T H W x y = Err IndexError.
Proof. exact outside. Qed.
Print Assumptions C113_outside.
Definition skewed : transform := mkT 15 15 30 30 10 5.
Example C113_point_ex : invertible skewed /\ ~ (dy skewed == 0)%Q /\ indices1 skewed 4 5 100 100 = Ok (2, 2) /\ indices1 skewed 4 5 0 0 = Err IndexError.
Proof. split; [intros E; discriminate E |]. split; [intros E; discriminate E |]. split; vm_compute; reflexivity. Qed.

(** C113: on the border between two rows the even one is taken, and so for columns. *)
Theorem C113_rows : forall T H W (k j : Z) v, invertible T -> ~ (dy T == 0)%Q -> (inject_Z j < v < inject_Z j + 1)%Q ->
  0 <= k <= H -> 0 <= j < W ->
  indices1 T H W (fst (world T (inject_Z k) v)) (snd (world T (inject_Z k) v)) =
  let row := if Z.even k then k else k - 1 in if row =? H then Err IndexError else Ok (row, j).
Proof. exact border_rows. Qed.
Print Assumptions C113_rows.
Theorem C113_columns : forall T H W (i k : Z) u, invertible T -> ~ (dy T == 0)%Q -> (inject_Z i < u < inject_Z i + 1)%Q ->
  0 <= i < H -> 0 <= k <= W ->
  indices1 T H W (fst (world T u (inject_Z k))) (snd (world T u (inject_Z k))) =
  let column := if Z.even k then k else k - 1 in if column =? W then Err IndexError else Ok (i, column).
Proof. exact border_columns. Qed.
Print Assumptions C113_columns.
Example C113_rows_ex : (inject_Z 1 < 3 # 2 < inject_Z 1 + 1)%Q /\
  map (fun k => indices1 (mkT 0 0 1 1 0 0) 3 2 (3 # 2) k) [0; 1; 2; 3]%Q = [Ok (0, 1); Ok (0, 1); Ok (2, 1); Ok (2, 1)].
Proof. split; [split; reflexivity | vm_compute; reflexivity]. Qed.

(** C113, refuted: the points of the outer border belong to the grid, and those of its first row and
    column are accepted, but if the number of rows is even, those on the outer border of the last
    row are an IndexError. *)
Theorem C113_edge_refuted : forall T H W (j : Z) v, invertible T -> ~ (dy T == 0)%Q -> (inject_Z j < v < inject_Z j + 1)%Q ->
  0 < H -> 0 <= j < W -> Z.even H = true ->
  let p := world T (inject_Z H) v in
  in_cell T (fst p, snd p) (H - 1, j) /\ in_grid H W (H - 1, j) /\ indices1 T H W (fst p) (snd p) = Err IndexError.
Proof. exact edge. Qed.
Print Assumptions C113_edge_refuted.
Example C113_edge_case : indices1 (mkT 0 0 1 1 0 0) 2 2 (1 # 2) 2 = Err IndexError /\ indices1 (mkT 0 0 1 1 0 0) 3 2 (1 # 2) 3 = Ok (2, 0).
Proof. split; vm_compute; reflexivity. Qed.

(** C113: [sample_nearest] gives the values of that cell, and the nodata value where [indices]
    raises. *)
Theorem C113_sample : forall (V : Type) (junk : Z -> Z -> V) (g : grid V) T H W nb F nodata x y,
  grid_is g T H W nb F nodata -> invertible T -> ~ (dy T == 0)%Q ->
  (forall c, indices1 T H W x y = Ok c -> sample_nearest1 junk g x y = Ok (inr (map (fun k => F k (fst c) (snd c)) (zrange 0 nb)))) /\
  (indices1 T H W x y = Err IndexError -> sample_nearest1 junk g x y = Ok (inl nodata)).
Proof. exact sample. Qed.
Print Assumptions C113_sample.

(** C113: vectors of points: one pair of indices for each, in order, if every point has one. *)
Theorem C113_vector : forall T H W xs ys is js, invertible T -> ~ (dy T == 0)%Q ->
  indices_vec T H W xs ys = Ok (is, js) <->
  xs <> [] /\ length ys = length xs /\ length is = length xs /\ length js = length xs /\
  forall n x y i j, nth_error xs n = Some x -> nth_error ys n = Some y -> nth_error is n = Some i -> nth_error js n = Some j ->
    indices1 T H W x y = Ok (i, j).
Proof. exact vector. Qed.
Print Assumptions C113_vector.
Example C113_vector_ex : indices_vec skewed 4 5 [100; 60; 100]%Q [100; 40; 100]%Q = Ok ([2; 0; 2], [2; 1; 2]).
Proof. vm_compute. reflexivity. Qed.

(** C113: one point outside, wherever it stands, makes the call an IndexError; vectors of
    different lengths, or no points, a ValueError. *)
Theorem C113_vector_error : forall T H W xs ys, invertible T -> ~ (dy T == 0)%Q ->
  (length xs = length ys -> xs <> [] -> (exists n x y, nth_error xs n = Some x /\ nth_error ys n = Some y /\ indices1 T H W x y = Err IndexError) ->
   indices_vec T H W xs ys = Err IndexError) /\
  (length xs <> length ys \/ xs = [] -> indices_vec T H W xs ys = Err ValueError).
Proof. exact vector_error. Qed.
Print Assumptions C113_vector_error.
Example C113_vector_error_ex : indices_vec skewed 4 5 [100; 0]%Q [100; 0]%Q = Err IndexError /\ indices_vec skewed 4 5 [100]%Q [] = Err ValueError.
Proof. split; vm_compute; reflexivity. Qed.
