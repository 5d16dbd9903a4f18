(** Properties of extreme values, data boxes, samples and profiles (C54, C92, C93). *)
From Coq Require Import String List ZArith QArith Bool Reals Qreals Lia Lqa.
From Verif Require Table_Model Table_Spec GeomR_Model GeomR_Spec.
From Verif Require Import Band_Model Band_Spec Band_IndexModel Grid_Model Grid_Spec Grid_Proofs Grid_Props
  GridSample_Model GridSample_Spec GridSample_Props Stat_Model Stat_Spec Stat_Proofs Stat_Walk.
Import ListNotations.
Local Open Scope Z_scope.
Local Notation length := List.length.

(** C92.  [min] and [max] are the smallest and the greatest value of the cells that are data
    in every band; nan if there are none, or if one of them is nan. *)
Theorem C92_min_max_partial :
  forall junk (g : grid fl) T H W nb F nodata, grid_is g T H W nb F nodata -> 1 <= nb ->
  let P := full_value H W nb F nodata in
  exists a b, gmin junk g = Ok a /\ gmax junk g = Ok b /\
    ((exists w, P w) -> ~ P None -> smallest P a /\ greatest P b) /\
    (P None \/ ~ (exists w, P w) -> a = None /\ b = None).
Proof. exact min_max_ok. Qed.
Print Assumptions C92_min_max_partial.

(** [minmax] takes all values that are data. *)
Theorem C92_minmax_partial :
  forall junk (g : grid fl) T H W nb F nodata, grid_is g T H W nb F nodata ->
  let P := data_value H W nb F nodata in
  exists a b, minmax junk g = Ok (a, b) /\
    ((exists w, P w) -> ~ P None -> smallest P a /\ greatest P b) /\
    (P None \/ ~ (exists w, P w) -> a = None /\ b = None).
Proof. exact minmax_ok. Qed.
Print Assumptions C92_minmax_partial.

(** No value that is data is nan when nan marks the missing ones; for a single band the
    values of both are the same. *)
Theorem C92_nan_is_missing : forall H W nb F, ~ data_value H W nb F None None /\ ~ full_value H W nb F None None.
Proof. exact nan_is_missing. Qed.
Print Assumptions C92_nan_is_missing.
Theorem C92_one_band : forall H W F nodata v, full_value H W 1 F nodata v <-> data_value H W 1 F nodata v.
Proof. exact one_band. Qed.
Print Assumptions C92_one_band.

Definition sg : grid fl := fget unitT (fnd 2 2 [num 4; None; num (-7); num 9]) None.
Example C92_nonvacuous :
  grid_is sg unitT 2 2 1 (fun _ i j => nth (Z.to_nat (i * 2 + j)) [num 4; None; num (-7); num 9] None) None /\
  gmin fj sg = Ok (num (-7)) /\ gmax fj sg = Ok (num 9) /\ minmax fj sg = Ok (num (-7), num 9).
Proof. split; [apply fget_is; lia|]. split; [|split]; vm_compute; reflexivity. Qed.

(** Finding: with a number for nodata a single nan makes the extremes nan, which are
    documented as those of the values that are not nan. *)
Theorem C92_nan_refuted :
  let g := fget unitT (fnd 1 3 [num 4; None; num 9]) (num (-1)) in
  gmin fj g = Ok None /\ gmax fj g = Ok None /\ minmax fj g = Ok (None, None).
Proof. split; [|split]; vm_compute; reflexivity. Qed.
Print Assumptions C92_nan_refuted.

(** Finding: with two bands [min] leaves out a value that is data when the other band has
    none in that cell, and [minmax] does not. *)
Definition two_bands : grid fl :=
  match make_grid fj (Some 0%Q) ClsComp unitT
    (mkN [1; 2; 2] (fun i => match i with [_; x; k] => nth (Z.to_nat (x * 2 + k)) [num 5; num 6; num 1; num (-9)] None | _ => None end))
    (num (-9)) with Ok g => g | Err _ => sg end.
Theorem C92_bands_refuted :
  gmin fj two_bands = Ok (num 5) /\ minmax fj two_bands = Ok (num 1, num 6).
Proof. split; vm_compute; reflexivity. Qed.
Print Assumptions C92_bands_refuted.

(** C54: [data_bbox] is the smallest box around the cells with data, as (xmin, ymin, xmax, ymax). *)
Theorem C54_data_bbox_partial :
  forall junk (g : grid fl) T H W F nodata,
  grid_is g T H W 1 F nodata -> (0 < dx T)%Q -> (0 < dy T)%Q -> (sx T == 0)%Q -> (sy T == 0)%Q ->
  (exists p, data_centre T H W (F 0) nodata p /\ (snd (centre T 0 0) <= fst p)%Q) ->
  exists xmin ymin xmax ymax, data_bbox junk g = Ok (xmin, ymin, xmax, ymax) /\
    tight_box (data_point T H W (F 0) nodata) (xmin, xmax, ymin, ymax).
Proof. exact data_bbox_ok. Qed.
Print Assumptions C54_data_bbox_partial.
Example C54_bbox_nonvacuous : box4 (data_bbox fj (dg 0)) = Some [1; 0; 2; 2]%Q.
Proof. vm_compute. reflexivity. Qed.

(** C93.  Samples at a Multipoint: for every band the value of the cell of each point, *)
Theorem C93_nearest_partial :
  forall junk (g : grid fl) dt T H W nb F nodata pts,
  grid_is g T H W nb F nodata -> invertible T -> ~ (dy T == 0)%Q -> nb = 1 \/ length pts = 1%nat ->
  exists cs, Forall2 (in_cell T) pts cs /\
    ((exists c, In c cs /\ in_grid H W c) ->
     exists z, sample junk g dt Nearest (AMultipoint pts) = Ok (Table z) /\ Z.of_nat (length z) = nb /\
       forall k row, nth_error z k = Some row ->
         Forall2 (fun c v => (in_grid H W c -> v = F (Z.of_nat k) (fst c) (snd c)) /\ (~ in_grid H W c -> v = nodata)) cs row).
Proof. exact many_nearest. Qed.
Print Assumptions C93_nearest_partial.

(** or the interpolated value at it. *)
Theorem C93_bilinear_partial :
  forall junk (g : grid fl) T H W nb F nodata pts,
  grid_is g T H W nb F nodata -> invertible T -> ~ (dy T == 0)%Q -> 2 <= H -> 2 <= W -> pts <> [] ->
  (length pts = 1%nat \/
   (exists p u v, In p pts /\ at_position T p u v /\ (0 < u)%Q) /\
   (exists p u v, In p pts /\ at_position T p u v /\ (u < inject_Z H)%Q) /\
   (exists p u v, In p pts /\ at_position T p u v /\ (0 < v)%Q) /\
   (exists p u v, In p pts /\ at_position T p u v /\ (v < inject_Z W)%Q)) ->
  exists z, sample junk g DFloat Bilinear (AMultipoint pts) = Ok (Table z) /\ Z.of_nat (length z) = nb /\
    forall k row, nth_error z k = Some row -> Forall2 (sampled T (F (Z.of_nat k)) H W nodata) pts row.
Proof. exact many_bilinear. Qed.
Print Assumptions C93_bilinear_partial.

(** Two arrays are the points of their pairs. *)
Theorem C93_arrays :
  forall junk (g : grid fl) dt m xs ys,
  (length xs = length ys -> sample junk g dt m (AArrays xs ys) = sample junk g dt m (AMultipoint (combine xs ys))) /\
  (length xs <> length ys -> sample junk g dt m (AArrays xs ys) = Err TypeError).
Proof. exact arrays_ok. Qed.
Print Assumptions C93_arrays.

(** A Point: a vector over the bands, but a bare number outside of the grid. *)
Theorem C93_point_bilinear :
  forall junk (g : grid fl) T H W nb F nodata p,
  grid_is g T H W nb F nodata -> invertible T -> ~ (dy T == 0)%Q -> 2 <= H -> 2 <= W ->
  exists l, sample junk g DFloat Bilinear (APoint p) = Ok (Vector l) /\ Z.of_nat (length l) = nb /\
    forall k v, nth_error l k = Some v -> sampled T (F (Z.of_nat k)) H W nodata p v.
Proof. exact point_bilinear. Qed.
Print Assumptions C93_point_bilinear.
Theorem C93_point_nearest_partial :
  forall junk (g : grid fl) dt T H W nb F nodata p,
  grid_is g T H W nb F nodata -> invertible T -> ~ (dy T == 0)%Q ->
  exists c, in_cell T p c /\
    (in_grid H W c -> exists l, sample junk g dt Nearest (APoint p) = Ok (Vector l) /\ Z.of_nat (length l) = nb /\
       forall k v, nth_error l k = Some v -> v = F (Z.of_nat k) (fst c) (snd c)) /\
    (~ in_grid H W c -> sample junk g dt Nearest (APoint p) = Ok (Number nodata)).
Proof. exact point_nearest. Qed.
Print Assumptions C93_point_nearest_partial.

(** Profiles: a row for every point and a field for every band, which holds the samples of it. *)
Theorem C93_profile_bilinear_partial :
  forall junk (g : grid fl) T H W nb F nodata pts,
  grid_is g T H W nb F nodata -> invertible T -> ~ (dy T == 0)%Q -> 2 <= H -> 2 <= W -> pts <> [] ->
  (length pts = 1%nat \/
   (exists p u v, In p pts /\ at_position T p u v /\ (0 < u)%Q) /\
   (exists p u v, In p pts /\ at_position T p u v /\ (u < inject_Z H)%Q) /\
   (exists p u v, In p pts /\ at_position T p u v /\ (0 < v)%Q) /\
   (exists p u v, In p pts /\ at_position T p u v /\ (v < inject_Z W)%Q)) ->
  exists t z, profile junk g DFloat Bilinear pts = Ok (t, z) /\
    Table_Spec.rectangular t /\ Table_Model.tlen t = length pts /\
    Table_Model.fields t = map band_name (seq 0 (Z.to_nat nb)) /\ length z = Z.to_nat nb /\
    forall k row, nth_error z k = Some row ->
      Table_Model.getfield t (band_name k) = Table_Model.Ok row /\ Forall2 (sampled T (F (Z.of_nat k)) H W nodata) pts row.
Proof. exact profile_bilinear. Qed.
Print Assumptions C93_profile_bilinear_partial.
Theorem C93_profile_nearest_partial :
  forall junk (g : grid fl) dt T H W nb F nodata pts,
  grid_is g T H W nb F nodata -> invertible T -> ~ (dy T == 0)%Q -> nb = 1 \/ length pts = 1%nat ->
  exists cs, Forall2 (in_cell T) pts cs /\
    ((exists c, In c cs /\ in_grid H W c) ->
     exists t z, profile junk g dt Nearest pts = Ok (t, z) /\
       Table_Spec.rectangular t /\ Table_Model.tlen t = length pts /\
       Table_Model.fields t = map band_name (seq 0 (Z.to_nat nb)) /\ length z = Z.to_nat nb /\
       forall k row, nth_error z k = Some row -> Table_Model.getfield t (band_name k) = Table_Model.Ok row /\
         Forall2 (fun c v => (in_grid H W c -> v = F (Z.of_nat k) (fst c) (snd c)) /\ (~ in_grid H W c -> v = nodata)) cs row).
Proof. exact profile_nearest. Qed.
Print Assumptions C93_profile_nearest_partial.
Theorem C93_band_names : (forall i j, band_name i = band_name j -> i = j) /\ band_name 0 = "band_0"%string /\ band_name 12 = "band_12"%string.
Proof. split; [exact band_name_inj|]. split; reflexivity. Qed.
Print Assumptions C93_band_names.

Example C93_nonvacuous :
  match profile fj bg DFloat Bilinear [(2, 3 # 2); (1, 1)]%Q with
  | Ok (t, z) => Table_Model.fields t = ["band_0"%string] /\ map (map fred) z = [[Some (23 # 2); Some (11 # 2)]]%Q
                 /\ map (map fred) (Table_Model.rows t) = [[Some (23 # 2)]; [Some (11 # 2)]]%Q
  | Err _ => False
  end /\
  sample fj bg DFloat Nearest (APoint (2, 3 # 2)%Q) = Ok (Vector [num 12]).
Proof. split; [vm_compute; split; [|split]; reflexivity|vm_compute; reflexivity]. Qed.

(** Finding: two numbers, which the description of the result provides for, raise TypeError. *)
Theorem C93_numbers_refuted : forall junk (g : grid fl) dt m x y, sample junk g dt m (ANumbers x y) = Err TypeError.
Proof. reflexivity. Qed.
Print Assumptions C93_numbers_refuted.
(** Finding: a Point and a Multipoint of it disagree outside of the grid. *)
Theorem C93_outside_refuted :
  sample fj bg DFloat Nearest (APoint (10, 10)%Q) = Ok (Number (num (-1))) /\
  sample fj bg DFloat Nearest (AMultipoint [(10, 10)%Q]) = Err ValueError.
Proof. split; vm_compute; reflexivity. Qed.
Print Assumptions C93_outside_refuted.

(** The default spacing is the smaller of the resolutions with their signs. *)
Theorem C93_default_spacing : forall T, let r := default_resolution T in
  (r = dx T \/ r = dy T) /\ (r <= dx T)%Q /\ (r <= dy T)%Q.
Proof. exact default_resolution_ok. Qed.
Print Assumptions C93_default_spacing.
(** Finding: if one of them is negative, as for an image whose first row is the northernmost,
    the walk along the line for the default spacing never ends. *)
Theorem C93_negative_resolution_refuted :
  forall T fuel a b l, GeomR_Model.rz a = None -> GeomR_Model.rz b = None -> GeomR_Spec.hp a <> GeomR_Spec.hp b ->
  (dx T < 0 \/ dy T < 0)%Q ->
  GeomR_Model.to_points fuel (a :: b :: l) (Q2R (default_resolution T)) = None.
Proof. exact to_points_neg. Qed.
Print Assumptions C93_negative_resolution_refuted.
Example C93_negative_nonvacuous :
  (dy (mkT 0 2 1 (-1) 0 0) < 0)%Q /\
  GeomR_Spec.hp (GeomR_Model.mkRP 0%R 0%R None) <> GeomR_Spec.hp (GeomR_Model.mkRP 1%R 0%R None).
Proof. split; [vm_compute; reflexivity|]. intros E. apply (f_equal fst) in E. cbn in E. apply R1_neq_R0. symmetry. exact E. Qed.
