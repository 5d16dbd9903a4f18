(** C43: GeoTIFF files; C79: several files as the bands of one grid. *)
From Coq Require Import String List ZArith QArith Bool Arith Lia ZifyBool ZifyNat.
From Verif Require Crs_Model Crs_Spec Crs_Proofs.
From Verif Require Import Band_Model Band_Spec Band_Proofs Band_IndexModel Band_IndexSpec Band_IndexProofs Tif_Model Tif_Spec Tif_Proofs.
Import ListNotations.
Open Scope Z_scope.

(** C43.  Full statement: a grid written and read again has the same transform, and the same
    value in each cell, whether it is read into memory or left on disk. *)
(** The file that is written is right: pixel (ny - i, j) of the file lies where node (i, j)
    of the grid does, for every transform. *)
Theorem C43_written_places : forall t ny i j, same_place (pixel (gt_of ny t) (ny - i) j) (node t i j).
Proof. exact written_places. Qed.
Print Assumptions C43_written_places.
(** The transform comes back if and only if the grid is not skewed. *)
Theorem C43_transform_partial : forall t ny, 0 < ny ->
  (same_transform (t_of ny (gt_of ny t)) t <-> (t_sx t == 0 /\ t_sy t == 0)%Q).
Proof. exact round_transform. Qed.
Print Assumptions C43_transform_partial.
Theorem C43_skew_refuted : forall t ny, same_transform (t_of ny (gt_of ny t))
  (Transform (t_x0 t + 2 * inject_Z ny * t_sx t) (t_y0 t) (t_dx t) (t_dy t) (- t_sx t) (- t_sy t)).
Proof. exact round_transform_skew. Qed.
Print Assumptions C43_skew_refuted.
(** The nodes of a grid that is read lie where GDAL says the pixels do, if and only if the
    file is not skewed. *)
Theorem C43_read_places_partial : forall g ny, 0 < ny ->
  ((forall i j, same_place (node (t_of ny g) i j) (pixel g (ny - i) j)) <-> (gt2 g == 0 /\ gt4 g == 0)%Q).
Proof. exact read_places. Qed.
Print Assumptions C43_read_places_partial.

(** Values, bands and nodata value, in memory: for at least two rows and columns. *)
Theorem C43_memory_partial : forall (V : Type) junk (zero : V) conv default t dt g nt nodata bands H W F cls,
  stack_holds bands H W F -> 2 <= H -> 2 <= W ->
  gdal_type dt = Ok g -> numpy_dtype g = Ok nt -> representable conv g (Z.of_nat (length bands)) H W F ->
  exists d h, write junk conv t dt nodata bands = Ok d /\ read_geotiff junk zero default d true All cls = Ok h /\
    tg_t h = t_of H (gt_of H t) /\ tg_nodata h = nodata /\ length (tg_bands h) = length bands /\ all_read junk (tg_bands h) H W F.
Proof. exact (fun V junk zero conv default => round_memory V junk zero conv default (fun _ => false)). Qed.
Print Assumptions C43_memory_partial.
Theorem C43_disk : forall (V : Type) junk (zero : V) conv default t dt g nodata bands H W F cls,
  stack_holds bands H W F -> 1 <= H -> 1 <= W ->
  gdal_type dt = Ok g -> representable conv g (Z.of_nat (length bands)) H W F ->
  exists d h, write junk conv t dt nodata bands = Ok d /\ read_geotiff junk zero default d false All cls = Ok h /\
    tg_t h = t_of H (gt_of H t) /\ tg_nodata h = nodata /\ length (tg_bands h) = length bands /\ all_read junk (tg_bands h) H W F.
Proof. exact (fun V junk zero conv default => round_disk V junk zero conv default (fun _ => false)). Qed.
Print Assumptions C43_disk.
(** Any file and any choice of bands: every window reads the same in memory and on disk,
    namely the rows of the file from the bottom. *)
Theorem C43_lazy_is_memory : forall (V : Type) junk (zero : V) d s cls cls' nt rbs b0 rest,
  valid d -> asked d s rbs -> rbs = b0 :: rest -> numpy_dtype (d_type d) = Ok nt -> 2 <= d_ny d -> 2 <= d_nx d ->
  exists ms ls, read junk zero d true s cls = Ok (ms, snd b0) /\ read junk zero d false s cls' = Ok (ls, snd b0) /\
    length ms = length rbs /\ length ls = length rbs /\
    forall k rb m l, nth_error rbs k = Some rb -> nth_error ms k = Some m -> nth_error ls k = Some l ->
      reads junk m (d_ny d) (d_nx d) (fun i j => at_ (fst rb) (d_ny d - 1 - i) j) /\
      reads junk l (d_ny d) (d_nx d) (fun i j => at_ (fst rb) (d_ny d - 1 - i) j).
Proof. exact (fun V junk zero => lazy_memory V junk zero (fun _ v => v) (fun _ => zero) (fun _ => false)). Qed.
Print Assumptions C43_lazy_is_memory.
Theorem C43_window_outside : forall (V : Type) junk (a : arr V) y x h w,
  ~ (in_bounds (nrow a) (ncol a) y x h w /\ 0 < h /\ 0 < w) -> gband_getblock junk (OnDisk a) y x h w = Err RuntimeError.
Proof. exact (fun V junk => file_outside V junk (junk 0 0) (fun _ v => v) (fun _ => false)). Qed.
Print Assumptions C43_window_outside.
(** A file of one row or one column cannot be read into memory. *)
Theorem C43_thin_refuted : forall (V : Type) junk (zero : V) default d s cls rbs b0 rest nt,
  asked d s rbs -> rbs = b0 :: rest -> numpy_dtype (d_type d) = Ok nt ->
  d_ny d = 1 \/ d_nx d = 1 -> exists e, read_geotiff junk zero default d true s cls = Err e.
Proof. exact (fun V junk zero default => thin_raises V junk zero (fun _ v => v) default (fun _ => false)). Qed.
Print Assumptions C43_thin_refuted.
(** A file without a nodata value cannot be left on disk unless its type is unsigned. *)
Theorem C43_no_nodata_refuted : forall (V : Type) junk (zero : V) default d s cls rbs a rest t,
  asked d s rbs -> rbs = (a, None) :: rest -> valid d ->
  numpy_dtype (d_type d) = Ok t -> unsigned t = false -> exists e, read_geotiff junk zero default d false s cls = Err e.
Proof. exact (fun V junk zero default => lazy_nodata V junk zero (fun _ v => v) default (fun _ => false)). Qed.
Print Assumptions C43_no_nodata_refuted.
(** The type of the values comes back, except for 8- and 64-bit signed integers. *)
Theorem C43_type_partial : forall d g, gdal_type d = Ok g -> d <> int8 -> d <> int64 -> numpy_dtype g = Ok d.
Proof. exact dtype_round. Qed.
Print Assumptions C43_type_partial.
Theorem C43_type_refuted : (exists g, gdal_type int64 = Ok g /\ numpy_dtype g = Ok int32) /\
  (exists g, gdal_type int8 = Ok g /\ numpy_dtype g = Ok uint8) /\ (exists e, gdal_type uint32 = Err e).
Proof. repeat split; eexists; repeat split; reflexivity. Qed.
Print Assumptions C43_type_refuted.
(** The ellipsoid of a geographical file: the inverse flattening rf is used as flattening, so
    the semi-minor axis of every file on an ellipsoid (rf > 1) is negative; on a sphere
    (rf = 0) reading fails. *)
Theorem C43_ellipsoid_refuted : forall float proj4 ta tf a rf, proj4_isgeodetic proj4 = true ->
  Crs_Spec.keyed float "+a" ("+a=" ++ ta)%string a -> Crs_Spec.keyed float "+f" ("+f=" ++ tf)%string rf ->
  exists e p b, read_crs float proj4 ta tf = Crs_Model.Ok (Geographic e p) /\ Crs_Model.el_a e = a /\ Crs_Model.el_b e = Some b /\
    (b == a * (1 - rf))%Q.
Proof. exact geographic_read. Qed.
Print Assumptions C43_ellipsoid_refuted.
Theorem C43_sphere_refuted : forall float, float "6370997.0"%string = Some (6370997 # 1)%Q -> float "0.0"%string = Some 0%Q ->
  read_crs float "+proj=longlat +a=6370997 +b=6370997 +no_defs" "6370997.0" "0.0" = Crs_Model.Raise Crs_Model.ZeroDivisionError.
Proof. exact sphere_read. Qed.
Print Assumptions C43_sphere_refuted.

(** C79.  Full statement: [from_geotiffs] makes one grid of the first bands of the files, and
    refuses files whose transforms or sizes differ.  The bands and the sizes are right; the
    transforms are not compared. *)
Theorem C79_bands : forall (V : Type) junk (zero : V) default isnan d0 ds cls h,
  from_geotiffs junk zero default isnan (d0 :: ds) None cls = Ok h ->
  Forall valid (d0 :: ds) -> (forall d, In d (d0 :: ds) -> 2 <= d_ny d /\ 2 <= d_nx d) ->
  tg_t h = t_of (d_ny d0) (d_gt d0) /\ length (tg_bands h) = S (length ds) /\
  (forall d, In d (d0 :: ds) -> d_ny d = d_ny d0 /\ d_nx d = d_nx d0) /\
  forall k d b, nth_error (d0 :: ds) k = Some d -> nth_error (tg_bands h) k = Some b ->
    exists a n rest, d_bands d = (a, n) :: rest /\ reads junk b (d_ny d0) (d_nx d0) (fun i j => at_ a (d_ny d0 - 1 - i) j).
Proof. exact (fun V junk zero => stack_files V junk zero (fun _ v => v)). Qed.
Print Assumptions C79_bands.
Theorem C79_transforms_refuted : forall (V : Type) junk (zero : V) default isnan d1 d2 a1 a2 n1 n2 r1 r2 t1 t2 cls,
  valid d1 -> valid d2 ->
  d_bands d1 = (a1, n1) :: r1 -> d_bands d2 = (a2, n2) :: r2 -> numpy_dtype (d_type d1) = Ok t1 -> numpy_dtype (d_type d2) = Ok t2 ->
  d_ny d1 = d_ny d2 -> d_nx d1 = d_nx d2 -> 2 <= d_ny d1 -> 2 <= d_nx d1 -> (forall v, n2 = Some v -> isnan v = false) ->
  exists h, from_geotiffs junk zero default isnan [d1; d2] None cls = Ok h.
Proof. exact (fun V junk zero => headers_ignored V junk zero (fun _ v => v)). Qed.
Print Assumptions C79_transforms_refuted.
Theorem C79_keyword_refuted : forall (V : Type) junk (zero : V) default isnan ds in_memory cls,
  exists e, from_geotiffs junk zero default isnan ds (Some in_memory) cls = Err e.
Proof. exact keyword_raises. Qed.
Print Assumptions C79_keyword_refuted.

(** Non-vacuity: two bands of 2 x 3 cells in memory, and two files with different transforms. *)
Definition ex_band (c : Z) : band Z := BSimple (mkA 2 3 (fun i j => c + 10 * i + j)).
Lemma ex_holds : stack_holds [ex_band 100; ex_band 200] 2 3 (fun k i j => 100 + 100 * k + 10 * i + j).
Proof.
  split; [discriminate|]. intros [|[|k]] b E; cbn in E; [| |destruct k; discriminate E]; inversion E; subst b;
    (apply holds_content; split; [cbn; lia|]; split; [reflexivity|]; intros i j _ _; cbn; lia).
Qed.
Example C43_case : exists d h,
  write (fun _ _ => 0) (fun _ v => v) (Transform 1 2 3 4 0 0) int32 (-1) [ex_band 100; ex_band 200] = Ok d /\
  read_geotiff (fun _ _ => 0) 0 (fun _ => 0) d true All Compressed = Ok h /\ same_transform (tg_t h) (Transform 1 2 3 4 0 0) /\
  all_read (fun _ _ => 0) (tg_bands h) 2 3 (fun k i j => 100 + 100 * k + 10 * i + j).
Proof.
  destruct (C43_memory_partial Z (fun _ _ => 0) 0 (fun _ v => v) (fun _ => 0) (Transform 1 2 3 4 0 0) int32 GInt32 int32 (-1) [ex_band 100; ex_band 200] 2 3
    (fun k i j => 100 + 100 * k + 10 * i + j) Compressed ex_holds) as (d & h & E1 & E2 & E3 & _ & _ & E4); try lia; try reflexivity.
  { intros k i j _ _ _. reflexivity. }
  exists d, h. split; [exact E1|]. split; [exact E2|]. split; [|exact E4]. rewrite E3.
  apply C43_transform_partial; [lia|]. split; reflexivity.
Qed.
Definition ex_file (x : Q) (c : Z) : dataset Z := Dataset 2 2 (Geotransform x 1 0 2 0 (-1)) GInt32 [(mkA 2 2 (fun i j => c + 10 * i + j), Some 0)].
Example C79_case : exists h, from_geotiffs (fun _ _ => 0) 0 (fun _ => 0) (fun _ => false) [ex_file 0 100; ex_file 1000 200] None Compressed = Ok h /\
  ~ same_transform (t_of 2 (d_gt (ex_file 0 100))) (t_of 2 (d_gt (ex_file 1000 200))) /\
  Forall valid [ex_file 0 100; ex_file 1000 200].
Proof.
  assert (forall x c, valid (ex_file x c)) as Vf by (intros; repeat split; cbn; try lia; constructor; [split; reflexivity|constructor]).
  destruct (C79_transforms_refuted Z (fun _ _ => 0) 0 (fun _ => 0) (fun _ => false) (ex_file 0 100) (ex_file 1000 200)
    (mkA 2 2 (fun i j => 100 + 10 * i + j)) (mkA 2 2 (fun i j => 200 + 10 * i + j)) (Some 0) (Some 0) [] [] int32 int32 Compressed) as [h E];
    try apply Vf; try reflexivity; try (cbn; lia).
  exists h. split; [exact E|]. split; [|repeat constructor; apply Vf].
  intros (A & _). vm_compute in A. discriminate A.
Qed.
Example C43_ellipsoid_case : let float s := if String.eqb s "6378137.0" then Some (6378137 # 1)%Q else if String.eqb s "298.25" then Some (29825 # 100)%Q else None in
  exists e p b, read_crs float "+proj=longlat +datum=WGS84 +no_defs" "6378137.0" "298.25" = Crs_Model.Ok (Geographic e p) /\ Crs_Model.el_b e = Some b /\ (b < 0)%Q.
Proof. cbv zeta. do 3 eexists. split; [vm_compute; reflexivity|]. split; [reflexivity|]. vm_compute. reflexivity. Qed.
