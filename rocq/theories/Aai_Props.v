(** C42: ESRI ASCII grids.  Full statement: writing a grid and reading the file restores the
    values cell by cell in the same orientation, the lower-left corner and the cell size.
    It fails for every grid: the values are written in brackets and reading raises ValueError.
    Without the brackets the georeference would be restored, and the values come back upside
    down, because the rows are written from south to north and read, as the format says, from
    north to south. *)
From Coq Require Import List ZArith QArith Bool Arith Lia.
From Verif Require Import Aai_Model Aai_Spec Aai_Proofs.
Import ListNotations.
Open Scope Q_scope.

(** The full property fails for every grid: the lines [to_aai] writes cannot be read, because
    [self[:,:]] has three dimensions and the brackets around each cell are written too. *)
Theorem C42_round_trip_refuted : forall g reference nodata, writable g -> exists f,
  to_aai g reference nodata = Ok f /\ read_grid f = Raise ValueError.
Proof. exact unreadable_one. Qed.
Print Assumptions C42_round_trip_refuted.
(** With any number of bands the file that is written cannot be read. *)
Theorem C42_bands_refuted : forall g values reference nodata f, values <> [] ->
  Forall (fun row => row <> [] /\ Forall (fun bands => bands <> []) row) values ->
  to_aai_bands g values reference nodata = Ok f -> read_grid f = Raise ValueError.
Proof. exact unreadable. Qed.
Print Assumptions C42_bands_refuted.
Theorem C42_written : forall g reference nodata, writable g -> exists f, to_aai g reference nodata = Ok f.
Proof. exact to_aai_ok. Qed.
Print Assumptions C42_written.
(** The file: the header of the format, then the rows of the grid from south to north, each
    value in brackets. *)
Theorem C42_file : forall g reference nodata f, writable g -> to_aai g reference nodata = Ok f ->
  f = esri_header (ncols g) (nrows g) (match reference with Center => true | Corner => false end)
        (fst (match reference with Center => center_llref g | Corner => corner_llref g end))
        (snd (match reference with Center => center_llref g | Corner => corner_llref g end)) (g_dx g) nodata
      ++ map (map (fun c => Bracketed true true (fill nodata c))) (g_rows g).
Proof. exact to_aai_file. Qed.
Print Assumptions C42_file.
(** What would be read if the brackets were deleted. *)
Theorem C42_georeference_partial : forall g reference nodata f, writable g -> to_aai g reference nodata = Ok f -> exists h,
  read_grid (without_brackets f) = Ok (Some h) /\ same_georef h g /\ nrows h = nrows g.
Proof. exact to_aai_georef. Qed.
Print Assumptions C42_georeference_partial.
Theorem C42_mirrored_partial : forall g reference nodata f, writable g -> free_of nodata g -> to_aai g reference nodata = Ok f -> exists h,
  read_grid (without_brackets f) = Ok (Some h) /\ forall i j, (i < nrows g)%nat -> at_ (g_rows h) i j = at_ (g_rows g) (nrows g - 1 - i) j.
Proof. exact to_aai_values. Qed.
Print Assumptions C42_mirrored_partial.
(** Even without the brackets the rows come back upside down: [to_aai] writes them from south
    to north. *)
Theorem C42_orientation_refuted : (writable upside /\ free_of (- (9999)) upside) /\ g_rows upside = [[Some 1]; [Some 2]] /\
  exists f h, to_aai upside Corner (- (9999)) = Ok f /\ read_grid (without_brackets f) = Ok (Some h) /\ g_rows h = [[Some 2]; [Some 1]].
Proof. exact (conj upside_writable (conj eq_refl to_aai_upside)). Qed.
Print Assumptions C42_orientation_refuted.
(** Reading is right by the format; writing is not. *)
Theorem C42_read : forall nc nr x y d nodata rows, rows <> [] -> hd [] rows <> [] -> exists g,
  read_grid (esri_file nc nr x y d nodata rows) = Ok (Some g) /\
  same_georef g (Grid x y d d 0 0 []) /\ nrows g = length rows /\
  forall i j c, (i < length rows)%nat -> at_ rows (length rows - 1 - i) j = Some c ->
    at_ (g_rows g) i j = Some (mask (Some nodata) c).
Proof. exact read_orientation. Qed.
Print Assumptions C42_read.
(** Two round trips, with the brackets deleted, restore the grid. *)
Theorem C42_twice_partial : forall g r1 r2 nodata f h f2, writable g -> free_of nodata g -> to_aai g r1 nodata = Ok f ->
  read_grid (without_brackets f) = Ok (Some h) -> to_aai h r2 nodata = Ok f2 -> exists k, read_grid (without_brackets f2) = Ok (Some k) /\ same_georef k g /\
  nrows k = nrows g /\ forall i j, (i < nrows g)%nat -> at_ (g_rows k) i j = at_ (g_rows g) i j.
Proof. exact to_aai_twice. Qed.
Print Assumptions C42_twice_partial.
Theorem C42_square : forall g reference nodata, ~ g_dx g == g_dy g -> to_aai g reference nodata = Raise GridError.
Proof. exact to_aai_square. Qed.
Print Assumptions C42_square.
(** A grid skewed in x only is written without complaint, and its skew is lost. *)
Theorem C42_skew_refuted : forall s, let g := Grid 0 0 1 1 s 0 [[Some 1]] in exists f h,
  to_aai g Corner (- (9999)) = Ok f /\ read_grid (without_brackets f) = Ok (Some h) /\ g_sx h = 0.
Proof. exact to_aai_skew. Qed.
Print Assumptions C42_skew_refuted.
(** A valid value equal to the nodata value is written and, without the brackets, read back as nan. *)
Theorem C42_nodata_refuted : forall x, exists f h,
  to_aai (Grid 0 0 1 1 0 0 [[Some x]]) Corner x = Ok f /\ read_grid (without_brackets f) = Ok (Some h) /\ g_rows h = [[None]].
Proof. exact to_aai_lost. Qed.
Print Assumptions C42_nodata_refuted.

(** Non-vacuity: a grid that can be written, and a file of the format. *)
Example C42_case : writable (Grid 10 20 5 5 0 0 [[Some 1; None; Some 3]; [Some 4; Some 5; Some 6]]) /\
  free_of (- (9999)) (Grid 10 20 5 5 0 0 [[Some 1; None; Some 3]; [Some 4; Some 5; Some 6]]).
Proof.
  split.
  - repeat split; try (cbn; discriminate); try (vm_compute; reflexivity). exists 3%nat. split; [lia|]. repeat constructor.
  - intros i j x H. destruct i as [|[|i]]; cbn in H; [| |destruct i; discriminate H];
      destruct j as [|[|[|j]]]; cbn in H; try discriminate H; try (injection H as <-; vm_compute; discriminate);
      destruct j; discriminate H.
Qed.
Example C42_read_case : exists g, read_grid (esri_file 2 2 10 20 5 (- (9999)) [[Some 1; Some 2]; [Some (- (9999)); Some 4]]) = Ok (Some g) /\
  at_ (g_rows g) 1 1 = Some (Some 2) /\ at_ (g_rows g) 0 0 = Some None.
Proof. eexists. split; [vm_compute; reflexivity|]. split; vm_compute; reflexivity. Qed.
Example C42_bands_case : exists f, to_aai_bands (Grid 0 0 1 1 0 0 [[Some 1; None]]) [[[Some 1; Some 5]; [None; Some 7]]] Corner (- (9999)) = Ok f /\
  nth_error f 6 = Some [Bracketed true false (Some 1); Bracketed false true (Some 5); Bracketed true false (Some (- (9999))); Bracketed false true (Some 7)] /\
  read_grid f = Raise ValueError.
Proof. eexists. split; [reflexivity|]. split; reflexivity. Qed.
Example C42_three_bands_case : exists f, to_aai_bands (Grid 0 0 1 1 0 0 [[Some 1]]) [[[Some 1; Some 5; Some 8]]] Center 0 = Ok f /\
  nth_error f 6 = Some [Bracketed true false (Some 1); Num (Some 5); Bracketed false true (Some 8)].
Proof. eexists. split; reflexivity. Qed.
