(** Proofs about ESRI ASCII grids. *)
From Coq Require Import List ZArith QArith Bool Arith Lia Lqa.
From Verif Require Import Aai_Model Aai_Spec.
Import ListNotations.
Open Scope Q_scope.

Lemma data_row_nums : forall r, data_row (map Num r) = Ok r.
Proof. induction r as [|x r IH]; [reflexivity|]. cbn [map data_row]. rewrite IH. reflexivity. Qed.
Lemma data_rows_nums : forall rs, data_rows (map (map Num) rs) = Ok rs.
Proof. induction rs as [|r rs IH]; [reflexivity|]. cbn [map data_rows]. rewrite data_row_nums, IH. reflexivity. Qed.
Lemma split_data : forall rs, rs <> [] -> hd [] rs <> [] -> split_header (map (map Num) rs) = Ok ([], map (map Num) rs).
Proof. intros [|[|x r] rs] N H; [contradiction|contradiction|]. reflexivity. Qed.
Lemma fill_rows : forall nodata rows, map (fun row => map (fun c => Num (fill nodata c)) row) rows = map (map Num) (map (map (fill nodata)) rows).
Proof. intros nodata rows. rewrite map_map. apply map_ext. intros r. rewrite map_map. reflexivity. Qed.
Lemma eqb_true : forall a b, a == b -> Qeq_bool a b = true. Proof. intros a b H. apply Qeq_bool_iff. exact H. Qed.
Lemma eqb_false : forall a b, ~ a == b -> Qeq_bool a b = false.
Proof. intros a b H. destruct (Qeq_bool a b) eqn:E; [apply Qeq_bool_iff in E; contradiction|reflexivity]. Qed.
Lemma hd_nonempty : forall (rows : list (list cell)) n, rows <> [] -> (0 < n)%nat -> Forall (fun r => length r = n) rows -> hd [] rows <> [].
Proof. intros [|[|x r] rows] n N P F; [contradiction| |discriminate]. inversion F as [|? ? E _]; subst. cbn in P. lia. Qed.

(** Reading a file in the standard format. *)
Lemma read_esri : forall nc nr x y d nodata rows, rows <> [] -> hd [] rows <> [] ->
  read_grid (esri_file nc nr x y d nodata rows) = Ok (Some (Grid x y d d 0 0 (rev (map (map (mask (Some nodata))) rows)))).
Proof.
  intros nc nr x y d nodata rows N H. unfold read_grid, read_aai, esri_file. cbn [app split_header].
  rewrite split_data by assumption. cbn [header_dict dict_get key_eqb check_corner]. rewrite data_rows_nums. reflexivity.
Qed.
Lemma at_rev : forall rows i j, (i < length rows)%nat -> at_ (rev rows) i j = at_ rows (length rows - 1 - i) j.
Proof.
  intros rows i j H. unfold at_. destruct (nth_error (rev rows) i) eqn:E.
  - assert (nth_error rows (length rows - 1 - i) = Some l) as ->; [|reflexivity].
    apply nth_error_nth with (d := []) in E. rewrite rev_nth in E by exact H.
    replace (length rows - S i)%nat with (length rows - 1 - i)%nat in E by lia. rewrite <- E. apply nth_error_nth'. lia.
  - exfalso. apply nth_error_None in E. rewrite rev_length in E. lia.
Qed.
Lemma at_map : forall f rows i j, at_ (map (map f) rows) i j = option_map f (at_ rows i j).
Proof.
  intros f rows i j. unfold at_. rewrite nth_error_map. destruct (nth_error rows i); [|reflexivity]. cbn [option_map]. apply nth_error_map.
Qed.
(** Row i of the grid, counted from the south, is row i from the end of the file. *)
Lemma read_orientation : forall nc nr x y d nodata rows, rows <> [] -> hd [] rows <> [] -> exists g,
  read_grid (esri_file nc nr x y d nodata rows) = Ok (Some g) /\
  same_georef g (Grid x y d d 0 0 []) /\ nrows g = length rows /\
  forall i j c, (i < length rows)%nat -> at_ rows (length rows - 1 - i) j = Some c ->
    at_ (g_rows g) i j = Some (mask (Some nodata) c).
Proof.
  intros nc nr x y d nodata rows N H. eexists. split; [apply read_esri; assumption|]. split; [repeat split; reflexivity|].
  unfold nrows. cbn [g_rows]. split; [rewrite rev_length, map_length; reflexivity|]. intros i j c I E.
  rewrite at_rev by (rewrite map_length; exact I). rewrite map_length, at_map, E. reflexivity.
Qed.

(** The file [to_aai] writes, without its brackets. *)
Definition plain_aai (g : grid) (reference : refkind) (nodata : Q) : outcome (list (list word)) :=
  if negb (Qeq_bool (g_dx g) (g_dy g)) then Raise GridError
  else if negb (Qeq_bool (g_sx g) (g_sy g)) && negb (Qeq_bool (g_sy g) 0) then Raise GridError
  else
    let num n := Num (Some (inject_Z (Z.of_nat n))) in
    let refs := match reference with
      | Center => [[Key XLLCENTER; Num (Some (fst (center_llref g)))]; [Key YLLCENTER; Num (Some (snd (center_llref g)))]]
      | Corner => [[Key XLLCORNER; Num (Some (fst (corner_llref g)))]; [Key YLLCORNER; Num (Some (snd (corner_llref g)))]]
      end in
    Ok ([[Key NCOLS; num (ncols g)]; [Key NROWS; num (nrows g)]] ++ refs
        ++ [[Key CELLSIZE; Num (Some (g_dx g))]; [Key NODATA_VALUE; Num (Some nodata)]]
        ++ map (fun row => map (fun c => Num (fill nodata c)) row) (g_rows g)).
Lemma row_words_one : forall nodata row, row_words (map (map (fill nodata)) (map (fun c => [c]) row)) = map (fun c => Bracketed true true (fill nodata c)) row.
Proof. intros nodata row. unfold row_words. induction row as [|c row IH]; [reflexivity|]. cbn [map concat cell_words app]. f_equal. exact IH. Qed.
Lemma data_one : forall nodata g, map (fun row => row_words (map (map (fill nodata)) row)) (one_band g) =
  map (map (fun c => Bracketed true true (fill nodata c))) (g_rows g).
Proof. intros nodata g. unfold one_band. rewrite map_map. apply map_ext. intros r. apply row_words_one. Qed.
Lemma bare_data : forall nodata rows, without_brackets (map (map (fun c => Bracketed true true (fill nodata c))) rows) =
  map (fun row => map (fun c => Num (fill nodata c)) row) rows.
Proof. intros nodata rows. unfold without_brackets. rewrite map_map. apply map_ext. intros r. rewrite map_map. reflexivity. Qed.
Lemma plain : forall g reference nodata f, to_aai g reference nodata = Ok f -> plain_aai g reference nodata = Ok (without_brackets f).
Proof.
  intros g reference nodata f H. unfold to_aai, to_aai_bands in H. unfold plain_aai. rewrite data_one in H.
  destruct (negb (Qeq_bool (g_dx g) (g_dy g))); [discriminate|].
  destruct (negb (Qeq_bool (g_sx g) (g_sy g)) && negb (Qeq_bool (g_sy g) 0))%bool; [discriminate|]. cbv zeta in *.
  assert (forall A (x y : A), Ok x = Ok y -> x = y) as OkI by (intros A x y X; congruence). apply OkI in H. subst f. f_equal.
  rewrite <- bare_data. unfold without_brackets. destruct reference; reflexivity.
Qed.
Lemma plain_raise : forall g reference nodata, plain_aai g reference nodata = Raise GridError -> to_aai g reference nodata = Raise GridError.
Proof.
  intros g reference nodata H. destruct (to_aai g reference nodata) as [f|e] eqn:E; [rewrite (plain _ _ _ _ E) in H; discriminate|].
  unfold to_aai, to_aai_bands in E. destruct (negb (Qeq_bool (g_dx g) (g_dy g))); [congruence|].
  destruct (negb (Qeq_bool (g_sx g) (g_sy g)) && negb (Qeq_bool (g_sy g) 0))%bool; [congruence|discriminate].
Qed.

(** Writing and reading back: the rows come back in the opposite order. *)
Definition refined (reference : refkind) (g : grid) : grid :=
  match reference with
  | Corner => Grid (g_x0 g) (g_y0 g) (g_dx g) (g_dx g) 0 0 (g_rows g)
  | Center => Grid (fst (center_llref g) - g_dx g / 2) (snd (center_llref g) - g_dx g / 2) (g_dx g) (g_dx g) 0 0 (g_rows g)
  end.
Lemma write_ok : forall g reference nodata, writable g -> exists f, plain_aai g reference nodata = Ok f.
Proof.
  intros g reference nodata (E & S1 & S2 & _). unfold plain_aai. rewrite (eqb_true _ _ E). cbn [negb].
  rewrite (eqb_true (g_sy g) 0 S2), andb_false_r. eauto.
Qed.
Lemma round_trip : forall g reference nodata f, writable g -> plain_aai g reference nodata = Ok f ->
  read_grid f = Ok (Some (let h := refined reference g in
    Grid (g_x0 h) (g_y0 h) (g_dx h) (g_dy h) 0 0 (rev (map (map (fun c => mask (Some nodata) (fill nodata c))) (g_rows g))))).
Proof.
  intros g reference nodata f (E & S1 & S2 & N & n & P & F) W. unfold plain_aai in W. rewrite (eqb_true _ _ E) in W. cbn [negb] in W.
  rewrite (eqb_true (g_sy g) 0 S2), andb_false_r in W. cbv zeta in W. rewrite fill_rows in W.
  set (rows := map (map (fill nodata)) (g_rows g)) in W.
  assert (rows <> []) as N' by (unfold rows; destruct (g_rows g); [contradiction|discriminate]).
  assert (hd [] rows <> []) as H'.
  { pose proof (hd_nonempty _ _ N P F) as H. unfold rows. destruct (g_rows g) as [|[|x r] rs]; [contradiction|contradiction|discriminate]. }
  assert (map (map (mask (Some nodata))) rows = map (map (fun c => mask (Some nodata) (fill nodata c))) (g_rows g)) as M.
  { unfold rows. rewrite map_map. apply map_ext. intros r. rewrite map_map. reflexivity. }
  assert (forall A (x y : A), Ok x = Ok y -> x = y) as OkI by (intros A x y X; congruence). apply OkI in W. subst f.
  unfold read_grid, read_aai. destruct reference; cbn [app split_header refined]; rewrite split_data by assumption;
    cbn [header_dict dict_get key_eqb check_corner]; rewrite data_rows_nums, M; reflexivity.
Qed.
Lemma refined_georef : forall g reference, writable g -> same_georef (refined reference g) g.
Proof.
  intros g reference (E & S1 & S2 & _). unfold same_georef, refined, center_llref. destruct reference; cbn [g_x0 g_y0 g_dx g_dy g_sx g_sy fst snd];
    repeat split; try (symmetry; assumption); try reflexivity; try (rewrite S1; field); try (rewrite S2, <- E; field); exact E.
Qed.
Lemma round_georef : forall g reference nodata f, writable g -> plain_aai g reference nodata = Ok f -> exists h,
  read_grid f = Ok (Some h) /\ same_georef h g /\ nrows h = nrows g.
Proof.
  intros g reference nodata f W H. eexists. split; [apply round_trip; [exact W|exact H]|].
  split; [|unfold nrows; cbn [g_rows]; rewrite rev_length, map_length; reflexivity].
  pose proof (refined_georef g reference W) as (A & B & C & D & S1 & S2). cbv zeta. unfold same_georef.
  cbn [g_x0 g_y0 g_dx g_dy g_sx g_sy]. repeat split; auto; destruct W as (_ & W1 & W2 & _); symmetry; assumption.
Qed.
Lemma mask_fill : forall nodata c, (forall x, c = Some x -> ~ x == nodata) -> mask (Some nodata) (fill nodata c) = c.
Proof.
  intros nodata [x|] H; unfold mask; cbn [fill nan_eqb].
  - rewrite eqb_false by (apply H; reflexivity). reflexivity.
  - rewrite eqb_true by reflexivity. reflexivity.
Qed.
(** Values: cell (i, j) comes back at the mirrored row. *)
Lemma round_values : forall g reference nodata f, writable g -> free_of nodata g -> plain_aai g reference nodata = Ok f -> exists h,
  read_grid f = Ok (Some h) /\ forall i j, (i < nrows g)%nat -> at_ (g_rows h) i j = at_ (g_rows g) (nrows g - 1 - i) j.
Proof.
  intros g reference nodata f W Fr H. eexists. split; [apply round_trip; [exact W|exact H]|].
  cbv zeta. cbn [g_rows]. unfold nrows. intros i j I. rewrite at_rev by (rewrite map_length; exact I). rewrite map_length, at_map.
  destruct (at_ (g_rows g) (length (g_rows g) - 1 - i) j) as [c|] eqn:E; [|reflexivity]. cbn [option_map]. f_equal.
  apply mask_fill. intros x ->. exact (Fr _ _ _ E).
Qed.
Lemma round_twice : forall g r1 r2 nodata f h f2, writable g -> free_of nodata g -> plain_aai g r1 nodata = Ok f -> read_grid f = Ok (Some h) ->
  plain_aai h r2 nodata = Ok f2 -> exists k, read_grid f2 = Ok (Some k) /\ same_georef k g /\
  nrows k = nrows g /\ forall i j, (i < nrows g)%nat -> at_ (g_rows k) i j = at_ (g_rows g) i j.
Proof.
  intros g r1 r2 nodata f h f2 W Fr H1 R1 H2.
  assert (writable h /\ free_of nodata h /\ same_georef h g /\ nrows h = nrows g) as (Wh & Fh & Sh & Nh).
  { pose proof (round_trip g r1 nodata f W H1) as R. rewrite R1 in R. cbv zeta in R. injection R as ->.
    destruct (round_georef g r1 nodata f W H1) as (h' & R' & S' & N'). rewrite (round_trip g r1 nodata f W H1) in R'. cbv zeta in R'. injection R' as <-.
    pose proof W as (E & S1 & S2 & N & n & P & F). split; [|split; [|split; [exact S'|exact N']]].
    - destruct S' as (_ & _ & Sd & Se & _ & _). cbn [g_dx g_dy] in Sd, Se. unfold writable. cbn [g_dx g_dy g_sx g_sy g_rows].
      split; [rewrite Sd, Se; exact E|]. split; [reflexivity|]. split; [reflexivity|]. split.
      + intros X. apply (f_equal (@length _)) in X. rewrite rev_length, map_length in X. cbn in X. destruct (g_rows g); [contradiction|discriminate].
      + exists n. split; [exact P|]. apply Forall_rev. rewrite Forall_map. eapply Forall_impl; [|exact F]. intros r L. rewrite map_length. exact L.
    - intros i j x A. cbn [g_rows] in A.
      destruct (lt_dec i (length (g_rows g))) as [I|I].
      + rewrite at_rev in A by (rewrite map_length; exact I). rewrite map_length, at_map in A.
        destruct (at_ (g_rows g) (length (g_rows g) - 1 - i) j) as [c|] eqn:Ec; [|discriminate]. cbn [option_map] in A. injection A as A.
        unfold mask in A. destruct (nan_eqb (fill nodata c) (Some nodata)) eqn:Eq; [discriminate|]. rewrite A in Eq. cbn [nan_eqb] in Eq.
        intros X. rewrite eqb_true in Eq by exact X. discriminate.
      + exfalso. unfold at_ in A. rewrite (proj2 (nth_error_None _ _)) in A; [discriminate|]. rewrite rev_length, map_length. lia. }
  destruct (round_values h r2 nodata f2 Wh Fh H2) as (k & R2 & V2). destruct (round_values g r1 nodata f W Fr H1) as (h' & R1' & V1).
  rewrite R1 in R1'. injection R1' as <-. destruct (round_georef h r2 nodata f2 Wh H2) as (k' & R2' & S2 & N2). rewrite R2 in R2'. injection R2' as <-.
  exists k. split; [exact R2|]. split; [|split; [congruence|]].
  - destruct S2 as (a & b & c & d & e & i), Sh as (a' & b' & c' & d' & e' & i'). repeat split; etransitivity; eassumption.
  - intros i j I. rewrite V2 by (rewrite Nh; exact I). rewrite Nh. rewrite V1 by lia. f_equal. lia.
Qed.
(** The grid of two rows [1], [2]: it comes back as [2], [1]. *)
Definition upside : grid := Grid 0 0 1 1 0 0 [[Some 1]; [Some 2]].
Lemma upside_writable : writable upside /\ free_of (- (9999)) upside.
Proof.
  split; [repeat split; try discriminate|].
  - exists 1%nat. split; [lia|]. repeat constructor.
  - intros i j x A E. unfold at_, upside in A. cbn [g_rows] in A. destruct i as [|[|i]]; cbn [nth_error] in A;
      [| |destruct i; discriminate]; (destruct j as [|j]; cbn [nth_error] in A; [injection A as <-; unfold Qeq in E; cbn in E; discriminate|destruct j; discriminate]).
Qed.
Lemma upside_down : exists f h, plain_aai upside Corner (- (9999)) = Ok f /\ read_grid f = Ok (Some h) /\ g_rows h = [[Some 2]; [Some 1]].
Proof. eexists. eexists. split; [reflexivity|]. split; [reflexivity|]. reflexivity. Qed.
(** The file itself: its first data line, the northernmost by the format, is the grid's
    southernmost row. *)
Lemma first_line : forall g reference nodata f, writable g -> plain_aai g reference nodata = Ok f ->
  nth_error f 6 = Some (map Num (map (fill nodata) (hd [] (g_rows g)))) /\ length f = (6 + nrows g)%nat.
Proof.
  intros g reference nodata f (E & S1 & S2 & N & _) W. unfold plain_aai in W. rewrite (eqb_true _ _ E) in W. cbn [negb] in W.
  rewrite (eqb_true (g_sy g) 0 S2), andb_false_r in W. cbv zeta in W. rewrite fill_rows in W.
  assert (forall A (x y : A), Ok x = Ok y -> x = y) as OkI by (intros A x y X; congruence). apply OkI in W. subst f.
  unfold nrows. destruct reference; (split; [destruct (g_rows g); [contradiction|reflexivity]|]); cbn [app length]; rewrite !map_length; reflexivity.
Qed.
Lemma not_square : forall g reference nodata, ~ g_dx g == g_dy g -> plain_aai g reference nodata = Raise GridError.
Proof. intros g reference nodata H. unfold plain_aai. rewrite eqb_false by exact H. reflexivity. Qed.
Lemma skew_lost : forall s, let g := Grid 0 0 1 1 s 0 [[Some 1]] in exists f h,
  plain_aai g Corner (- (9999)) = Ok f /\ read_grid f = Ok (Some h) /\ g_sx h = 0.
Proof.
  intros s g. unfold plain_aai, g. cbn [g_dx g_dy g_sx g_sy]. change (Qeq_bool 1 1) with true. change (Qeq_bool 0 0) with true. cbn [negb]. rewrite andb_false_r.
  eexists. eexists. split; [reflexivity|]. split; reflexivity.
Qed.
Lemma value_lost : forall x, exists f h, plain_aai (Grid 0 0 1 1 0 0 [[Some x]]) Corner x = Ok f /\ read_grid f = Ok (Some h) /\ g_rows h = [[None]].
Proof.
  intros x. eexists. exists (Grid 0 0 1 1 0 0 [[None]]). split; [reflexivity|]. split; [|reflexivity].
  unfold read_grid, read_aai. cbn -[mask]. unfold mask, nan_eqb. rewrite eqb_true by reflexivity. reflexivity.
Qed.

(** The same about the file that is written. *)
Lemma to_aai_ok : forall g reference nodata, writable g -> exists f, to_aai g reference nodata = Ok f.
Proof.
  intros g reference nodata (E & S1 & S2 & _). unfold to_aai, to_aai_bands. rewrite (eqb_true _ _ E). cbn [negb].
  rewrite (eqb_true (g_sy g) 0 S2), andb_false_r. eauto.
Qed.
Lemma to_aai_georef : forall g reference nodata f, writable g -> to_aai g reference nodata = Ok f -> exists h,
  read_grid (without_brackets f) = Ok (Some h) /\ same_georef h g /\ nrows h = nrows g.
Proof. intros g reference nodata f W H. exact (round_georef g reference nodata _ W (plain _ _ _ _ H)). Qed.
Lemma to_aai_values : forall g reference nodata f, writable g -> free_of nodata g -> to_aai g reference nodata = Ok f -> exists h,
  read_grid (without_brackets f) = Ok (Some h) /\ forall i j, (i < nrows g)%nat -> at_ (g_rows h) i j = at_ (g_rows g) (nrows g - 1 - i) j.
Proof. intros g reference nodata f W F H. exact (round_values g reference nodata _ W F (plain _ _ _ _ H)). Qed.
Lemma to_aai_twice : forall g r1 r2 nodata f h f2, writable g -> free_of nodata g -> to_aai g r1 nodata = Ok f ->
  read_grid (without_brackets f) = Ok (Some h) -> to_aai h r2 nodata = Ok f2 -> exists k, read_grid (without_brackets f2) = Ok (Some k) /\ same_georef k g /\
  nrows k = nrows g /\ forall i j, (i < nrows g)%nat -> at_ (g_rows k) i j = at_ (g_rows g) i j.
Proof.
  intros g r1 r2 nodata f h f2 W F H1 R1 H2. exact (round_twice g r1 r2 nodata _ h _ W F (plain _ _ _ _ H1) R1 (plain _ _ _ _ H2)).
Qed.
Lemma to_aai_square : forall g reference nodata, ~ g_dx g == g_dy g -> to_aai g reference nodata = Raise GridError.
Proof. intros g reference nodata H. apply plain_raise. apply not_square. exact H. Qed.
(** What is on the lines. *)
Lemma to_aai_file : forall g reference nodata f, writable g -> to_aai g reference nodata = Ok f ->
  f = esri_header (ncols g) (nrows g) (match reference with Center => true | Corner => false end)
        (fst (match reference with Center => center_llref g | Corner => corner_llref g end))
        (snd (match reference with Center => center_llref g | Corner => corner_llref g end)) (g_dx g) nodata
      ++ map (map (fun c => Bracketed true true (fill nodata c))) (g_rows g).
Proof.
  intros g reference nodata f (E & S1 & S2 & _) H. unfold to_aai, to_aai_bands in H. rewrite (eqb_true _ _ E) in H. cbn [negb] in H.
  rewrite (eqb_true (g_sy g) 0 S2), andb_false_r, data_one in H.
  assert (forall A (x y : A), Ok x = Ok y -> x = y) as OkI by (intros A x y X; congruence). apply OkI in H. subst f.
  destruct reference; reflexivity.
Qed.
(** A line of data, of any number of bands, begins with a bracket. *)
Lemma row_words_bracket : forall row, row <> [] -> Forall (fun c => c <> []) row -> exists b x l, row_words row = Bracketed true b x :: l.
Proof.
  intros [|c row] N F; [contradiction|]. inversion F as [|? ? Nc _]; subst. unfold row_words. cbn [map concat].
  destruct c as [|a [|b c]]; [contradiction| |]; cbn [cell_words app]; eauto.
Qed.
Lemma data_rows_bracket : forall b x l ls, data_rows ((Bracketed true b x :: l) :: ls) = Raise ValueError.
Proof. intros b x l ls. cbn [data_rows data_row]. reflexivity. Qed.
Lemma unreadable : forall g values reference nodata f, values <> [] -> Forall (fun row => row <> [] /\ Forall (fun c => c <> []) row) values ->
  to_aai_bands g values reference nodata = Ok f -> read_grid f = Raise ValueError.
Proof.
  intros g values reference nodata f N F H. unfold to_aai_bands in H.
  destruct (negb (Qeq_bool (g_dx g) (g_dy g))); [discriminate|].
  destruct (negb (Qeq_bool (g_sx g) (g_sy g)) && negb (Qeq_bool (g_sy g) 0))%bool; [discriminate|]. cbv zeta in H.
  destruct values as [|row values]; [contradiction|]. inversion F as [|? ? (Nr & Fr) _]; subst.
  cbn [map] in H.
  destruct (row_words_bracket (map (map (fill nodata)) row)) as (b & x & l & R).
  { destruct row; [contradiction|discriminate]. }
  { rewrite Forall_map. eapply Forall_impl; [|exact Fr]. intros [|a c] X; [contradiction|discriminate]. }
  rewrite R in H. set (rest := map _ values) in H. clearbody rest.
  assert (forall A (x y : A), Ok x = Ok y -> x = y) as OkI by (intros A u v X; congruence). apply OkI in H. subst f.
  unfold read_grid, read_aai. destruct reference; cbn [app split_header header_dict dict_get key_eqb check_corner];
    rewrite data_rows_bracket; reflexivity.
Qed.
Lemma unreadable_one : forall g reference nodata, writable g -> exists f, to_aai g reference nodata = Ok f /\ read_grid f = Raise ValueError.
Proof.
  intros g reference nodata W. destruct (to_aai_ok g reference nodata W) as (f & H). exists f. split; [exact H|].
  destruct W as (_ & _ & _ & N & n & P & F). eapply unreadable; [| |exact H].
  - unfold one_band. destruct (g_rows g); [contradiction|discriminate].
  - unfold one_band. rewrite Forall_map. eapply Forall_impl; [|exact F]. intros r L. split.
    + destruct r; [cbn in L; lia|discriminate].
    + rewrite Forall_map. apply Forall_forall. intros c _. discriminate.
Qed.
Lemma to_aai_upside : exists f h, to_aai upside Corner (- (9999)) = Ok f /\ read_grid (without_brackets f) = Ok (Some h) /\ g_rows h = [[Some 2]; [Some 1]].
Proof. eexists. eexists. split; [reflexivity|]. split; [reflexivity|]. reflexivity. Qed.
Lemma to_aai_skew : forall s, let g := Grid 0 0 1 1 s 0 [[Some 1]] in exists f h,
  to_aai g Corner (- (9999)) = Ok f /\ read_grid (without_brackets f) = Ok (Some h) /\ g_sx h = 0.
Proof.
  intros s g. destruct (to_aai g Corner (- (9999))) as [f|e] eqn:E.
  - destruct (skew_lost s) as (p & h & P & R & S). exists f, h. split; [reflexivity|]. pose proof (plain _ _ _ _ E) as Q0. unfold g in Q0. rewrite P in Q0.
    injection Q0 as ->. split; assumption.
  - exfalso. unfold to_aai, to_aai_bands, g in E. cbn [g_dx g_dy g_sx g_sy] in E. change (Qeq_bool 1 1) with true in E. change (Qeq_bool 0 0) with true in E.
    cbn [negb] in E. rewrite andb_false_r in E. discriminate.
Qed.
Lemma to_aai_lost : forall x, exists f h, to_aai (Grid 0 0 1 1 0 0 [[Some x]]) Corner x = Ok f /\ read_grid (without_brackets f) = Ok (Some h) /\ g_rows h = [[None]].
Proof.
  intros x. destruct (value_lost x) as (p & h & P & R & V). eexists. exists h. split; [reflexivity|]. split; [|exact V].
  rewrite <- R. f_equal. assert (forall A (x y : A), Ok x = Ok y -> x = y) as OkI by (intros A u v X; congruence). apply OkI. rewrite <- P. reflexivity.
Qed.
