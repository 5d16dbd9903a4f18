(** Searches in floats, in terms of the doubles given. *)
From Coq Require Import List ZArith QArith Qabs Qreals Reals Lra Lia Bool.
From Flocq Require Import Core IEEE754.BinarySingleNaN.
From Verif Require Import Dbl_Model Dbl_Spec Dbl_Float Dbl_Proofs Ftree_Model Ftree_Spec Ftree_Shape Ftree_Unsplit Ftree_Round.
Import ListNotations.
Open Scope nat_scope.

Lemma is_box_load l i b : is_box (map load l) i b -> exists c, is_dbox l i c /\ b = load c.
Proof.
  intros [H1 H2]. rewrite nth_error_map in H2. unfold is_dbox.
  destruct (nth_error l (Z.to_nat i)) as [c |]; [| discriminate]. injection H2 as <-. eauto.
Qed.
Lemma load_is_box l i c : is_dbox l i c -> is_box (map load l) i (load c).
Proof. intros [H1 H2]. split; [assumption |]. rewrite nth_error_map, H2. reflexivity. Qed.
Lemma is_dbox_in l i c : is_dbox l i c -> In c l.
Proof. intros [_ H]. apply nth_error_In in H. assumption. Qed.

Lemma answers M l q maxr fb fs : 4 <= M -> length l < fb -> S M ^ length l <= fs ->
  exists t, build M fb l = Ret t /\
    (exists rw, find_within fs t q maxr = Ret rw /\
       forall i, In i rw -> exists b, is_dbox l i b /\ is_within (load q) (load b) = true) /\
    (exists ro, find_overlapping fs t q maxr = Ret ro /\
       forall i, In i ro -> exists b, is_dbox l i b /\ is_overlapping (load q) (load b) = true).
Proof.
  intros HM Hb Hs. rewrite <- (map_length load) in Hb, Hs.
  destruct (rtree_wf M (map load l) fb HM Hb) as (h & r & K & lv & E & W & R & HK).
  exists (h, r). split; [exact E |]. unfold find_within, find_overlapping. cbn [fst snd]. split.
  - destruct (search_within_sound M (map load l) h r K lv (load q) maxr fs HM W R HK Hs) as (rw & -> & H).
    exists rw; split; [reflexivity |]. intros i Hi. destruct (H i Hi) as (b & H1 & H2).
    apply is_box_load in H1 as (c & H1 & ->). eauto.
  - destruct (search_overlapping_sound M (map load l) h r K lv (load q) maxr fs HM W R HK Hs) as (ro & -> & H).
    exists ro; split; [reflexivity |]. intros i Hi. destruct (H i Hi) as (b & H1 & H2).
    apply is_box_load in H1 as (c & H1 & ->). eauto.
Qed.
Lemma unsplit M l q fb fs : 4 <= M -> length l <= M -> 0 < fb -> 0 < fs ->
  exists t, build M fb l = Ret t /\
    (exists rw, find_within fs t q (-1) = Ret rw /\ NoDup rw /\
       forall i, In i rw <-> exists b, is_dbox l i b /\ is_within (load q) (load b) = true) /\
    (exists ro, find_overlapping fs t q (-1) = Ret ro /\ NoDup ro /\
       forall i, In i ro <-> exists b, is_dbox l i b /\ is_overlapping (load q) (load b) = true).
Proof.
  intros HM Hl Hb Hs. rewrite <- (map_length load) in Hl.
  destruct (rtree_one M fb (map load l) HM Hb Hl) as (h & E & O).
  exists (h, 0). split; [exact E |]. unfold find_within, find_overlapping. cbn [fst snd].
  split; [rewrite (search_within_one fs h _ _ Hs O) | rewrite (search_overlapping_one fs h _ _ Hs O)];
    (eexists; split; [reflexivity |]; split; [apply NoDup_rev, nodup_indices |]);
    intros i; rewrite in_result; (split; intros (b & H1 & H2);
      [apply is_box_load in H1 as (c & H1 & ->); eauto | exists (load b); split; [apply load_is_box; assumption | assumption]]).
Qed.

Lemma within_parts q b : is_within q b = true <->
  Bltb (xmin q) (xmin b) = true /\ Bleb (xmax b) (xmax q) = true /\ Bltb (ymin q) (ymin b) = true /\ Bleb (ymax b) (ymax q) = true.
Proof. unfold is_within, ltf. rewrite !andb_true_iff. tauto. Qed.

Lemma always_answers M l q maxr fb fs : 4 <= M -> length l < fb -> S M ^ length l <= fs ->
  exists t rw ro, build M fb l = Ret t /\ find_within fs t q maxr = Ret rw /\ find_overlapping fs t q maxr = Ret ro /\
    (forall i, In i rw \/ In i ro -> exists b, is_dbox l i b).
Proof.
  intros HM Hb Hs. destruct (answers M l q maxr fb fs HM Hb Hs) as (t & E & (rw & Ew & Hw) & (ro & Eo & Ho)).
  exists t, rw, ro. repeat split; auto. intros i [H | H].
  - destruct (Hw i H) as (b & H1 & _). eauto.
  - destruct (Ho i H) as (b & H1 & _). eauto.
Qed.
Lemma overlapping_sound M l q maxr fb fs : 4 <= M -> length l < fb -> S M ^ length l <= fs ->
  each number q -> Forall (each number) l ->
  exists t ro, build M fb l = Ret t /\ find_overlapping fs t q maxr = Ret ro /\
    forall i, In i ro -> exists b, is_dbox l i b /\ overlap q b.
Proof.
  intros HM Hb Hs Nq Nl. destruct (answers M l q maxr fb fs HM Hb Hs) as (t & E & _ & (ro & Eo & Ho)).
  exists t, ro. repeat split; auto. intros i H. destruct (Ho i H) as (b & H1 & H2). exists b. split; [assumption |].
  apply overlap_sound; auto. rewrite Forall_forall in Nl. apply Nl. eapply is_dbox_in; eauto.
Qed.
Lemma within_sound M l q maxr fb fs : 4 <= M -> length l < fb -> S M ^ length l <= fs ->
  each (upto 127) q -> Forall (each (upto 127)) l ->
  exists t rw, build M fb l = Ret t /\ find_within fs t q maxr = Ret rw /\
    forall i, In i rw -> exists b, is_dbox l i b /\ begins_in q b /\
      barely_above (bx1 q) (bx1 b) /\ barely_above (by1 q) (by1 b).
Proof.
  intros HM Hb Hs Nq Nl. destruct (answers M l q maxr fb fs HM Hb Hs) as (t & E & (rw & Ew & Hw) & _).
  exists t, rw. repeat split; auto. intros i H. destruct (Hw i H) as (b & H1 & H2). exists b. split; [assumption |].
  rewrite Forall_forall in Nl. pose proof (Nl b (is_dbox_in _ _ _ H1)) as (B1 & B2 & B3 & B4). destruct Nq as (Q1 & Q2 & Q3 & Q4).
  apply within_parts in H2 as (C1 & C2 & C3 & C4). cbn [load xmin xmax ymin ymax] in *.
  assert (Nu : forall a, upto 127 a -> number a) by (intros a [F _]; apply finite_number; assumption).
  split; [split; apply single_lt; auto |]. split; apply single_le; auto.
Qed.
Lemma within_found M l q fb fs : 4 <= M -> length l <= M -> 0 < fb -> 0 < fs ->
  each (upto 127) q -> Forall (each (upto 127)) l ->
  exists t rw, build M fb l = Ret t /\ find_within fs t q (-1) = Ret rw /\ NoDup rw /\
    forall i b, is_dbox l i b -> well_above (bx0 q) (bx0 b) -> well_above (by0 q) (by0 b) -> ends_in q b -> In i rw.
Proof.
  intros HM Hl Hb Hs Nq Nl. destruct (unsplit M l q fb fs HM Hl Hb Hs) as (t & E & (rw & Ew & Nd & Hw) & _).
  exists t, rw. repeat split; auto. intros i b H1 H2 H3 [H4 H5]. apply Hw. exists b. split; [assumption |].
  rewrite Forall_forall in Nl. pose proof (Nl b (is_dbox_in _ _ _ H1)) as (B1 & B2 & B3 & B4). destruct Nq as (Q1 & Q2 & Q3 & Q4).
  assert (Nu : forall a, upto 127 a -> number a) by (intros a [F _]; apply finite_number; assumption).
  apply within_parts. cbn [load xmin xmax ymin ymax]. repeat split; first [apply lt_single; assumption | apply le_single; auto].
Qed.
Lemma overlapping_found M l q fb fs : 4 <= M -> length l <= M -> 0 < fb -> 0 < fs ->
  each (upto 60) q -> Forall (each (upto 60)) l ->
  exists t ro, build M fb l = Ret t /\ find_overlapping fs t q (-1) = Ret ro /\ NoDup ro /\
    forall i b, is_dbox l i b -> overlap_well q b -> In i ro.
Proof.
  intros HM Hl Hb Hs Nq Nl. destruct (unsplit M l q fb fs HM Hl Hb Hs) as (t & E & _ & (ro & Eo & Nd & Ho)).
  exists t, ro. repeat split; auto. intros i b H1 H2. apply Ho. exists b. split; [assumption |].
  rewrite Forall_forall in Nl. apply overlap_seen; auto. apply Nl. eapply is_dbox_in; eauto.
Qed.
Lemma raster_within e q b : (-70 <= e <= 30)%Z -> each (raster 24 e) q -> each (raster 24 e) b ->
  (is_within (load q) (load b) = true <-> begins_in q b /\ ends_in q b).
Proof.
  intros He (Q1 & Q2 & Q3 & Q4) (B1 & B2 & B3 & B4). rewrite within_parts. cbn [load xmin xmax ymin ymax].
  unfold begins_in, ends_in, lt, le.
  rewrite (proj1 (raster_lt e _ _ He Q1 B1)), (proj1 (raster_lt e _ _ He Q2 B2)),
    (proj2 (raster_lt e _ _ He B3 Q3)), (proj2 (raster_lt e _ _ He B4 Q4)). tauto.
Qed.
Lemma raster_sound M e l q maxr fb fs : 4 <= M -> length l < fb -> S M ^ length l <= fs ->
  (-70 <= e <= 30)%Z -> each (raster 24 e) q -> Forall (each (raster 24 e)) l ->
  exists t rw, build M fb l = Ret t /\ find_within fs t q maxr = Ret rw /\
    forall i, In i rw -> exists b, is_dbox l i b /\ begins_in q b /\ ends_in q b.
Proof.
  intros HM Hb Hs He Rq Rl. destruct (answers M l q maxr fb fs HM Hb Hs) as (t & E & (rw & Ew & Hw) & _).
  exists t, rw. repeat split; auto. intros i H. destruct (Hw i H) as (b & H1 & H2). exists b. split; [assumption |].
  apply (raster_within e); auto. rewrite Forall_forall in Rl. apply Rl. eapply is_dbox_in; eauto.
Qed.
Lemma raster_exact M e l q fb fs : 4 <= M -> length l <= M -> 0 < fb -> 0 < fs ->
  (-70 <= e <= 30)%Z -> each (raster 24 e) q -> Forall (each (raster 24 e)) l ->
  exists t rw ro, build M fb l = Ret t /\ find_within fs t q (-1) = Ret rw /\ find_overlapping fs t q (-1) = Ret ro /\
    NoDup rw /\ NoDup ro /\
    (forall i, In i rw <-> exists b, is_dbox l i b /\ begins_in q b /\ ends_in q b) /\
    (forall i, In i ro <-> exists b, is_dbox l i b /\ overlap q b).
Proof.
  intros HM Hl Hb Hs He Rq Rl. destruct (unsplit M l q fb fs HM Hl Hb Hs) as (t & E & (rw & Ew & Nw & Hw) & (ro & Eo & No & Ho)).
  exists t, rw, ro. rewrite Forall_forall in Rl. repeat split; auto.
  - intros H. apply Hw in H as (b & H1 & H2). exists b. split; [assumption |]. apply (raster_within e); auto.
    apply Rl. eapply is_dbox_in; eauto.
  - intros (b & H1 & H2). apply Hw. exists b. split; [assumption |]. apply (raster_within e); auto.
    apply Rl. eapply is_dbox_in; eauto.
  - intros H. apply Ho in H as (b & H1 & H2). exists b. split; [assumption |]. apply (raster_overlap e); auto.
    apply Rl. eapply is_dbox_in; eauto.
  - intros (b & H1 & H2). apply Ho. exists b. split; [assumption |]. apply (raster_overlap e); auto.
    apply Rl. eapply is_dbox_in; eauto.
Qed.

(** The box of an unsplit tree. *)
Open Scope R_scope.
Lemma fmin_spec l : forall a, is_nan a = false -> (forall c, In c l -> is_nan c = false) ->
  let m := fold_left minf l a in
  is_nan m = false /\ ext m <= ext a /\ (forall c, In c l -> ext m <= ext c) /\ (m = a \/ In m l).
Proof.
  induction l as [| c l IH]; intros a Na Nl; cbn [fold_left].
  - cbn zeta. repeat split; auto; [lra | intros c []].
  - destruct (minf_ext a c Na) as [N E]; [apply Nl; left; reflexivity |].
    destruct (IH (minf a c) N) as (I1 & I2 & I3 & I4); [intros; apply Nl; right; assumption |].
    cbn zeta in *. rewrite E in I2. pose proof (Rmin_l (ext a) (ext c)). pose proof (Rmin_r (ext a) (ext c)).
    split; [assumption |]. split; [lra |]. split.
    + intros d [<- | Hd]; [lra | auto].
    + destruct I4 as [I4 | I4]; [| right; right; assumption]. rewrite I4. unfold minf. destruct (Bleb c a); [right; left; reflexivity | auto].
Qed.
Lemma fmax_spec l : forall a, is_nan a = false -> (forall c, In c l -> is_nan c = false) ->
  let m := fold_left maxf l a in
  is_nan m = false /\ ext a <= ext m /\ (forall c, In c l -> ext c <= ext m) /\ (m = a \/ In m l).
Proof.
  induction l as [| c l IH]; intros a Na Nl; cbn [fold_left].
  - cbn zeta. repeat split; auto; [lra | intros c []].
  - destruct (maxf_ext a c Na) as [N E]; [apply Nl; left; reflexivity |].
    destruct (IH (maxf a c) N) as (I1 & I2 & I3 & I4); [intros; apply Nl; right; assumption |].
    cbn zeta in *. rewrite E in I2. pose proof (Rmax_l (ext a) (ext c)). pose proof (Rmax_r (ext a) (ext c)).
    split; [assumption |]. split; [lra |]. split.
    + intros d [<- | Hd]; [lra | auto].
    + destruct I4 as [I4 | I4]; [| right; right; assumption]. rewrite I4. unfold maxf. destruct (Bleb c a); [auto | right; left; reflexivity].
Qed.
Lemma fold_extend l : forall b, fold_left extend l b =
  mkB (fold_left minf (map xmin l) (xmin b)) (fold_left minf (map ymin l) (ymin b))
      (fold_left maxf (map xmax l) (xmax b)) (fold_left maxf (map ymax l) (ymax b)).
Proof.
  induction l as [| c l IH]; intros b; cbn [fold_left map]; [destruct b; reflexivity |]. rewrite IH. reflexivity.
Qed.
Definition p126 : single := binary_normalize 24 128 _ _ mode_NE 1 126 false.
Lemma p126_val : is_finite p126 = true /\ B2R p126 = pow2 126.
Proof.
  pose proof (binary_normalize_correct 24 128 prec24 emax128 mode_NE 1 126 false) as C. cbv zeta in C. fold p126 in C.
  assert (E : F2R (Float radix2 1 126) = pow2 126) by (unfold F2R; cbn [Fnum Fexp]; lra). rewrite E in C.
  fold (rnd32 (pow2 126)) in C. rewrite rnd32_bpow in C by lia.
  rewrite Rlt_bool_true in C; [tauto |]. rewrite Rabs_pos_eq by apply bpow_ge_0. apply bpow_lt. lia.
Qed.
Lemma nobox_big : (is_finite (xmin nobox) = true /\ pow2 126 < B2R (xmin nobox)) /\ ymin nobox = xmin nobox /\
  xmax nobox = Bopp (xmin nobox) /\ ymax nobox = Bopp (xmin nobox).
Proof.
  split; [| repeat split].
  assert (F : is_finite (xmin nobox) = true) by (vm_compute; reflexivity). split; [assumption |].
  assert (C : Bltb p126 (xmin nobox) = true) by (vm_compute; reflexivity).
  destruct p126_val as [Fp Vp]. rewrite Bltb_correct in C by assumption.
  destruct (Rlt_bool_spec (B2R p126) (B2R (xmin nobox))); [| discriminate]. lra.
Qed.
Lemma svalue_R (a : single) : Q2R (svalue a) = B2R a.
Proof.
  destruct a as [s | s | | s m e H]; try (unfold svalue, Q2R; cbn; lra).
  unfold svalue. rewrite Q2R_mult, Q2R_Z, Q2R_pow2. unfold B2R, F2R; cbn [Fnum Fexp]. destruct s; reflexivity.
Qed.
Lemma close_single (a : double) : upto 126 a -> close_to a (to_single a).
Proof.
  intros U. destruct (upto_single 126 a) as (F & E & _); [lia | assumption |]. split; [assumption |].
  apply Rle_Qle. rewrite Q2R_abs, Q2R_minus, svalue_R, Q2R_plus, Q2R_mult, Q2R_abs, !value_R, !Q2R_pow2, E. apply rnd32_err.
Qed.
Lemma min_side (f : dbox -> double) l : l <> [] -> (forall c, In c l -> upto 126 (f c)) ->
  let m := fold_left minf (map to_single (map f l)) (xmin nobox) in
  (exists c, In c l /\ close_to (f c) m) /\ (forall c, In c l -> not_above m (f c)).
Proof.
  intros Hne U m. destruct nobox_big as ((F & B) & _).
  assert (Fl : forall s, In s (map to_single (map f l)) -> is_finite s = true).
  { intros s Hs. rewrite map_map in Hs. apply in_map_iff in Hs as (c & <- & Hc).
    destruct (upto_single 126 (f c)) as (Fc & _); [lia | auto |]. assumption. }
  destruct (fmin_spec (map to_single (map f l)) (xmin nobox)) as (N & Hle & Hall & Hor).
  { apply finite_number; assumption. } { intros c Hc. apply finite_number; auto. }
  fold m in N, Hle, Hall, Hor.
  assert (Low : forall c, In c l -> ext m <= rnd32 (val (f c))).
  { intros c Hc. destruct (upto_single 126 (f c)) as (Fc & Ec & _); [lia | auto |].
    rewrite <- Ec, <- ext_fin by assumption. apply Hall. rewrite map_map. apply in_map_iff. eauto. }
  assert (Hin : In m (map to_single (map f l))).
  { destruct Hor as [E | H]; [| assumption]. exfalso. destruct l as [| c l]; [congruence |].
    pose proof (Low c (or_introl eq_refl)) as L. rewrite E, ext_fin in L by assumption.
    destruct (upto_single 126 (f c)) as (Fc & Ec & Bc); [lia | apply U; left; reflexivity |].
    rewrite Ec in Bc. apply Rabs_le_inv in Bc. lra. }
  split.
  - rewrite map_map in Hin. apply in_map_iff in Hin as (c & <- & Hc). exists c. split; [assumption |]. apply close_single; auto.
  - intros c Hc. apply Rle_Qle. rewrite svalue_R, !Q2R_plus, Q2R_mult, Q2R_abs, !value_R, !Q2R_pow2.
    pose proof (Low c Hc) as L. rewrite ext_fin in L by auto. pose proof (rnd32_err (val (f c))) as R. apply Rabs_le_inv in R. lra.
Qed.
Lemma max_side (f : dbox -> double) l : l <> [] -> (forall c, In c l -> upto 126 (f c)) ->
  let m := fold_left maxf (map to_single (map f l)) (xmax nobox) in
  (exists c, In c l /\ close_to (f c) m) /\ (forall c, In c l -> not_below m (f c)).
Proof.
  intros Hne U m. destruct nobox_big as ((F0 & B0) & _ & Ex & _).
  assert (F : is_finite (xmax nobox) = true) by (rewrite Ex, is_finite_Bopp; assumption).
  assert (B : B2R (xmax nobox) < - pow2 126) by (rewrite Ex, B2R_Bopp; lra).
  assert (Fl : forall s, In s (map to_single (map f l)) -> is_finite s = true).
  { intros s Hs. rewrite map_map in Hs. apply in_map_iff in Hs as (c & <- & Hc).
    destruct (upto_single 126 (f c)) as (Fc & _); [lia | auto |]. assumption. }
  destruct (fmax_spec (map to_single (map f l)) (xmax nobox)) as (N & Hle & Hall & Hor).
  { apply finite_number; assumption. } { intros c Hc. apply finite_number; auto. }
  fold m in N, Hle, Hall, Hor.
  assert (Low : forall c, In c l -> rnd32 (val (f c)) <= ext m).
  { intros c Hc. destruct (upto_single 126 (f c)) as (Fc & Ec & _); [lia | auto |].
    rewrite <- Ec, <- ext_fin by assumption. apply Hall. rewrite map_map. apply in_map_iff. eauto. }
  assert (Hin : In m (map to_single (map f l))).
  { destruct Hor as [E | H]; [| assumption]. exfalso. destruct l as [| c l]; [congruence |].
    pose proof (Low c (or_introl eq_refl)) as L. rewrite E, ext_fin in L by assumption.
    destruct (upto_single 126 (f c)) as (Fc & Ec & Bc); [lia | apply U; left; reflexivity |].
    rewrite Ec in Bc. apply Rabs_le_inv in Bc. lra. }
  split.
  - rewrite map_map in Hin. apply in_map_iff in Hin as (c & <- & Hc). exists c. split; [assumption |]. apply close_single; auto.
  - intros c Hc. apply Rle_Qle. rewrite svalue_R, Q2R_minus, !Q2R_plus, Q2R_mult, Q2R_abs, !value_R, !Q2R_pow2.
    pose proof (Low c Hc) as L. rewrite ext_fin in L by auto. pose proof (rnd32_err (val (f c))) as R. apply Rabs_le_inv in R. lra.
Qed.
Lemma bbox_unsplit M l fb : (4 <= M)%nat -> (length l <= M)%nat -> (0 < fb)%nat -> l <> [] -> Forall (each (upto 126)) l ->
  exists t b, build M fb l = Ret t /\ tree_bbox t = Ret b /\
    (forall c, In c l -> not_above (xmin b) (bx0 c) /\ not_above (ymin b) (by0 c) /\
                         not_below (xmax b) (bx1 c) /\ not_below (ymax b) (by1 c)) /\
    (exists c, In c l /\ close_to (bx0 c) (xmin b)) /\ (exists c, In c l /\ close_to (by0 c) (ymin b)) /\
    (exists c, In c l /\ close_to (bx1 c) (xmax b)) /\ (exists c, In c l /\ close_to (by1 c) (ymax b)).
Proof.
  intros HM Hl Hb Hne U. rewrite Forall_forall in U. unfold build, rtree.
  destruct (Nat.ltb_spec M 4) as [H | _]; [lia |]. cbn [new_node fst snd].
  match goal with |- context [insert_all M fb ?h 0%nat 0%Z (map load l)] =>
    destruct (insert_all_box M fb (map load l) 0%Z h []) as (h' & -> & F & Bx) end; auto.
  { repeat split. } { rewrite map_length. exact Hl. }
  exists (h', 0%nat), (box (snd h' 0%nat)). split; [reflexivity |]. split.
  { unfold tree_bbox. cbn [fst snd]. unfold get. rewrite F. reflexivity. }
  rewrite Bx. cbn [snd Nat.eqb box]. rewrite fold_extend. cbn [xmin ymin xmax ymax].
  destruct nobox_big as (_ & E2 & E3 & E4).
  rewrite E2. replace (ymax nobox) with (xmax nobox) by congruence.
  rewrite !map_map. cbn [load xmin ymin xmax ymax].
  rewrite <- (map_map bx0 to_single), <- (map_map by0 to_single), <- (map_map bx1 to_single), <- (map_map by1 to_single).
  destruct (min_side bx0 l Hne) as [A1 A2]; [intros c Hc; apply U; assumption |].
  destruct (min_side by0 l Hne) as [A3 A4]; [intros c Hc; apply U; assumption |].
  destruct (max_side bx1 l Hne) as [A5 A6]; [intros c Hc; apply U; assumption |].
  destruct (max_side by1 l Hne) as [A7 A8]; [intros c Hc; apply U; assumption |].
  split; [intros c Hc; auto |]. auto.
Qed.

(** Witnesses.  [dec n d] is the double nearest to n/d. *)
Definition dec (n d : Z) : double := ddiv (of_int n) (of_int d).
Definition box10 (a b c d : Z) : dbox := mkD (dec a 10) (dec b 10) (dec c 10) (dec d 10).
Definition ask_within (M : nat) (l : list dbox) (q : dbox) : out (list Z) :=
  do t <- build M (S (length l)) l; find_within 99 t q (-1).
Definition ask_overlapping (M : nat) (l : list dbox) (q : dbox) : out (list Z) :=
  do t <- build M (S (length l)) l; find_overlapping 99 t q (-1).

Open Scope Q_scope.
Definition in60 (a : double) : bool := is_finite a && Qle_bool (Qabs (value a)) (inject_Z 1152921504606846976).
Definition box60 (b : dbox) : bool := in60 (bx0 b) && in60 (by0 b) && in60 (bx1 b) && in60 (by1 b).
Lemma in60_upto k a : (60 <= k)%Z -> in60 a = true -> upto k a.
Proof.
  intros Hk H. apply andb_true_iff in H as [F H]. apply Qle_bool_iff in H. split; [assumption |].
  eapply Qle_trans; [exact H |]. apply Rle_Qle. rewrite Q2R_Z, Q2R_pow2.
  change (IZR 1152921504606846976) with (pow2 60). apply bpow_le. assumption.
Qed.
Lemma box60_each k b : (60 <= k)%Z -> box60 b = true -> each (upto k) b.
Proof.
  intros Hk H. apply andb_true_iff in H as [H H4]. apply andb_true_iff in H as [H H3]. apply andb_true_iff in H as [H1 H2].
  split; [| split; [| split]]; apply in60_upto; assumption.
Qed.
Lemma boxes60 k l : (60 <= k)%Z -> forallb box60 l = true -> Forall (each (upto k)) l.
Proof.
  intros Hk H. rewrite forallb_forall in H. apply Forall_forall. intros b Hb. apply box60_each; auto.
Qed.
Definition example_boxes : list dbox := [box10 5 5 13 17; box10 50000004 1 50000019 9; box10 7 7 50000029 9].
Definition example_query : dbox := box10 1 (-3) 50000020 50.
Lemma example_query_ok k : (60 <= k)%Z -> each (upto k) example_query.
Proof. intros Hk. apply box60_each; [assumption |]. vm_compute; reflexivity. Qed.
Lemma example_boxes_ok k : (60 <= k)%Z -> Forall (each (upto k)) example_boxes.
Proof. intros Hk. apply boxes60; [assumption |]. vm_compute; reflexivity. Qed.
