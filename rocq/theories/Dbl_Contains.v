(** Point in polygon in doubles against the winding number. *)
From Coq Require Import List ZArith QArith Qabs Qpower Qreals Reals Lra Lia Bool.
From Flocq Require Import Core IEEE754.BinarySingleNaN.
From Verif Require Import Geom_Model Geom_Spec Contains_Model Contains_Spec Contains_Winding.
From Verif Require Import Dbl_Model Dbl_Spec Dbl_Float.
Import ListNotations.
Open Scope R_scope.

Module CM := Contains_Model.
Notation pnt := (double * double)%type.

(** Comparisons against those of exact values. *)
Lemma Rle_Q a b : (a <= b)%Q <-> Q2R a <= Q2R b.
Proof. split; [apply Qle_Rle | apply Rle_Qle]. Qed.
Lemma Rlt_Q a b : (a < b)%Q <-> Q2R a < Q2R b.
Proof. split; [apply Qlt_Rlt | apply Rlt_Qlt]. Qed.
Lemma qlt_Q a b : CM.qlt a b = true <-> (a < b)%Q.
Proof.
  unfold CM.qlt. rewrite negb_true_iff. split; intros H.
  - apply Qnot_le_lt. intros K. apply Qle_bool_iff in K. congruence.
  - destruct (Qle_bool b a) eqn:E; [| reflexivity]. apply Qle_bool_iff in E. apply Qle_not_lt in E. contradiction.
Qed.
Lemma dlt_q (x y : double) : fin x -> fin y -> dlt x y = CM.qlt (value x) (value y).
Proof.
  intros Hx Hy. apply eq_true_iff_eq. rewrite dlt_R, qlt_Q, Rlt_Q, !value_R by assumption. reflexivity.
Qed.
Lemma dle_q (x y : double) : fin x -> fin y -> dle x y = Qle_bool (value x) (value y).
Proof.
  intros Hx Hy. apply eq_true_iff_eq. rewrite dle_R, Qle_bool_iff, Rle_Q, !value_R by assumption. reflexivity.
Qed.

(** The sign of [isleft]. *)
Definition cross (pt a b : pnt) : R :=
  (val (fst b) - val (fst a)) * (val (snd pt) - val (snd a)) - (val (fst pt) - val (fst a)) * (val (snd b) - val (snd a)).
Lemma cross_Q pt a b : Q2R (CM.isleft (values pt) (values a) (values b)) = cross pt a b.
Proof. unfold CM.isleft, values, cross; cbn [fst snd]. rewrite Q2R_minus, !Q2R_mult, !Q2R_minus, !value_R. reflexivity. Qed.
Lemma u_small : 0 < u /\ u <= / 1000000.
Proof. rewrite u_val. lra. Qed.
Lemma same_sign r e : Rabs e <= u -> (0 < r * (1 + e) <-> 0 < r) /\ (r * (1 + e) < 0 <-> r < 0).
Proof.
  intros H. pose proof u_small. assert (0 < 1 + e) by (apply Rabs_le_inv in H; lra). split; split; intros K; nra.
Qed.
Lemma diff_small k x y : Rabs x <= pow2 k -> Rabs y <= pow2 k -> Rabs (x - y) <= pow2 (k + 1).
Proof.
  intros Hx Hy. rewrite bpow_plus. change (pow2 1) with 2. eapply Rle_trans; [apply Rabs_triang |]. rewrite Rabs_Ropp. lra.
Qed.
Lemma prod_small k l x y : Rabs x <= pow2 k -> Rabs y <= pow2 l -> Rabs (x * y) <= pow2 (k + l).
Proof. intros Hx Hy. rewrite bpow_plus, Rabs_mult. apply Rmult_le_compat; try assumption; apply Rabs_pos. Qed.
Lemma le_1000 k r : (k <= 1000)%Z -> Rabs r <= pow2 k -> Rabs r <= pow2 1000.
Proof. intros H K. eapply Rle_trans; [exact K | apply bpow_le; assumption]. Qed.
Lemma sub_full k (x y : double) : (-1022 <= k + 1 <= 1000)%Z -> fin x -> fin y -> Rabs (val x) <= pow2 k -> Rabs (val y) <= pow2 k ->
  fin (dsub x y) /\ Rabs (val (dsub x y)) <= pow2 (k + 1) /\ exists e, Rabs e <= u /\ val (dsub x y) = (val x - val y) * (1 + e).
Proof.
  intros Hk Fx Fy Bx By. pose proof (diff_small _ _ _ Bx By) as B.
  destruct (dsub_err x y Fx Fy (le_1000 (k + 1) _ (proj2 Hk) B)) as [F E]. destruct (dsub_ok x y Fx Fy (le_1000 (k + 1) _ (proj2 Hk) B)) as [_ V].
  split; [assumption |]. split; [rewrite V; apply rnd_bound; lia || assumption | assumption].
Qed.
Lemma mul_full k l (x y : double) : (-1022 <= k + l <= 1000)%Z -> fin x -> fin y -> Rabs (val x) <= pow2 k -> Rabs (val y) <= pow2 l ->
  fin (dmul x y) /\ Rabs (val (dmul x y)) <= pow2 (k + l) /\
  exists e h, Rabs e <= u /\ Rabs h <= eta /\ val (dmul x y) = val x * val y * (1 + e) + h.
Proof.
  intros Hk Fx Fy Bx By. pose proof (prod_small _ _ _ _ Bx By) as B.
  destruct (dmul_err x y Fx Fy (le_1000 (k + l) _ (proj2 Hk) B)) as [F E]. destruct (dmul_ok x y Fx Fy (le_1000 (k + l) _ (proj2 Hk) B)) as [_ V].
  split; [assumption |]. split; [rewrite V; apply rnd_bound; lia || assumption | assumption].
Qed.
Lemma three a e1 e2 e3 : Rabs e1 <= u -> Rabs e2 <= u -> Rabs e3 <= u ->
  Rabs (a * (1 + e1) * (1 + e2) * (1 + e3) - a) <= Rabs a * (4 * u).
Proof.
  intros H1 H2 H3. replace (a * (1 + e1) * (1 + e2) * (1 + e3) - a) with (a * ((1 + e1) * (1 + e2) * (1 + e3) - 1)) by ring.
  rewrite Rabs_mult. apply Rmult_le_compat_l; [apply Rabs_pos |].
  pose proof u_small as [U1 U2]. apply Rabs_le_inv in H1, H2, H3.
  set (f := e1 + e2 + e1 * e2).
  assert (F : - (2 * u + u * u) <= f <= 2 * u + u * u) by (unfold f; split; nra).
  replace ((1 + e1) * (1 + e2) * (1 + e3) - 1) with (f + e3 + f * e3) by (unfold f; ring).
  assert (G : - (3 * u * u) <= f * e3 <= 3 * u * u).
  { assert (Rabs (f * e3) <= (2 * u + u * u) * u). { rewrite Rabs_mult. apply Rmult_le_compat; try apply Rabs_pos; apply Rabs_le; lra. }
    apply Rabs_le_inv in H. split; nra. }
  apply Rabs_le. split; nra.
Qed.

Ltac zle := match goal with |- (_ <= _ <= _)%Z => split; apply Z.leb_le; reflexivity | |- _ => apply Z.leb_le; reflexivity end.
Section Side.
Variables pt a b : pnt.
Hypothesis Hpt : upto2 400 pt.
Hypothesis Ha : upto2 400 a.
Hypothesis Hb : upto2 400 b.
Lemma isleft_parts : fin (isleft pt a b) /\ exists P Q e,
  val (isleft pt a b) = (P - Q) * (1 + e) /\ Rabs e <= u /\
  Rabs (P - (val (fst b) - val (fst a)) * (val (snd pt) - val (snd a)))
    <= Rabs ((val (fst b) - val (fst a)) * (val (snd pt) - val (snd a))) * (4 * u) + eta /\
  Rabs (Q - (val (fst pt) - val (fst a)) * (val (snd b) - val (snd a)))
    <= Rabs ((val (fst pt) - val (fst a)) * (val (snd b) - val (snd a))) * (4 * u) + eta.
Proof.
  destruct Hpt as [Px Py], Ha as [Ax Ay], Hb as [Bx By]. apply upto_R in Px, Py, Ax, Ay, Bx, By.
  destruct Px as [FPx BPx], Py as [FPy BPy], Ax as [FAx BAx], Ay as [FAy BAy], Bx as [FBx BBx], By as [FBy BBy].
  destruct (sub_full 400 (fst b) (fst a)) as (F1 & K1 & e1 & E1 & V1); [zle | assumption .. |].
  destruct (sub_full 400 (snd pt) (snd a)) as (F2 & K2 & e2 & E2 & V2); [zle | assumption .. |].
  destruct (sub_full 400 (fst pt) (fst a)) as (F3 & K3 & e3 & E3 & V3); [zle | assumption .. |].
  destruct (sub_full 400 (snd b) (snd a)) as (F4 & K4 & e4 & E4 & V4); [zle | assumption .. |].
  destruct (mul_full (400 + 1) (400 + 1) _ _ ltac:(zle) F1 F2 K1 K2) as (F5 & K5 & e5 & h5 & E5 & G5 & V5).
  destruct (mul_full (400 + 1) (400 + 1) _ _ ltac:(zle) F3 F4 K3 K4) as (F6 & K6 & e6 & h6 & E6 & G6 & V6).
  destruct (sub_full (400 + 1 + (400 + 1)) _ _ ltac:(zle) F5 F6 K5 K6) as (F7 & K7 & e7 & E7 & V7).
  split; [exact F7 |].
  exists (val (dmul (dsub (fst b) (fst a)) (dsub (snd pt) (snd a)))), (val (dmul (dsub (fst pt) (fst a)) (dsub (snd b) (snd a)))), e7.
  split; [exact V7 |]. split; [assumption |]. rewrite V5, V6, V1, V2, V3, V4.
  set (A := val (fst b) - val (fst a)) in *. set (B := val (snd pt) - val (snd a)) in *.
  set (C := val (fst pt) - val (fst a)) in *. set (D := val (snd b) - val (snd a)) in *.
  pose proof (three (A * B) _ _ _ E1 E2 E5) as T1. pose proof (three (C * D) _ _ _ E3 E4 E6) as T2. split.
  - replace (A * (1 + e1) * (B * (1 + e2)) * (1 + e5) + h5 - A * B) with (A * B * (1 + e1) * (1 + e2) * (1 + e5) - A * B + h5) by ring.
    eapply Rle_trans; [apply Rabs_triang | lra].
  - replace (C * (1 + e3) * (D * (1 + e4)) * (1 + e6) + h6 - C * D) with (C * D * (1 + e3) * (1 + e4) * (1 + e6) - C * D + h6) by ring.
    eapply Rle_trans; [apply Rabs_triang | lra].
Qed.
Lemma clear_R : clear_of (values pt) (values a) (values b) ->
  (Rabs ((val (fst b) - val (fst a)) * (val (snd pt) - val (snd a))) + Rabs ((val (fst pt) - val (fst a)) * (val (snd b) - val (snd a)))) * (4 * u)
   + (eta + eta) < Rabs (cross pt a b).
Proof.
  unfold clear_of. intros H. apply Qlt_Rlt in H. unfold values in H; cbn [fst snd] in H.
  rewrite Q2R_plus, Q2R_mult, Q2R_plus, !Q2R_abs, Q2R_minus, !Q2R_mult, !Q2R_minus, !value_R, !Q2R_pow2 in H.
  replace (4 * u) with (pow2 (-51)). replace (eta + eta) with (pow2 (-1074)). exact H.
  - change (-1074)%Z with (-1075 + 1)%Z. rewrite bpow_plus. unfold eta. change (pow2 1) with 2. ring.
  - change (-51)%Z with (-53 + 2)%Z. rewrite bpow_plus. unfold u. change (pow2 2) with 4. ring.
Qed.
Lemma isleft_sign : clear_of (values pt) (values a) (values b) ->
  fin (isleft pt a b) /\ (0 < val (isleft pt a b) <-> 0 < cross pt a b) /\ (val (isleft pt a b) < 0 <-> cross pt a b < 0).
Proof.
  intros H. apply clear_R in H. destruct isleft_parts as (F & P & Q & e & V & E & TP & TQ). split; [assumption |].
  unfold cross in *.
  set (p := (val (fst b) - val (fst a)) * (val (snd pt) - val (snd a))) in *.
  set (q := (val (fst pt) - val (fst a)) * (val (snd b) - val (snd a))) in *.
  rewrite V. destruct (same_sign (P - Q) e E) as [S1 S2]. rewrite S1, S2.
  assert (D : Rabs (P - Q - (p - q)) < Rabs (p - q)).
  { replace (P - Q - (p - q)) with ((P - p) - (Q - q)) by ring. eapply Rle_lt_trans; [apply Rabs_triang |]. rewrite Rabs_Ropp. lra. }
  unfold Rabs in D. destruct (Rcase_abs (p - q)), (Rcase_abs (P - Q - (p - q))); split; split; intros; lra.
Qed.
End Side.

Lemma edge_same_sign (pt a b : pnt) : upto2 400 pt -> upto2 400 a -> upto2 400 b ->
  (at_level (values pt) (values a) (values b) ->
   fin (isleft pt a b) /\ (0 < val (isleft pt a b) <-> 0 < cross pt a b) /\ (val (isleft pt a b) < 0 <-> cross pt a b < 0)) ->
  edge_count pt a b = CM.edge_count (values pt) (values a) (values b).
Proof.
  intros Hp Ha Hb H. unfold edge_count, CM.edge_count.
  destruct Hp as [[FPx _] [FPy _]], Ha as [[FAx _] [FAy _]], Hb as [[FBx _] [FBy _]].
  rewrite !dle_q, !(dlt_q (snd pt)) by assumption. unfold at_level in H.
  change (snd (values pt)) with (value (snd pt)) in *. change (snd (values a)) with (value (snd a)) in *. change (snd (values b)) with (value (snd b)) in *.
  destruct (Qle_bool (value (snd a)) (value (snd pt)) && CM.qlt (value (snd pt)) (value (snd b))) eqn:E1.
  - apply andb_true_iff in E1. rewrite Qle_bool_iff, qlt_Q in E1. destruct (H (or_introl E1)) as (F & S1 & _).
    replace (dlt zero (isleft pt a b)) with (CM.qlt 0 (CM.isleft (values pt) (values a) (values b))); [reflexivity |].
    apply eq_true_iff_eq. rewrite qlt_Q, Rlt_Q, cross_Q, dlt_R by (assumption || reflexivity).
    replace (Q2R 0) with 0 by (unfold Q2R; cbn; lra). change (val zero) with 0. symmetry. exact S1.
  - destruct (CM.qlt (value (snd pt)) (value (snd a)) && Qle_bool (value (snd b)) (value (snd pt))) eqn:E2; [| reflexivity].
    apply andb_true_iff in E2. rewrite Qle_bool_iff, qlt_Q in E2. destruct (H (or_intror E2)) as (F & _ & S1).
    replace (dlt (isleft pt a b) zero) with (CM.qlt (CM.isleft (values pt) (values a) (values b)) 0); [reflexivity |].
    apply eq_true_iff_eq. rewrite qlt_Q, Rlt_Q, cross_Q, dlt_R by (assumption || reflexivity).
    replace (Q2R 0) with 0 by (unfold Q2R; cbn; lra). change (val zero) with 0. symmetry. exact S1.
Qed.
Lemma loop_same (pt : pnt) : forall l a n,
  (forall i x y, nth_error (a :: l) i = Some x -> nth_error l i = Some y -> edge_count pt x y = CM.edge_count (values pt) (values x) (values y)) ->
  count_loop pt a l n = CM.count_loop (values pt) (values a) (map values l) n.
Proof.
  induction l as [| b l IH]; intros a n H; cbn [count_loop CM.count_loop map]; [reflexivity |].
  rewrite (H 0%nat a b eq_refl eq_refl). apply IH. intros i x y Hx Hy. apply (H (S i)); assumption.
Qed.
Lemma contains_same (pt : pnt) l :
  (forall i x y, ring_edge l i x y -> edge_count pt x y = CM.edge_count (values pt) (values x) (values y)) ->
  contains pt l = negb (CM.count (values pt) (map values l) =? 0)%Z.
Proof.
  intros H. destruct l as [| v l]; [reflexivity |]. unfold contains, CM.count; cbn [map]. f_equal. f_equal.
  rewrite (loop_same pt (l ++ [v]) v 0%Z).
  - rewrite map_app. reflexivity.
  - intros i x y Hx Hy. apply (H i). unfold ring_edge. assert (i < length (l ++ [v]))%nat by (apply nth_error_Some; congruence).
    rewrite app_length in H0; cbn [length] in *. split.
    + change (v :: l ++ [v]) with ((v :: l) ++ [v]) in Hx. rewrite nth_error_app1 in Hx by (cbn [length]; lia). exact Hx.
    + destruct (Nat.eqb_spec (S i) (S (length l))) as [E | E].
      * injection E as ->. rewrite nth_error_app2, Nat.sub_diag in Hy by lia. exact Hy.
      * cbn [nth_error]. rewrite nth_error_app1 in Hy by lia. exact Hy.
Qed.
Lemma contains_winds (pt : pnt) l : off (values pt) (map values l) ->
  (forall i x y, ring_edge l i x y -> edge_count pt x y = CM.edge_count (values pt) (values x) (values y)) ->
  (contains pt l = true <-> exists w, winding (values pt) (map values l) w /\ w <> 0%Z).
Proof.
  intros O H. rewrite (contains_same pt l H), negb_true_iff, Z.eqb_neq. apply count_wound. assumption.
Qed.
Lemma ring_edge_In {A} (l : list A) i a b : ring_edge l i a b -> In a l /\ In b l.
Proof. intros [H1 H2]. split; eapply nth_error_In; eassumption. Qed.
Lemma contains_clear (pt : pnt) l : upto2 400 pt -> Forall (upto2 400) l -> off (values pt) (map values l) ->
  (forall i a b, ring_edge l i a b -> at_level (values pt) (values a) (values b) -> clear_of (values pt) (values a) (values b)) ->
  (contains pt l = true <-> exists w, winding (values pt) (map values l) w /\ w <> 0%Z).
Proof.
  intros Hp Hl O H. apply contains_winds; [assumption |]. intros i a b E. rewrite Forall_forall in Hl.
  destruct (ring_edge_In l i a b E) as [Ia Ib].
  apply edge_same_sign; [assumption | apply Hl; assumption .. |]. intros L.
  apply isleft_sign; [assumption | apply Hl; assumption .. |]. apply (H i); assumption.
Qed.

(** Coordinates on a raster. *)
Lemma raster_upto k e (a : double) : (0 <= k <= 25)%Z -> (-537 <= e <= 300)%Z -> raster k e a -> upto 400 a.
Proof.
  intros Hk He H. apply raster_on in H. destruct H as (F & m & Hm & V). apply upto_R. split; [assumption |]. rewrite V, Rabs_mult, <- abs_IZR.
  rewrite (Rabs_pos_eq (pow2 e)) by apply bpow_ge_0. apply Rle_trans with (pow2 k * pow2 300).
  - apply Rmult_le_compat; [apply IZR_le; lia | apply bpow_ge_0 | | apply bpow_le; lia].
    rewrite <- (IZR_Zpower radix2 k) by lia. apply IZR_le. exact Hm.
  - rewrite <- bpow_plus. apply bpow_le. lia.
Qed.
Lemma isleft_raster e (pt a b : pnt) : (-537 <= e <= 300)%Z -> raster2 25 e pt -> raster2 25 e a -> raster2 25 e b ->
  fin (isleft pt a b) /\ val (isleft pt a b) = cross pt a b.
Proof.
  intros He [Px Py] [Ax Ay] [Bx By]. apply raster_on in Px, Py, Ax, Ay, Bx, By.
  destruct (on_sub _ _ e _ _ Bx Ax ltac:(lia) ltac:(lia)) as [K1 V1].
  destruct (on_sub _ _ e _ _ Py Ay ltac:(lia) ltac:(lia)) as [K2 V2].
  destruct (on_sub _ _ e _ _ Px Ax ltac:(lia) ltac:(lia)) as [K3 V3].
  destruct (on_sub _ _ e _ _ By Ay ltac:(lia) ltac:(lia)) as [K4 V4].
  destruct (on_mul _ _ e e _ _ K1 K2 ltac:(lia) ltac:(lia)) as [K5 V5].
  destruct (on_mul _ _ e e _ _ K3 K4 ltac:(lia) ltac:(lia)) as [K6 V6].
  destruct (on_sub _ _ (e + e) _ _ K5 K6 ltac:(lia) ltac:(lia)) as [K7 V7].
  split; [exact (proj1 K7) |]. unfold isleft, cross. rewrite V7, V5, V6, V1, V2, V3, V4. reflexivity.
Qed.
Lemma contains_raster e (pt : pnt) l : (-537 <= e <= 300)%Z -> raster2 25 e pt -> Forall (raster2 25 e) l ->
  off (values pt) (map values l) ->
  (contains pt l = true <-> exists w, winding (values pt) (map values l) w /\ w <> 0%Z).
Proof.
  intros He Hp Hl O. apply contains_winds; [assumption |]. intros i a b E. rewrite Forall_forall in Hl.
  destruct (ring_edge_In l i a b E) as [Ia Ib]. apply Hl in Ia, Ib.
  assert (U : forall p : pnt, raster2 25 e p -> upto2 400 p) by (intros p [P1 P2]; split; eapply raster_upto; eauto; lia).
  apply edge_same_sign; auto. intros _. destruct (isleft_raster e pt a b He Hp Ia Ib) as [F V]. rewrite V. tauto.
Qed.
Lemma contains_raster_count e (pt : pnt) l : (-537 <= e <= 300)%Z -> raster2 25 e pt -> Forall (raster2 25 e) l ->
  CM.contains_c (values pt) (map values l) true = Ok (contains pt l).
Proof.
  intros He Hp Hl. unfold CM.contains_c. rewrite (contains_same pt l); [reflexivity |]. intros i a b E. rewrite Forall_forall in Hl.
  destruct (ring_edge_In l i a b E) as [Ia Ib]. apply Hl in Ia, Ib.
  assert (U : forall p : pnt, raster2 25 e p -> upto2 400 p) by (intros p [P1 P2]; split; eapply raster_upto; eauto; lia).
  apply edge_same_sign; auto. intros _. destruct (isleft_raster e pt a b He Hp Ia Ib) as [F V]. rewrite V. tauto.
Qed.
