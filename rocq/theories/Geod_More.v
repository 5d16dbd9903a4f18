(** The inverse problem: exchanged ends, and calls that fail. *)
From Coq Require Import List ZArith Reals Lra Lia Bool.
From Coquelicot Require Import Coquelicot.
From Verif Require Brent_Model.
From Verif Require Import GeomR_Model GeomR_Proofs Sphere_Model Sphere_Spec Sphere_Proofs Sphere_Area Geod_Model Geod_Spec Geod_Forward
  Geod_Series Geod_Bounds Geod_Revert Geod_Accurate Geod_Symm Geod_Unwrap Geod_Inverse Geod_Answer Geod_Round.
Import ListNotations.
Open Scope R_scope.

Ltac rl H := first [apply rlt_t in H|apply rlt_f in H].
(* ---- exchanged ends *)
Lemma reduce_back : forall x, reduce_degr x = -180 /\ reduce_degr (- x) = -180 \/ reduce_degr (- x) = - reduce_degr x.
Proof.
  intros x. destruct (reduce_degr_spec x) as [R1 K]. destruct (Req_dec (reduce_degr x) (-180)) as [E|E].
  - left. split; [exact E|]. apply reduce_degr_unique; [lra|]. destruct K as [k K]. rewrite E in K. exists (- k + 1)%Z. rewrite plus_IZR, opp_IZR. lra.
  - right. apply reduce_degr_unique; [lra|]. destruct K as [k K]. exists (- k)%Z. rewrite opp_IZR. lra.
Qed.
Definition folded_lon (x : R) : R := let x := reduce_degr x in if rlt x 0 || rlt 180 x then - x else x.
Lemma folded_back : forall x, folded_lon (- x) = folded_lon x.
Proof.
  intros x. unfold folded_lon. destruct (reduce_degr_spec x) as [R1 _]. destruct (reduce_degr_spec (- x)) as [R2 _].
  destruct (reduce_back x) as [[E1 E2]|E]; [rewrite E1, E2; reflexivity|]. rewrite E in *.
  rewrite (proj2 (rlt_f 180 (reduce_degr x))), (proj2 (rlt_f 180 (- reduce_degr x))) by lra. rewrite !orb_false_r.
  destruct (rlt (- reduce_degr x) 0) eqn:A, (rlt (reduce_degr x) 0) eqn:B; rl A; rl B; lra.
Qed.
Definition ordered_lats (y1 y2 : R) : R * R :=
  let '(y1, y2) := if rlt (Rabs y1) (Rabs y2) then (y2, y1) else (y1, y2) in if rlt 0 y1 then (- y1, - y2) else (y1, y2).
Lemma ordered_back : forall y1 y2, ordered_lats y2 y1 = ordered_lats y1 y2.
Proof.
  intros y1 y2. unfold ordered_lats. destruct (rlt (Rabs y1) (Rabs y2)) eqn:A, (rlt (Rabs y2) (Rabs y1)) eqn:B; rl A; rl B; try reflexivity; [lra|].
  assert (E : Rabs y1 = Rabs y2) by lra. destruct (rlt 0 y2) eqn:P, (rlt 0 y1) eqn:Q; rl P; rl Q; unfold Rabs in E; destruct (Rcase_abs y1), (Rcase_abs y2); f_equal; lra.
Qed.
Lemma canonicalf_parts : forall x1 y1 x2 y2, canonicalf x1 y1 x2 y2 =
  (rlt (Rabs y1) (Rabs y2), (rlt (reduce_degr (x2 - x1)) 0 || rlt 180 (reduce_degr (x2 - x1)))%bool, rlt 0 (if rlt (Rabs y1) (Rabs y2) then y2 else y1),
   (0, fst (ordered_lats y1 y2), folded_lon (x2 - x1), snd (ordered_lats y1 y2))).
Proof.
  intros x1 y1 x2 y2. unfold canonicalf, ordered_lats, folded_lon. destruct (rlt (Rabs y1) (Rabs y2)).
  - destruct (rlt 0 y2); reflexivity.
  - destruct (rlt 0 y1); reflexivity.
Qed.
Lemma folded_opp : forall x1 x2, folded_lon (x1 - x2) = folded_lon (x2 - x1).
Proof. intros x1 x2. rewrite <- folded_back. f_equal. ring. Qed.
Definition distance_of (r : outcome (R * R * R * bool)) : outcome (R * bool) :=
  match r with Done (_, _, s, w) => Done (s, w) | Raises e => Raises e end.
Lemma finish_distance : forall a b fl r, snd (finish a b fl r) = s12_of a b (snd r).
Proof. intros a b [[yf xf] ys] [al s]. rewrite finish_undo. destruct (undo yf xf ys al (s_alpha2 s)). reflexivity. Qed.
Lemma inverse_distance : forall flat a b x1 y1 x2 y2 tol, ~ (y1 = 0 /\ y2 = 0) -> distance_of (inverse flat a b x1 y1 x2 y2 tol) =
  match solve_inverse flat a b (fst (ordered_lats y1 y2)) (folded_lon (x2 - x1)) (snd (ordered_lats y1 y2)) tol with
  | Done (_, s, w) => Done (s12_of a b s, w) | Raises e => Raises e end.
Proof.
  intros flat a b x1 y1 x2 y2 tol NZ. unfold inverse.
  destruct (req y1 y2 && req y2 0) eqn:Z; [exfalso; apply andb_true_iff in Z; rewrite !req_t in Z; apply NZ; lra|].
  rewrite canonicalf_parts. destruct (solve_inverse _ _ _ _ _ _ _) as [[[al s] w]|]; cbn [andthen]; [|reflexivity].
  pose proof (finish_distance a b ((rlt (Rabs y1) (Rabs y2), (rlt (reduce_degr (x2 - x1)) 0 || rlt 180 (reduce_degr (x2 - x1)))%bool, rlt 0 (if rlt (Rabs y1) (Rabs y2) then y2 else y1))) (al, s)) as D.
  destruct (finish a b _ (al, s)) as [[az baz] q]. cbn [snd] in D. rewrite D. reflexivity.
Qed.
Lemma inverse_symmetric : forall flat a b x1 y1 x2 y2 tol,
  distance_of (inverse flat a b x2 y2 x1 y1 tol) = distance_of (inverse flat a b x1 y1 x2 y2 tol).
Proof.
  intros flat a b x1 y1 x2 y2 tol. destruct (req y1 0 && req y2 0) eqn:Z.
  - apply andb_true_iff in Z. rewrite !req_t in Z. destruct Z as [-> ->]. unfold inverse. rewrite !(proj2 (req_t 0 0)) by reflexivity. cbn [andb].
    unfold inverse_equatorial. rewrite (Rabs_minus_sym x2 x1). destruct (rlt _ 0), (rlt _ 0); reflexivity.
  - assert (NZ : ~ (y1 = 0 /\ y2 = 0)) by (intros [-> ->]; rewrite !(proj2 (req_t 0 0)) in Z by reflexivity; discriminate).
    rewrite !inverse_distance by tauto. rewrite ordered_back, folded_opp. reflexivity.
Qed.
Definition exchanged (r : outcome (R * R * R * bool)) : outcome (R * R * R * bool) :=
  match r with Done (az, baz, s, w) => Done (baz, az, s, w) | Raises e => Raises e end.
Lemma deg_same : forall u v, congr u v -> pymod (u * 180 / PI + 180) 360 - 180 = pymod (v * 180 / PI + 180) 360 - 180.
Proof.
  intros u v [k K]. pose proof PI_RGT_0. change (reduce_degr (u * 180 / PI) = reduce_degr (v * 180 / PI)).
  destruct (reduce_degr_spec (v * 180 / PI)) as [R1 [m M]]. apply reduce_degr_unique; [exact R1|]. exists (m + k)%Z. rewrite plus_IZR, K.
  replace ((v + 2 * PI * IZR k) * 180 / PI) with (v * 180 / PI + 360 * IZR k) by (field; lra). rewrite M at 1. ring.
Qed.
Lemma inverse_exchanged : forall flat a b x1 y1 x2 y2 tol, Rabs y1 <> Rabs y2 -> ~ congd x1 x2 -> ~ congd x1 (x2 + 180) ->
  inverse flat a b x2 y2 x1 y1 tol = exchanged (inverse flat a b x1 y1 x2 y2 tol).
Proof.
  intros flat a b x1 y1 x2 y2 tol NY N0 N180. unfold inverse.
  assert (Z1 : req y1 y2 && req y2 0 = false) by (apply andb_false_iff; rewrite !req_f; left; intros ->; apply NY; reflexivity).
  assert (Z2 : req y2 y1 && req y1 0 = false) by (apply andb_false_iff; rewrite !req_f; left; intros ->; apply NY; reflexivity).
  rewrite Z1, Z2, !canonicalf_parts, ordered_back, folded_opp.
  destruct (solve_inverse _ _ _ _ _ _ _) as [[[al s] w]|]; cbn [andthen]; [|reflexivity].
  assert (YF : rlt (Rabs y2) (Rabs y1) = negb (rlt (Rabs y1) (Rabs y2))).
  { destruct (rlt (Rabs y1) (Rabs y2)) eqn:A, (rlt (Rabs y2) (Rabs y1)) eqn:B; rl A; rl B; try reflexivity; lra. }
  assert (YS : (if rlt (Rabs y2) (Rabs y1) then y1 else y2) = (if rlt (Rabs y1) (Rabs y2) then y2 else y1)) by (rewrite YF; destruct (rlt (Rabs y1) (Rabs y2)); reflexivity).
  rewrite YS, YF. replace (x1 - x2) with (- (x2 - x1)) by ring.
  destruct (reduce_degr_spec (x2 - x1)) as [R1 [k K]].
  destruct (reduce_back (x2 - x1)) as [[E1 _]|E].
  { exfalso. apply N180. exists (- k)%Z. rewrite opp_IZR. lra. }
  rewrite E. set (rx := reduce_degr (x2 - x1)) in *.
  assert (RZ : rx <> 0) by (intros Q; apply N0; exists (- k)%Z; rewrite opp_IZR; lra).
  assert (RN : rx <> -180) by (intros Q; apply N180; exists (- k)%Z; rewrite opp_IZR; lra).
  rewrite (proj2 (rlt_f 180 rx)), (proj2 (rlt_f 180 (- rx))) by lra. rewrite !orb_false_r.
  assert (XF : rlt (- rx) 0 = negb (rlt rx 0)).
  { destruct (rlt rx 0) eqn:A, (rlt (- rx) 0) eqn:B; rl A; rl B; try reflexivity; lra. }
  rewrite XF, !finish_undo. set (ys := rlt 0 _). set (yf := rlt (Rabs y1) (Rabs y2)). set (xf := rlt rx 0).
  assert (U : let '(u1, u2) := undo yf xf ys al (s_alpha2 s) in let '(v1, v2) := undo (negb yf) (negb xf) ys al (s_alpha2 s) in congr v1 (u2 + PI) /\ congr (v2 + PI) u1).
  { destruct yf, xf, ys; cbn [undo negb]; split; first [exists 0%Z; cbn [IZR]; ring|exists (-1)%Z; cbn [IZR]; ring|exists 1%Z; cbn [IZR]; ring]. }
  destruct (undo yf xf ys al (s_alpha2 s)) as [u1 u2]. destruct (undo (negb yf) (negb xf) ys al (s_alpha2 s)) as [v1 v2].
  destruct U as [U1 U2]. rewrite (deg_same _ _ U1), (deg_same _ _ U2). reflexivity.
Qed.

(* ---- calls that fail *)
Lemma sphere_fails : forall flat r x1 y1 x2 y2 tol, 0 < r -> -90 < y1 < 90 -> -90 < y2 < 90 -> ~ (y1 = 0 /\ y2 = 0) ->
  (exists t, congd (x2 - x1) t /\ 0 < Rabs t /\ Rabs (rad t) <= PI - 1 / 1000000000000 /\ (Rabs (rad y1 + rad y2) <= 87 / 10000 \/ PI - 87 / 10000 <= Rabs (rad t))) ->
  inverse flat r r x1 y1 x2 y2 tol = Raises ZeroDivisionError.
Proof.
  intros flat r x1 y1 x2 y2 tol PR H1 H2 NZ (t & [m HX] & T0 & TP & HH). pose proof PI_RGT_0. unfold inverse.
  destruct (req y1 y2 && req y2 0) eqn:Z; [exfalso; apply andb_true_iff in Z; rewrite !req_t in Z; apply NZ; lra|].
  destruct (canonicalf x1 y1 x2 y2) as [[[yf xf] ys] [[[z y1c] x2c] y2c]] eqn:E. pose proof (canonical_sum _ _ _ _ _ _ _ _ _ _ _ E) as CS.
  destruct (canonical_spec _ _ _ _ _ _ _ _ _ _ _ H1 H2 NZ E) as (Y1 & Y2 & X1 & [k XK] & _).
  assert (XT : x2c = Rabs t).
  { apply (half_lon _ _ _ m t XK X1 HX). rewrite <- rad_abs in TP. unfold rad in TP. apply Rnot_lt_le. intros X. nra. }
  assert (RX : rad x2c = Rabs (rad t)) by (rewrite XT; apply rad_abs).
  assert (RP : 0 < rad x2c) by (rewrite XT; unfold rad; nra).
  unfold solve_inverse. rewrite (proj2 (req_f 0 x2c)) by lra. change (y1c * PI / 180) with (rad y1c). change (y2c * PI / 180) with (rad y2c).
  replace ((x2c - 0) * PI / 180) with (rad x2c) by (unfold rad; field). rewrite (pymod_unique (rad x2c) (2 * PI) (rad x2c) 0) by (cbn [IZR]; lra).
  assert (AL : Rabs (rad x2c - PI) = PI - rad x2c) by (rewrite Rabs_left by lra; ring). rewrite AL, (proj2 (rlt_f _ _)) by lra. rewrite CS.
  assert (CO : rlt (87 / 10000) (PI - rad x2c) && rlt (87 / 10000) (Rabs (rad y1 + rad y2)) = false).
  { apply andb_false_iff. rewrite !rlt_f. destruct HH; [right|left]; lra. }
  rewrite CO. unfold solve_astroid. rewrite sphere_flattening by exact PR. rewrite (proj2 (req_t _ 0)) by ring. reflexivity.
Qed.
Lemma antipodal_fails : forall flat a b x1 y x2 tol, 0 < b -> b < a -> -90 < y < 90 -> y <> 0 ->
  (exists t, congd (x2 - x1) t /\ 1 / 1000000000000 <= PI - Rabs (rad t) < flattening a b * PI * cos (reduced (flattening a b) (rad y))) ->
  inverse flat a b x1 y x2 (- y) tol = Raises ValueError.
Proof.
  intros flat a b x1 y x2 tol PB BA H1 NZ0 (t & [m HX] & T0 & TP). pose proof PI_RGT_0. assert (PA : 0 < a) by lra. unfold inverse.
  assert (NZ : ~ (y = 0 /\ - y = 0)) by (intros [? _]; contradiction).
  destruct (req y (- y) && req (- y) 0) eqn:Z; [exfalso; apply andb_true_iff in Z; rewrite !req_t in Z; apply NZ; lra|].
  destruct (canonicalf x1 y x2 (- y)) as [[[yf xf] ys] [[[z y1c] x2c] y2c]] eqn:E. pose proof (canonical_sum _ _ _ _ _ _ _ _ _ _ _ E) as CS.
  assert (H2 : -90 < - y < 90) by lra.
  destruct (canonical_spec _ _ _ _ _ _ _ _ _ _ _ H1 H2 NZ E) as (Y1 & Y2 & X1 & [k XK] & _).
  assert (Y1E : y1c = y \/ y1c = - y).
  { rewrite canonicalf_parts in E. injection E as _ _ _ _ EY _ _. rewrite <- EY. unfold ordered_lats.
    destruct (rlt (Rabs y) (Rabs (- y))); [destruct (rlt 0 (- y))|destruct (rlt 0 y)]; cbn [fst]; lra. }
  set (f := flattening a b) in *. assert (F0 : 0 < f < 1).
  { unfold f, flattening. split; [apply Rdiv_lt_0_compat; lra|]. apply Rmult_lt_reg_r with a; [exact PA|]. unfold Rdiv. rewrite Rmult_assoc, Rinv_l by lra. lra. }
  assert (RO : forall u, reduced f (- u) = - reduced f u) by (intros u; unfold reduced; rewrite tan_neg, <- atan_opp; f_equal; ring).
  assert (CE : cos (reduced f (rad y1c)) = cos (reduced f (rad y))).
  { destruct Y1E as [-> | ->]; [reflexivity|]. rewrite rad_neg, RO, cos_neg. reflexivity. }
  assert (SE : rad y2c = - rad y1c).
  { rewrite rad_neg in CS. replace (rad y + - rad y) with 0 in CS by ring. rewrite Rabs_R0 in CS.
    destruct (Req_dec (rad y1c + rad y2c) 0) as [|W]; [lra|]. apply Rabs_no_R0 in W. contradiction. }
  assert (XT : x2c = Rabs t).
  { apply (half_lon _ _ _ m t XK X1 HX). rewrite <- rad_abs in T0. unfold rad in T0. apply Rnot_lt_le. intros X.
    assert (0 < (Rabs t - 180) * PI) by (apply Rmult_lt_0_compat; lra). lra. }
  assert (RX : rad x2c = Rabs (rad t)) by (rewrite XT; apply rad_abs).
  set (cb := cos (reduced f (rad y))) in *.
  assert (CB : 0 < cb) by (apply cos_gt_0; unfold reduced; pose proof (atan_range ((1 - f) * tan (rad y))); lra).
  assert (CB1 : cb <= 1) by apply COS_bound.
  assert (RP : 0 < rad x2c).
  { rewrite RX. assert (f * cb < 1) by nra. assert (0 < (1 - f * cb) * PI) by (apply Rmult_lt_0_compat; lra). lra. }
  assert (XZ : 0 <> x2c) by (intros Q; rewrite <- Q in RP; unfold rad in RP; lra).
  unfold solve_inverse. fold f. rewrite (proj2 (req_f 0 x2c) XZ). change (y1c * PI / 180) with (rad y1c). change (y2c * PI / 180) with (rad y2c).
  replace ((x2c - 0) * PI / 180) with (rad x2c) by (unfold rad; field). rewrite (pymod_unique (rad x2c) (2 * PI) (rad x2c) 0) by (cbn [IZR]; lra).
  assert (AL : Rabs (rad x2c - PI) = PI - rad x2c) by (rewrite Rabs_left by lra; ring). rewrite AL, (proj2 (rlt_f _ _)) by lra.
  rewrite SE. replace (rad y1c + - rad y1c) with 0 by ring. rewrite Rabs_R0, (proj2 (rlt_f (87 / 10000) 0)) by lra. rewrite andb_false_r.
  unfold solve_astroid. rewrite RO, CE. fold cb. set (delta := f * a * PI * cb ^ 2).
  assert (DP : 0 < delta) by (unfold delta; pose proof (pow_lt cb 2 CB); assert (0 < f * a) by nra; assert (0 < f * a * PI) by nra; nra).
  rewrite (proj2 (req_f delta 0)) by lra. replace (- reduced f (rad y1c) + reduced f (rad y1c)) with 0 by ring.
  set (x := (rad x2c - PI) * (a * cb) / delta). replace (0 * a / delta) with 0 by (field; lra).
  assert (XE : x * (f * PI * cb) = rad x2c - PI) by (unfold x, delta; field; repeat split; lra).
  assert (XB : x ^ 2 < 1).
  { assert (0 < f * PI) by nra. assert (0 < f * PI * cb) by nra. assert (-1 < x) by nra. assert (x <= 0) by nra. nra. }
  unfold Brent_Model.fzero_brent.
  assert (FP : forall mu, 0 < mu -> 0 < mu ^ 4 + 2 * mu ^ 3 + (1 - x ^ 2 - 0 ^ 2) * mu ^ 2 - 2 * 0 ^ 2 * mu - 0 ^ 2).
  { intros mu M. pose proof (pow_lt mu 4 M). pose proof (pow_lt mu 3 M). pose proof (pow_lt mu 2 M).
    assert (0 < (1 - x ^ 2) * mu ^ 2) by (apply Rmult_lt_0_compat; lra). replace (0 ^ 2) with 0 by ring. lra. }
  assert (PA2 : 0 < PI * a) by (apply Rmult_lt_0_compat; lra).
  pose proof (FP (1 / 1000000) ltac:(lra)) as F1. pose proof (FP (PI * a) PA2) as F2. cbv zeta.
  rewrite (proj2 (req_f _ 0)) by (apply Rgt_not_eq; exact F1). rewrite (proj2 (req_f _ 0)) by (apply Rgt_not_eq; exact F2).
  rewrite (proj2 (rlt_t 0 _)) by (apply Rmult_lt_0_compat; assumption). reflexivity.
Qed.
(** Over a pole it is shorter. *)
Lemma sin2_int : RInt (fun s => sin s ^ 2) 0 PI = PI / 2.
Proof.
  apply is_RInt_unique. replace (PI / 2) with (minus ((fun s => s / 2 - sin s * cos s / 2) PI) ((fun s => s / 2 - sin s * cos s / 2) 0)).
  - apply (is_RInt_derive (fun s => s / 2 - sin s * cos s / 2) (fun s => sin s ^ 2)).
    + intros x _. auto_derive; [exact Logic.I|]. pose proof (sc x) as H. rewrite !sq2. lra.
    + intros x _. apply (ex_derive_continuous (K := R_AbsRing) (V := R_NormedModule)). auto_derive. exact Logic.I.
  - change (PI / 2 - sin PI * cos PI / 2 - (0 / 2 - sin 0 * cos 0 / 2) = PI / 2). rewrite sin_PI, sin_0. field.
Qed.
Lemma meridian_shorter : forall a b, 0 < b -> b < a -> geodesic_length a b 1 0 PI < PI * a.
Proof.
  intros a b PB BA. assert (PA : 0 < a) by lra. pose proof PI_RGT_0 as P0. unfold geodesic_length.
  set (k := (a ^ 2 - b ^ 2) / (2 * a)).
  assert (C2 : 1 ^ 2 <= 1) by lra.
  assert (LE : RInt (speed a b 1) 0 PI <= RInt (fun s => plus ((a + b ^ 2 / a) / 2) (scal k (sin s ^ 2))) 0 PI).
  { apply RInt_le; [lra|apply ex_speed; assumption| |].
    - apply (ex_RInt_continuous (V := R_CompleteNormedModule)). intros s _. apply (ex_derive_continuous (K := R_AbsRing) (V := R_NormedModule)).
      change (ex_derive (fun s => (a + b ^ 2 / a) / 2 + k * sin s ^ 2) s). auto_derive. exact Logic.I.
    - intros s _. change (speed a b 1 s <= (a + b ^ 2 / a) / 2 + k * sin s ^ 2). unfold speed. pose proof (speed_pos a b 1 s PA PB C2) as SP.
      set (q := b ^ 2 + (a ^ 2 - b ^ 2) * 1 ^ 2 * sin s ^ 2) in *. pose proof (sqrt_sqrt q ltac:(lra)) as SQ. set (w := sqrt q) in *.
      replace ((a + b ^ 2 / a) / 2 + k * sin s ^ 2) with ((a * a + q) / (2 * a)) by (unfold k, q; field; lra).
      apply Rmult_le_reg_r with (2 * a); [lra|]. replace ((a * a + q) / (2 * a) * (2 * a)) with (a * a + q) by (field; lra).
      pose proof (Rle_0_sqr (a - w)) as X. unfold Rsqr in X. nra. }
  eapply Rle_lt_trans; [exact LE|].
  assert (EX : ex_RInt (fun s => sin s ^ 2) 0 PI).
  { apply (ex_RInt_continuous (V := R_CompleteNormedModule)). intros s _. apply (ex_derive_continuous (K := R_AbsRing) (V := R_NormedModule)). auto_derive. exact Logic.I. }
  assert (EX2 : ex_RInt (fun s => scal k (sin s ^ 2)) 0 PI) by (apply (ex_RInt_scal (V := R_NormedModule)); exact EX).
  rewrite (RInt_plus (V := R_CompleteNormedModule) (fun _ => (a + b ^ 2 / a) / 2) (fun s => scal k (sin s ^ 2))); [|apply ex_RInt_const|exact EX2].
  rewrite (RInt_scal (V := R_CompleteNormedModule) (fun s => sin s ^ 2)) by exact EX.
  assert (SI := sin2_int). unfold R_CompleteNormedModule in *. rewrite SI. rewrite RInt_const_R.
  change ((PI - 0) * ((a + b ^ 2 / a) / 2) + k * (PI / 2) < PI * a).
  assert (E : PI * a - ((PI - 0) * ((a + b ^ 2 / a) / 2) + k * (PI / 2)) = PI / (4 * a) * ((a - b) * (a + b))) by (unfold k; field; lra).
  assert (0 < PI / (4 * a) * ((a - b) * (a + b))) by (apply Rmult_lt_0_compat; [apply Rdiv_lt_0_compat; lra|apply Rmult_lt_0_compat; lra]). lra.
Qed.
Lemma over_the_pole : forall a b l, 0 < a -> 0 < b -> geodesic a b l 0 0 (l + PI) 0 PI (geodesic_length a b 1 0 PI).
Proof.
  intros a b l PA PB. pose proof PI_RGT_0. assert (RL : reduced_latitude a b 0 0) by (unfold reduced_latitude; rewrite sin_0, cos_0; split; [lra|]; split; [lra|ring]).
  exists 0, 1, 0, PI, 0, PI, 0, 0. split; [ring|]. split; [exact RL|]. split; [exact RL|].
  split; [unfold on_circle; rewrite sin_0, cos_0; repeat split; ring|].
  split; [unfold on_circle; rewrite sin_PI, cos_PI, sin_0, cos_0; repeat split; ring|]. split; [reflexivity|].
  assert (Z : RInt (lag a b 0 1) 0 PI = 0).
  { transitivity (RInt (fun _ : R => 0) 0 PI); [apply RInt_ext|rewrite RInt_const_R; apply Rmult_0_r].
    intros x _. assert (Z : lag a b 0 1 x = 0) by (unfold lag, Rdiv; ring). exact Z. }
  rewrite Z. exists 0%Z. cbn [IZR]. ring.
Qed.
