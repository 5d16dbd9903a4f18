(** The area that is computed for an edge against the area below a geodesic. *)
From Coq Require Import List ZArith Reals Lra Lia Bool.
From Coquelicot Require Import Coquelicot.
From Verif Require Import GeomR_Model GeomR_Proofs Sphere_Model Sphere_Spec Sphere_Proofs Geod_Model Geod_Spec Geod_Poly Geod_Forward Geod_Series Geod_Bounds Geod_Revert Geod_Accurate Geod_Symm
  Geod_AreaSpec Geod_AreaSeries.
Import ListNotations.
Open Scope R_scope.

(* ---- the integrand *)
Lemma zone_spec : forall a b be, 0 < b -> b < a -> zone a b be = a * Gu a b (sin be).
Proof.
  intros a b be HB HA. unfold zone.
  set (h := fun v => a * cos v * sqrt (a ^ 2 * sin v ^ 2 + b ^ 2 * cos v ^ 2)).
  assert (HE : forall v, h v = a * (cos v * gu a b (sin v))).
  { intros v. unfold h, gu. rewrite Rmult_assoc. do 3 f_equal. pose proof (sc v) as X. rewrite !sq2. replace (cos v * cos v) with (1 - sin v * sin v) by lra. ring. }
  assert (HC : forall v, continuous h v).
  { intros v. apply (continuous_ext (fun v => a * (cos v * gu a b (sin v)))); [intros; symmetry; apply HE|].
    apply (ex_derive_continuous (K := R_AbsRing) (V := R_NormedModule)). eexists. apply d_scal. apply d_mult; [apply is_derive_cos|].
    apply (d_comp (gu a b) sin); [apply g_derive; assumption|apply is_derive_sin]. }
  apply (same_derive (fun be => RInt h 0 be) (fun be => a * Gu a b (sin be)) h).
  - intros t. apply int_derive, HC.
  - intros t. rewrite HE. apply d_scal. apply (d_comp (Gu a b) sin); [apply G_derive; assumption|apply is_derive_sin].
  - rewrite RInt_point, sin_0. unfold Gu. rewrite RInt_point. change zero with 0. ring.
Qed.
Lemma speed_gu : forall a b C s, speed a b C s = gu a b (C * sin s).
Proof. intros. unfold speed, gu. f_equal. ring. Qed.
Lemma u_range : forall S C s, S <> 0 -> S ^ 2 + C ^ 2 = 1 -> (C * sin s) ^ 2 < 1 /\ -1 < C * sin s < 1.
Proof.
  intros S C s HS N. assert (U : (C * sin s) ^ 2 < 1).
  { rewrite Rpow_mult_distr. pose proof (pow2_gt_0 S HS). pose proof (sc s) as X. rewrite (sq2 (sin s)). pose proof (pow2_ge_0 C). pose proof (Rle_0_sqr (cos s)) as Y. unfold Rsqr in Y.
    assert (C ^ 2 * (sin s * sin s) <= C ^ 2 * 1) by (apply Rmult_le_compat_l; lra). lra. }
  split; [exact U|]. split; nra.
Qed.
Lemma growth_spec : forall a b S C s, 0 < b -> b < a -> S <> 0 -> S ^ 2 + C ^ 2 = 1 ->
  let u := C * sin s in growth a b S C s = S * gu a b u / (a * (1 - u ^ 2)).
Proof.
  intros a b S C s HB HA HS N u. destruct (u_range S C s HS N) as [U _]. fold u in U. unfold growth, lag. fold u. rewrite speed_gu. fold u.
  pose proof (g_ge a b HB HA u) as G. pose proof (g_sq a b HB HA u) as GS. set (g := gu a b u) in *.
  apply Rmult_eq_reg_r with (a * (a + g) * (1 - u ^ 2)); [|apply Rgt_not_eq; repeat apply Rmult_lt_0_compat; lra].
  transitivity (S * (a * (a + g) - (a ^ 2 - b ^ 2) * (1 - u ^ 2))); [field; lra|].
  transitivity (S * (g * a + g ^ 2)); [rewrite GS; ring|]. field. lra.
Qed.
(** The integrand without inverse functions. *)
Definition rate (a b S C s : R) : R := S * (Gu a b (C * sin s) * gu a b (C * sin s) / (1 - (C * sin s) ^ 2)).
Lemma below_rate : forall a b S C s1 s2, 0 < b -> b < a -> S <> 0 -> S ^ 2 + C ^ 2 = 1 -> area_below a b S C s1 s2 = RInt (rate a b S C) s1 s2.
Proof.
  intros a b S C s1 s2 HB HA HS N. unfold area_below. apply RInt_ext. intros s _. destruct (u_range S C s HS N) as [U U1].
  rewrite (zone_spec a b _ HB HA), (growth_spec a b S C s HB HA HS N), sin_asin by lra. unfold rate. inR. field. lra.
Qed.
Lemma rate_continuous : forall a b S C s, 0 < b -> b < a -> S <> 0 -> S ^ 2 + C ^ 2 = 1 -> continuous (rate a b S C) s.
Proof.
  intros a b S C s HB HA HS N. apply (ex_derive_continuous (K := R_AbsRing) (V := R_NormedModule)). destruct (u_range S C s HS N) as [U _].
  assert (DU : is_derive (fun s => C * sin s) s (C * cos s)) by apply d_scal, is_derive_sin.
  eexists. unfold rate. apply d_scal. apply (d_div (fun s => Gu a b (C * sin s) * gu a b (C * sin s)) (fun s => 1 - (C * sin s) ^ 2)).
  - apply d_mult; [apply (d_comp (Gu a b) (fun s => C * sin s)); [apply G_derive; assumption|exact DU]|].
    apply (d_comp (gu a b) (fun s => C * sin s)); [apply g_derive; assumption|exact DU].
  - apply d_minus; [apply d_const|]. apply (is_derive_ext (fun s => (C * sin s) * (C * sin s))); [intros; inR; ring|]. apply d_mult; exact DU.
  - lra.
Qed.

Lemma below_meridian : forall a b C s1 s2, area_below a b 0 C s1 s2 = 0.
Proof.
  intros. unfold area_below. rewrite (RInt_ext _ (fun _ => 0)).
  - rewrite (RInt_const (V := R_CompleteNormedModule)). change ((s2 - s1) * 0 = 0). ring.
  - intros s _. unfold growth, lag, Rdiv. inR. ring.
Qed.

(* ---- symmetries *)
Lemma ex_rate : forall a b S C s1 s2, 0 < b -> b < a -> S <> 0 -> S ^ 2 + C ^ 2 = 1 -> ex_RInt (rate a b S C) s1 s2.
Proof. intros. apply (ex_RInt_continuous (V := R_CompleteNormedModule)). intros. apply rate_continuous; assumption. Qed.
Lemma below_east : forall a b S C s1 s2, 0 < b -> b < a -> S ^ 2 + C ^ 2 = 1 -> area_below a b (- S) C s1 s2 = - area_below a b S C s1 s2.
Proof.
  intros a b S C s1 s2 HB HA N. destruct (Req_dec S 0) as [->|NZ]; [rewrite Ropp_0, below_meridian; ring|].
  rewrite !below_rate by (assumption || lra). rewrite (RInt_ext _ (fun s => opp (rate a b S C s))).
  - apply (RInt_opp (V := R_CompleteNormedModule) (rate a b S C)). apply ex_rate; assumption.
  - intros s _. unfold rate. change (- S * (Gu a b (C * sin s) * gu a b (C * sin s) / (1 - (C * sin s) ^ 2)) = - (S * (Gu a b (C * sin s) * gu a b (C * sin s) / (1 - (C * sin s) ^ 2)))). ring.
Qed.
Lemma rate_north : forall a b S C s, 0 < b -> b < a -> rate a b S (- C) s = - rate a b S C s.
Proof.
  intros a b S C s HB HA. unfold rate. replace (- C * sin s) with (- (C * sin s)) by ring. rewrite (G_odd a b HB HA), (g_even a b).
  replace ((- (C * sin s)) ^ 2) with ((C * sin s) ^ 2) by ring. unfold Rdiv. ring.
Qed.
Lemma below_north : forall a b S C s1 s2, 0 < b -> b < a -> S ^ 2 + C ^ 2 = 1 -> area_below a b S (- C) s1 s2 = - area_below a b S C s1 s2.
Proof.
  intros a b S C s1 s2 HB HA N. destruct (Req_dec S 0) as [->|NZ]; [rewrite !below_meridian; ring|].
  rewrite !below_rate by (assumption || lra). rewrite (RInt_ext _ (fun s => opp (rate a b S C s))).
  - apply (RInt_opp (V := R_CompleteNormedModule) (rate a b S C)). apply ex_rate; assumption.
  - intros s _. apply rate_north; assumption.
Qed.
Lemma below_back : forall a b S C s1 s2, 0 < b -> b < a -> S ^ 2 + C ^ 2 = 1 -> area_below a b (- S) (- C) (- s2) (- s1) = - area_below a b S C s1 s2.
Proof.
  intros a b S C s1 s2 HB HA N. destruct (Req_dec S 0) as [->|NZ]; [rewrite Ropp_0, !below_meridian; ring|].
  rewrite !below_rate by (assumption || lra).
  replace (- s2) with (-1 * s2 + 0) by ring. replace (- s1) with (-1 * s1 + 0) by ring.
  rewrite <- (RInt_comp_lin (rate a b (- S) (- C)) (-1) 0 s2 s1) by (apply ex_rate; assumption || lra).
  rewrite (RInt_ext _ (rate a b S C)).
  - rewrite <- (opp_RInt_swap (V := R_CompleteNormedModule) (rate a b S C)) by (apply ex_rate; assumption). reflexivity.
  - intros s _. unfold rate. replace (- C * sin (-1 * s + 0)) with (C * sin s) by (replace (-1 * s + 0) with (- s) by ring; rewrite sin_neg; ring).
    change (-1 * (- S * (Gu a b (C * sin s) * gu a b (C * sin s) / (1 - (C * sin s) ^ 2))) = S * (Gu a b (C * sin s) * gu a b (C * sin s) / (1 - (C * sin s) ^ 2))). ring.
Qed.
Lemma over_turn : forall a b t l1 p1 l2 p2 A, geodesic_over a b l1 p1 l2 p2 A -> geodesic_over a b (l1 + t) p1 (l2 + t) p2 A.
Proof.
  intros a b t l1 p1 l2 p2 A (S & C & s1 & s2 & o1 & o2 & b1 & b2 & a1 & a2 & H). exists S, C, s1, s2, o1, o2, b1, b2, a1, a2.
  replace (l2 + t - (l1 + t)) with (l2 - l1) by ring. exact H.
Qed.
Lemma over_congr : forall a b l1 p1 l2 p2 A l2', congr l2 l2' -> geodesic_over a b l1 p1 l2 p2 A -> geodesic_over a b l1 p1 l2' p2 A.
Proof.
  intros a b l1 p1 l2 p2 A l2' H2 (S & C & s1 & s2 & o1 & o2 & b1 & b2 & a1 & a2 & N & R1 & R2 & O1 & O2 & T & L & AE).
  exists S, C, s1, s2, o1, o2, b1, b2, a1, a2. do 6 (split; [assumption|]). split; [|exact AE]. destruct L as [k K]. destruct H2 as [m M]. exists (k - m)%Z. rewrite minus_IZR. lra.
Qed.
Lemma over_east : forall a b l1 p1 l2 p2 A, 0 < b -> b < a -> geodesic_over a b l1 p1 l2 p2 A -> geodesic_over a b (- l1) p1 (- l2) p2 (- A).
Proof.
  intros a b l1 p1 l2 p2 A PB HA (S & C & s1 & s2 & o1 & o2 & b1 & b2 & a1 & a2 & N & R1 & R2 & O1 & O2 & T & L & AE).
  exists (- S), C, s1, s2, (- o1), (- o2), b1, b2, (- a1), (- a2). split; [lra|]. split; [assumption|]. split; [assumption|].
  assert (K : forall s o be al, on_circle S C s o be al -> on_circle (- S) C s (- o) be (- al)).
  { intros s o be al (B1 & B2 & E & F & G). unfold on_circle. rewrite !sin_neg, !cos_neg. repeat split; lra. }
  split; [apply K; assumption|]. split; [apply K; assumption|]. split; [assumption|]. split; [|rewrite below_east, AE by assumption; reflexivity].
  rewrite RInt_lag_opp by (try lra; eapply one_bound; eassumption). destruct L as [k E]. exists (- k)%Z. rewrite opp_IZR. lra.
Qed.
Lemma over_north : forall a b l1 p1 l2 p2 A, 0 < b -> b < a -> geodesic_over a b l1 p1 l2 p2 A -> geodesic_over a b l1 (- p1) l2 (- p2) (- A).
Proof.
  intros a b l1 p1 l2 p2 A HB HA (S & C & s1 & s2 & o1 & o2 & b1 & b2 & a1 & a2 & N & R1 & R2 & O1 & O2 & T & L & AE).
  exists S, (- C), s1, s2, o1, o2, (- b1), (- b2), (PI - a1), (PI - a2). split; [lra|]. split; [apply reduced_neg; assumption|]. split; [apply reduced_neg; assumption|].
  assert (K : forall s o be al, on_circle S C s o be al -> on_circle S (- C) s o (- be) (PI - al)).
  { intros s o be al (B1 & B2 & E & F & G). unfold on_circle. rewrite sin_neg, cos_neg, sin_minus, cos_minus, sin_PI, cos_PI. repeat split; lra. }
  split; [apply K; assumption|]. split; [apply K; assumption|]. split; [assumption|]. split; [|rewrite below_north, AE by assumption; reflexivity].
  rewrite (RInt_ext _ (lag a b S C)) by (intros; apply lag_neg). exact L.
Qed.
Lemma over_back : forall a b l1 p1 l2 p2 A, 0 < b -> b < a -> geodesic_over a b l1 p1 l2 p2 A -> geodesic_over a b l2 p2 l1 p1 (- A).
Proof.
  intros a b l1 p1 l2 p2 A HB HA (S & C & s1 & s2 & o1 & o2 & b1 & b2 & a1 & a2 & N & R1 & R2 & O1 & O2 & T & L & AE).
  assert (HC : C ^ 2 <= 1) by (eapply one_bound; eassumption).
  exists (- S), (- C), (- s2), (- s1), o2, o1, b2, b1, (a2 + PI), (a1 + PI). split; [lra|]. split; [assumption|]. split; [assumption|].
  assert (K : forall s o be al, on_circle S C s o be al -> on_circle (- S) (- C) (- s) o be (al + PI)).
  { intros s o be al (B1 & B2 & E & F & G). unfold on_circle. rewrite sin_neg, cos_neg, sin_plus, cos_plus, sin_PI, cos_PI. repeat split; lra. }
  split; [apply K; assumption|]. split; [apply K; assumption|]. split; [lra|]. split; [|rewrite below_back, AE by assumption; reflexivity].
  rewrite (RInt_ext _ (lag a b (- S) C)) by (intros; apply lag_neg). rewrite RInt_lag_opp by (assumption || lra).
  rewrite (RInt_even (lag a b S C)); [|intros; apply lag_continuous; assumption || lra|intros; apply lag_even].
  destruct L as [k E]. exists (- k)%Z. rewrite opp_IZR. lra.
Qed.
Lemma over_swap : forall a b l p1 p2 A, 0 < b -> b < a -> geodesic_over a b 0 p1 l p2 A -> geodesic_over a b 0 p2 l p1 A.
Proof.
  intros a b l p1 p2 A HB HA H. apply over_back in H; [|assumption|assumption]. apply over_east in H; [|assumption|assumption].
  apply (over_turn _ _ l) in H. replace (- l + l) with 0 in H by ring. replace (- 0 + l) with l in H by ring. rewrite Ropp_involutive in H. exact H.
Qed.

(* ---- the series *)
(** The coefficients as published: 80/9009 where the code has 90/9009. *)
Definition C4p (ep2 k2 : R) : list R := match C4 ep2 k2 with c :: l => (c + 10 * ep2 ^ 3 / 9009 * k2 ^ 2) :: l | [] => [] end.
Fixpoint dcosines (i : nat) (cs : list R) (s : R) : R :=
  match cs with [] => 0 | c :: cs' => - (c * ((2 * INR i + 1) * sin ((2 * INR i + 1) * s))) + dcosines (S i) cs' s end.
Lemma cosines_derive : forall cs i s, is_derive (cosines i cs) s (dcosines i cs s).
Proof.
  induction cs as [|c cs IH]; intros i s; cbn [cosines dcosines]; [apply d_const|].
  apply d_plus; [|apply IH]. auto_derive; [exact Logic.I|ring].
Qed.
Lemma odd_sin : forall k s, sin ((2 * INR k + 1) * s) = sin s * chebr (2 * k + 1) 0 1 (cos s).
Proof. intros k s. rewrite <- sin_mult. f_equal. rewrite plus_INR, mult_INR. cbn [INR]. ring. Qed.
Lemma C4p_derive : forall ep k2 s, dcosines 0 (C4p ep k2) s = - (1 / 2 * (sin s * Dq ep (k2 * sin s ^ 2))).
Proof.
  intros ep k2 s. unfold C4p, C4. cbn [dcosines]. rewrite !odd_sin. cbn [Nat.mul Nat.add chebr INR]. set (c := cos s).
  pose proof (sc s) as X. replace (sin s ^ 2) with (1 - c * c) by (unfold c; rewrite sq2; lra). unfold Dq. field.
Qed.
Lemma C4p_value : forall ep k2 s, cosines 0 (C4p ep k2) s = cosines 0 (C4 ep k2) s + 10 / 9009 * ep ^ 3 * k2 ^ 2 * cos s.
Proof. intros. unfold C4p, C4. cbn [cosines INR]. replace ((2 * 0 + 1) * s) with s by ring. field. Qed.
Definition turn (S C s : R) : R := - atan (C * cos s / S).
Lemma turn_derive : forall S C s, 0 < S -> S ^ 2 + C ^ 2 = 1 -> is_derive (turn S C) s (S * (C * sin s / (1 - (C * sin s) ^ 2))).
Proof.
  intros S C s HS N. unfold turn. destruct (u_range S C s ltac:(lra) N) as [U _].
  assert (E : S ^ 2 * (1 + (C * cos s / S) ^ 2) = 1 - (C * sin s) ^ 2).
  { pose proof (sc s) as X. transitivity (S ^ 2 + C ^ 2 * (cos s * cos s)); [field; lra|]. replace (cos s * cos s) with (1 - sin s * sin s) by lra.
    replace (S ^ 2) with (1 - C ^ 2) by lra. ring. }
  apply (is_derive_ext (fun s => -1 * atan (C * cos s / S))); [intros; inR; ring|].
  eapply d_eq; [apply d_scal, (d_comp atan (fun s => C * cos s / S)); [apply is_derive_atan|]|].
  - apply (is_derive_ext (fun s => C / S * cos s)); [intros; inR; field; lra|]. apply d_scal, is_derive_cos.
  - inR. cbv beta. replace (1 + (C * cos s / S)²) with ((1 - (C * sin s) ^ 2) / S ^ 2) by (rewrite <- E; unfold Rsqr; field; lra). field. lra.
Qed.
(** The sum that the code forms, with the published coefficient, against the integral. *)
Definition area_sum (a b S C s : R) : R := a * Gu a b 1 * turn S C s
  + (a ^ 2 - b ^ 2) * C * S * cosines 0 (C4p ((a ^ 2 - b ^ 2) / b ^ 2) ((a ^ 2 - b ^ 2) / b ^ 2 * C ^ 2)) s.
Lemma area_series : forall a b S C s1 s2, 0 < b -> b < a -> 0 < S -> S ^ 2 + C ^ 2 = 1 ->
  Rabs (area_sum a b S C s2 - area_sum a b S C s1 - area_below a b S C s1 s2) <= 128 / 3003 * b ^ 2 * ((a ^ 2 - b ^ 2) / b ^ 2) ^ 7 * Rabs (s2 - s1).
Proof.
  intros a b S C s1 s2 HB HA HS N. rewrite (below_rate a b S C s1 s2 HB HA ltac:(lra) N). set (ep := (a ^ 2 - b ^ 2) / b ^ 2).
  apply (integral_error (area_sum a b S C) (fun s => S * (a * Gu a b 1 * (C * sin s / (1 - (C * sin s) ^ 2)) - 1 / 2 * (a ^ 2 - b ^ 2) * (C * sin s) * Dq ep (ep * (C * sin s) ^ 2)))).
  - intros s. unfold area_sum. eapply d_eq; [apply d_plus; apply d_scal; [apply turn_derive; assumption|apply cosines_derive]|]. inR.
    rewrite C4p_derive. fold ep. replace (ep * C ^ 2 * sin s ^ 2) with (ep * (C * sin s) ^ 2) by ring. field. destruct (u_range S C s ltac:(lra) N). lra.
  - intros s. apply rate_continuous; try assumption; lra.
  - intros s. destruct (u_range S C s ltac:(lra) N) as [_ U]. unfold rate. set (u := C * sin s) in *. rewrite <- Rmult_minus_distr_l, Rabs_mult, Rabs_minus_sym.
    pose proof (area_point a b HB HA u U) as P. fold ep in P. rewrite (Rabs_right S) by lra.
    apply Rle_trans with (S * (256 / 3003 * b ^ 2 * ep ^ 7 * Rabs u)); [apply Rmult_le_compat_l; [lra|exact P]|].
    assert (K : 0 <= 256 / 3003 * b ^ 2 * ep ^ 7).
    { pose proof (ep_pos a b HB HA) as EP. fold ep in EP. pose proof (b2_pos b HB). pose proof (pow_lt ep 7 EP). apply Rmult_le_pos; [|lra]. lra. }
    assert (SU : S * Rabs u <= 1 / 2).
    { unfold u. rewrite Rabs_mult. assert (Rabs (sin s) <= 1) by (apply Rabs_le; pose proof (SIN_bound s); lra). pose proof (Rabs_pos C) as C0. pose proof (Rabs_pos (sin s)).
      assert (Rabs C ^ 2 = C ^ 2) by apply pow2_abs. set (c := Rabs C) in *. assert (c * Rabs (sin s) <= c) by (rewrite <- (Rmult_1_r c) at 2; apply Rmult_le_compat_l; lra).
      assert (S * (c * Rabs (sin s)) <= S * c) by (apply Rmult_le_compat_l; lra). pose proof (pow2_ge_0 (S - c)). nra. }
    replace (S * (256 / 3003 * b ^ 2 * ep ^ 7 * Rabs u)) with (256 / 3003 * b ^ 2 * ep ^ 7 * (S * Rabs u)) by ring.
    replace (128 / 3003 * b ^ 2 * ep ^ 7) with (256 / 3003 * b ^ 2 * ep ^ 7 * (1 / 2)) by field. apply Rmult_le_compat_l; assumption.
Qed.

(* ---- the difference of the azimuths *)
Lemma half_tan : forall t, 0 < 1 + cos t -> tan (t / 2) = sin t / (1 + cos t).
Proof.
  intros t H. set (h := t / 2). replace t with (2 * h) in * by (unfold h; field). rewrite sin_2a, cos_2a_cos in *.
  assert (cos h <> 0) by (intros Z; rewrite Z in H; lra). unfold tan. field. split; nra.
Qed.
Lemma turn_spec : forall S C s be, 0 < S -> S ^ 2 + C ^ 2 = 1 -> 0 < cos be -> sin be = C * sin s ->
  - (PI / 2) < turn S C s < PI / 2 /\ cos be * cos (turn S C s) = S /\ cos be * sin (turn S C s) = - (C * cos s).
Proof.
  intros S C s be HS N PB E. unfold turn. set (t := C * cos s / S). pose proof (atan_range t) as B. rewrite cos_neg, sin_neg.
  assert (PC : 0 < cos (atan t)) by (apply cos_gt_0; lra). pose proof (tan_atan t) as T. unfold tan in T. pose proof (sc (atan t)) as X.
  set (c := cos (atan t)) in *. set (z := sin (atan t)) in *. assert (ZE : S * z = C * cos s * c).
  { assert (Z : z = t * c) by (rewrite <- T; field; lra). rewrite Z. unfold t. field. lra. }
  split; [lra|]. assert (CE : cos be * c = S).
  { apply Rsqr_inj; [apply Rmult_le_pos; lra|lra|]. unfold Rsqr. pose proof (sc be) as Y. pose proof (sc s) as W. rewrite E in Y. rewrite !sq2 in N.
    replace (cos be * c * (cos be * c)) with ((cos be * cos be) * (c * c)) by ring. replace (cos be * cos be) with (S * S + C * cos s * (C * cos s)) by nra.
    replace ((S * S + C * cos s * (C * cos s)) * (c * c)) with (S * S * (c * c) + C * cos s * c * (C * cos s * c)) by ring. rewrite <- ZE. nra. }
  split; [exact CE|]. apply Rmult_eq_reg_l with S; [|lra]. replace (S * (cos be * - z)) with (- (cos be * (S * z))) by ring. rewrite ZE, <- CE. ring.
Qed.
Lemma bessel : forall S C s1 s2 o1 o2 be1 be2, 0 < S -> S ^ 2 + C ^ 2 = 1 -> - (PI / 2) < be1 < PI / 2 -> - (PI / 2) < be2 < PI / 2 ->
  cos be1 * cos o1 = cos s1 -> cos be1 * sin o1 = S * sin s1 -> sin be1 = C * sin s1 ->
  cos be2 * cos o2 = cos s2 -> cos be2 * sin o2 = S * sin s2 -> sin be2 = C * sin s2 -> s1 <= s2 < s1 + PI ->
  2 * atan (sin (5 / 10 * be1 + 5 / 10 * be2) / cos (5 / 10 * be2 - 5 / 10 * be1) * tan (5 / 10 * (o2 - o1))) = turn S C s2 - turn S C s1.
Proof.
  intros S C s1 s2 o1 o2 be1 be2 HS N B1 B2 A1 A2 A3 D1 D2 D3 R12. pose proof PI_RGT_0 as P0.
  assert (P1 : 0 < cos be1) by (apply cos_gt_0; lra). assert (P2 : 0 < cos be2) by (apply cos_gt_0; lra).
  destruct (turn_spec S C s1 be1 HS N P1 A3) as (T1 & U1 & V1). destruct (turn_spec S C s2 be2 HS N P2 D3) as (T2 & U2 & V2).
  set (t1 := turn S C s1) in *. set (t2 := turn S C s2) in *. set (p := cos be1 * cos be2). assert (PP : 0 < p) by (apply Rmult_lt_0_compat; assumption).
  pose proof (sc s1) as W1. pose proof (sc s2) as W2. pose proof (sc be1) as Y1. pose proof (sc be2) as Y2. rewrite A3 in Y1. rewrite D3 in Y2. rewrite !sq2 in N.
  assert (E1 : sin (5 / 10 * be1 + 5 / 10 * be2) / cos (5 / 10 * be2 - 5 / 10 * be1) = C * (sin s1 + sin s2) / (1 + p + C * sin s1 * (C * sin s2))).
  { set (m := 5 / 10 * be1 + 5 / 10 * be2). set (d := 5 / 10 * be2 - 5 / 10 * be1). assert (PD : 0 < cos d) by (apply cos_gt_0; unfold d; lra).
    assert (X1 : 2 * sin m * cos d = C * (sin s1 + sin s2)).
    { replace (C * (sin s1 + sin s2)) with (sin be1 + sin be2) by (rewrite A3, D3; ring). replace be1 with (m - d) by (unfold m, d; field).
      replace be2 with (m + d) by (unfold m, d; field). rewrite sin_minus, sin_plus. ring. }
    assert (X2 : 2 * (cos d * cos d) = 1 + p + C * sin s1 * (C * sin s2)).
    { rewrite <- A3, <- D3. unfold p. replace (1 + cos be1 * cos be2 + sin be1 * sin be2) with (1 + cos (be2 - be1)) by (rewrite cos_minus; ring).
      replace (be2 - be1) with (2 * d) by (unfold d; field). rewrite cos_2a_cos. ring. }
    rewrite <- X1, <- X2. field. lra. }
  assert (SO : p * sin (o2 - o1) = S * (sin s2 * cos s1 - cos s2 * sin s1)).
  { rewrite sin_minus. unfold p. transitivity (cos be2 * sin o2 * (cos be1 * cos o1) - cos be2 * cos o2 * (cos be1 * sin o1)); [ring|]. rewrite A1, A2, D1, D2. ring. }
  assert (CO : p * cos (o2 - o1) = cos s2 * cos s1 + S * sin s2 * (S * sin s1)).
  { rewrite cos_minus. unfold p. transitivity (cos be2 * cos o2 * (cos be1 * cos o1) + cos be2 * sin o2 * (cos be1 * sin o1)); [ring|]. rewrite A1, A2, D1, D2. ring. }
  assert (PO : 0 < 1 + cos (o2 - o1)).
  { pose proof (COS_bound (o2 - o1)) as CB. destruct (Req_dec s1 s2) as [EQ|NE].
    - rewrite <- EQ in CO, SO. replace (cos s1 * cos s1 + S * sin s1 * (S * sin s1)) with (cos be1 * cos be1) in CO by nra.
      assert (0 <= cos be1 * cos be1) by nra. assert (0 < p * cos (o2 - o1)) by (rewrite CO; apply Rmult_lt_0_compat; assumption). nra.
    - assert (SD : 0 < sin (s2 - s1)) by (apply sin_gt_0; lra). rewrite sin_minus in SD. assert (0 < p * sin (o2 - o1)) by (rewrite SO; apply Rmult_lt_0_compat; lra).
      pose proof (sc (o2 - o1)) as Z. assert (0 < sin (o2 - o1)) by nra. apply Rnot_le_lt. intros L. assert (cos (o2 - o1) = -1) by lra. nra. }
  assert (E2 : tan (5 / 10 * (o2 - o1)) = S * (sin s2 * cos s1 - cos s2 * sin s1) / (p + (cos s2 * cos s1 + S * sin s2 * (S * sin s1)))).
  { replace (5 / 10 * (o2 - o1)) with ((o2 - o1) / 2) by field. rewrite half_tan by exact PO. rewrite <- SO, <- CO. field. split; [nra|lra]. }
  assert (ST : p * sin (t2 - t1) = S * C * (cos s1 - cos s2)).
  { rewrite sin_minus. unfold p. transitivity (cos be2 * sin t2 * (cos be1 * cos t1) - cos be2 * cos t2 * (cos be1 * sin t1)); [ring|]. rewrite U1, U2, V1, V2. ring. }
  assert (CT : p * cos (t2 - t1) = S * S + C * cos s2 * (C * cos s1)).
  { rewrite cos_minus. unfold p. transitivity (cos be2 * cos t2 * (cos be1 * cos t1) + cos be2 * sin t2 * (cos be1 * sin t1)); [ring|]. rewrite U1, U2, V1, V2. ring. }
  assert (PT : 0 < 1 + cos (t2 - t1)).
  { replace (t2 - t1) with (2 * ((t2 - t1) / 2)) by field. rewrite cos_2a_cos. assert (0 < cos ((t2 - t1) / 2)) by (apply cos_gt_0; lra). nra. }
  assert (E3 : tan ((t2 - t1) / 2) = S * C * (cos s1 - cos s2) / (p + (S * S + C * cos s2 * (C * cos s1)))).
  { rewrite half_tan by exact PT. rewrite <- ST, <- CT. field. split; [nra|lra]. }
  assert (K1 : 0 < 1 + p + C * sin s1 * (C * sin s2)).
  { rewrite <- A3, <- D3. unfold p. replace (1 + cos be1 * cos be2 + sin be1 * sin be2) with (1 + cos (2 * ((be2 - be1) / 2))) by (replace (2 * ((be2 - be1) / 2)) with (be2 - be1) by field; rewrite cos_minus; ring).
    rewrite cos_2a_cos. assert (0 < cos ((be2 - be1) / 2)) by (apply cos_gt_0; lra). nra. }
  assert (K2 : 0 < p + (cos s2 * cos s1 + S * sin s2 * (S * sin s1))) by (rewrite <- CO; nra).
  assert (K3 : 0 < p + (S * S + C * cos s2 * (C * cos s1))) by (rewrite <- CT; nra).
  rewrite E1, E2. match goal with |- 2 * atan ?v = _ => replace v with (tan ((t2 - t1) / 2)) end; [rewrite atan_tan by lra; field|].
  rewrite E3. apply Rmult_eq_reg_r with ((p + (S * S + C * cos s2 * (C * cos s1))) * ((1 + p + C * sin s1 * (C * sin s2)) * (p + (cos s2 * cos s1 + S * sin s2 * (S * sin s1)))));
    [|apply Rgt_not_eq; repeat apply Rmult_lt_0_compat; assumption].
  transitivity (S * C * ((cos s1 - cos s2) * (1 + p + C * sin s1 * (C * sin s2)) * (p + (cos s2 * cos s1 + S * sin s2 * (S * sin s1))))); [field; lra|].
  transitivity (S * C * ((sin s1 + sin s2) * (sin s2 * cos s1 - cos s2 * sin s1) * (p + (S * S + C * cos s2 * (C * cos s1))))); [|field; lra].
  f_equal. unfold p. assert (H1 : cos be1 * cos be1 = 1 - C * sin s1 * (C * sin s1)) by lra. assert (H2 : cos be2 * cos be2 = 1 - C * sin s2 * (C * sin s2)) by lra.
  assert (H3 : cos s1 * cos s1 = 1 - sin s1 * sin s1) by lra. assert (H4 : cos s2 * cos s2 = 1 - sin s2 * sin s2) by lra. assert (H5 : S * S = 1 - C * C) by lra.
  ring [H1 H2 H3 H4 H5].
Qed.
