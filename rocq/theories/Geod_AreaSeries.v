(** The series of the area on the ellipsoid against the integral it stands for. *)
From Coq Require Import List ZArith Reals Lra Lia Bool.
From Coquelicot Require Import Coquelicot.
From Verif Require Import Sphere_Proofs Geod_Model Geod_Spec Geod_Poly Geod_Forward Geod_Series Geod_Bounds Geod_AreaSpec.
Import ListNotations.
Open Scope R_scope.

(** Derivatives of real functions. *)
Lemma d_plus : forall (f g : R -> R) x df dg, is_derive f x df -> is_derive g x dg -> is_derive (fun t => f t + g t) x (df + dg).
Proof. intros. apply (is_derive_plus (K := R_AbsRing) (V := R_NormedModule)); assumption. Qed.
Lemma d_minus : forall (f g : R -> R) x df dg, is_derive f x df -> is_derive g x dg -> is_derive (fun t => f t - g t) x (df - dg).
Proof. intros. apply (is_derive_minus (K := R_AbsRing) (V := R_NormedModule)); assumption. Qed.
Lemma d_mult : forall (f g : R -> R) x df dg, is_derive f x df -> is_derive g x dg -> is_derive (fun t => f t * g t) x (df * g x + f x * dg).
Proof. intros. apply (is_derive_mult f g); auto. intros. apply Rmult_comm. Qed.
Lemma d_div : forall (f g : R -> R) x df dg, is_derive f x df -> is_derive g x dg -> g x <> 0 -> is_derive (fun t => f t / g t) x ((df * g x - f x * dg) / g x ^ 2).
Proof. intros. evar_last; [apply (is_derive_div f g); eassumption|]. field. assumption. Qed.
Lemma d_scal : forall (f : R -> R) k x df, is_derive f x df -> is_derive (fun t => k * f t) x (k * df).
Proof. intros. apply is_derive_scal. assumption. Qed.
Lemma d_id : forall x, is_derive (fun t : R => t) x 1.
Proof. intros. apply (is_derive_id (K := R_AbsRing)). Qed.
Lemma d_const : forall c x, is_derive (fun _ : R => c) x 0.
Proof. intros. apply (is_derive_const (K := R_AbsRing) (V := R_NormedModule)). Qed.
Lemma d_comp : forall (f g : R -> R) x df dg, is_derive f (g x) df -> is_derive g x dg -> is_derive (fun t => f (g t)) x (dg * df).
Proof. intros. apply (is_derive_comp f g); assumption. Qed.
Lemma d_eq : forall (f : R -> R) x d e, is_derive f x d -> d = e -> is_derive f x e.
Proof. intros. subst. assumption. Qed.
Ltac inR := match goal with |- ?x = ?y => change (@eq R x y) end.

(** A function whose derivative is bounded by another one. *)
Lemma derive_bound : forall (F dF H dH : R -> R) x y, x <= y -> (forall t, x <= t <= y -> is_derive F t (dF t)) ->
  (forall t, x <= t <= y -> is_derive H t (dH t)) -> (forall t, x <= t <= y -> Rabs (dF t) <= dH t) -> Rabs (F y - F x) <= H y - H x.
Proof.
  intros F dF H dH x y L HF HH B. destruct (Req_dec x y) as [->|NE]; [rewrite !Rminus_diag_eq, Rabs_R0 by reflexivity; lra|].
  assert (G : forall k, k = 1 \/ k = -1 -> 0 <= H y - H x + k * (F y - F x)).
  { intros k HK. destruct (MVT_gen (fun t => H t + k * F t) x y (fun t => dH t + k * dF t)) as (c & Rc & E).
    - intros t Rt. rewrite Rmin_left, Rmax_right in Rt by lra.
      apply (is_derive_plus (K := R_AbsRing) (V := R_NormedModule)); [apply HH; lra|apply is_derive_scal, HF; lra].
    - intros t Rt. rewrite Rmin_left, Rmax_right in Rt by lra. apply continuity_pt_filterlim.
      apply (ex_derive_continuous (K := R_AbsRing) (V := R_NormedModule) (fun t => H t + k * F t)). eexists.
      apply (is_derive_plus (K := R_AbsRing) (V := R_NormedModule)); [apply HH; lra|apply is_derive_scal, HF; lra].
    - cbv beta in E. rewrite Rmin_left, Rmax_right in Rc by lra. replace (H y - H x + k * (F y - F x)) with (H y + k * F y - (H x + k * F x)) by ring.
      rewrite E. apply Rmult_le_pos; [|lra]. specialize (B c Rc). apply Rabs_le_between in B. destruct HK as [-> | ->]; lra. }
  pose proof (G 1 ltac:(auto)). pose proof (G (-1) ltac:(auto)). apply Rabs_le. lra.
Qed.

Section Area.
Variables a b : R.
Hypothesis HB : 0 < b.
Hypothesis HA : b < a.
Let ep := (a ^ 2 - b ^ 2) / b ^ 2.
Definition gu (u : R) : R := sqrt (b ^ 2 + (a ^ 2 - b ^ 2) * u ^ 2).
Let g := gu.
Lemma q_pos : 0 < a ^ 2 - b ^ 2. Proof. replace (a ^ 2 - b ^ 2) with ((a - b) * (a + b)) by ring. apply Rmult_lt_0_compat; lra. Qed.
Lemma in_pos : forall u, b ^ 2 <= b ^ 2 + (a ^ 2 - b ^ 2) * u ^ 2.
Proof. intros u. pose proof q_pos. pose proof (pow2_ge_0 u). pose proof (Rmult_le_pos (a ^ 2 - b ^ 2) (u ^ 2)). lra. Qed.
Lemma b2_pos : 0 < b ^ 2. Proof. apply pow_lt, HB. Qed.
Lemma g_ge : forall u, b <= g u.
Proof. intros u. unfold g, gu. rewrite <- (sqrt_pow2 b) at 1 by lra. apply sqrt_le_1_alt, in_pos. Qed.
Lemma g_sq : forall u, g u ^ 2 = b ^ 2 + (a ^ 2 - b ^ 2) * u ^ 2.
Proof. intros u. unfold g, gu. apply pow2_sqrt. pose proof (in_pos u). pose proof b2_pos. lra. Qed.
Lemma g_one : g 1 = a.
Proof. unfold g, gu. replace (b ^ 2 + (a ^ 2 - b ^ 2) * 1 ^ 2) with (a ^ 2) by ring. apply sqrt_pow2. lra. Qed.
Lemma g_derive : forall u, is_derive g u ((a ^ 2 - b ^ 2) * u / g u).
Proof.
  intros u. pose proof (in_pos u). pose proof b2_pos. pose proof (g_ge u) as G. unfold g, gu in *.
  evar_last; [apply (is_derive_sqrt (fun u => b ^ 2 + (a ^ 2 - b ^ 2) * u ^ 2) u (2 * (a ^ 2 - b ^ 2) * u)); [auto_derive; [exact Logic.I|ring]|lra]|].
  field. lra.
Qed.
Lemma g_cont : forall u, continuous g u.
Proof. intros u. apply (ex_derive_continuous (K := R_AbsRing) (V := R_NormedModule)). eexists. apply g_derive. Qed.
Definition Gu (u : R) : R := RInt g 0 u.
Definition Ku (u : R) : R := RInt (fun t => / g t) 0 u.
Lemma inv_cont : forall u, continuous (fun t => / g t) u.
Proof.
  intros u. apply (ex_derive_continuous (K := R_AbsRing) (V := R_NormedModule)). eexists. apply is_derive_inv; [apply g_derive|]. pose proof (g_ge u). lra.
Qed.
Lemma int_derive : forall (h : R -> R) u, (forall t, continuous h t) -> is_derive (fun v => RInt h 0 v) u (h u).
Proof.
  intros h u H. apply (is_derive_RInt h (fun v => RInt h 0 v) 0 u); [|apply H].
  apply filter_forall. intros y. apply (RInt_correct h). apply (ex_RInt_continuous (V := R_CompleteNormedModule)). intros; apply H.
Qed.
Lemma G_derive : forall u, is_derive Gu u (g u). Proof. intros u. apply int_derive, g_cont. Qed.
Lemma K_derive : forall u, is_derive Ku u (/ g u). Proof. intros u. apply (int_derive (fun t => / g t)), inv_cont. Qed.
Lemma K_zero : Ku 0 = 0. Proof. unfold Ku. rewrite RInt_point. reflexivity. Qed.
Lemma same_derive : forall (F H d : R -> R), (forall t, is_derive F t (d t)) -> (forall t, is_derive H t (d t)) -> F 0 = H 0 -> forall u, F u = H u.
Proof.
  intros F H d HF HH Z u. destruct (MVT_gen (fun t => F t - H t) 0 u (fun t => d t - d t)) as (c & _ & E).
  - intros t _. apply (is_derive_minus (K := R_AbsRing) (V := R_NormedModule)); auto.
  - intros t _. apply continuity_pt_filterlim. apply (ex_derive_continuous (K := R_AbsRing) (V := R_NormedModule) (fun t => F t - H t)). eexists.
    apply (is_derive_minus (K := R_AbsRing) (V := R_NormedModule)); auto.
  - cbv beta in E. rewrite Z in E. lra.
Qed.
Lemma G_closed : forall u, Gu u = 1 / 2 * (u * g u + b ^ 2 * Ku u).
Proof.
  apply (same_derive Gu (fun u => 1 / 2 * (u * g u + b ^ 2 * Ku u)) g); [apply G_derive| |].
  - intros u. pose proof (g_ge u) as G. pose proof (g_sq u) as GS.
    apply (d_eq _ _ _ _ (d_scal _ (1 / 2) _ _ (d_plus _ _ _ _ _ (d_mult _ _ _ _ _ (d_id u) (g_derive u)) (d_scal _ (b ^ 2) _ _ (K_derive u))))).
    inR. cbv beta. apply Rmult_eq_reg_r with (g u); [|lra].
    transitivity (1 / 2 * (g u ^ 2 + (b ^ 2 + (a ^ 2 - b ^ 2) * u ^ 2))); [field; lra|]. rewrite <- GS. field.
  - unfold Gu. rewrite RInt_point, K_zero. change zero with 0. ring.
Qed.
(** The logarithm in the code. *)
Lemma K_one : Ku 1 = atanh (sqrt (a ^ 2 - b ^ 2) / a) / sqrt (a ^ 2 - b ^ 2).
Proof.
  pose proof q_pos as Q0. set (q := sqrt (a ^ 2 - b ^ 2)). assert (QP : 0 < q) by (apply sqrt_lt_R0; exact Q0).
  assert (QQ : q ^ 2 = a ^ 2 - b ^ 2) by (apply pow2_sqrt; lra).
  assert (QU : forall u, 0 < q * u + g u).
  { intros u. pose proof (g_ge u) as G. pose proof (g_sq u) as GS. rewrite <- QQ in GS. pose proof b2_pos as B2.
    destruct (Rle_lt_dec 0 u) as [U|U]; [assert (0 <= q * u) by (apply Rmult_le_pos; lra); lra|].
    apply Rnot_le_lt. intros X. assert (g u * g u <= (q * u) * (q * u)) by nra. nra. }
  assert (KL : forall u, Ku u = (ln (q * u + g u) - ln b) / q).
  { apply (same_derive Ku (fun u => (ln (q * u + g u) - ln b) / q) (fun u => / g u)); [apply K_derive| |].
    - intros u. pose proof (g_ge u) as G. specialize (QU u).
      assert (D : is_derive (fun t => q * t + g t) u (q * 1 + (a ^ 2 - b ^ 2) * u / g u)) by exact (d_plus _ _ _ _ _ (d_scal _ q _ _ (d_id u)) (g_derive u)).
      assert (DL : is_derive (fun t => ln (q * t + g t)) u ((q * 1 + (a ^ 2 - b ^ 2) * u / g u) * / (q * u + g u))).
      { apply (d_comp ln (fun t => q * t + g t)); [apply is_derive_ln; exact QU|exact D]. }
      apply (is_derive_ext (fun t => / q * (ln (q * t + g t) - ln b))); [intros; apply Rmult_comm|].
      apply (d_eq _ _ _ _ (d_scal _ (/ q) _ _ (d_minus _ _ _ _ _ DL (d_const (ln b) u)))). inR. rewrite <- QQ. field. lra.
    - rewrite K_zero, Rmult_0_r, Rplus_0_l. unfold g, gu. replace (b ^ 2 + (a ^ 2 - b ^ 2) * 0 ^ 2) with (b ^ 2) by ring. rewrite sqrt_pow2 by lra. unfold Rdiv. ring. }
  rewrite KL, g_one. unfold atanh. unfold Rdiv at 1 2. f_equal.
  assert (QA : q < a) by (apply Rsqr_incrst_0; [unfold Rsqr; nra|lra|lra]).
  replace ((1 + q / a) / (1 - q / a)) with (((q * 1 + a) / b) * ((q * 1 + a) / b)).
  - rewrite ln_mult by (apply Rdiv_lt_0_compat; lra). unfold Rdiv at 2 3. rewrite ln_mult by (try apply Rinv_0_lt_compat; lra). rewrite ln_Rinv by lra. field.
  - assert (BE : b * b = (a - q) * (a + q)) by (replace ((a - q) * (a + q)) with (a ^ 2 - q ^ 2) by ring; rewrite QQ; ring).
    transitivity ((q * 1 + a) * (q * 1 + a) / (b * b)); [field; lra|]. rewrite BE. field. lra.
Qed.
(** The truncated series of h(x) = sqrt (1 + x) * asinh (sqrt x) / sqrt x. *)
Definition hP (x : R) : R := 1 + x / 3 - 2 / 15 * x ^ 2 + 8 / 105 * x ^ 3 - 16 / 315 * x ^ 4 + 128 / 3465 * x ^ 5 - 256 / 9009 * x ^ 6.
Definition Eu (u : R) : R := Ku u - u * hP (ep * u ^ 2) / g u.
Lemma ep_pos : 0 < ep. Proof. apply Rdiv_lt_0_compat; [apply q_pos|apply b2_pos]. Qed.
Lemma E_derive : forall u, is_derive Eu u (1024 / 3003 * b ^ 2 * (ep * u ^ 2) ^ 7 / g u ^ 3).
Proof.
  intros u. pose proof (g_ge u) as G. pose proof (g_sq u) as GS. pose proof b2_pos as B2.
  assert (D : is_derive (fun t => t * hP (ep * t ^ 2)) u (1 + ep * u ^ 2 - 2 / 3 * (ep * u ^ 2) ^ 2 * 1 + 0 + (hP (ep * u ^ 2) + 2 * (ep * u ^ 2) * (1 / 3 - 4 / 15 * (ep * u ^ 2) + 24 / 105 * (ep * u ^ 2) ^ 2 - 64 / 315 * (ep * u ^ 2) ^ 3 + 640 / 3465 * (ep * u ^ 2) ^ 4 - 1536 / 9009 * (ep * u ^ 2) ^ 5)
     - (1 + ep * u ^ 2 - 2 / 3 * (ep * u ^ 2) ^ 2 * 1 + 0)))).
  { unfold hP. auto_derive; [exact Logic.I|]. field. }
  assert (D2 : is_derive Eu u (/ g u - ((hP (ep * u ^ 2) + 2 * (ep * u ^ 2) * (1 / 3 - 4 / 15 * (ep * u ^ 2) + 24 / 105 * (ep * u ^ 2) ^ 2 - 64 / 315 * (ep * u ^ 2) ^ 3 + 640 / 3465 * (ep * u ^ 2) ^ 4 - 1536 / 9009 * (ep * u ^ 2) ^ 5)) * g u
     - (a ^ 2 - b ^ 2) * u / g u * (u * hP (ep * u ^ 2))) / g u ^ 2)).
  { unfold Eu. apply (d_eq _ _ _ _ (d_minus _ _ _ _ _ (K_derive u) (d_div _ _ _ _ _ D (g_derive u) ltac:(lra)))). inR. field. lra. }
  evar_last; [exact D2|]. set (x := ep * u ^ 2). assert (XE : (a ^ 2 - b ^ 2) * u ^ 2 = b ^ 2 * x) by (unfold x, ep; field; lra).
  rewrite XE in GS. unfold hP. apply Rmult_eq_reg_r with (g u ^ 3); [|apply pow_nonzero; lra].
  match goal with |- ?l * g u ^ 3 = ?r * g u ^ 3 => replace (r * g u ^ 3) with (1024 / 3003 * b ^ 2 * x ^ 7) by (field; lra) end.
  set (P := 1 + x / 3 - 2 / 15 * x ^ 2 + 8 / 105 * x ^ 3 - 16 / 315 * x ^ 4 + 128 / 3465 * x ^ 5 - 256 / 9009 * x ^ 6).
  set (dP := 1 / 3 - 4 / 15 * x + 24 / 105 * x ^ 2 - 64 / 315 * x ^ 3 + 640 / 3465 * x ^ 4 - 1536 / 9009 * x ^ 5).
  transitivity (g u ^ 2 - (P + 2 * x * dP) * g u ^ 2 + (a ^ 2 - b ^ 2) * u ^ 2 * P); [field; lra|]. rewrite XE, GS. unfold P, dP. field.
Qed.
Lemma E_zero : Eu 0 = 0. Proof. unfold Eu. rewrite K_zero. unfold Rdiv. ring. Qed.
Lemma E_range : forall u, 0 <= u -> 0 <= Eu u <= 1024 / 3003 * ep ^ 7 * u ^ 15 / (15 * b).
Proof.
  intros u U. pose proof ep_pos as EP. assert (E7 : 0 < ep ^ 7) by (apply pow_lt; exact EP).
  assert (DP : forall t, 0 <= 1024 / 3003 * b ^ 2 * (ep * t ^ 2) ^ 7 / g t ^ 3 <= 1024 / 3003 * ep ^ 7 * t ^ 14 / b).
  { intros t. pose proof (g_ge t) as G. rewrite Rpow_mult_distr, <- pow_mult. change (2 * 7)%nat with 14%nat.
    assert (T : 0 <= t ^ 14) by (replace (t ^ 14) with ((t ^ 7) ^ 2) by ring; apply pow2_ge_0).
    assert (TT : 0 <= 1024 / 3003 * b ^ 2 * (ep ^ 7 * t ^ 14)) by (pose proof b2_pos; apply Rmult_le_pos; [lra|apply Rmult_le_pos; lra]).
    assert (GP : 0 < b ^ 3) by (apply pow_lt; lra). assert (G3 : b ^ 3 <= g t ^ 3) by (apply pow_incr; lra).
    split; [apply Rmult_le_pos; [exact TT|left; apply Rinv_0_lt_compat; lra]|].
    replace (1024 / 3003 * ep ^ 7 * t ^ 14 / b) with (1024 / 3003 * b ^ 2 * (ep ^ 7 * t ^ 14) / b ^ 3) by (field; lra).
    apply Rmult_le_compat_l; [exact TT|]. apply Rinv_le_contravar; assumption. }
  pose proof (derive_bound Eu (fun t => 1024 / 3003 * b ^ 2 * (ep * t ^ 2) ^ 7 / g t ^ 3) (fun t => 1024 / 3003 * ep ^ 7 * t ^ 15 / (15 * b))
    (fun t => 1024 / 3003 * ep ^ 7 * t ^ 14 / b) 0 u U) as B.
  pose proof (derive_bound (fun _ => 0) (fun _ => 0) Eu (fun t => 1024 / 3003 * b ^ 2 * (ep * t ^ 2) ^ 7 / g t ^ 3) 0 u U) as B2.
  rewrite E_zero in B, B2. split.
  - rewrite !Rminus_0_r, Rabs_R0 in B2. apply B2.
    + intros. apply (is_derive_const (K := R_AbsRing) (V := R_NormedModule)).
    + intros. apply E_derive.
    + intros. cbv beta. rewrite ?Rabs_R0. apply DP.
  - cbv beta in B. rewrite Rminus_0_r in B. replace (1024 / 3003 * ep ^ 7 * 0 ^ 15 / (15 * b)) with 0 in B by (field; lra). rewrite Rminus_0_r in B.
    eapply Rle_trans; [apply Rle_abs|]. apply B.
    + intros. apply E_derive.
    + intros t _. auto_derive; [exact Logic.I|]. field. lra.
    + intros t _. rewrite Rabs_right; apply DP || apply Rle_ge, DP.
Qed.
Definition wu (u : R) : R := g u * Eu u / u.
Lemma w_close : forall u, 0 < u <= 1 -> Rabs (wu 1 - wu u) <= 512 / 3003 * ep ^ 7 * (1 - u ^ 2).
Proof.
  intros u U. pose proof ep_pos as EP. assert (E7 : 0 < ep ^ 7) by (apply pow_lt; exact EP).
  pose proof (derive_bound wu (fun t => g t * (1024 / 3003 * b ^ 2 * (ep * t ^ 2) ^ 7 / g t ^ 3) / t - b ^ 2 * Eu t / (g t * t ^ 2))
    (fun t => 512 / 3003 * ep ^ 7 * t ^ 2) (fun t => 1024 / 3003 * ep ^ 7 * t) u 1 ltac:(lra)) as B.
  replace (512 / 3003 * ep ^ 7 * (1 - u ^ 2)) with (512 / 3003 * ep ^ 7 * 1 ^ 2 - 512 / 3003 * ep ^ 7 * u ^ 2) by ring. apply B.
  - intros t T. pose proof (g_ge t) as G. pose proof (g_sq t) as GS. unfold wu.
    apply (d_eq _ _ _ _ (d_div _ _ _ _ _ (d_mult _ _ _ _ _ (g_derive t) (E_derive t)) (d_id t) ltac:(lra))). inR. cbv beta. set (dE := 1024 / 3003 * b ^ 2 * (ep * t ^ 2) ^ 7 / g t ^ 3).
    apply Rmult_eq_reg_r with (g t * t ^ 2); [|apply Rgt_not_eq, Rmult_lt_0_compat; [lra|apply pow_lt; lra]].
    transitivity ((a ^ 2 - b ^ 2) * t ^ 2 * Eu t + g t ^ 2 * t * dE - g t ^ 2 * Eu t); [field; lra|].
    transitivity (g t ^ 2 * t * dE - b ^ 2 * Eu t); [rewrite GS; ring|]. field. lra.
  - intros t _. auto_derive; [exact Logic.I|]. field.
  - intros t T. pose proof (g_ge t) as G. pose proof (E_range t ltac:(lra)) as ER. set (E0 := Eu t) in *.
    assert (GP : 0 < g t * t ^ 2) by (apply Rmult_lt_0_compat; [lra|apply pow_lt; lra]).
    assert (T13 : 0 <= t ^ 13 <= t).
    { split; [apply pow_le; lra|]. replace (t ^ 13) with (t * t ^ 12) by ring. rewrite <- (Rmult_1_r t) at 3. apply Rmult_le_compat_l; [lra|].
      rewrite <- (pow1 12). apply pow_incr. lra. }
    assert (X1 : 0 <= g t * (1024 / 3003 * b ^ 2 * (ep * t ^ 2) ^ 7 / g t ^ 3) / t <= 1024 / 3003 * ep ^ 7 * t).
    { replace (g t * (1024 / 3003 * b ^ 2 * (ep * t ^ 2) ^ 7 / g t ^ 3) / t) with (1024 / 3003 * ep ^ 7 * t ^ 13 * (b ^ 2 / g t ^ 2)) by (field; lra).
      assert (BG : 0 <= b ^ 2 / g t ^ 2 <= 1).
      { pose proof b2_pos. assert (b ^ 2 <= g t ^ 2) by (apply pow_incr; lra). split; [apply Rmult_le_pos; [lra|left; apply Rinv_0_lt_compat; lra]|].
        apply Rmult_le_reg_r with (g t ^ 2); [lra|]. replace (b ^ 2 / g t ^ 2 * g t ^ 2) with (b ^ 2) by (field; lra). lra. }
      assert (K0 : 0 <= 1024 / 3003 * ep ^ 7) by lra. set (k := 1024 / 3003 * ep ^ 7) in *.
      assert (0 <= k * t ^ 13 <= k * t) by (split; [apply Rmult_le_pos|apply Rmult_le_compat_l]; lra). split; [apply Rmult_le_pos; lra|]. nra. }
    assert (X2 : 0 <= b ^ 2 * E0 / (g t * t ^ 2) <= 1024 / 3003 * ep ^ 7 * t).
    { pose proof b2_pos. split; [apply Rmult_le_pos; [apply Rmult_le_pos; lra|left; apply Rinv_0_lt_compat; exact GP]|].
      apply Rmult_le_reg_r with (g t * t ^ 2); [exact GP|]. replace (b ^ 2 * E0 / (g t * t ^ 2) * (g t * t ^ 2)) with (b ^ 2 * E0) by (field; lra).
      apply Rle_trans with (b ^ 2 * (1024 / 3003 * ep ^ 7 * t ^ 15 / (15 * b))); [apply Rmult_le_compat_l; lra|].
      replace (b ^ 2 * (1024 / 3003 * ep ^ 7 * t ^ 15 / (15 * b))) with (1024 / 3003 * ep ^ 7 * t ^ 2 * (t ^ 13 * b / 15)) by (field; lra).
      replace (1024 / 3003 * ep ^ 7 * t * (g t * t ^ 2)) with (1024 / 3003 * ep ^ 7 * t ^ 2 * (t * g t)) by ring.
      apply Rmult_le_compat_l; [apply Rmult_le_pos; [lra|apply pow2_ge_0]|]. assert (t ^ 13 * b <= t * g t) by (apply Rmult_le_compat; lra).
      assert (0 <= t ^ 13 * b) by (apply Rmult_le_pos; lra). lra. }
    apply Rabs_le. lra.
Qed.
(** The quotient (t(ep) - t(x)) / (ep - x) for the truncated t. *)
Definition Dq (e x : R) : R := 4 / 3 - 2 / 15 * (e + x) + 8 / 105 * (e ^ 2 + e * x + x ^ 2) - 16 / 315 * (e ^ 3 + e ^ 2 * x + e * x ^ 2 + x ^ 3)
  + 128 / 3465 * (e ^ 4 + e ^ 3 * x + e ^ 2 * x ^ 2 + e * x ^ 3 + x ^ 4) - 256 / 9009 * (e ^ 5 + e ^ 4 * x + e ^ 3 * x ^ 2 + e ^ 2 * x ^ 3 + e * x ^ 4 + x ^ 5).
Lemma g_even : forall u, g (- u) = g u. Proof. intros. unfold g, gu. f_equal. ring. Qed.
Lemma G_odd : forall u, Gu (- u) = - Gu u.
Proof.
  apply (same_derive (fun u => Gu (- u)) (fun u => - Gu u) (fun u => -1 * g u)).
  - intros t. rewrite <- (g_even t). apply (d_comp Gu (fun t => - t)); [apply G_derive|]. auto_derive; [exact Logic.I|ring].
  - intros t. apply (is_derive_ext (fun u => -1 * Gu u)); [intros; inR; ring|]. apply d_scal, G_derive.
  - rewrite Ropp_0. unfold Gu. rewrite RInt_point. change zero with 0. ring.
Qed.
Lemma area_point_pos : forall u, 0 < u < 1 ->
  Rabs (Gu u * g u / (1 - u ^ 2) - (a * Gu 1 * (u / (1 - u ^ 2)) - 1 / 2 * (a ^ 2 - b ^ 2) * u * Dq ep (ep * u ^ 2))) <= 256 / 3003 * b ^ 2 * ep ^ 7 * u.
Proof.
  intros u U. pose proof (g_ge u) as G. pose proof (g_sq u) as GS. pose proof b2_pos as B2. assert (UP : 0 < 1 - u ^ 2) by nra.
  set (x := ep * u ^ 2). assert (QE : a ^ 2 - b ^ 2 = b ^ 2 * ep) by (unfold ep; field; lra).
  assert (GX : Gu u * g u = 1 / 2 * u * (g u ^ 2 + b ^ 2 * (wu u + hP x))).
  { rewrite G_closed. unfold wu, Eu. fold x. field. lra. }
  assert (G1 : a * Gu 1 = 1 / 2 * (a ^ 2 + b ^ 2 * (wu 1 + hP ep))).
  { rewrite G_closed. unfold wu, Eu. rewrite g_one. replace (ep * 1 ^ 2) with ep by ring. field. lra. }
  match goal with |- Rabs ?v <= _ => replace v with (1 / 2 * u * b ^ 2 * ((wu u - wu 1) / (1 - u ^ 2))) end.
  - rewrite Rabs_mult, (Rabs_right (1 / 2 * u * b ^ 2)) by (apply Rle_ge, Rmult_le_pos; lra). unfold Rdiv at 2. rewrite Rabs_mult, Rabs_inv, (Rabs_right (1 - u ^ 2)) by lra.
    rewrite Rabs_minus_sym. pose proof (w_close u ltac:(lra)) as W.
    apply Rle_trans with (1 / 2 * u * b ^ 2 * (512 / 3003 * ep ^ 7 * (1 - u ^ 2) * / (1 - u ^ 2))); [|right; field; lra].
    apply Rmult_le_compat_l; [apply Rmult_le_pos; lra|]. apply Rmult_le_compat_r; [left; apply Rinv_0_lt_compat; exact UP|exact W].
  - rewrite GX, G1, GS. apply Rmult_eq_reg_r with (1 - u ^ 2); [|lra].
    transitivity (1 / 2 * u * b ^ 2 * (wu u - wu 1)); [field; lra|].
    transitivity (1 / 2 * u * (b ^ 2 + (a ^ 2 - b ^ 2) * u ^ 2 + b ^ 2 * (wu u + hP x)) - 1 / 2 * (a ^ 2 + b ^ 2 * (wu 1 + hP ep)) * u
                  + 1 / 2 * (a ^ 2 - b ^ 2) * u * Dq ep x * (1 - u ^ 2)); [|field; lra].
    replace (a ^ 2) with (b ^ 2 + b ^ 2 * ep) by lra. unfold Dq, hP, x. field.
Qed.
Lemma area_point : forall u, -1 < u < 1 ->
  Rabs (Gu u * g u / (1 - u ^ 2) - (a * Gu 1 * (u / (1 - u ^ 2)) - 1 / 2 * (a ^ 2 - b ^ 2) * u * Dq ep (ep * u ^ 2))) <= 256 / 3003 * b ^ 2 * ep ^ 7 * Rabs u.
Proof.
  intros u U. destruct (Rtotal_order u 0) as [L|[->|L]].
  - pose proof (area_point_pos (- u) ltac:(lra)) as H. rewrite G_odd, g_even in H. rewrite (Rabs_left u) by exact L. replace ((- u) ^ 2) with (u ^ 2) in H by ring.
    rewrite <- Rabs_Ropp. eapply Rle_trans; [|exact H]. right. f_equal. assert (1 - u ^ 2 <> 0) by nra. field. assumption.
  - unfold Gu. rewrite RInt_point. change zero with 0. rewrite Rabs_R0. match goal with |- Rabs ?v <= _ => replace v with 0 by field end. rewrite Rabs_R0. lra.
  - rewrite (Rabs_right u) by lra. apply area_point_pos. lra.
Qed.
End Area.
