(** Rounding: errors and exact cases of the operations on doubles. *)
From Coq Require Import List ZArith QArith Qabs Qpower Qreals Reals Lra Lia Bool.
From Flocq Require Import Core IEEE754.BinarySingleNaN Relative Plus_error.
From Verif Require Import Dbl_Model Dbl_Spec.
Import ListNotations.
Open Scope R_scope.

Notation pow2 := (bpow radix2).
Notation val := (@B2R 53 1024).
Notation fin x := (is_finite x = true).

Definition rnd (r : R) : R := round radix2 (SpecFloat.fexp 53 1024) (round_mode mode_NE) r.
Lemma rnd_FLT r : rnd r = round radix2 (FLT_exp (-1074) 53) (Znearest (fun x => negb (Z.even x))) r.
Proof. reflexivity. Qed.

(** Values. *)
Lemma Q2R_pow2 e : Q2R (Qpower 2 e) = pow2 e.
Proof.
  destruct e as [| p | p]; cbn [Qpower].
  - unfold Q2R; cbn; lra.
  - rewrite <- (IZR_Zpower radix2 (Z.pos p)) by lia. change (Zaux.radix_val radix2) with 2%Z.
    change 2%Q with (inject_Z 2). assert (E : (Qpower_positive (inject_Z 2) p == inject_Z (2 ^ Z.pos p))%Q).
    { rewrite <- (Zpower_Qpower 2 (Z.pos p)) by lia. reflexivity. }
    rewrite (Qeq_eqR _ _ E). unfold inject_Z, Q2R; cbn [Qnum Qden]. rewrite Rinv_1, Rmult_1_r. reflexivity.
  - rewrite Q2R_inv.
    + rewrite bpow_powerRZ. change (Z.neg p) with (- Z.pos p)%Z. rewrite <- bpow_powerRZ, bpow_opp. f_equal.
      rewrite <- (IZR_Zpower radix2 (Z.pos p)) by lia. change (Zaux.radix_val radix2) with 2%Z.
      change 2%Q with (inject_Z 2). assert (E : (Qpower_positive (inject_Z 2) p == inject_Z (2 ^ Z.pos p))%Q).
      { rewrite <- (Zpower_Qpower 2 (Z.pos p)) by lia. reflexivity. }
      rewrite (Qeq_eqR _ _ E). unfold inject_Z, Q2R; cbn [Qnum Qden]. rewrite Rinv_1, Rmult_1_r. reflexivity.
    + apply Qpower_not_0_positive. discriminate.
Qed.
Lemma Q2R_Z n : Q2R (inject_Z n) = IZR n.
Proof. unfold inject_Z, Q2R; cbn [Qnum Qden]. rewrite Rinv_1, Rmult_1_r. reflexivity. Qed.
Lemma value_R (a : double) : Q2R (value a) = val a.
Proof.
  destruct a as [s | s | | s m e H]; try (unfold value, Q2R; cbn; lra).
  unfold value. rewrite Q2R_mult, Q2R_Z, Q2R_pow2. unfold B2R, F2R; cbn [Fnum Fexp]. destruct s; reflexivity.
Qed.
Lemma Q2R_abs q : Q2R (Qabs q) = Rabs (Q2R q).
Proof.
  apply (Qabs_case q (fun x => Q2R x = Rabs (Q2R q))); intros H.
  - rewrite Rabs_pos_eq; [reflexivity |]. replace 0 with (Q2R 0) by (unfold Q2R; cbn; lra). apply Qle_Rle. assumption.
  - rewrite Q2R_opp, Rabs_left1; [reflexivity |]. replace 0 with (Q2R 0) by (unfold Q2R; cbn; lra). apply Qle_Rle. assumption.
Qed.
Lemma upto_R k a : upto k a <-> fin a /\ Rabs (val a) <= pow2 k.
Proof.
  unfold upto. split; intros [H1 H2]; (split; [assumption |]).
  - apply Qle_Rle in H2. rewrite Q2R_abs, value_R, Q2R_pow2 in H2. assumption.
  - apply Rle_Qle. rewrite Q2R_abs, value_R, Q2R_pow2. assumption.
Qed.

(** Errors. *)
Definition u : R := pow2 (-53).
Definition eta : R := pow2 (-1075).
Lemma u_val : u = / 9007199254740992.
Proof. unfold u. change (-53)%Z with (-(53))%Z. rewrite bpow_opp. f_equal. Qed.
Lemma eta_pos : 0 < eta.
Proof. apply bpow_gt_0. Qed.
Lemma half_bpow e : / 2 * pow2 e = pow2 (e - 1).
Proof. unfold Z.sub. rewrite bpow_plus. change (pow2 (-(1))) with (/ 2). lra. Qed.
Lemma u_ro_u : u_ro radix2 53 = u.
Proof. unfold u_ro, u. rewrite half_bpow. reflexivity. Qed.
Lemma rnd_err r : exists e h, Rabs e <= u /\ Rabs h <= eta /\ rnd r = r * (1 + e) + h.
Proof.
  destruct (relative_error_N_FLT'_ex radix2 (-1074) 53 prec53 (fun x => negb (Z.even x)) r) as (e & h & H1 & H2 & _ & H3).
  exists e, h. split; [| split].
  - pose proof (u_rod1pu_ro_le_u_ro radix2 53). rewrite u_ro_u in *. lra.
  - rewrite half_bpow in H2. exact H2.
  - exact H3.
Qed.
Lemma rnd_plus_err (x y : double) : exists e, Rabs e <= u /\ rnd (val x + val y) = (val x + val y) * (1 + e).
Proof.
  destruct (FLT_plus_error_N_ex radix2 (-1074) 53 (fun x => negb (Z.even x)) (val x) (val y)) as (e & H1 & H2).
  - exact (generic_format_B2R 53 1024 x).
  - exact (generic_format_B2R 53 1024 y).
  - exists e. split; [| exact H2]. pose proof (u_rod1pu_ro_le_u_ro radix2 53). rewrite u_ro_u in *. lra.
Qed.
Lemma rnd_bound r k : (-1022 <= k)%Z -> Rabs r <= pow2 k -> Rabs (rnd r) <= pow2 k.
Proof.
  intros Hk H. unfold rnd. apply abs_round_le_generic; try typeclasses eauto; [| assumption].
  apply generic_format_bpow. unfold SpecFloat.fexp, SpecFloat.emin. lia.
Qed.
Lemma rnd_small r : Rabs r <= pow2 1000 -> Rlt_bool (Rabs (rnd r)) (pow2 1024) = true.
Proof.
  intros H. apply Rlt_bool_true. apply Rle_lt_trans with (pow2 1000); [apply rnd_bound; [lia | assumption] |]. apply bpow_lt. lia.
Qed.
Lemma dadd_ok (x y : double) : fin x -> fin y -> Rabs (val x + val y) <= pow2 1000 ->
  fin (dadd x y) /\ val (dadd x y) = rnd (val x + val y).
Proof.
  intros Hx Hy H. pose proof (Bplus_correct 53 1024 prec53 emax1024 mode_NE x y Hx Hy) as P.
  pose proof (rnd_small _ H) as B. unfold rnd in B. rewrite B in P. destruct P as (P1 & P2 & _). split; assumption.
Qed.
Lemma dsub_ok (x y : double) : fin x -> fin y -> Rabs (val x - val y) <= pow2 1000 ->
  fin (dsub x y) /\ val (dsub x y) = rnd (val x - val y).
Proof.
  intros Hx Hy H. pose proof (Bminus_correct 53 1024 prec53 emax1024 mode_NE x y Hx Hy) as P.
  pose proof (rnd_small _ H) as B. unfold rnd in B. rewrite B in P. destruct P as (P1 & P2 & _). split; assumption.
Qed.
Lemma dmul_ok (x y : double) : fin x -> fin y -> Rabs (val x * val y) <= pow2 1000 ->
  fin (dmul x y) /\ val (dmul x y) = rnd (val x * val y).
Proof.
  intros Hx Hy H. pose proof (Bmult_correct 53 1024 prec53 emax1024 mode_NE x y) as P.
  pose proof (rnd_small _ H) as B. unfold rnd in B. rewrite B in P. destruct P as (P1 & P2 & _).
  split; [rewrite Hx, Hy in P2; exact P2 | exact P1].
Qed.
Lemma ddiv_ok (x y : double) : fin x -> val y <> 0 -> Rabs (val x / val y) <= pow2 1000 ->
  fin (ddiv x y) /\ val (ddiv x y) = rnd (val x / val y).
Proof.
  intros Hx Hy H. pose proof (Bdiv_correct 53 1024 prec53 emax1024 mode_NE x y Hy) as P.
  pose proof (rnd_small _ H) as B. unfold rnd in B. rewrite B in P. destruct P as (P1 & P2 & _).
  split; [rewrite Hx in P2; exact P2 | exact P1].
Qed.
Lemma dsub_err (x y : double) : fin x -> fin y -> Rabs (val x - val y) <= pow2 1000 ->
  fin (dsub x y) /\ exists e, Rabs e <= u /\ val (dsub x y) = (val x - val y) * (1 + e).
Proof.
  intros Hx Hy H. destruct (dsub_ok x y Hx Hy H) as [F E]. split; [assumption |].
  destruct (rnd_plus_err x (Bopp y)) as (e & He & E'). rewrite B2R_Bopp in E'. exists e. split; [assumption |]. rewrite E. exact E'.
Qed.
Lemma dadd_err (x y : double) : fin x -> fin y -> Rabs (val x + val y) <= pow2 1000 ->
  fin (dadd x y) /\ exists e, Rabs e <= u /\ val (dadd x y) = (val x + val y) * (1 + e).
Proof.
  intros Hx Hy H. destruct (dadd_ok x y Hx Hy H) as [F E]. split; [assumption |].
  destruct (rnd_plus_err x y) as (e & He & E'). exists e. split; [assumption |]. rewrite E. exact E'.
Qed.
Lemma dmul_err (x y : double) : fin x -> fin y -> Rabs (val x * val y) <= pow2 1000 ->
  fin (dmul x y) /\ exists e h, Rabs e <= u /\ Rabs h <= eta /\ val (dmul x y) = val x * val y * (1 + e) + h.
Proof. intros Hx Hy H. destruct (dmul_ok x y Hx Hy H) as [F ->]. split; [assumption | apply rnd_err]. Qed.
Lemma ddiv_err (x y : double) : fin x -> val y <> 0 -> Rabs (val x / val y) <= pow2 1000 ->
  fin (ddiv x y) /\ exists e h, Rabs e <= u /\ Rabs h <= eta /\ val (ddiv x y) = val x / val y * (1 + e) + h.
Proof. intros Hx Hy H. destruct (ddiv_ok x y Hx Hy H) as [F ->]. split; [assumption | apply rnd_err]. Qed.

(** Exact cases: few digits. *)
Lemma rnd_exact m e : (Z.abs m <= 2 ^ 53)%Z -> (-1074 <= e)%Z -> rnd (IZR m * pow2 e) = IZR m * pow2 e.
Proof.
  intros Hm He. rewrite rnd_FLT. apply round_generic; [typeclasses eauto |]. apply generic_format_FLT.
  destruct (Z.eq_dec (Z.abs m) (2 ^ 53)) as [E | N].
  - assert (D : (m = 2 ^ 53 \/ m = - 2 ^ 53)%Z) by lia.
    destruct D as [-> | ->].
    + exists (Float radix2 1 (53 + e)); cbn [Fnum Fexp]; [| reflexivity | lia]. unfold F2R; cbn [Fnum Fexp].
      rewrite bpow_plus. change (pow2 53) with (IZR (2 ^ 53)). ring.
    + exists (Float radix2 (-1) (53 + e)); cbn [Fnum Fexp]; [| reflexivity | lia]. unfold F2R; cbn [Fnum Fexp].
      rewrite bpow_plus, opp_IZR. change (pow2 53) with (IZR (2 ^ 53)). ring.
  - exists (Float radix2 m e); cbn [Fnum Fexp]; [reflexivity | | assumption]. change (Zaux.radix_val radix2 ^ 53)%Z with (2 ^ 53)%Z. lia.
Qed.
Definition on (M e : Z) (x : double) : Prop := fin x /\ exists m, (Z.abs m <= M)%Z /\ val x = IZR m * pow2 e.
Lemma on_small M e m : (Z.abs m <= M)%Z -> (M <= 2 ^ 53)%Z -> (e <= 900)%Z -> Rabs (IZR m * pow2 e) <= pow2 1000.
Proof.
  intros Hm HM He. rewrite Rabs_mult, <- abs_IZR, (Rabs_pos_eq (pow2 e)) by apply bpow_ge_0.
  apply Rle_trans with (IZR (2 ^ 53) * pow2 900).
  - apply Rmult_le_compat; [apply IZR_le; lia | apply bpow_ge_0 | apply IZR_le; lia | apply bpow_le; assumption].
  - change (IZR (2 ^ 53)) with (pow2 53). rewrite <- bpow_plus. apply bpow_le. lia.
Qed.
Lemma on_sub M N e x y : on M e x -> on N e y -> (M + N <= 2 ^ 53)%Z -> (-1074 <= e <= 900)%Z ->
  on (M + N) e (dsub x y) /\ val (dsub x y) = val x - val y.
Proof.
  intros (Fx & m & Hm & Ex) (Fy & n & Hn & Ey) HMN He.
  assert (E : val x - val y = IZR (m - n) * pow2 e) by (rewrite Ex, Ey, minus_IZR; ring).
  assert (B : (Z.abs (m - n) <= M + N)%Z) by lia.
  destruct (dsub_ok x y Fx Fy) as [F D]; [rewrite E; eapply on_small; [exact B | assumption | lia] |].
  rewrite D, E, rnd_exact by lia. split; [| reflexivity]. split; [assumption |]. exists (m - n)%Z. rewrite D, E, rnd_exact by lia. auto.
Qed.
Lemma on_add M N e x y : on M e x -> on N e y -> (M + N <= 2 ^ 53)%Z -> (-1074 <= e <= 900)%Z ->
  on (M + N) e (dadd x y) /\ val (dadd x y) = val x + val y.
Proof.
  intros (Fx & m & Hm & Ex) (Fy & n & Hn & Ey) HMN He.
  assert (E : val x + val y = IZR (m + n) * pow2 e) by (rewrite Ex, Ey, plus_IZR; ring).
  assert (B : (Z.abs (m + n) <= M + N)%Z) by lia.
  destruct (dadd_ok x y Fx Fy) as [F D]; [rewrite E; eapply on_small; [exact B | assumption | lia] |].
  rewrite D, E, rnd_exact by lia. split; [| reflexivity]. split; [assumption |]. exists (m + n)%Z. rewrite D, E, rnd_exact by lia. auto.
Qed.
Lemma on_mul M N e f x y : on M e x -> on N f y -> (M * N <= 2 ^ 53)%Z -> (-1074 <= e + f <= 900)%Z ->
  on (M * N) (e + f) (dmul x y) /\ val (dmul x y) = val x * val y.
Proof.
  intros (Fx & m & Hm & Ex) (Fy & n & Hn & Ey) HMN He.
  assert (E : val x * val y = IZR (m * n) * pow2 (e + f)) by (rewrite Ex, Ey, mult_IZR, bpow_plus; ring).
  assert (B : (Z.abs (m * n) <= M * N)%Z) by (rewrite Z.abs_mul; apply Z.mul_le_mono_nonneg; lia).
  destruct (dmul_ok x y Fx Fy) as [F D]; [rewrite E; eapply on_small; [exact B | assumption | lia] |].
  rewrite D, E, rnd_exact by lia. split; [| reflexivity]. split; [assumption |]. exists (m * n)%Z. rewrite D, E, rnd_exact by lia. auto.
Qed.
Lemma on_le M N e x : on M e x -> (M <= N)%Z -> on N e x.
Proof. intros (F & m & Hm & E) H. split; [assumption |]. exists m. split; [lia | assumption]. Qed.
Lemma raster_on k e a : raster k e a -> on (2 ^ k) e a.
Proof.
  intros (F & n & E & H). split; [assumption |]. exists n. split; [assumption |].
  apply Qeq_eqR in E. rewrite value_R, Q2R_mult, Q2R_Z, Q2R_pow2 in E. exact E.
Qed.
Lemma of_int_on n : (Z.abs n <= 2 ^ 53)%Z -> on (Z.abs n) 0 (of_int n) /\ val (of_int n) = IZR n.
Proof.
  intros H. unfold of_int. pose proof (binary_normalize_correct 53 1024 prec53 emax1024 mode_NE n 0 false) as P.
  cbv zeta in P. change (F2R (Float radix2 n 0)) with (IZR n * pow2 0) in P.
  assert (B : Rlt_bool (Rabs (rnd (IZR n * pow2 0))) (pow2 1024) = true) by (apply rnd_small; eapply on_small; [| exact H |]; lia).
  unfold rnd in B. rewrite B in P. destruct P as (P1 & P2 & _). fold (rnd (IZR n * pow2 0)) in P1. rewrite rnd_exact in P1 by lia.
  split; [split; [exact P2 |] |].
  - exists n. split; [lia | exact P1].
  - rewrite P1. cbn. ring.
Qed.
Lemma half_on : on 1 (-1) half /\ val half = / 2.
Proof. split; [split; [reflexivity |]; exists 1%Z; split; [lia |] |]; (change (val half) with (F2R (Float radix2 4503599627370496 (-53))); unfold F2R; cbn [Fnum Fexp]; change (pow2 (-53)) with (/ 9007199254740992); try change (pow2 (-1)) with (/ 2); lra). Qed.

(** Comparisons. *)
Lemma dlt_R (x y : double) : fin x -> fin y -> (dlt x y = true <-> val x < val y).
Proof.
  intros Hx Hy. unfold dlt. rewrite Bltb_correct by assumption. split; intros H.
  - destruct (Rlt_bool_spec (val x) (val y)); [assumption | discriminate].
  - apply Rlt_bool_true. assumption.
Qed.
Lemma dle_R (x y : double) : fin x -> fin y -> (dle x y = true <-> val x <= val y).
Proof.
  intros Hx Hy. unfold dle. rewrite Bleb_correct by assumption. split; intros H.
  - destruct (Rle_bool_spec (val x) (val y)); [assumption | discriminate].
  - apply Rle_bool_true. assumption.
Qed.
