(** The direct problem on an ellipsoid: how far the destination is from that of the geodesic. *)
From Coq Require Import List ZArith QArith Qreals Reals Lra Lia Bool.
From Coquelicot Require Import Coquelicot.
From Verif Require Import Sphere_Spec Sphere_Proofs Geod_Model Geod_Spec Geod_Poly Geod_Forward Geod_Series Geod_Bounds Geod_Revert.
Import ListNotations.
Open Scope R_scope.

Lemma on_circle_congr : forall S C s o b al al', congr al al' -> on_circle S C s o b al -> on_circle S C s o b al'.
Proof.
  intros S C s o b al al' H K. destruct (congr_trig _ _ H) as [A B]. unfold on_circle in *. rewrite A, B in K. exact K.
Qed.
Lemma asum_sines : forall cs i s, Rabs (sines i cs s) <= asum cs.
Proof.
  induction cs as [|c cs IH]; intros i s; cbn [sines asum]; [rewrite Rabs_R0; lra|].
  eapply Rle_trans; [apply Rabs_triang|]. rewrite Rabs_mult. apply Rplus_le_compat; [|apply IH].
  rewrite <- (Rmult_1_r (Rabs c)) at 2. apply Rmult_le_compat_l; [apply Rabs_pos|]. apply Rabs_le.
  pose proof (SIN_bound (2 * (INR i + 1) * s)). lra.
Qed.
Lemma C1_small : forall e s, Rabs e <= 1 / 10 -> Rabs (sines 0 (C1 e) s) <= 56 / 1000.
Proof.
  intros e s HE. eapply Rle_trans; [apply asum_sines|].
  pose proof (C1_sum e 0 HE) as H. rewrite Rabs_R0 in H. specialize (H ltac:(lra)). rewrite C1x_spec in H.
  change (xev (X 0) [e; 0]) with e in H. lra.
Qed.
Lemma A1_size : forall e, Rabs e <= 1 / 10 -> 9 / 10 <= A1 e <= 112 / 100.
Proof.
  intros e HE. apply Rabs_le_between in HE. unfold A1.
  assert (Q : 10 / 11 <= 1 / (1 - e) <= 10 / 9).
  { assert (E : 1 / (1 - e) = / (1 - e)) by (field; lra). rewrite E. split.
    - replace (10 / 11) with (/ (11 / 10)) by field. apply Rinv_le_contravar; lra.
    - replace (10 / 9) with (/ (9 / 10)) by field. apply Rinv_le_contravar; lra. }
  assert (E2 : 0 <= e ^ 2 <= 1 / 100) by (rewrite sq2; split; nra).
  assert (E4 : 0 <= e ^ 4 <= 1 / 10000) by (replace (e ^ 4) with (e ^ 2 * e ^ 2) by ring; split; nra).
  assert (E6 : 0 <= e ^ 6 <= 1 / 1000000) by (replace (e ^ 6) with (e ^ 2 * e ^ 4) by ring; split; nra).
  set (v := 1 + e ^ 2 / 4 + e ^ 4 / 64 + e ^ 6 / 256). assert (1 <= v <= 1003 / 1000) by (unfold v; lra).
  set (w := 1 / (1 - e)) in *. split; nra.
Qed.

Lemma forward_ellipsoid : forall flat a b x y az d, 0 < a -> 0 < b -> Rabs (third a b) <= 1 / 10 -> -90 < y < 90 ->
  misses_poles a b (rad y) (rad az) d (700 * (b + Rabs d) * Rabs (third a b) ^ 7) ->
  exists x2 y2 baz, forward flat a b x y az d = (x2, y2, baz) /\ -180 <= x2 < 180 /\ -90 < y2 < 90 /\ -180 <= baz < 180 /\
    exists d' l2, geodesic a b (rad x) (rad y) (rad az) l2 (rad y2) (rad baz + PI) d' /\
      Rabs (d' - d) <= 700 * (b + Rabs d) * Rabs (third a b) ^ 7 /\
      Rabs (l2 - rad x2) <= 40 * Rabs (flattening a b) * (1 + Rabs d / b) * Rabs (third a b) ^ 6.
Proof.
  intros flat a b x y az d PA PB HT PY MP.
  destruct (forward_structure flat a b x y az d PA PB PY) as (S & C & s1 & o1 & b1 & N & PC & SE & RL & O1 & K).
  cbv zeta in K. fold (epsilon a b C) in K. rewrite third_model in K by assumption.
  assert (HC : C ^ 2 <= 1) by (pose proof (pow2_ge_0 S); lra).
  destruct (epsilon_spec a b C PA PB HC) as (E1 & E2 & _). cbv zeta in E1, E2. set (e := epsilon a b C) in *. set (n := third a b) in *.
  assert (HE : Rabs e <= 1 / 10) by lra.
  destruct (A1_size e HE) as [AL AU].
  set (tau := (I1 e s1 * b + d) / (b * A1 e)) in *. destruct (revert e tau HE) as [RV RS]. cbv zeta in RV, RS.
  set (s2 := tau + sines 0 (C1p e) tau) in *.
  set (d' := geodesic_length a b C s1 s2).
  assert (P7 : 0 <= Rabs n ^ 7) by apply pow_le, Rabs_pos. assert (P6 : 0 <= Rabs n ^ 6) by apply pow_le, Rabs_pos.
  assert (E7 : 0 <= Rabs e ^ 7 <= Rabs n ^ 7) by (split; [apply pow_le, Rabs_pos|apply pow_incr; split; [apply Rabs_pos|exact E2]]).
  set (g := s2 + sines 0 (C1 e) s2 - tau) in *.
  assert (DE : I1 e s2 * b - I1 e s1 * b = d + b * A1 e * g).
  { unfold I1 at 1. replace (s2 + sines 0 (C1 e) s2) with (tau + g) by (unfold g; ring). unfold tau. field. lra. }
  assert (SS : Rabs (s2 - s1) <= 112 / 100 * (Rabs d / b) + 2 / 10).
  { assert (EQ : s2 - s1 = d / (b * A1 e) + g - sines 0 (C1 e) s2 + sines 0 (C1 e) s1).
    { unfold g, tau. unfold I1. field. lra. }
    rewrite EQ. pose proof (C1_small e s2 HE) as B2. pose proof (C1_small e s1 HE) as B1.
    assert (GB : Rabs g <= 6 / 100).
    { eapply Rle_trans; [exact RV|]. assert (Rabs e ^ 7 <= (1 / 10) ^ 7) by (apply pow_incr; split; [apply Rabs_pos|exact HE]). lra. }
    assert (DB : Rabs (d / (b * A1 e)) <= 112 / 100 * (Rabs d / b)).
    { assert (P : 0 < b * A1 e) by (apply Rmult_lt_0_compat; lra). unfold Rdiv at 1. rewrite Rabs_mult, (Rabs_right (/ (b * A1 e))) by (apply Rle_ge, Rlt_le, Rinv_0_lt_compat, P).
      rewrite Rinv_mult_distr by lra. assert (Q : / A1 e <= 112 / 100).
      { eapply Rle_trans; [apply (Rinv_le_contravar (9 / 10)); lra|]. lra. }
      assert (0 <= Rabs d * / b) by (apply Rmult_le_pos; [apply Rabs_pos|apply Rlt_le, Rinv_0_lt_compat, PB]).
      replace (Rabs d * (/ b * / A1 e)) with (Rabs d * / b * / A1 e) by ring. unfold Rdiv. nra. }
    apply Rabs_le_between in B1. apply Rabs_le_between in B2. apply Rabs_le_between in GB. apply Rabs_le_between in DB.
    apply Rabs_le. lra. }
  pose proof (length_error a b C s1 s2 PA PB HC HT) as LE. cbv zeta in LE. fold e in LE. fold d' in LE. rewrite DE in LE.
  assert (MAIN : Rabs (d' - d) <= 700 * (b + Rabs d) * Rabs n ^ 7).
  {assert (DD : Rabs (d' - d) <= 17 * b * Rabs e ^ 7 * Rabs (s2 - s1) + b * A1 e * Rabs g).
    { replace (d' - d) with (- (d + b * A1 e * g - d') + b * A1 e * g) by ring. eapply Rle_trans; [apply Rabs_triang|].
      rewrite Rabs_Ropp. apply Rplus_le_compat; [exact LE|]. rewrite Rabs_mult, (Rabs_right (b * A1 e)); [lra|]. apply Rle_ge, Rmult_le_pos; lra. }
    eapply Rle_trans; [exact DD|].
    assert (T1 : 17 * b * Rabs e ^ 7 * Rabs (s2 - s1) <= 17 * b * Rabs n ^ 7 * (112 / 100 * (Rabs d / b) + 2 / 10)).
    { apply Rmult_le_compat; [|apply Rabs_pos| |exact SS]; [apply Rmult_le_pos; lra|apply Rmult_le_compat_l; lra]. }
    assert (T2 : b * A1 e * Rabs g <= b * (112 / 100) * (600 * Rabs n ^ 7)).
    { apply Rmult_le_compat; [apply Rmult_le_pos; lra|apply Rabs_pos|apply Rmult_le_compat_l; lra|lra]. }
    set (z := Rabs n ^ 7) in *.
    replace (17 * b * z * (112 / 100 * (Rabs d / b) + 2 / 10)) with (z * (17 * (112 / 100) * Rabs d + 34 / 10 * b)) in T1 by (field; lra).
    pose proof (Rabs_pos d). assert (0 <= z * Rabs d) by (apply Rmult_le_pos; assumption). assert (0 <= z * b) by (apply Rmult_le_pos; lra). nra. }
  destruct K as (o2 & b2 & al2 & x2 & y2 & baz & F & O2 & RL2 & R1 & R2 & R3 & XX & BB); [|].
  { destruct (Req_dec S 0) as [S0|]; [right|left; assumption]. intros Q. rewrite S0 in N, O1. assert (C1' : C = 1) by nra. rewrite C1' in Q.
    rewrite Rmult_1_l in Q. destruct (cos_eq_0_0 s2 Q) as [k KK]. rewrite C1' in O1. unfold d' in MAIN. rewrite C1', KK in MAIN.
    specialize (MP s1 o1 b1 k RL O1). replace (PI / 2 + IZR k * PI) with (IZR k * PI + PI / 2) in MP by ring. lra. }
  exists x2, y2, baz. split; [exact F|]. split; [exact R1|]. split; [exact R2|]. split; [exact R3|].
  set (il := RInt (lag a b S C) s1 s2). set (ml := flattening a b * S * (I3 n e s2 - I3 n e s1)) in *.
  exists d', (rad x2 + (ml - il)).
  pose proof (lag_error a b S C s1 s2 PA PB N HT) as GE. cbv zeta in GE. fold e in GE. fold n in GE. fold ml in GE. fold il in GE.
  split; [|split].
  - exists S, C, s1, s2, o1, o2, b1, b2. split; [exact N|]. split; [exact RL|]. split; [exact RL2|]. split; [exact O1|].
    split. { apply (on_circle_congr _ _ _ _ _ al2); [|exact O2]. destruct BB as [k ->]. exists (- k - 1)%Z. rewrite minus_IZR, opp_IZR. ring. }
    split; [reflexivity|]. fold il. destruct XX as [k ->]. exists k. ring.
  - exact MAIN.
  - replace (rad x2 + (ml - il) - rad x2) with (ml - il) by ring. eapply Rle_trans; [exact GE|].
    assert (SB : Rabs S <= 1) by (apply Rabs_le; nra). pose proof (Rabs_pos S). pose proof (Rabs_pos (flattening a b)) as F0.
    assert (D0 : 0 <= Rabs d / b) by (apply Rmult_le_pos; [apply Rabs_pos|apply Rlt_le, Rinv_0_lt_compat, PB]).
    set (z := Rabs n ^ 6) in *. set (ff := Rabs (flattening a b)) in *.
    replace (40 * ff * (1 + Rabs d / b) * z) with (ff * z * (40 * (1 + Rabs d / b))) by ring.
    replace (35 * ff * Rabs S * z * Rabs (s2 - s1)) with (ff * z * (35 * (Rabs S * Rabs (s2 - s1)))) by ring.
    apply Rmult_le_compat_l; [apply Rmult_le_pos; assumption|]. pose proof (Rabs_pos (s2 - s1)). nra.
Qed.
