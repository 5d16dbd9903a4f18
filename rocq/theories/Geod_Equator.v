(** The direct problem: the equator and the constant of Clairaut. *)
From Coq Require Import List ZArith Reals Lra Lia Bool.
From Coquelicot Require Import Coquelicot.
From Verif Require Import GeomR_Model GeomR_Proofs Sphere_Model Sphere_Spec Sphere_Proofs Geod_Model Geod_Spec Geod_Forward
  Geod_Series Geod_Bounds Geod_Revert Geod_Accurate Geod_Symm Geod_Round.
Import ListNotations.
Open Scope R_scope.

Lemma forward_clairaut : forall flat a b x y az d, 0 < a -> 0 < b -> -90 < y < 90 -> sin (rad az) <> 0 ->
  exists x2 y2 baz b1 b2, forward flat a b x y az d = (x2, y2, baz) /\ -180 <= x2 < 180 /\ -90 < y2 < 90 /\ -180 <= baz < 180 /\
    reduced_latitude a b (rad y) b1 /\ reduced_latitude a b (rad y2) b2 /\ cos b2 * sin (rad baz + PI) = cos b1 * sin (rad az).
Proof.
  intros flat a b x y az d PA PB PY NZ.
  destruct (forward_structure flat a b x y az d PA PB PY) as (S & C & s1 & o1 & b1 & N & PC & SE & RL & O1 & K). cbv zeta in K.
  assert (CB : 0 < cos b1) by (destruct RL as (_ & B & _); apply cos_gt_0; lra).
  destruct K as (o2 & b2 & al2 & x2 & y2 & baz & F & O2 & RL2 & R1 & R2 & R3 & XX & BB).
  { left. rewrite SE. apply Rmult_integral_contrapositive. split; lra. }
  exists x2, y2, baz, b1, b2. do 6 (split; [assumption|]). destruct O2 as (_ & _ & _ & Q & _).
  assert (E : sin (rad baz + PI) = sin al2).
  { apply (congr_trig (rad baz + PI) al2). destruct BB as [k K]. exists (k + 1)%Z. rewrite plus_IZR, K. cbn [IZR]. ring. }
  rewrite E, Q, SE. ring.
Qed.
Lemma I3_zero : forall n s, I3 n 0 s = s.
Proof. intros n s. unfold I3, A3, C3. cbn [sines]. field. Qed.
Lemma forward_equator : forall flat a b x az d, 0 < a -> 0 < b -> az = 90 \/ az = -90 ->
  exists x2 baz, forward flat a b x 0 az d = (x2, 0, baz) /\ -180 <= x2 < 180 /\ -180 <= baz < 180 /\
    geodesic a b (rad x) 0 (rad az) (rad x2) 0 (rad baz + PI) d /\ congr (rad x2) (rad x + (if Rlt_dec 0 az then 1 else -1) * (d / a)).
Proof.
  intros flat a b x az d PA PB HZ. pose proof PI_RGT_0 as P0. pose proof (sin_PI2) as SP. pose proof cos_PI2 as CP.
  destruct (forward_structure flat a b x 0 az d PA PB ltac:(lra)) as (S & C & s1 & o1 & b1 & N & PC & SE & RL & O1 & K). cbv zeta in K.
  replace (rad 0) with 0 in * by (unfold rad; field).
  assert (RL0 : reduced_latitude a b 0 0) by (unfold reduced_latitude; rewrite sin_0, cos_0; split; [lra|]; split; [lra|ring]).
  pose proof (reduced_unique a b 0 b1 0 PA PB RL RL0) as ->. rewrite cos_0, Rmult_1_r in SE.
  set (k := if Rlt_dec 0 az then 1 else -1). assert (KK : k = 1 \/ k = -1) by (unfold k; destruct (Rlt_dec 0 az); auto).
  assert (AZ : rad az = k * (PI / 2)) by (unfold k, rad; destruct HZ as [-> | ->]; destruct (Rlt_dec 0 _); try lra; field).
  assert (SK : S = k). { rewrite SE, AZ. destruct KK as [-> | ->]; [rewrite Rmult_1_l; exact SP|replace (-1 * (PI / 2)) with (- (PI / 2)) by ring; rewrite sin_neg, SP; ring]. }
  assert (C0 : C = 0) by (rewrite SK in N; destruct KK as [E|E]; rewrite E in N; nra). rewrite C0 in *. clear SE.
  replace (0 ^ 2) with 0 in K by ring. rewrite Rmult_0_r in K. replace (eps_of 0) with 0 in K by (rewrite <- (eps_zero 0) at 1; f_equal; ring).
  rewrite I1_zero, A1_zero, C1p_zero, Rmult_1_r, Rplus_0_r, !I3_zero in K. replace ((s1 * b + d) / b) with (s1 + d / b) in K by (field; lra).
  destruct K as (o2 & b2 & al2 & x2 & y2 & baz & F & O2 & RL2 & R1 & R2 & R3 & XX & BB).
  { left. rewrite SK. destruct KK; lra. }
  assert (B2 : b2 = 0).
  { destruct O2 as (_ & _ & Q & _). rewrite Rmult_0_l in Q. destruct RL2 as (_ & B & _). rewrite <- (sin_asin 0) in Q by lra.
    rewrite asin_0 in Q. rewrite sin_0 in Q. destruct (Rtotal_order b2 0) as [L|[E|G]]; [|exact E|].
    - assert (sin b2 < 0) by (apply sin_lt_0_var; lra). lra.
    - assert (0 < sin b2) by (apply sin_gt_0; lra). lra. }
  rewrite B2 in *.
  assert (Y2 : y2 = 0).
  { destruct RL2 as (B & _ & Q). rewrite sin_0, cos_0, Rmult_1_r in Q. assert (Z : sin (rad y2) = 0) by nra.
    assert (rad y2 = 0).
    { destruct (Rtotal_order (rad y2) 0) as [L|[E|G]]; [|exact E|].
      - assert (sin (rad y2) < 0) by (apply sin_lt_0_var; lra). lra.
      - assert (0 < sin (rad y2)) by (apply sin_gt_0; lra). lra. }
    unfold rad in H. nra. }
  rewrite Y2 in *. exists x2, baz. split; [exact F|]. split; [exact R1|]. split; [exact R3|].
  assert (CI : forall s o al, on_circle S 0 s o 0 al -> congr o (S * s)).
  { intros s o al (A & B & _). rewrite cos_0, !Rmult_1_l in A, B. apply same_angle_congr || idtac.
    assert (EC : cos o = cos (S * s)) by (rewrite A, SK; destruct KK as [-> | ->]; [f_equal; ring|rewrite <- cos_neg; f_equal; ring]).
    assert (ES : sin o = sin (S * s)) by (rewrite B, SK; destruct KK as [-> | ->]; [rewrite !Rmult_1_l; reflexivity|replace (-1 * s) with (- s) by ring; rewrite sin_neg; ring]).
    destruct (reduced_deg (o * 180 / PI)) as [U1 U2]. destruct (reduced_deg (S * s * 180 / PI)) as [V1 V2].
    apply congd_rad in U2, V2. rewrite rad_of_deg in U2, V2. set (u := pymod (o * 180 / PI + 180) 360 - 180) in *. set (v := pymod (S * s * 180 / PI + 180) 360 - 180) in *.
    destruct (congr_trig _ _ U2) as [T1 T2]. destruct (congr_trig _ _ V2) as [T3 T4].
    assert (UV : rad u = rad v) by (apply same_direction; [congruence|congruence|unfold rad; split; nra]).
    apply congr_trans with (rad u); [apply congr_sym; exact U2|]. rewrite UV. exact V2. }
  pose proof (CI _ _ _ O1) as [k1 K1]. pose proof (CI _ _ _ O2) as [k2 K2].
  assert (XC : congr (rad x2) (rad x + k * (d / a))).
  { destruct XX as [m M]. exists (m + k2 - k1)%Z. rewrite minus_IZR, plus_IZR, M, K1, K2, SK. unfold flattening. field. lra. }
  split; [|exact XC].
  assert (BZ : congr (rad baz + PI) (k * (PI / 2))).
  { assert (G : congr al2 (k * (PI / 2))).
    { destruct O2 as (_ & _ & _ & A & B). rewrite cos_0, Rmult_1_l in A, B. rewrite Rmult_0_l in B.
      assert (EC : cos al2 = cos (k * (PI / 2))) by (rewrite B; destruct KK as [-> | ->]; [rewrite Rmult_1_l; symmetry; exact CP|replace (-1 * (PI / 2)) with (- (PI / 2)) by ring; rewrite cos_neg; symmetry; exact CP]).
      assert (ES : sin al2 = sin (k * (PI / 2))) by (rewrite A, SK; destruct KK as [-> | ->]; [rewrite Rmult_1_l; symmetry; exact SP|replace (-1 * (PI / 2)) with (- (PI / 2)) by ring; rewrite sin_neg, SP; ring]).
      destruct (reduced_deg (al2 * 180 / PI)) as [U1 U2]. apply congd_rad in U2. rewrite rad_of_deg in U2. set (u := pymod (al2 * 180 / PI + 180) 360 - 180) in *.
      destruct (congr_trig _ _ U2) as [T1 T2].
      assert (UV : rad u = k * (PI / 2)) by (apply same_direction; [congruence|congruence|unfold rad; destruct KK as [-> | ->]; split; nra]).
      rewrite <- UV. apply congr_sym. exact U2. }
    destruct BB as [m M]. destruct G as [g G]. exists (m + g + 1)%Z. rewrite !plus_IZR, M, G. cbn [IZR]. ring. }
  eapply geodesic_congr; [| | |exact (equator_geodesic a b (rad x) k d PA PB KK)]; [exists 0%Z; rewrite AZ; ring|apply congr_sym; exact XC|apply congr_sym; exact BZ].
Qed.
