(** Concrete calls of the geodesic functions. *)
From Coq Require Import List ZArith Reals Lra Lia Bool.
From Coquelicot Require Import Coquelicot.
From Verif Require Brent_Model.
From Verif Require Import GeomR_Model GeomR_Proofs Sphere_Model Sphere_Spec Sphere_Proofs Sphere_Area Geod_Model Geod_Spec Geod_Forward
  Geod_Series Geod_Bounds Geod_Revert Geod_Accurate Geod_Symm Geod_Unwrap Geod_Inverse Geod_Answer Geod_Round Geod_More Geod_Equator.
Import ListNotations.
Open Scope R_scope.

(* ---- the direction is taken in degrees *)
Lemma in_degrees : forall flat, exists x2 y2 baz, forward flat 1 1 0 0 (PI / 2) 1 = (x2, y2, baz) /\
  pos x2 y2 <> travel (rad 0) (rad 0) (PI / 2) 1.
Proof.
  intros flat. pose proof PI_RGT_0 as P0. pose proof PI2_1 as P1. pose proof PI_4 as P4.
  assert (R0 : rad 0 = 0) by (unfold rad; field).
  assert (RZ : 0 < rad (PI / 2) < PI / 2) by (unfold rad; split; nra).
  assert (TZ : snd (travel (rad 0) (rad 0) (rad (PI / 2)) (1 / 1)) = sin 1 * cos (rad (PI / 2))).
  { rewrite R0. unfold travel, upos, north, east, vadd, vscale. cbn [fst snd]. rewrite sin_0, cos_0. replace (1 / 1) with 1 by field. ring. }
  assert (S1 : 0 < sin 1) by (apply sin_gt_0; lra). assert (C1 : 0 < cos (rad (PI / 2))) by (apply cos_gt_0; lra).
  assert (S1' : sin 1 < 1) by (apply Rlt_le_trans with (sin (PI / 2)); [apply sin_increasing_1; lra|rewrite sin_PI2; lra]).
  pose proof (COS_bound (rad (PI / 2))) as CB.
  destruct (forward_sphere flat 1 0 0 (PI / 2) 1) as (x2 & y2 & baz & E & _ & _ & _ & PE & _); [lra|lra|rewrite TZ; nra|].
  exists x2, y2, baz. split; [exact E|]. intros H. rewrite PE in H. apply (f_equal snd) in H. rewrite TZ in H.
  rewrite R0 in H. unfold travel, upos, north, east, vadd, vscale in H. cbn [fst snd] in H. rewrite sin_0, cos_0, cos_PI2 in H. nra.
Qed.
(* ---- across the equator on a sphere *)
Lemma mirrored_fails : forall flat, inverse flat 1 1 0 (-10) 20 10 (1 / 1000000000000) = Raises ZeroDivisionError.
Proof.
  intros flat. pose proof PI_RGT_0 as P0. pose proof PI2_1 as P1. apply sphere_fails; [lra|lra|lra|lra|]. exists 20.
  split; [exists 0%Z; cbn [IZR]; ring|]. rewrite (Rabs_pos_eq 20) by lra. split; [lra|].
  assert (0 < rad 20) by (unfold rad; lra). rewrite (Rabs_pos_eq (rad 20)) by lra.
  split; [unfold rad; lra|]. left. replace (rad (-10) + rad 10) with 0 by (unfold rad; field). rewrite Rabs_R0. lra.
Qed.
(* ---- nearly antipodal *)
Lemma opposite_fails : forall flat, inverse flat 298 297 0 45 (1799 / 10) (-45) (1 / 1000000000000) = Raises ValueError.
Proof.
  intros flat. pose proof PI_RGT_0 as P0. pose proof PI2_1 as P1. pose proof PI_4 as P4. apply antipodal_fails; [lra|lra|lra|lra|]. exists (1799 / 10).
  split; [exists 0%Z; cbn [IZR]; ring|].
  assert (RT : rad (1799 / 10) = PI - PI / 1800) by (unfold rad; field). rewrite RT, (Rabs_pos_eq (PI - PI / 1800)) by lra.
  replace (PI - (PI - PI / 1800)) with (PI / 1800) by ring. split; [lra|].
  assert (FL : flattening 298 297 = 1 / 298) by (unfold flattening; field). rewrite FL.
  assert (B : 0 < reduced (1 / 298) (rad 45) < PI / 4).
  { unfold reduced. replace (rad 45) with (PI / 4) by (unfold rad; field). rewrite tan_PI4.
    split; [rewrite <- atan_0 at 1|rewrite <- atan_1]; apply atan_increasing; lra. }
  assert (CB : 7 / 10 < cos (reduced (1 / 298) (rad 45))).
  { apply Rlt_trans with (cos (PI / 4)); [|apply cos_decreasing_1; lra]. rewrite cos_PI4. pose proof (sqrt_lt_R0 2 ltac:(lra)) as Q.
    pose proof (sqrt_sqrt 2 ltac:(lra)) as QQ. apply Rmult_lt_reg_r with (sqrt 2); [exact Q|]. replace (1 / sqrt 2 * sqrt 2) with 1 by (field; lra).
    assert (sqrt 2 < 10 / 7) by nra. lra. }
  nra.
Qed.
(* ---- half way round the equator *)
Lemma not_shortest : forall flat a b tol, 0 < b -> b < a -> exists az baz s, inverse flat a b 0 0 180 0 tol = Done (az, baz, s, false) /\
  exists az' az2 d, geodesic a b (rad 0) (rad 0) az' (rad 180) (rad 0) az2 d /\ 0 <= d < s.
Proof.
  intros flat a b tol PB BA. assert (PA : 0 < a) by lra. pose proof PI_RGT_0 as P0.
  assert (E : exists az baz, inverse flat a b 0 0 180 0 tol = Done (az, baz, PI * a, false)).
  { unfold inverse. rewrite !(proj2 (req_t 0 0)) by reflexivity. cbn [andb]. unfold inverse_equatorial.
    replace (2 * PI * a * Rabs (0 - 180) / 360) with (PI * a).
    - destruct (rlt _ 0); eexists; eexists; reflexivity.
    - rewrite Rabs_left by lra. field. }
  destruct E as (az & baz & E). exists az, baz, (PI * a). split; [exact E|].
  exists 0, PI, (geodesic_length a b 1 0 PI). assert (R0 : rad 0 = 0) by (unfold rad; field). rewrite R0. replace (rad 180) with (0 + PI) by (unfold rad; field).
  split; [apply over_the_pole; assumption|]. split; [|apply meridian_shorter; assumption].
  unfold geodesic_length. apply RInt_ge_0; [lra|apply ex_speed; lra|intros; apply sqrt_pos].
Qed.
(* ---- calls that succeed *)
Lemma short_arc : forall flat, exists az baz s, inverse flat 298 297 10 20 10 50 (1 / 1000000000000) = Done (az, baz, s, false).
Proof.
  intros flat. destruct (inverse_meridian flat 298 297 10 20 10 50 (1 / 1000000000000)) as (az & baz & s & E & _); try lra.
  - unfold third. rewrite Rabs_pos_eq by lra. lra.
  - left. exists 0%Z. cbn [IZR]. ring.
  - exists az, baz, s. exact E.
Qed.
Lemma oblique_arc : forall flat, exists az baz s, inverse flat 1 1 10 20 50 (-40) (1 / 1000000000000) = Done (az, baz, s, false).
Proof.
  intros flat. pose proof PI_RGT_0 as P0. pose proof PI2_1 as P1. destruct (inverse_sphere flat 1 10 20 50 (-40) (1 / 1000000000000)) as (az & baz & s & E & _); try lra.
  - right. right. split; [replace (rad 20 + rad (-40)) with (- (PI / 9)) by (unfold rad; field); rewrite Rabs_left by lra; lra|].
    exists 40. split; [exists 0%Z; cbn [IZR]; ring|]. rewrite Rabs_pos_eq; unfold rad; lra.
  - exists az, baz, s. exact E.
Qed.
Lemma misses_example : misses_poles 298 297 (rad 10) (rad 30) 100 (700 * (297 + Rabs 100) * Rabs (third 298 297) ^ 7).
Proof.
  intros s1 o1 b1 k (_ & B & _) (_ & _ & _ & H & _). exfalso.
  assert (0 < cos b1) by (apply cos_gt_0; lra). replace (rad 30) with (PI / 6) in H by (unfold rad; field). rewrite sin_PI6 in H. lra.
Qed.
(* ---- exchanged ends *)
Lemma symmetric_cases : forall flat a b x1 y1 x2 y2 tol,
  match inverse flat a b x2 y2 x1 y1 tol, inverse flat a b x1 y1 x2 y2 tol with
  | Done (_, _, s, w), Done (_, _, s', w') => s = s' /\ w = w'
  | Raises e, Raises e' => e = e'
  | _, _ => False
  end.
Proof.
  intros flat a b x1 y1 x2 y2 tol. pose proof (inverse_symmetric flat a b x1 y1 x2 y2 tol) as H.
  destruct (inverse flat a b x2 y2 x1 y1 tol) as [[[[az baz] s] w]|e], (inverse flat a b x1 y1 x2 y2 tol) as [[[[az' baz'] s'] w']|e'];
    cbn [distance_of] in H; inversion H; auto.
Qed.
Lemma exchanged_case : forall flat a b x1 y1 x2 y2 tol az baz s w,
  Rabs y1 <> Rabs y2 -> ~ congd x1 x2 -> ~ congd x1 (x2 + 180) ->
  inverse flat a b x1 y1 x2 y2 tol = Done (az, baz, s, w) -> inverse flat a b x2 y2 x1 y1 tol = Done (baz, az, s, w).
Proof. intros flat a b x1 y1 x2 y2 tol az baz s w N1 N2 N3 H. rewrite inverse_exchanged by assumption. rewrite H. reflexivity. Qed.
