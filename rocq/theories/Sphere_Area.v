(** The area between a great circle segment and the equator. *)
From Coq Require Import List ZArith Reals Bool Arith Lia.
From Coquelicot Require Import Coquelicot.
From Coq Require Import Lra Psatz.
From Verif Require Import Geom_Model GeomR_Model GeomR_Spec GeomR_Proofs Sphere_Model Sphere_Spec Sphere_Proofs Sphere_Dist Sphere_Bnd Sphere_AreaSpec.
From Verif Require TerrainR_Model TerrainR_Proofs.
Import ListNotations.
Open Scope R_scope.

Lemma atan2_upper : forall flat y x, 0 < y -> atan2 flat y x = PI / 2 - atan (x / y).
Proof.
  intros flat y x Y. assert (N : x <> 0 \/ y <> 0) by (right; lra).
  destruct (atan2_polar flat y x N) as (A & B & C). pose proof (norm_pos x y N) as R0. pose proof PI_RGT_0 as P.
  set (r := sqrt (x * x + y * y)) in *. set (t := atan2 flat y x) in *.
  assert (S : 0 < sin t) by (destruct (Rle_lt_dec (sin t) 0); [nra|assumption]).
  assert (T : 0 < t < PI).
  { split; [destruct (Rle_lt_dec t 0) as [L|L]; [|exact L]|].
    - destruct (Req_dec t 0) as [Z|Z]; [rewrite Z, sin_0 in S; lra|]. assert (sin t < 0) by (apply sin_lt_0_var; lra). lra.
    - destruct C as [_ [C|C]]; [exact C|]. rewrite C, sin_PI in S. lra. }
  assert (E : x / y = tan (PI / 2 - t)).
  { unfold tan. rewrite sin_shift, cos_shift. replace (cos t / sin t) with (r * cos t / (r * sin t)) by (field; lra). rewrite A, B. reflexivity. }
  rewrite E, atan_tan by lra. ring.
Qed.
Lemma vincenty_sphere : forall flat a L p1 p2, - (PI / 2) < p1 < PI / 2 -> - (PI / 2) < p2 < PI / 2 ->
  exists s, solve_vincenty flat a 0 L p1 p2 =
    (atan2 flat (cos p2 * sin L) (cos p1 * sin p2 - sin p1 * cos p2 * cos L),
     atan2 flat (cos p1 * sin L) (- sin p1 * cos p2 + cos p1 * sin p2 * cos L), s).
Proof.
  intros flat a L p1 p2 H1 H2. eexists. unfold solve_vincenty. cbv zeta.
  replace ((1 - 0) * tan p1) with (tan p1) by ring. replace ((1 - 0) * tan p2) with (tan p2) by ring. rewrite !atan_tan by assumption.
  replace (1 - 0 * (2 - 0) * (5 / 10 * (cos p1 + cos p2) * (5 / 10 * (cos p1 + cos p2)))) with 1 by ring.
  rewrite sqrt_1. replace (L / 1) with L by field. reflexivity.
Qed.
(** The tangent of the latitude of the great circle through two positions at longitude [x]. *)
Section Under.
Variables L p1 p2 : R.
Hypothesis HL : 0 < L < PI.
Hypothesis H1 : - (PI / 2) < p1 < PI / 2.
Hypothesis H2 : - (PI / 2) < p2 < PI / 2.
Definition tlat (x : R) : R := (tan p1 * sin (L - x) + tan p2 * sin x) / sin L.
Definition dtlat (x : R) : R := (- tan p1 * cos (L - x) + tan p2 * cos x) / sin L.
Definition bearing_at (x : R) : R := PI / 2 - atan (dtlat x / sqrt (1 + tlat x * tlat x)).
Lemma sL : 0 < sin L. Proof. apply sin_gt_0; lra. Qed.
Lemma d_tlat : forall x, is_derive tlat x (dtlat x).
Proof. intros x. pose proof sL. unfold tlat, dtlat. auto_derive; [trivial|]. unfold Rminus. field. lra. Qed.
Lemma d_dtlat : forall x, is_derive dtlat x (- tlat x).
Proof. intros x. pose proof sL. unfold tlat, dtlat. auto_derive; [trivial|]. unfold Rminus. field. lra. Qed.
Lemma d_bearing : forall x, is_derive bearing_at x (tlat x / sqrt (1 + tlat x * tlat x)).
Proof.
  intros x. set (T := tlat x). set (T' := dtlat x).
  assert (P : 0 < 1 + T * T) by nra. pose proof (sqrt_lt_R0 _ P) as Q. set (r := sqrt (1 + T * T)) in *.
  assert (RR : r * r = 1 + T * T) by (apply sqrt_sqrt; lra).
  assert (D1 : is_derive (fun x => 1 + tlat x * tlat x) x (2 * T * T')).
  { replace (2 * T * T') with (0 + (T' * T + T * T')) by ring.
    apply (is_derive_plus (fun _ => 1) (fun x => tlat x * tlat x) x 0 (T' * T + T * T')); [exact (is_derive_const (K := R_AbsRing) (V := R_NormedModule) 1 x)|].
    apply (is_derive_mult tlat tlat x T' T'); [apply d_tlat|apply d_tlat|exact Rmult_comm]. }
  assert (D2 : is_derive (fun x => sqrt (1 + tlat x * tlat x)) x ((2 * T * T') / (2 * r))).
  { apply (is_derive_sqrt (fun x => 1 + tlat x * tlat x) x (2 * T * T')); [exact D1|exact P]. }
  assert (D3 : is_derive (fun x => dtlat x / sqrt (1 + tlat x * tlat x)) x ((- T * r - T' * ((2 * T * T') / (2 * r))) / r ^ 2)).
  { apply (is_derive_div dtlat (fun x => sqrt (1 + tlat x * tlat x)) x (- T) ((2 * T * T') / (2 * r))); [apply d_dtlat|exact D2|].
    cbv beta. fold T r. lra. }
  assert (D4 : is_derive (fun x => atan (dtlat x / sqrt (1 + tlat x * tlat x))) x (((- T * r - T' * ((2 * T * T') / (2 * r))) / r ^ 2) * (/ (1 + (T' / r) * (T' / r))))).
  { apply (is_derive_comp atan (fun x => dtlat x / sqrt (1 + tlat x * tlat x)) x (/ (1 + (T' / r) * (T' / r)))); [|exact D3].
    apply (is_derive_atan (T' / r)). }
  unfold bearing_at.
  assert (D5 : is_derive (fun x => PI / 2 - atan (dtlat x / sqrt (1 + tlat x * tlat x))) x (0 - ((- T * r - T' * ((2 * T * T') / (2 * r))) / r ^ 2) * (/ (1 + (T' / r) * (T' / r))))).
  { apply (is_derive_minus (fun _ => PI / 2) (fun x => atan (dtlat x / sqrt (1 + tlat x * tlat x)))); [exact (is_derive_const (K := R_AbsRing) (V := R_NormedModule) (PI / 2) x)|exact D4]. }
  replace (T / r) with (0 - (- T * r - T' * ((2 * T * T') / (2 * r))) / r ^ 2 * / (1 + T' / r * (T' / r))); [exact D5|].
  assert (0 < r * r + T' * T') by nra.
  field_simplify_eq; [|split; lra]. nra.
Qed.
Lemma cont_lat : forall x, continuous (fun x => tlat x / sqrt (1 + tlat x * tlat x)) x.
Proof.
  intros x. apply (ex_derive_continuous (fun x => tlat x / sqrt (1 + tlat x * tlat x))). auto_derive.
  assert (P : 0 < 1 + tlat x * tlat x) by nra.
  assert (E : ex_derive tlat x) by (exists (dtlat x); apply d_tlat).
  repeat (split; [first [exact E|exact P|apply Rgt_not_eq, sqrt_lt_R0, P]|]). exact I.
Qed.
Lemma under_int : is_RInt (fun x => tlat x / sqrt (1 + tlat x * tlat x)) 0 L (bearing_at L - bearing_at 0).
Proof. apply (is_RInt_derive bearing_at); intros; [apply d_bearing|apply cont_lat]. Qed.
End Under.
Lemma cos_of_tan : forall p, - (PI / 2) < p < PI / 2 -> / sqrt (1 + tan p * tan p) = cos p.
Proof.
  intros p H. assert (C : 0 < cos p) by (apply cos_gt_0; lra).
  assert (E : 1 + tan p * tan p = / cos p * / cos p).
  { unfold tan. pose proof (sin2_cos2 p) as K. unfold Rsqr in K. field_simplify_eq; [|lra]. replace (cos p ^ 2) with (cos p * cos p) by ring. replace (sin p ^ 2) with (sin p * sin p) by ring. lra. }
  rewrite E, sqrt_square; [field; lra|]. apply Rlt_le, Rinv_0_lt_compat, C.
Qed.
Section Ends.
Variables flat L p1 p2 : R.
Hypothesis HL : 0 < L < PI.
Hypothesis H1 : - (PI / 2) < p1 < PI / 2.
Hypothesis H2 : - (PI / 2) < p2 < PI / 2.
Lemma cp1 : 0 < cos p1. Proof. apply cos_gt_0; lra. Qed.
Lemma cp2 : 0 < cos p2. Proof. apply cos_gt_0; lra. Qed.
Lemma tlat_0 : tlat L p1 p2 0 = tan p1.
Proof. pose proof (sL L HL). unfold tlat. rewrite Rminus_0_r, sin_0. field. lra. Qed.
Lemma tlat_L : tlat L p1 p2 L = tan p2.
Proof. pose proof (sL L HL). unfold tlat. replace (L - L) with 0 by ring. rewrite sin_0. field. lra. Qed.
Lemma start_bearing : bearing_at L p1 p2 0 = atan2 flat (cos p2 * sin L) (cos p1 * sin p2 - sin p1 * cos p2 * cos L).
Proof.
  pose proof (sL L HL) as S. pose proof cp1 as C1. pose proof cp2 as C2.
  rewrite atan2_upper by (apply Rmult_lt_0_compat; assumption). unfold bearing_at. f_equal. f_equal. rewrite tlat_0.
  unfold Rdiv at 1. rewrite (cos_of_tan p1 H1). unfold dtlat. rewrite Rminus_0_r, cos_0. unfold tan. field. repeat split; lra.
Qed.
Lemma end_bearing : bearing_at L p1 p2 L = atan2 flat (cos p1 * sin L) (- sin p1 * cos p2 + cos p1 * sin p2 * cos L).
Proof.
  pose proof (sL L HL) as S. pose proof cp1 as C1. pose proof cp2 as C2.
  rewrite atan2_upper by (apply Rmult_lt_0_compat; assumption). unfold bearing_at. f_equal. f_equal. rewrite tlat_L.
  unfold Rdiv at 1. rewrite (cos_of_tan p2 H2). unfold dtlat. replace (L - L) with 0 by ring. rewrite cos_0. unfold tan. field. repeat split; lra.
Qed.
(** The change of bearing: the same for exchanged latitudes, opposite in the other hemisphere. *)
Definition turn : R := bearing_at L p1 p2 L - bearing_at L p1 p2 0.
Lemma turn_formula : turn = atan2 flat (cos p1 * sin L) (- sin p1 * cos p2 + cos p1 * sin p2 * cos L) - atan2 flat (cos p2 * sin L) (cos p1 * sin p2 - sin p1 * cos p2 * cos L).
Proof. unfold turn. rewrite start_bearing, end_bearing. reflexivity. Qed.
End Ends.
Lemma turn_swap : forall L p1 p2, 0 < L < PI -> - (PI / 2) < p1 < PI / 2 -> - (PI / 2) < p2 < PI / 2 -> turn L p2 p1 = turn L p1 p2.
Proof.
  intros L p1 p2 HL H1 H2. rewrite !(turn_formula 0) by assumption. pose proof (sL L HL) as S. pose proof (cp1 p1 H1) as C1. pose proof (cp1 p2 H2) as C2.
  rewrite !atan2_upper by (apply Rmult_lt_0_compat; assumption).
  replace ((- sin p2 * cos p1 + cos p2 * sin p1 * cos L) / (cos p2 * sin L)) with (- ((cos p1 * sin p2 - sin p1 * cos p2 * cos L) / (cos p2 * sin L))) by (field; split; lra).
  replace ((cos p2 * sin p1 - sin p2 * cos p1 * cos L) / (cos p1 * sin L)) with (- ((- sin p1 * cos p2 + cos p1 * sin p2 * cos L) / (cos p1 * sin L))) by (field; split; lra).
  rewrite !atan_opp. ring.
Qed.
Lemma turn_mirror : forall L p1 p2, 0 < L < PI -> - (PI / 2) < p1 < PI / 2 -> - (PI / 2) < p2 < PI / 2 -> turn L (- p1) (- p2) = - turn L p1 p2.
Proof.
  intros L p1 p2 HL H1 H2. rewrite !(turn_formula 0) by lra. pose proof (sL L HL) as S. pose proof (cp1 p1 H1) as C1. pose proof (cp1 p2 H2) as C2.
  rewrite !cos_neg, !sin_neg.
  rewrite !atan2_upper by (apply Rmult_lt_0_compat; assumption).
  replace ((- - sin p1 * cos p2 + cos p1 * - sin p2 * cos L) / (cos p1 * sin L)) with (- ((- sin p1 * cos p2 + cos p1 * sin p2 * cos L) / (cos p1 * sin L))) by (field; split; lra).
  replace ((cos p1 * - sin p2 - - sin p1 * cos p2 * cos L) / (cos p2 * sin L)) with (- ((cos p1 * sin p2 - sin p1 * cos p2 * cos L) / (cos p2 * sin L))) by (field; split; lra).
  rewrite !atan_opp. ring.
Qed.
(** The side of the equator of the end that is farther from it. *)
Definition side (y1 y2 : R) : R := if rlt 0 (if rlt (Rabs y1) (Rabs y2) then y2 else y1) then -1 else 1.
Lemma radians_rad : forall x, radians x = rad x. Proof. intros. unfold radians, rad. field. Qed.
Lemma rad_opp : forall x, rad (- x) = - rad x. Proof. intros. unfold rad. field. Qed.
Lemma area_turn : forall flat r x1 y1 x2 y2, -90 < y1 < 90 -> -90 < y2 < 90 -> 0 < x2 - x1 < 180 ->
  spherical_area flat r x1 y1 x2 y2 = r * r * (side y1 y2 * turn (rad x2 - rad x1) (rad y1) (rad y2)) /\
  spherical_area flat r x2 y1 x1 y2 = - (r * r * (side y1 y2 * turn (rad x2 - rad x1) (rad y1) (rad y2))).
Proof.
  intros flat r x1 y1 x2 y2 H1 H2 HX. pose proof PI_RGT_0 as P.
  assert (HL : 0 < rad x2 - rad x1 < PI) by (unfold rad; split; nra).
  assert (B1 : - (PI / 2) < rad y1 < PI / 2) by (apply rad_lat; assumption). assert (B2 : - (PI / 2) < rad y2 < PI / 2) by (apply rad_lat; assumption).
  assert (V : forall a b, - (PI / 2) < a < PI / 2 -> - (PI / 2) < b < PI / 2 -> exists s, exists a1 a2,
    solve_vincenty flat r 0 (rad x2 - rad x1) a b = (a1, a2, s) /\ a2 - a1 = turn (rad x2 - rad x1) a b).
  { intros a b Ha Hb. destruct (vincenty_sphere flat r (rad x2 - rad x1) a b Ha Hb) as (s & E). exists s. do 2 eexists. split; [exact E|].
    symmetry. apply (turn_formula flat); assumption. }
  assert (M : forall rev, (let '(y1', y2') := (let '(y1, y2) := if rlt (Rabs y1) (Rabs y2) then (y2, y1) else (y1, y2) in if rlt 0 y1 then (- y1, - y2) else (y1, y2)) in
     let '(alpha1, alpha2, _) := solve_vincenty flat r 0 (rad x2 - rad x1) (rad y1') (rad y2') in rev * (r * r) * (alpha2 - alpha1)) =
     rev * (r * r * (side y1 y2 * turn (rad x2 - rad x1) (rad y1) (rad y2)))).
  { intros rev. unfold side. destruct (rlt (Rabs y1) (Rabs y2)).
    - destruct (rlt 0 y2).
      + rewrite !rad_opp. destruct (V (- rad y2) (- rad y1)) as (s & a1 & a2 & -> & E); [lra|lra|]. rewrite E, turn_mirror, turn_swap by assumption. ring.
      + destruct (V (rad y2) (rad y1)) as (s & a1 & a2 & -> & E); [lra|lra|]. rewrite E, turn_swap by assumption. ring.
    - destruct (rlt 0 y1).
      + rewrite !rad_opp. destruct (V (- rad y1) (- rad y2)) as (s & a1 & a2 & -> & E); [lra|lra|]. rewrite E, turn_mirror by assumption. ring.
      + destruct (V (rad y1) (rad y2)) as (s & a1 & a2 & -> & E); [lra|lra|]. rewrite E. ring. }
  split.
  - rewrite <- (Rmult_1_l (r * r * _)), <- M. unfold spherical_area, canonicalr. rewrite (proj2 (rlt_f x2 x1)) by lra.
    assert (RD : reduce_degr (x2 - x1) = x2 - x1) by (apply reduce_degr_unique; [lra|exists 0%Z; ring]). rewrite RD.
    rewrite (proj2 (rlt_f (x2 - x1) 0)) by lra. rewrite (proj2 (rlt_f 180 (x2 - x1))) by lra. cbn [orb].
    destruct (rlt (Rabs y1) (Rabs y2)); [destruct (rlt 0 y2)|destruct (rlt 0 y1)]; rewrite !radians_rad;
      (replace (rad (x2 - x1 - 0)) with (rad x2 - rad x1) by (unfold rad; field)); destruct (solve_vincenty _ _ _ _ _ _) as [[? ?] ?]; reflexivity.
  - rewrite <- (Rmult_1_l (r * r * _)), <- Ropp_mult_distr_l_reverse, <- M. unfold spherical_area, canonicalr. rewrite (proj2 (rlt_t x1 x2)) by lra.
    assert (RD : reduce_degr (x1 - x2) = x1 - x2) by (apply reduce_degr_unique; [lra|exists 0%Z; ring]). rewrite RD.
    rewrite (proj2 (rlt_t (x1 - x2) 0)) by lra. cbn [orb].
    destruct (rlt (Rabs y1) (Rabs y2)); [destruct (rlt 0 y2)|destruct (rlt 0 y1)]; rewrite !radians_rad;
      (replace (rad (- (x1 - x2) - 0)) with (rad x2 - rad x1) by (unfold rad; field)); destruct (solve_vincenty _ _ _ _ _ _) as [[? ?] ?]; reflexivity.
Qed.
Lemma area_meridian : forall flat r x y1 y2, -90 < y1 < 90 -> -90 < y2 < 90 -> spherical_area flat r x y1 x y2 = 0.
Proof.
  intros flat r x y1 y2 H1 H2. pose proof PI_RGT_0 as P. unfold spherical_area, canonicalr.
  rewrite (proj2 (rlt_f x x)) by lra.
  assert (RD : reduce_degr (x - x) = 0) by (apply reduce_degr_unique; [lra|exists 0%Z; ring]). rewrite RD.
  rewrite (proj2 (rlt_f 0 0)) by lra. rewrite (proj2 (rlt_f 180 0)) by lra. cbn [orb].
  assert (V : forall a b, -90 < a < 90 -> -90 < b < 90 -> a <= b -> exists s c, solve_vincenty flat r 0 (radians (0 - 0)) (radians a) (radians b) = (c, c, s)).
  { intros a b Ha Hb Le. rewrite !radians_rad. destruct (vincenty_sphere flat r (rad (0 - 0)) (rad a) (rad b)) as (s & E); [apply rad_lat; assumption|apply rad_lat; assumption|].
    exists s. rewrite E. replace (0 - 0) with 0 by ring. rewrite rad_0, sin_0, cos_0, !Rmult_0_r, !Rmult_1_r.
    replace (- sin (rad a) * cos (rad b) + cos (rad a) * sin (rad b)) with (cos (rad a) * sin (rad b) - sin (rad a) * cos (rad b)) by ring.
    eexists. reflexivity. }
  destruct (rlt (Rabs y1) (Rabs y2)) eqn:E1; [destruct (rlt 0 y2) eqn:E2|destruct (rlt 0 y1) eqn:E2].
  - apply rlt_t in E1, E2. unfold Rabs in E1. destruct (Rcase_abs y1), (Rcase_abs y2); try lra;
      (destruct (V (- y2) (- y1)) as (s & c & ->); [lra|lra|lra|ring]).
  - apply rlt_t in E1. apply rlt_f in E2. unfold Rabs in E1. destruct (Rcase_abs y1), (Rcase_abs y2); try lra;
      (destruct (V y2 y1) as (s & c & ->); [lra|lra|lra|ring]).
  - apply rlt_f in E1. apply rlt_t in E2. unfold Rabs in E1. destruct (Rcase_abs y1), (Rcase_abs y2); try lra;
      (destruct (V (- y1) (- y2)) as (s & c & ->); [lra|lra|lra|ring]).
  - apply rlt_f in E1, E2. unfold Rabs in E1. destruct (Rcase_abs y1), (Rcase_abs y2); try lra;
      (destruct (V y1 y2) as (s & c & ->); [lra|lra|lra|ring]).
Qed.

(** The latitude along a great circle. *)
Lemma plane_tan : forall l1 p1 l2 p2 x p, 0 < sin (l2 - l1) -> 0 < cos p1 -> 0 < cos p2 -> - (PI / 2) < p < PI / 2 ->
  (dot (vprod (upos l1 p1) (upos l2 p2)) (upos x p) = 0 <-> tan p = tlat (l2 - l1) p1 p2 (x - l1)).
Proof.
  intros l1 p1 l2 p2 x p S C1 C2 H. assert (C : 0 < cos p) by (apply cos_gt_0; lra).
  assert (E : dot (vprod (upos l1 p1) (upos l2 p2)) (upos x p) =
    (sin p * sin (l2 - l1) * (cos p1 * cos p2)) - cos p * (cos p1 * sin p2 * sin (x - l1) + sin p1 * cos p2 * sin (l2 - x))).
  { unfold dot, vprod, upos. cbn [fst snd]. rewrite !sin_minus. ring. }
  assert (T : tlat (l2 - l1) p1 p2 (x - l1) = (cos p1 * sin p2 * sin (x - l1) + sin p1 * cos p2 * sin (l2 - x)) / (sin (l2 - l1) * (cos p1 * cos p2))).
  { unfold tlat, tan. replace (l2 - l1 - (x - l1)) with (l2 - x) by ring. field. repeat split; lra. }
  rewrite E, T. set (w := cos p1 * sin p2 * sin (x - l1) + sin p1 * cos p2 * sin (l2 - x)). set (k := sin (l2 - l1) * (cos p1 * cos p2)).
  assert (K : 0 < k) by (apply Rmult_lt_0_compat; [assumption|apply Rmult_lt_0_compat; assumption]).
  replace (sin p * sin (l2 - l1) * (cos p1 * cos p2)) with (sin p * k) by (unfold k; ring). unfold tan. split; intros Q.
  - apply Rmult_eq_reg_r with (cos p * k); [|nra]. transitivity (sin p * k); [field; lra|]. transitivity (cos p * w); [lra|field; lra].
  - apply Rmult_eq_compat_r with (r := cos p * k) in Q. replace (sin p / cos p * (cos p * k)) with (sin p * k) in Q by (field; lra).
    replace (w / k * (cos p * k)) with (cos p * w) in Q by (field; lra). lra.
Qed.
Lemma sin_by_tan : forall p t, - (PI / 2) < p < PI / 2 -> tan p = t -> sin p = t / sqrt (1 + t * t).
Proof.
  intros p t H E. rewrite <- E. unfold Rdiv. rewrite (cos_of_tan p H). unfold tan. field. apply Rgt_not_eq, cos_gt_0; lra.
Qed.
Lemma atan_in : forall t, - (PI / 2) < atan t < PI / 2. Proof. intros t. pose proof (atan_bound t). lra. Qed.
Lemma under_turn : forall p q, -90 < snd p < 90 -> -90 < snd q < 90 -> 0 < fst q - fst p < 180 ->
  forall A, area_under p q A <-> A = turn (rad (fst q) - rad (fst p)) (rad (snd p)) (rad (snd q)).
Proof.
  intros [x1 y1] [x2 y2] H1 H2 HX A. cbn [fst snd] in *. pose proof PI_RGT_0 as P.
  assert (LT : rad x1 < rad x2) by (unfold rad; nra).
  assert (HL : 0 < rad x2 - rad x1 < PI) by (unfold rad; split; nra).
  assert (B1 : - (PI / 2) < rad y1 < PI / 2) by (apply rad_lat; assumption). assert (B2 : - (PI / 2) < rad y2 < PI / 2) by (apply rad_lat; assumption).
  pose proof (sL _ HL) as S. pose proof (cp1 _ B1) as C1. pose proof (cp1 _ B2) as C2.
  set (L := rad x2 - rad x1) in *. set (T := tlat L (rad y1) (rad y2)).
  assert (I0 : is_RInt (fun x => T (x - rad x1) / sqrt (1 + T (x - rad x1) * T (x - rad x1))) (rad x1) (rad x2) (turn L (rad y1) (rad y2))).
  { pose proof (under_int L (rad y1) (rad y2) HL) as U. fold T in U.
    assert (K : is_RInt (fun y => scal 1 ((fun x => T x / sqrt (1 + T x * T x)) (1 * y + - rad x1))) (rad x1) (rad x2) (turn L (rad y1) (rad y2))).
    { apply (is_RInt_comp_lin (fun x => T x / sqrt (1 + T x * T x)) 1 (- rad x1) (rad x1) (rad x2)).
      replace (1 * rad x1 + - rad x1) with 0 by ring. replace (1 * rad x2 + - rad x1) with L by (unfold L; ring). exact U. }
    apply (is_RInt_ext (fun y => scal 1 ((fun x => T x / sqrt (1 + T x * T x)) (1 * y + - rad x1)))); [|exact K].
    intros x _. unfold scal. cbn. unfold mult. cbn. replace (1 * x + - rad x1) with (x - rad x1) by ring. ring. }
  split.
  - intros (phi & PH & I1).
    apply (is_RInt_ext _ (fun x => T (x - rad x1) / sqrt (1 + T (x - rad x1) * T (x - rad x1)))) in I1.
    + pose proof (is_RInt_unique (V := R_CompleteNormedModule) _ _ _ _ I0) as J0. pose proof (is_RInt_unique (V := R_CompleteNormedModule) _ _ _ _ I1) as J1. rewrite <- J0, <- J1. reflexivity.
    + intros x X. assert (X' : Rmin (rad x1) (rad x2) <= x <= Rmax (rad x1) (rad x2)) by (split; apply Rlt_le; apply X).
      destruct (PH x X') as [PB PP]. cbn [fst snd] in PP. apply sin_by_tan; [exact PB|].
      apply (plane_tan (rad x1) (rad y1) (rad x2) (rad y2) x (phi x) S C1 C2 PB) in PP. exact PP.
  - intros ->. exists (fun x => atan (T (x - rad x1))). split.
    + intros x _. cbn [fst snd]. split; [apply atan_in|].
      apply (plane_tan (rad x1) (rad y1) (rad x2) (rad y2) x _ S C1 C2 (atan_in _)). apply tan_atan.
    + apply (is_RInt_ext (fun x => T (x - rad x1) / sqrt (1 + T (x - rad x1) * T (x - rad x1)))); [|exact I0].
      intros x _. symmetry. apply sin_by_tan; [apply atan_in|apply tan_atan].
Qed.
Lemma dot_vprod_swap : forall u v w, dot (vprod u v) w = - dot (vprod v u) w.
Proof. intros [[a b] c] [[d e] f] [[x y] z]. unfold dot, vprod. cbn. ring. Qed.
Lemma under_reverse : forall p q A, area_under p q A <-> area_under q p (- A).
Proof.
  assert (F : forall p q A, area_under p q A -> area_under q p (- A)).
  { intros p q A (phi & PH & I). exists phi. split.
    - intros x X. rewrite Rmin_comm, Rmax_comm in X. destruct (PH x X) as [B D]. split; [exact B|]. rewrite dot_vprod_swap, D. ring.
    - exact (is_RInt_swap (V := R_NormedModule) _ _ _ _ I). }
  intros p q A. split; [apply F|]. intros H. apply F in H. rewrite Ropp_involutive in H. exact H.
Qed.
Lemma under_meridian : forall p q, -90 < snd p < 90 -> -90 < snd q < 90 -> fst p = fst q -> forall A, area_under p q A -> A = 0.
Proof.
  intros p q H1 H2 E A (phi & _ & I). rewrite E in I. pose proof (is_RInt_unique (V := R_CompleteNormedModule) _ _ _ _ I) as J. rewrite <- J. apply (RInt_point (V := R_CompleteNormedModule)).
Qed.
Lemma under_meridian_exists : forall p q, -90 < snd p < 90 -> -90 < snd q < 90 -> fst p = fst q -> area_under p q 0.
Proof.
  intros [x y1] [x' y2] H1 H2 E. cbn [fst snd] in *. subst x'. exists (fun _ => rad y1). split.
  - intros z Z. cbn [fst snd] in *. rewrite Rmin_left, Rmax_left in Z by lra. assert (z = rad x) by lra. subst z.
    split; [apply rad_lat; assumption|]. unfold pos, dot, vprod, upos. cbn [fst snd]. ring.
  - cbn [fst]. pose proof (is_RInt_point (fun _ => sin (rad y1)) (rad x)) as K. exact K.
Qed.
(** One edge. *)
Lemma edge_area : forall flat r p q A, -90 < snd p < 90 -> -90 < snd q < 90 -> -180 < fst q - fst p < 180 -> area_under p q A ->
  spherical_area flat r (fst p) (snd p) (fst q) (snd q) = r * r * (side (snd p) (snd q) * A).
Proof.
  intros flat r [x1 y1] [x2 y2] A H1 H2 HX U. cbn [fst snd] in *.
  destruct (Rtotal_order x1 x2) as [T|[T|T]].
  - apply under_turn in U; [|assumption|assumption|cbn; lra]. subst A. cbn [fst snd].
    destruct (area_turn flat r x1 y1 x2 y2) as [E _]; [assumption|assumption|lra|exact E].
  - subst x2. apply under_meridian in U; [|assumption|assumption|reflexivity]. subst A. rewrite area_meridian by assumption. ring.
  - apply under_reverse, under_turn in U; [|assumption|assumption|cbn; lra]. cbn [fst snd] in U.
    destruct (area_turn flat r x2 y1 x1 y2) as [_ E]; [assumption|assumption|lra|]. rewrite E.
    replace A with (- turn (rad x1 - rad x2) (rad y2) (rad y1)) by lra.
    rewrite turn_swap; [ring| | |]; [unfold rad; pose proof PI_RGT_0; split; nra|apply rad_lat; assumption|apply rad_lat; assumption].
Qed.
Lemma edge_area_exists : forall p q, -90 < snd p < 90 -> -90 < snd q < 90 -> -180 < fst q - fst p < 180 -> exists A, area_under p q A.
Proof.
  intros [x1 y1] [x2 y2] H1 H2 HX. cbn [fst snd] in *. destruct (Rtotal_order x1 x2) as [T|[T|T]].
  - eexists. apply under_turn; [assumption|assumption|cbn; lra|reflexivity].
  - exists 0. apply under_meridian_exists; assumption.
  - eexists. apply under_reverse, under_turn; [assumption|assumption|cbn; lra|]. apply Ropp_involutive.
Qed.
(** Rings on one side of the equator. *)
Lemma area_sum_total : forall flat r s first l p As,
  Forall2 (fun e A => spherical_area flat r (fst (fst e)) (snd (fst e)) (fst (snd e)) (snd (snd e)) = r * r * (s * A)) (edges_from first p l) As ->
  area_sum flat r p (l ++ [first]) = r * r * (s * total As).
Proof.
  intros flat r s first l. induction l as [|q l IH]; intros p As H; cbn in H.
  - inversion H as [|? ? ? ? H0 H1]; subst. inversion H1; subst. cbn [app area_sum total]. cbn [fst snd] in H0. rewrite H0. ring.
  - inversion H as [|? ? ? ? H0 H1]; subst. cbn [app area_sum total]. rewrite (IH _ _ H1). cbn [fst snd] in H0. rewrite H0. ring.
Qed.
Lemma edges_from_in : forall first l p e, In e (edges_from first p l) -> (fst e = p \/ In (fst e) l) /\ (snd e = first \/ In (snd e) l).
Proof.
  intros first l. induction l as [|q l IH]; intros p e H; cbn in H.
  - destruct H as [<-|[]]. cbn. auto.
  - destruct H as [<-|H]; [cbn; auto|]. destruct (IH _ _ H) as [[A|A] [B|B]]; cbn; auto 6.
Qed.
Lemma side_one : forall y1 y2, 0 < y1 -> 0 < y2 -> side y1 y2 = -1.
Proof. intros. unfold side. destruct (rlt (Rabs y1) (Rabs y2)); rewrite (proj2 (rlt_t _ _)); lra. Qed.
Lemma side_two : forall y1 y2, y1 <= 0 -> y2 <= 0 -> side y1 y2 = 1.
Proof. intros. unfold side. destruct (rlt (Rabs y1) (Rabs y2)); rewrite (proj2 (rlt_f _ _)); lra. Qed.
Lemma turn_equator : forall L, 0 < L < PI -> turn L 0 0 = 0.
Proof. intros L HL. pose proof PI_RGT_0. assert (E := turn_mirror L 0 0 HL). rewrite Ropp_0 in E. specialize (E ltac:(lra) ltac:(lra)). lra. Qed.
Lemma under_equator : forall x1 x2 A, -180 < x2 - x1 < 180 -> area_under (x1, 0) (x2, 0) A -> A = 0.
Proof.
  intros x1 x2 A HX U. pose proof PI_RGT_0 as P. destruct (Rtotal_order x1 x2) as [T|[T|T]].
  - apply under_turn in U; [|cbn; lra|cbn; lra|cbn; lra]. cbn [fst snd] in U. rewrite rad_0 in U. rewrite turn_equator in U; [exact U|]. unfold rad. split; nra.
  - apply under_meridian in U; [exact U|cbn; lra|cbn; lra|exact T].
  - apply under_reverse, under_turn in U; [|cbn; lra|cbn; lra|cbn; lra]. cbn [fst snd] in U. rewrite rad_0 in U. rewrite turn_equator in U; [lra|]. unfold rad. split; nra.
Qed.
Lemma side_north : forall p q A, 0 <= snd p -> 0 <= snd q -> -180 < fst q - fst p < 180 -> area_under p q A -> side (snd p) (snd q) * A = -1 * A.
Proof.
  intros [x1 y1] [x2 y2] A H1 H2 HX U. cbn [fst snd] in *. unfold side. destruct (rlt (Rabs y1) (Rabs y2)) eqn:E.
  - apply rlt_t in E. rewrite !Rabs_right in E by lra. rewrite (proj2 (rlt_t 0 y2)) by lra. reflexivity.
  - apply rlt_f in E. rewrite !Rabs_right in E by lra. destruct (rlt 0 y1) eqn:F; [reflexivity|]. apply rlt_f in F.
    assert (y1 = 0) by lra. assert (y2 = 0) by lra. subst. rewrite (under_equator x1 x2 A HX U). ring.
Qed.
Lemma ring_area : forall flat r (l : list (R * R)) As, (List.Forall (fun p => 0 <= snd p < 90) l \/ List.Forall (fun p => -90 < snd p <= 0) l) ->
  List.Forall edge_ok (ring_edges l) -> Forall2 (fun e A => area_under (fst e) (snd e) A) (ring_edges l) As ->
  polygon_area_sph flat r l = r * r * Rabs (total As).
Proof.
  intros flat r l As SIDE OK U. destruct l as [|p l].
  { cbn in U. inversion U; subst. cbn. rewrite Rabs_R0. ring. }
  assert (E : exists s, (s = 1 \/ s = -1) /\
    Forall2 (fun e A => spherical_area flat r (fst (fst e)) (snd (fst e)) (fst (snd e)) (snd (snd e)) = r * r * (s * A)) (edges_from p p l) As).
  { assert (K : exists s, (s = 1 \/ s = -1) /\ forall e A, In e (edges_from p p l) -> edge_ok e -> area_under (fst e) (snd e) A ->
      -90 < snd (fst e) < 90 /\ -90 < snd (snd e) < 90 /\ side (snd (fst e)) (snd (snd e)) * A = s * A).
    { assert (IN : forall e, In e (edges_from p p l) -> In (fst e) (p :: l) /\ In (snd e) (p :: l)).
      { intros e He. apply edges_from_in in He. cbn. intuition. }
      destruct SIDE as [S|S]; rewrite Forall_forall in S.
      - exists (-1). split; [right; reflexivity|]. intros e a He Ho Ha. destruct (IN e He) as [A B]. apply S in A, B. split; [lra|]. split; [lra|]. apply side_north; [lra|lra|exact Ho|exact Ha].
      - exists 1. split; [left; reflexivity|]. intros e a He _ _. destruct (IN e He) as [A B]. apply S in A, B. split; [lra|]. split; [lra|]. rewrite side_two by lra. reflexivity. }
    destruct K as (s & S1 & K). exists s. split; [exact S1|]. cbn [ring_edges] in OK, U. rewrite Forall_forall in OK.
    revert K OK U. generalize (edges_from p p l) as es. intros es. revert As. induction es as [|e es IH]; intros As K OK U; inversion U; subst; constructor.
    - destruct (K e y (or_introl eq_refl) (OK e (or_introl eq_refl)) H1) as (A & B & C). rewrite <- C. apply edge_area; try assumption. apply OK. left. reflexivity.
    - apply IH; [intros; apply K; [right; assumption|assumption|assumption]|intros; apply OK; right; assumption|assumption]. }
  destruct E as (s & S1 & E). cbn [polygon_area_sph]. rewrite (area_sum_total flat r s p l p As E), Rabs_mult.
  assert (RR : 0 <= r * r) by nra. rewrite (Rabs_right (r * r)) by lra. rewrite Rabs_mult.
  assert (SS : Rabs s = 1) by (destruct S1 as [-> | ->]; unfold Rabs; destruct (Rcase_abs _); lra). rewrite SS. ring.
Qed.
Lemma ring_area_exists : forall l : list (R * R), List.Forall (fun p => -90 < snd p < 90) l -> List.Forall edge_ok (ring_edges l) ->
  exists As, Forall2 (fun e A => area_under (fst e) (snd e) A) (ring_edges l) As.
Proof.
  intros [|p l] S OK; [exists []; constructor|]. cbn [ring_edges] in *.
  assert (IN : forall e, In e (edges_from p p l) -> In (fst e) (p :: l) /\ In (snd e) (p :: l)).
  { intros e He. apply edges_from_in in He. cbn. intuition. }
  rewrite Forall_forall in S, OK. revert IN OK. generalize (edges_from p p l) as es. induction es as [|e es IH]; intros IN OK.
  - exists []. constructor.
  - destruct IH as [As H]; [intros; apply IN; right; assumption|intros; apply OK; right; assumption|].
    destruct (IN e (or_introl eq_refl)) as [A B]. destruct (edge_area_exists (fst e) (snd e)) as [a Ha]; [apply S; assumption|apply S; assumption|apply OK; left; reflexivity|].
    exists (a :: As). constructor; assumption.
Qed.
(** A rectangle that reaches as far south as north has no area. *)
Lemma balanced_rectangle : forall flat r w h, 0 < w < 180 -> 0 < h < 90 -> polygon_area_sph flat r [(0, - h); (w, - h); (w, h); (0, h)] = 0.
Proof.
  intros flat r w h W H. cbn [polygon_area_sph app area_sum fst snd]. rewrite !area_meridian by lra.
  destruct (area_turn flat r 0 (- h) w (- h)) as [E1 _]; [lra|lra|lra|]. destruct (area_turn flat r 0 h w h) as [_ E2]; [lra|lra|lra|].
  rewrite E1, E2, (side_one h h) by lra. rewrite (side_two (- h) (- h)) by lra. pose proof PI_RGT_0 as P.
  rewrite rad_opp, turn_mirror; [| |apply rad_lat; lra|apply rad_lat; lra].
  - match goal with |- Rabs ?e = 0 => replace e with 0 by ring end. apply Rabs_R0.
  - rewrite rad_0. unfold rad. split; nra.
Qed.
Lemma turn_level : forall L p, 0 < L < PI -> 0 < p < PI / 2 -> 0 < turn L p p.
Proof.
  intros L p HL HP. rewrite (turn_formula 0) by lra. pose proof (sL L HL) as S. pose proof (cp1 p ltac:(lra)) as C1.
  rewrite !atan2_upper by (apply Rmult_lt_0_compat; assumption).
  assert (SP : 0 < sin p) by (apply sin_gt_0; lra).
  set (m := sin p * (1 - cos L) / sin L).
  replace ((- sin p * cos p + cos p * sin p * cos L) / (cos p * sin L)) with (- m) by (unfold m; field; split; lra).
  replace ((cos p * sin p - sin p * cos p * cos L) / (cos p * sin L)) with m by (unfold m; field; split; lra).
  rewrite atan_opp. assert (0 < atan m); [|lra]. rewrite <- atan_0. apply atan_increasing.
  assert (cos L < 1). { rewrite <- cos_0. apply cos_decreasing_1; lra. }
  unfold m. apply Rdiv_lt_0_compat; [apply Rmult_lt_0_compat; lra|exact S].
Qed.
Lemma balanced_true : forall w h, 0 < w < 180 -> 0 < h < 90 -> exists As,
  Forall2 (fun e A => area_under (fst e) (snd e) A) (ring_edges [(0, - h); (w, - h); (w, h); (0, h)]) As /\ 0 < Rabs (total As).
Proof.
  intros w h W H. pose proof PI_RGT_0 as P. set (t := turn (rad w - rad 0) (rad h) (rad h)).
  assert (HL : 0 < rad w - rad 0 < PI) by (rewrite rad_0; unfold rad; split; nra).
  assert (TP : 0 < t) by (apply turn_level; [exact HL|unfold rad; split; nra]).
  exists [- t; 0; - t; 0]. cbn [ring_edges edges_from]. split.
  - constructor; [|constructor; [|constructor; [|constructor; [|constructor]]]].
    + cbn [fst snd]. apply under_turn; [cbn; lra|cbn; lra|cbn; lra|]. cbn [fst snd]. rewrite rad_opp, turn_mirror; [reflexivity|exact HL|apply rad_lat; lra|apply rad_lat; lra].
    + apply under_meridian_exists; cbn; lra.
    + cbn [fst snd]. apply under_reverse. rewrite Ropp_involutive. apply under_turn; [cbn; lra|cbn; lra|cbn; lra|reflexivity].
    + apply under_meridian_exists; cbn; lra.
  - cbn [total]. replace (- t + (0 + (- t + (0 + 0)))) with (- (2 * t)) by ring. rewrite Rabs_Ropp, Rabs_right; lra.
Qed.
Lemma edge_north : forall flat r p q A, 0 <= snd p < 90 -> 0 <= snd q < 90 -> -180 < fst q - fst p < 180 -> area_under p q A ->
  spherical_area flat r (fst p) (snd p) (fst q) (snd q) = - (r * r * A).
Proof.
  intros flat r p q A Hp Hq HX U. rewrite (edge_area flat r p q A) by (try assumption; lra). rewrite (side_north p q A) by (try assumption; lra). ring.
Qed.
Lemma edge_south : forall flat r p q A, -90 < snd p <= 0 -> -90 < snd q <= 0 -> -180 < fst q - fst p < 180 -> area_under p q A ->
  spherical_area flat r (fst p) (snd p) (fst q) (snd q) = r * r * A.
Proof.
  intros flat r p q A Hp Hq HX U. rewrite (edge_area flat r p q A) by (try assumption; lra). rewrite side_two by lra. ring.
Qed.
