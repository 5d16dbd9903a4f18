(** Proofs about distances, azimuths and bounding latitudes on the sphere. *)
From Coq Require Import List ZArith Reals Bool Arith Lia Lra Psatz.
From Verif Require Import Geom_Model GeomR_Model GeomR_Spec GeomR_Proofs Sphere_Model Sphere_Spec Sphere_Proofs.
From Verif Require TerrainR_Model TerrainR_Proofs.
Import ListNotations.
Open Scope R_scope.

(* ---- unit vectors *)
Lemma cauchy : forall u v, dot u v * dot u v <= dot u u * dot v v.
Proof.
  intros [[a b] c] [[d e] f]. unfold dot. cbn [fst snd].
  pose proof (Rle_0_sqr (a * e - b * d)) as A. pose proof (Rle_0_sqr (b * f - c * e)) as B. pose proof (Rle_0_sqr (c * d - a * f)) as C.
  unfold Rsqr in *. lra.
Qed.
Lemma dot_bound : forall u v, dot u u = 1 -> dot v v = 1 -> -1 <= dot u v <= 1.
Proof. intros u v U V. pose proof (cauchy u v) as H. rewrite U, V in H. split; nra. Qed.
Lemma dot_sym : forall u v, dot u v = dot v u.
Proof. intros. unfold dot. ring. Qed.
Lemma angle_unique : forall u v d e, central_angle u v d -> central_angle u v e -> d = e.
Proof. intros u v d e [D1 D2] [E1 E2]. rewrite <- (acos_cos d), <- (acos_cos e) by assumption. congruence. Qed.
Lemma angle_sym : forall u v d, central_angle u v d -> central_angle v u d.
Proof. intros u v d [A B]. split; [exact A|]. rewrite dot_sym. exact B. Qed.
Lemma angle_zero : forall u v, dot u u = 1 -> dot v v = 1 -> (central_angle u v 0 <-> u = v).
Proof.
  intros u v U V. split.
  - intros [_ C]. rewrite cos_0 in C. destruct u as [[a b] c], v as [[d e] f]. unfold dot in *. cbn [fst snd] in *.
    pose proof (Rle_0_sqr (a - d)) as A. pose proof (Rle_0_sqr (b - e)) as B. pose proof (Rle_0_sqr (c - f)) as D. unfold Rsqr in A, B, D.
    assert (S : (a - d) * (a - d) + (b - e) * (b - e) + (c - f) * (c - f) = 0) by lra.
    assert ((a - d) * (a - d) = 0) by lra. assert ((b - e) * (b - e) = 0) by lra. assert ((c - f) * (c - f) = 0) by lra.
    assert (a - d = 0) by (apply Rsqr_0_uniq; assumption). assert (b - e = 0) by (apply Rsqr_0_uniq; assumption).
    assert (c - f = 0) by (apply Rsqr_0_uniq; assumption). apply v3_eq; lra.
  - intros <-. split; [pose proof PI_RGT_0; lra|]. rewrite cos_0, U. reflexivity.
Qed.
Lemma sq_le : forall p q, 0 <= q -> p * p <= q * q -> p <= q.
Proof. intros p q Q H. destruct (Rle_lt_dec p q); [assumption|]. nra. Qed.
Lemma angle_triangle : forall u v w a b c, dot u u = 1 -> dot v v = 1 -> dot w w = 1 ->
  central_angle u v a -> central_angle v w b -> central_angle u w c -> c <= a + b.
Proof.
  intros u v w a b c U V W [A1 A2] [B1 B2] [C1 C2].
  destruct (Rle_lt_dec PI (a + b)) as [L|L]; [lra|].
  assert (K : cos (a + b) <= cos c).
  { rewrite cos_plus, C2.
    assert (SA : 0 <= sin a) by (apply sin_ge_0; lra). assert (SB : 0 <= sin b) by (apply sin_ge_0; lra).
    set (p := vadd u (vscale (- dot u v) v)). set (q := vadd w (vscale (- dot v w) v)).
    assert (PP : dot p p = 1 - dot u v * dot u v).
    { rewrite <- U. transitivity (dot u u - 2 * (dot u v * dot u v) + dot u v * dot u v * dot v v).
      - unfold p, dot, vadd, vscale. cbn [fst snd]. ring.
      - rewrite V. ring. }
    assert (QQ : dot q q = 1 - dot v w * dot v w).
    { rewrite <- W. transitivity (dot w w - 2 * (dot v w * dot v w) + dot v w * dot v w * dot v v).
      - unfold q, dot, vadd, vscale. cbn [fst snd]. ring.
      - rewrite V. ring. }
    assert (PQ : dot p q = dot u w - dot u v * dot v w).
    { transitivity (dot u w - 2 * (dot u v * dot v w) + dot u v * dot v w * dot v v).
      - unfold p, q, dot, vadd, vscale. cbn [fst snd]. ring.
      - rewrite V. ring. }
    assert (PA : dot p p = sin a * sin a).
    { rewrite PP, <- A2. pose proof (sin2_cos2 a) as H. unfold Rsqr in H. lra. }
    assert (QB : dot q q = sin b * sin b).
    { rewrite QQ, <- B2. pose proof (sin2_cos2 b) as H. unfold Rsqr in H. lra. }
    pose proof (cauchy p q) as H. rewrite PA, QB, PQ in H. rewrite <- A2, <- B2 in H.
    assert (- (dot u w - cos a * cos b) <= sin a * sin b).
    { apply sq_le; [apply Rmult_le_pos; assumption|]. replace (- (dot u w - cos a * cos b) * - (dot u w - cos a * cos b)) with
        ((dot u w - cos a * cos b) * (dot u w - cos a * cos b)) by ring. eapply Rle_trans; [exact H|]. right. ring. }
    lra. }
  destruct (Rle_lt_dec c (a + b)) as [|G]; [assumption|]. exfalso.
  assert (cos c < cos (a + b)) by (apply cos_decreasing_1; lra). lra.
Qed.

(* ---- distance *)
Lemma cos_Rabs : forall x, cos (Rabs x) = cos x.
Proof. intros x. unfold Rabs. destruct (Rcase_abs x); [apply cos_neg|reflexivity]. Qed.
Lemma sin_sq_half : forall x, sin (x / 2) * sin (x / 2) = (1 - cos x) / 2.
Proof. intros x. replace x with (2 * (x / 2)) at 3 by field. rewrite cos_2a_sin. field. Qed.
Lemma distance_angle : forall l1 p1 l2 p2, central_angle (upos l1 p1) (upos l2 p2) (sphere_distance l1 p1 l2 p2).
Proof.
  intros l1 p1 l2 p2. pose proof (dot_bound _ _ (upos_unit l1 p1) (upos_unit l2 p2)) as D.
  unfold central_angle. rewrite upos_dot in *. unfold sphere_distance.
  destruct (rlt (1 / 100) (Rabs (l1 - l2)) || rlt (1 / 100) (Rabs (p1 - p2))).
  - rewrite cos_Rabs. split; [apply acos_bound|]. apply cos_acos. exact D.
  - rewrite !sin_sq_half, !cos_Rabs, cos_minus.
    set (h := (1 - (cos p1 * cos p2 + sin p1 * sin p2)) / 2 + cos p1 * cos p2 * ((1 - cos (l1 - l2)) / 2)).
    assert (E : sin p1 * sin p2 + cos p1 * cos p2 * cos (l1 - l2) = 1 - 2 * h) by (unfold h; field).
    rewrite E in *. assert (H : 0 <= h <= 1) by lra.
    assert (S : 0 <= sqrt h <= 1). { split; [apply sqrt_pos|]. rewrite <- sqrt_1. apply sqrt_le_1; lra. }
    assert (A : 0 <= asin (sqrt h) <= PI / 2).
    { pose proof (asin_bound (sqrt h)) as [B1 B2]. split; [|exact B2].
      destruct (Rle_lt_dec 0 (asin (sqrt h))) as [|N]; [assumption|]. exfalso.
      pose proof PI_RGT_0. assert (sin (asin (sqrt h)) < 0) by (apply sin_lt_0_var; lra). rewrite sin_asin in H1 by lra. lra. }
    split; [lra|]. rewrite cos_2a_sin, sin_asin by lra.
    assert (sqrt h * sqrt h = h) by (apply sqrt_sqrt; lra). lra.
Qed.
Lemma dist_sph_eq : forall p q, dist_sph p q = sphere_distance (rad (fst p)) (rad (snd p)) (rad (fst q)) (rad (snd q)).
Proof.
  intros p q. unfold dist_sph, sphere_distance.
  assert (A : forall a b, Rabs (a - b) * PI / 180 = Rabs (rad a - rad b)).
  { intros a b. replace (rad a - rad b) with ((a - b) * (PI / 180)) by (unfold rad; field).
    rewrite Rabs_mult, (Rabs_right (PI / 180)); [field|]. pose proof PI_RGT_0. lra. }
  rewrite !A. change (snd p * PI / 180) with (rad (snd p)). change (snd q * PI / 180) with (rad (snd q)).
  replace (5 / 10 * Rabs (rad (snd p) - rad (snd q))) with (Rabs (rad (snd p) - rad (snd q)) / 2) by field.
  replace (5 / 10 * Rabs (rad (fst p) - rad (fst q))) with (Rabs (rad (fst p) - rad (fst q)) / 2) by field. reflexivity.
Qed.

(* ---- azimuth *)
Lemma frame : forall l1 p1 l2 p2,
  upos l2 p2 = vadd (vscale (dot (upos l1 p1) (upos l2 p2)) (upos l1 p1))
    (vadd (vscale (cos p2 * sin (l2 - l1)) (east l1))
          (vscale (cos p1 * sin p2 - sin p1 * cos p2 * cos (l2 - l1)) (north l1 p1))).
Proof.
  intros l1 p1 l2 p2. rewrite upos_dot, <- (cos_neg (l1 - l2)). replace (- (l1 - l2)) with (l2 - l1) by ring.
  pose proof (sin2_cos2 p1) as H. unfold Rsqr in H.
  assert (HL : forall u : R, u * (sin p1 * sin p1) = u - u * (cos p1 * cos p1)) by (intros u; replace (sin p1 * sin p1) with (1 - cos p1 * cos p1) by lra; ring).
  assert (C2 : cos l2 = cos l1 * cos (l2 - l1) - sin l1 * sin (l2 - l1)) by (rewrite <- cos_plus; f_equal; ring).
  assert (S2 : sin l2 = sin l1 * cos (l2 - l1) + cos l1 * sin (l2 - l1)) by (rewrite <- sin_plus; f_equal; ring).
  unfold upos, east, north, vadd, vscale. cbn [fst snd]. rewrite C2, S2. set (c := cos (l2 - l1)). set (s := sin (l2 - l1)).
  apply v3_eq.
  - transitivity (cos l1 * cos p2 * c * (cos p1 * cos p1) + cos l1 * cos p2 * c * (sin p1 * sin p1) - cos p2 * s * sin l1); [rewrite HL; ring|ring].
  - transitivity (sin l1 * cos p2 * c * (cos p1 * cos p1) + sin l1 * cos p2 * c * (sin p1 * sin p1) + cos p2 * s * cos l1); [rewrite HL; ring|ring].
  - transitivity (sin p2 * (sin p1 * sin p1) + sin p2 * (cos p1 * cos p1)); [rewrite HL; ring|ring].
Qed.
Lemma east_north_len : forall l1 p1 l2 p2, let e := cos p2 * sin (l2 - l1) in
  let n := cos p1 * sin p2 - sin p1 * cos p2 * cos (l2 - l1) in
  e * e + n * n = 1 - dot (upos l1 p1) (upos l2 p2) * dot (upos l1 p1) (upos l2 p2).
Proof.
  intros. rewrite upos_dot, <- (cos_neg (l1 - l2)). replace (- (l1 - l2)) with (l2 - l1) by ring. unfold e, n.
  pose proof (sin2_cos2 p1) as A. pose proof (sin2_cos2 p2) as B. pose proof (sin2_cos2 (l2 - l1)) as C. unfold Rsqr in *.
  set (c := cos (l2 - l1)) in *. set (s := sin (l2 - l1)) in *.
  replace (cos p2 * s * (cos p2 * s)) with (cos p2 * cos p2 * (s * s)) by ring.
  replace (s * s) with (1 - c * c) by lra.
  transitivity (cos p2 * cos p2 - cos p2 * cos p2 * c * c + cos p1 * cos p1 * (sin p2 * sin p2)
    - 2 * (cos p1 * sin p2 * sin p1 * cos p2 * c) + sin p1 * sin p1 * (cos p2 * cos p2) * (c * c)); [ring|].
  transitivity (1 - (sin p1 * sin p1) * (sin p2 * sin p2) - 2 * (cos p1 * sin p2 * sin p1 * cos p2 * c)
    - cos p1 * cos p1 * (cos p2 * cos p2) * (c * c)); [|ring].
  replace (sin p1 * sin p1) with (1 - cos p1 * cos p1) by lra. replace (sin p2 * sin p2) with (1 - cos p2 * cos p2) by lra. ring.
Qed.
Lemma travel_atan2 : forall flat l1 p1 l2 p2 k d, 0 < k -> central_angle (upos l1 p1) (upos l2 p2) d ->
  travel l1 p1 (atan2 flat (k * (cos p2 * sin (l2 - l1))) (k * (cos p1 * sin p2 - sin p1 * cos p2 * cos (l2 - l1)))) d = upos l2 p2.
Proof.
  intros flat l1 p1 l2 p2 k d K [D1 D2]. set (e := cos p2 * sin (l2 - l1)). set (n := cos p1 * sin p2 - sin p1 * cos p2 * cos (l2 - l1)).
  pose proof (east_north_len l1 p1 l2 p2) as L. cbv zeta in L. fold e n in L. rewrite <- D2 in L.
  assert (S0 : 0 <= sin d) by (apply sin_ge_0; lra).
  assert (SS : e * e + n * n = sin d * sin d). { rewrite L. pose proof (sin2_cos2 d) as H. unfold Rsqr in H. lra. }
  assert (P : sin d * sin (atan2 flat (k * e) (k * n)) = e /\ sin d * cos (atan2 flat (k * e) (k * n)) = n).
  { destruct (Req_dec (sin d) 0) as [Z|Z].
    - rewrite Z in SS. pose proof (Rle_0_sqr e) as A. pose proof (Rle_0_sqr n) as B. unfold Rsqr in A, B.
      assert (e * e = 0) by lra. assert (n * n = 0) by lra.
      assert (e = 0) by (apply Rsqr_0_uniq; assumption). assert (n = 0) by (apply Rsqr_0_uniq; assumption). rewrite Z. lra.
    - assert (N : k * n <> 0 \/ k * e <> 0).
      { destruct (Req_dec n 0) as [N|N]; [|left; apply Rmult_integral_contrapositive; lra].
        right. apply Rmult_integral_contrapositive. split; [lra|]. intros E. rewrite N, E in SS. nra. }
      destruct (atan2_polar flat (k * e) (k * n) N) as (A & B & _).
      assert (Q : sqrt (k * n * (k * n) + k * e * (k * e)) = k * sin d).
      { replace (k * n * (k * n) + k * e * (k * e)) with ((k * sin d) * (k * sin d)); [apply sqrt_square; nra|].
        transitivity (k * k * (sin d * sin d)); [ring|]. rewrite <- SS. ring. }
      rewrite Q in A, B. split; apply Rmult_eq_reg_l with k; try lra. }
  destruct P as [P1 P2]. unfold travel. rewrite (frame l1 p1 l2 p2), D2. fold e n.
  unfold vadd, vscale. cbn [fst snd]. apply v3_eq.
  - set (x := atan2 _ _ _) in *. clearbody x. clearbody e n. subst e n. ring.
  - set (x := atan2 _ _ _) in *. clearbody x. clearbody e n. subst e n. ring.
  - set (x := atan2 _ _ _) in *. clearbody x. clearbody e n. subst e n. ring.
Qed.
Lemma azimuth_travel : forall lon1 lat1 lon2 lat2 d, -90 < lat2 < 90 -> central_angle (pos lon1 lat1) (pos lon2 lat2) d ->
  travel (rad lon1) (rad lat1) (sphere_azimuth lon1 lat1 lon2 lat2) d = pos lon2 lat2.
Proof.
  intros lon1 lat1 lon2 lat2 d L D. unfold sphere_azimuth, radians. rewrite !rad_alt.
  assert (C : 0 < cos (rad lat2)) by (apply cos_rad_pos; exact L).
  assert (R : rad (lon2 - lon1) = rad lon2 - rad lon1) by (unfold rad; field). rewrite R.
  etransitivity; [|exact (travel_atan2 0 (rad lon1) (rad lat1) (rad lon2) (rad lat2) (/ cos (rad lat2)) d (Rinv_0_lt_compat _ C) D)].
  f_equal. f_equal.
  - field. lra.
  - unfold tan. field. lra.
Qed.

(* ---- bounding latitudes *)
Lemma fold_cos : forall a, - PI < a <= PI -> (folded a < PI / 2 <-> 0 < cos a) /\ (PI / 2 < folded a <-> cos a < 0).
Proof.
  intros a A. pose proof PI_RGT_0 as P.
  assert (F : folded a = Rabs a).
  { unfold folded. destruct (Req_dec a PI) as [->|N].
    - rewrite (pymod_unique (PI + PI) (2 * PI) 0 1); [|lra|lra|lra].
      replace (0 - PI) with (- PI) by ring. apply Rabs_Ropp.
    - rewrite (pymod_unique (a + PI) (2 * PI) (a + PI) 0); [|lra|lra|lra]. f_equal. ring. }
  rewrite F, <- (cos_Rabs a). assert (B : 0 <= Rabs a <= PI). { split; [apply Rabs_pos|]. apply Rabs_le. lra. }
  set (b := Rabs a) in *. clearbody b. split; split; intros H.
  - apply cos_gt_0; lra.
  - destruct (Rlt_le_dec b (PI / 2)) as [|N]; [assumption|]. exfalso. assert (cos b <= 0) by (apply cos_le_0; lra). lra.
  - apply cos_lt_0; lra.
  - destruct (Rlt_le_dec (PI / 2) b) as [|N]; [assumption|]. exfalso. assert (0 <= cos b) by (apply cos_ge_0; lra). lra.
Qed.
(** The heights along an arc between two points of the same hemisphere. *)
Section Arc.
Variables u v : v3.
Hypothesis U : dot u u = 1.
Hypothesis V : dot v v = 1.
Let c := dot u v.
Lemma arc_norm : forall s t p, p = vadd (vscale s u) (vscale t v) -> dot p p = s * s + t * t + 2 * (s * t) * c.
Proof.
  intros s t p ->. unfold c. transitivity (s * s * dot u u + t * t * dot v v + 2 * (s * t) * dot u v); [|rewrite U, V; ring].
  unfold dot, vadd, vscale. cbn [fst snd]. ring.
Qed.
Lemma arc_low : forall p, on_arc3 u v p -> 0 <= snd u -> 0 <= snd v -> Rmin (snd u) (snd v) <= snd p.
Proof.
  intros p (P & s & t & S & T & E) ZU ZV. pose proof (arc_norm s t p E) as N. rewrite P in N.
  pose proof (dot_bound u v U V) as C. fold c in C.
  assert (L : 1 <= s + t).
  { apply Rnot_lt_le. intros L. assert (0 <= s * t * (1 - c)) by (apply Rmult_le_pos; [apply Rmult_le_pos|]; lra).
    assert (1 <= (s + t) * (s + t)) by lra. clear - H0 L S T. nra. }
  assert (Z : snd p = s * snd u + t * snd v) by (rewrite E; reflexivity). rewrite Z.
  assert (M0 : 0 <= Rmin (snd u) (snd v)) by (apply Rmin_glb; assumption).
  pose proof (Rmin_l (snd u) (snd v)). pose proof (Rmin_r (snd u) (snd v)). set (m := Rmin (snd u) (snd v)) in *. clearbody m.
  assert (0 <= s * (snd u - m)) by (apply Rmult_le_pos; lra). assert (0 <= t * (snd v - m)) by (apply Rmult_le_pos; lra).
  assert (0 <= (s + t - 1) * m) by (apply Rmult_le_pos; lra). lra.
Qed.
(** Leaving [u] not upwards. *)
Lemma arc_high : forall p, on_arc3 u v p -> 0 <= snd u -> snd v - c * snd u <= 0 -> snd p <= snd u.
Proof.
  intros p (P & s & t & S & T & E) ZU D. pose proof (arc_norm s t p E) as N. rewrite P in N.
  pose proof (dot_bound u v U V) as C. fold c in C.
  assert (K : s + t * c <= 1).
  { apply sq_le; [lra|]. assert (0 <= t * t * (1 - c * c)) by (apply Rmult_le_pos; nra).
    replace ((s + t * c) * (s + t * c)) with (s * s + t * t + 2 * (s * t) * c - t * t * (1 - c * c)) by ring. lra. }
  assert (Z : snd p = s * snd u + t * snd v) by (rewrite E; reflexivity). rewrite Z.
  assert (0 <= t * - (snd v - c * snd u)) by (apply Rmult_le_pos; lra).
  assert (0 <= (1 - (s + t * c)) * snd u) by (apply Rmult_le_pos; lra). lra.
Qed.
(** The highest point of the great circle. *)
Lemma arc_top : forall p, on_arc3 u v p -> snd p * snd p * (1 - c * c) <= 1 - c * c - snd (vprod u v) * snd (vprod u v).
Proof.
  intros p (P & s & t & S & T & E). pose proof (arc_norm s t p E) as N. rewrite P in N.
  assert (Z : snd p = s * snd u + t * snd v) by (rewrite E; reflexivity). rewrite Z.
  (* lagrange: |u x v|^2 = 1 - c^2, and the horizontal part of u x v bounds the height *)
  assert (LG : snd (vprod u v) * snd (vprod u v) + (snd u * snd u + snd v * snd v - 2 * c * (snd u * snd v)) = 1 - c * c).
  { unfold c. destruct u as [[a b] d], v as [[e f] g]. unfold vprod, dot in *. cbn [fst snd] in *.
    transitivity ((a * f - b * e) * (a * f - b * e) + d * d * (e * e + f * f + g * g) + g * g * (a * a + b * b + d * d) - 2 * (a * e + b * f + d * g) * (d * g)); [rewrite U, V; ring|].
    transitivity ((a * a + b * b + d * d) * (e * e + f * f + g * g) - (a * e + b * f + d * g) * (a * e + b * f + d * g)); [ring|rewrite U, V; ring]. }
  set (zu := snd u) in *. set (zv := snd v) in *. clearbody zu zv c.
  replace (1 - c * c - snd (vprod u v) * snd (vprod u v)) with (zu * zu + zv * zv - 2 * c * (zu * zv)) by lra. clear LG Z E.
  (* (s zu + t zv)^2 (1 - c^2) <= (zu^2 + zv^2 - 2 c zu zv)(s^2 + t^2 + 2 s t c) *)
  assert (I : (zu * zu + zv * zv - 2 * c * (zu * zv)) * (s * s + t * t + 2 * (s * t) * c) - (s * zu + t * zv) * (s * zu + t * zv) * (1 - c * c)
    = (s * (zv - c * zu) - t * (zu - c * zv)) * (s * (zv - c * zu) - t * (zu - c * zv))) by ring.
  rewrite <- N in I. pose proof (Rle_0_sqr (s * (zv - c * zu) - t * (zu - c * zv))) as Q. unfold Rsqr in Q. lra.
Qed.
End Arc.
Lemma arc_swap : forall u v p, on_arc3 u v p -> on_arc3 v u p.
Proof.
  intros u v p (P & s & t & S & T & E). split; [exact P|]. exists t, s. split; [exact T|]. split; [exact S|]. rewrite E.
  unfold vadd, vscale. cbn [fst snd]. apply v3_eq; ring.
Qed.
(** Reflection in the plane of the equator. *)
Definition mirror (u : v3) : v3 := (fst (fst u), snd (fst u), - snd u).
Lemma mirror_dot : forall u v, dot (mirror u) (mirror v) = dot u v.
Proof. intros. unfold dot, mirror. cbn [fst snd]. ring. Qed.
Lemma mirror_arc : forall u v p, on_arc3 u v p -> on_arc3 (mirror u) (mirror v) (mirror p).
Proof.
  intros u v p (P & s & t & S & T & E). split; [rewrite mirror_dot; exact P|]. exists s, t. split; [exact S|]. split; [exact T|].
  rewrite E. unfold mirror, vadd, vscale. cbn [fst snd]. apply v3_eq; ring.
Qed.
Lemma mirror_pos : forall lon lat, mirror (pos lon lat) = pos lon (- lat).
Proof.
  intros. unfold mirror, pos, upos. cbn [fst snd]. replace (rad (- lat)) with (- rad lat) by (unfold rad; field).
  rewrite cos_neg, sin_neg. reflexivity.
Qed.
Lemma sin_mono_deg : forall x y, -90 <= x <= 90 -> -90 <= y <= 90 -> (x <= y <-> sin (rad x) <= sin (rad y)).
Proof.
  intros x y X Y. pose proof PI_RGT_0 as P. unfold rad. split; intros H.
  - apply sin_incr_1; nra.
  - apply sin_incr_0 in H; nra.
Qed.
Lemma bnd_zero : forall x, x * PI / 180 * 180 / PI = x. Proof. exact rad_deg. Qed.
Lemma fminr_spec : forall a b, fminr a b = Rmin a b.
Proof. intros. unfold fminr, Rmin. destruct (Rle_dec a b); reflexivity. Qed.
Lemma fmaxr_spec : forall a b, fmaxr a b = Rmax a b.
Proof. intros. unfold fmaxr, Rmax. destruct (Rle_dec a b); reflexivity. Qed.
Lemma scale_min : forall a b, fminr (a * PI / 180) (b * PI / 180) * 180 / PI = fminr a b.
Proof.
  intros a b. pose proof PI_RGT_0 as P. unfold fminr. destruct (Rle_dec (a * PI / 180) (b * PI / 180)); destruct (Rle_dec a b); rewrite rad_deg; try reflexivity; nra.
Qed.
Lemma scale_max : forall a b, fmaxr (a * PI / 180) (b * PI / 180) * 180 / PI = fmaxr a b.
Proof.
  intros a b. pose proof PI_RGT_0 as P. unfold fmaxr. destruct (Rle_dec (a * PI / 180) (b * PI / 180)); destruct (Rle_dec a b); rewrite rad_deg; try reflexivity; nra.
Qed.
Lemma distance_metric : forall l1 p1 l2 p2 l3 p3,
  sphere_distance l1 p1 l2 p2 = sphere_distance l2 p2 l1 p1 /\
  (sphere_distance l1 p1 l2 p2 = 0 <-> upos l1 p1 = upos l2 p2) /\
  sphere_distance l1 p1 l3 p3 <= sphere_distance l1 p1 l2 p2 + sphere_distance l2 p2 l3 p3.
Proof.
  intros. split; [|split].
  - eapply angle_unique; [apply distance_angle|apply angle_sym, distance_angle].
  - split; intros H.
    + apply (proj1 (angle_zero _ _ (upos_unit l1 p1) (upos_unit l2 p2))). rewrite <- H. apply distance_angle.
    + eapply angle_unique; [apply distance_angle|]. apply (proj2 (angle_zero _ _ (upos_unit l1 p1) (upos_unit l2 p2))). exact H.
  - eapply angle_triangle; [| | |apply distance_angle|apply distance_angle|apply distance_angle]; apply upos_unit.
Qed.
