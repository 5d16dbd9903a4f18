(** The bounding latitudes of great circle arcs. *)
From Coq Require Import List ZArith Reals Bool Arith Lia Lra Psatz.
From Verif Require Import Geom_Model GeomR_Model GeomR_Spec GeomR_Proofs Sphere_Model Sphere_Spec Sphere_Proofs Sphere_Dist.
From Verif Require TerrainR_Model TerrainR_Proofs.
Import ListNotations.
Open Scope R_scope.

Lemma leaving : forall l1 p1 l2 p2,
  snd (upos l2 p2) - dot (upos l1 p1) (upos l2 p2) * snd (upos l1 p1) = cos p1 * (cos p1 * sin p2 - sin p1 * cos p2 * cos (l2 - l1)).
Proof.
  intros. rewrite upos_dot, <- (cos_neg (l1 - l2)). replace (- (l1 - l2)) with (l2 - l1) by ring. cbn [upos snd].
  pose proof (sin2_cos2 p1) as H. unfold Rsqr in H.
  transitivity (sin p2 * (1 - sin p1 * sin p1) - cos p1 * cos p2 * cos (l2 - l1) * sin p1); [ring|].
  replace (1 - sin p1 * sin p1) with (cos p1 * cos p1) by lra. ring.
Qed.
Lemma cos_atan2_sign : forall y x, (x <> 0 \/ y <> 0) -> (0 < cos (atan2 0 y x) <-> 0 < x) /\ (cos (atan2 0 y x) < 0 <-> x < 0).
Proof.
  intros y x N. destruct (atan2_polar 0 y x N) as (A & _ & _). pose proof (norm_pos x y N) as P.
  set (r := sqrt _) in *. set (c := cos _) in *. clearbody r c. subst x. clear N y. split; split; intros; nra.
Qed.
Section Bnd.
Variables l0 p0 l1 p1 : R.       (* radians *)
Let u := upos l0 p0.
Let v := upos l1 p1.
Let d := l1 - l0.
Let e0 := sin d * cos p1.
Let n0 := cos p0 * sin p1 - sin p0 * cos p1 * cos d.
Let faz := atan2 0 e0 n0.
Hypothesis C0 : 0 < cos p0.
Hypothesis C1 : 0 < cos p1.
Lemma en_len : e0 * e0 + n0 * n0 = 1 - dot u v * dot u v.
Proof. unfold u, v, e0, n0, d. rewrite <- east_north_len. ring. Qed.
Lemma vprod_z : snd (vprod u v) = cos p0 * e0.
Proof. unfold vprod, u, v, upos, e0, d. cbn [fst snd]. rewrite sin_minus. ring. Qed.
Lemma sphere_top : forall p, on_arc3 u v p -> (sin faz * cos p0) * (sin faz * cos p0) <= 1 - snd p * snd p.
Proof.
  intros p A. pose proof (arc_top u v (upos_unit _ _) (upos_unit _ _) p A) as T.
  assert (Z1 : snd p * snd p <= 1).
  { destruct A as (P & _). unfold dot in P. pose proof (Rle_0_sqr (fst (fst p))). pose proof (Rle_0_sqr (snd (fst p))). unfold Rsqr in *. lra. }
  rewrite vprod_z in T.
  destruct (Req_dec (e0 * e0 + n0 * n0) 0) as [Z|Z].
  - pose proof (Rle_0_sqr e0) as A1. pose proof (Rle_0_sqr n0) as A2. unfold Rsqr in *.
    assert (E : e0 = 0) by (apply Rsqr_0_uniq; unfold Rsqr; lra). assert (N : n0 = 0) by (apply Rsqr_0_uniq; unfold Rsqr; lra).
    unfold faz. rewrite E, N. unfold atan2, TerrainR_Model.atan2. destruct (Rlt_dec 0 0); [lra|]. rewrite sin_0. lra.
  - assert (NZ : n0 <> 0 \/ e0 <> 0).
    { destruct (Req_dec n0 0); [right|left; assumption]. intros K. apply Z. rewrite H, K. ring. }
    destruct (atan2_polar 0 e0 n0 NZ) as (_ & S & _). fold faz in S.
    pose proof (norm_pos n0 e0 NZ) as RP. set (r := sqrt (n0 * n0 + e0 * e0)) in *.
    assert (RR : r * r = n0 * n0 + e0 * e0).
    { apply sqrt_sqrt. pose proof (Rle_0_sqr e0). pose proof (Rle_0_sqr n0). unfold Rsqr in *. lra. }
    assert (K : 1 - dot u v * dot u v = r * r) by (rewrite <- en_len; lra).
    rewrite K, <- S in T. apply Rmult_le_reg_r with (r * r); [nra|]. lra.
Qed.
Lemma folded_up : (n0 <> 0 \/ e0 <> 0) -> (folded faz < PI / 2 <-> 0 < n0) /\ (PI / 2 < folded faz <-> n0 < 0).
Proof.
  intros N. destruct (atan2_polar 0 e0 n0 N) as (_ & _ & B). destruct (fold_cos faz B) as [F1 F2].
  destruct (cos_atan2_sign e0 n0 N) as [G1 G2]. fold faz in G1, G2. split; [rewrite F1; exact G1|rewrite F2; exact G2].
Qed.
Lemma folded_not_up : PI / 2 <= folded faz -> n0 <= 0.
Proof.
  intros H. destruct (Req_dec n0 0) as [N|N]; [lra|]. destruct (folded_up (or_introl N)) as [F _].
  destruct (Rle_lt_dec n0 0); [assumption|]. apply F in r. lra.
Qed.
Lemma folded_not_down : folded faz <= PI / 2 -> 0 <= n0.
Proof.
  intros H. destruct (Req_dec n0 0) as [N|N]; [lra|]. destruct (folded_up (or_introl N)) as [_ F].
  destruct (Rle_lt_dec 0 n0); [assumption|]. apply F in r. lra.
Qed.
End Bnd.
Lemma lat_below : forall x k, -90 <= x <= 90 -> k * k <= 1 - sin (rad x) * sin (rad x) -> Rabs x <= acos (Rabs k) * 180 / PI.
Proof.
  intros x k X H. pose proof PI_RGT_0 as P.
  assert (C : 0 <= cos (rad x)) by (apply cos_ge_0; unfold rad; nra).
  assert (CC : cos (rad x) * cos (rad x) = 1 - sin (rad x) * sin (rad x)) by (pose proof (sin2_cos2 (rad x)) as Q; unfold Rsqr in Q; lra).
  assert (K : Rabs k <= cos (rad x)).
  { apply sq_le; [exact C|]. rewrite CC, <- Rabs_mult, Rabs_right; [exact H|]. pose proof (Rle_0_sqr k). unfold Rsqr in *. lra. }
  pose proof (Rabs_pos k) as K0. pose proof (COS_bound (rad x)) as CB.
  assert (A : Rabs (rad x) <= acos (Rabs k)).
  { assert (RB : 0 <= Rabs (rad x) <= PI). { split; [apply Rabs_pos|]. apply Rabs_le. unfold rad. split; nra. }
    rewrite <- (acos_cos (Rabs (rad x)) RB), cos_Rabs.
    destruct (Rle_lt_dec (acos (cos (rad x))) (acos (Rabs k))) as [G|G]; [exact G|exfalso].
    assert (-1 <= Rabs k <= 1) by lra. assert (-1 <= cos (rad x) <= 1) by lra.
    apply cos_decreasing_1 in G; try apply acos_bound. rewrite !cos_acos in G by assumption. lra. }
  assert (E : Rabs (rad x) = Rabs x * (PI / 180)).
  { unfold rad. replace (x * PI / 180) with (x * (PI / 180)) by field. rewrite Rabs_mult, (Rabs_right (PI / 180)); lra. }
  rewrite E in A. apply Rmult_le_reg_r with (PI / 180); [lra|].
  replace (acos (Rabs k) * 180 / PI * (PI / 180)) with (acos (Rabs k)) by (field; lra). exact A.
Qed.
Lemma fmaxr_l : forall a b, a <= fmaxr a b. Proof. intros. unfold fmaxr. destruct (Rle_dec a b); lra. Qed.
Lemma fmaxr_r : forall a b, b <= fmaxr a b. Proof. intros. unfold fmaxr. destruct (Rle_dec a b); lra. Qed.
Lemma fminr_l : forall a b, fminr a b <= a. Proof. intros. unfold fminr. destruct (Rle_dec a b); lra. Qed.
Lemma fminr_r : forall a b, fminr a b <= b. Proof. intros. unfold fminr. destruct (Rle_dec a b); lra. Qed.
(** From heights to latitudes. *)
Lemma lat_le : forall x y lon lon', -90 <= x <= 90 -> -90 <= y <= 90 -> snd (pos lon x) <= snd (pos lon' y) -> x <= y.
Proof. intros x y lon lon' X Y H. apply sin_mono_deg; assumption. Qed.
Lemma low_north : forall lon0 lat0 lon1 lat1 lon lat, 0 <= lat0 < 90 -> 0 <= lat1 < 90 -> -90 <= lat <= 90 ->
  on_arc3 (pos lon0 lat0) (pos lon1 lat1) (pos lon lat) -> fminr lat0 lat1 <= lat.
Proof.
  intros lon0 lat0 lon1 lat1 lon lat A B L H. pose proof PI_RGT_0 as P.
  pose proof (arc_low _ _ (upos_unit _ _) (upos_unit _ _) _ H) as K.
  assert (Z0 : 0 <= snd (pos lon0 lat0)) by (cbn; apply sin_ge_0; unfold rad; nra).
  assert (Z1 : 0 <= snd (pos lon1 lat1)) by (cbn; apply sin_ge_0; unfold rad; nra).
  specialize (K Z0 Z1). unfold Rmin in K. destruct (Rle_dec _ _) in K.
  - eapply Rle_trans; [apply fminr_l|]. apply (lat_le _ _ lon0 lon); [lra|lra|exact K].
  - eapply Rle_trans; [apply fminr_r|]. apply (lat_le _ _ lon1 lon); [lra|lra|exact K].
Qed.
Lemma high_south : forall lon0 lat0 lon1 lat1 lon lat, -90 < lat0 <= 0 -> -90 < lat1 <= 0 -> -90 <= lat <= 90 ->
  on_arc3 (pos lon0 lat0) (pos lon1 lat1) (pos lon lat) -> lat <= fmaxr lat0 lat1.
Proof.
  intros lon0 lat0 lon1 lat1 lon lat A B L H. apply mirror_arc in H. rewrite !mirror_pos in H.
  apply low_north in H; try lra. unfold fminr in H. unfold fmaxr.
  destruct (Rle_dec (- lat0) (- lat1)); destruct (Rle_dec lat0 lat1); lra.
Qed.
Lemma high_leaving : forall lon0 lat0 lon1 lat1 lon lat, 0 <= lat0 < 90 -> -90 < lat1 < 90 -> -90 <= lat <= 90 ->
  on_arc3 (pos lon0 lat0) (pos lon1 lat1) (pos lon lat) ->
  cos (rad lat0) * sin (rad lat1) - sin (rad lat0) * cos (rad lat1) * cos (rad lon1 - rad lon0) <= 0 -> lat <= lat0.
Proof.
  intros lon0 lat0 lon1 lat1 lon lat A B L H N. pose proof PI_RGT_0 as P.
  assert (C0 : 0 < cos (rad lat0)) by (apply cos_rad_pos; lra).
  apply (lat_le _ _ lon lon0); [lra|lra|]. apply (arc_high _ _ (upos_unit _ _) (upos_unit _ _) _ H).
  - cbn. apply sin_ge_0; unfold rad; nra.
  - rewrite leaving. nra.
Qed.
Lemma low_leaving : forall lon0 lat0 lon1 lat1 lon lat, -90 < lat0 <= 0 -> -90 < lat1 < 90 -> -90 <= lat <= 90 ->
  on_arc3 (pos lon0 lat0) (pos lon1 lat1) (pos lon lat) ->
  0 <= cos (rad lat0) * sin (rad lat1) - sin (rad lat0) * cos (rad lat1) * cos (rad lon1 - rad lon0) -> lat0 <= lat.
Proof.
  intros lon0 lat0 lon1 lat1 lon lat A B L H N. apply mirror_arc in H. rewrite !mirror_pos in H.
  assert (- lat <= - lat0); [|lra]. apply (high_leaving lon0 _ lon1 (- lat1) lon); try lra; try exact H.
  assert (R : forall x, rad (- x) = - rad x) by (intros; unfold rad; field). rewrite !R, !sin_neg, !cos_neg. lra.
Qed.
Lemma rad_diff : forall a b, (a - b) * PI / 180 = rad a - rad b. Proof. intros. unfold rad. field. Qed.
Lemma bnd_same : forall p q lon lat lo hi, -90 < snd p < 90 -> -90 < snd q < 90 -> -90 <= lat <= 90 ->
  samesphere (snd p) (snd q) \/ fst p = fst q ->
  bndlat_sph p q = Some (lo, hi) -> on_arc3 (pos (fst p) (snd p)) (pos (fst q) (snd q)) (pos lon lat) -> lo <= lat <= hi.
Proof.
  intros [lon0 lat0] [lon1 lat1] lon lat lo hi A B L SM E H. cbn [fst snd] in *. pose proof PI_RGT_0 as P.
  pose proof (arc_swap _ _ _ H) as H'.
  unfold bndlat_sph in E. cbn [fst snd] in E. rewrite rad_diff in E.
  change (lat0 * PI / 180) with (rad lat0) in E. change (lat1 * PI / 180) with (rad lat1) in E.
  destruct (req (rad lon1 - rad lon0) 0 && req (rad lat0) (rad lat1)) eqn:E0; [discriminate|].
  destruct (req (rad lon1 - rad lon0) 0 || xorb (rsign lat0) (rsign lat1)) eqn:E1.
  - injection E as <- <-.
    assert (EQ : fst (lon0, lat0) = fst (lon1, lat1)).
    { apply orb_prop in E1. destruct E1 as [E1|E1].
      - apply req_t in E1. cbn. apply rad_inj. lra.
      - destruct SM as [[[S1 S2]|[S1 S2]]|S]; [| |exact S].
        + unfold rsign in E1. rewrite (proj2 (rle_t 0 lat0)) in E1 by assumption. rewrite (proj2 (rle_t 0 lat1)) in E1 by assumption. discriminate.
        + unfold rsign in E1. rewrite (proj2 (rle_f 0 lat0)) in E1 by assumption. rewrite (proj2 (rle_f 0 lat1)) in E1 by assumption. discriminate. }
    cbn in EQ. subst lon1.
    (* on one meridian the arc leaves the upper end down and the lower end up *)
    assert (ND : forall a b, -90 < a < 90 -> -90 < b < 90 -> a <= b -> cos (rad b) * sin (rad a) - sin (rad b) * cos (rad a) * cos (rad lon0 - rad lon0) <= 0).
    { intros a b HA HB LE. replace (rad lon0 - rad lon0) with 0 by ring. rewrite cos_0, Rmult_1_r.
      replace (cos (rad b) * sin (rad a) - sin (rad b) * cos (rad a)) with (- sin (rad b - rad a)) by (rewrite sin_minus; ring).
      assert (0 <= sin (rad b - rad a)); [|lra]. apply sin_ge_0; unfold rad; nra. }
    assert (NU : forall a b, -90 < a < 90 -> -90 < b < 90 -> a <= b -> 0 <= cos (rad a) * sin (rad b) - sin (rad a) * cos (rad b) * cos (rad lon0 - rad lon0)).
    { intros a b HA HB LE. replace (rad lon0 - rad lon0) with 0 by ring. rewrite cos_0, Rmult_1_r.
      replace (cos (rad a) * sin (rad b) - sin (rad a) * cos (rad b)) with (sin (rad b - rad a)) by (rewrite sin_minus; ring).
      apply sin_ge_0; unfold rad; nra. }
    split.
    + destruct (Rle_lt_dec 0 lat0) as [Z0|Z0]; [destruct (Rle_lt_dec 0 lat1) as [Z1|Z1]|].
      * apply (low_north lon0 lat0 lon0 lat1 lon lat); try lra. exact H.
      * eapply Rle_trans; [apply fminr_r|]. apply (low_leaving lon0 lat1 lon0 lat0 lon lat); try lra; [exact H'|]. apply NU; lra.
      * destruct (Rle_lt_dec lat0 lat1) as [LE|LE].
        -- eapply Rle_trans; [apply fminr_l|]. apply (low_leaving lon0 lat0 lon0 lat1 lon lat); try lra; [exact H|]. apply NU; lra.
        -- eapply Rle_trans; [apply fminr_r|]. apply (low_leaving lon0 lat1 lon0 lat0 lon lat); try lra; [exact H'|]. apply NU; lra.
    + destruct (Rle_lt_dec lat0 0) as [Z0|Z0]; [destruct (Rle_lt_dec lat1 0) as [Z1|Z1]|].
      * apply (high_south lon0 lat0 lon0 lat1 lon lat); try lra. exact H.
      * eapply Rle_trans; [|apply fmaxr_r]. apply (high_leaving lon0 lat1 lon0 lat0 lon lat); try lra; [exact H'|]. apply ND; lra.
      * destruct (Rle_lt_dec lat0 lat1) as [LE|LE].
        -- eapply Rle_trans; [|apply fmaxr_r]. apply (high_leaving lon0 lat1 lon0 lat0 lon lat); try lra; [exact H'|]. apply ND; lra.
        -- eapply Rle_trans; [|apply fmaxr_l]. apply (high_leaving lon0 lat0 lon0 lat1 lon lat); try lra; [exact H|]. apply ND; lra.
  - apply orb_false_iff in E1. destruct E1 as [E1 E2].
    assert (C0 : 0 < cos (rad lat0)) by (apply cos_rad_pos; lra). assert (C1 : 0 < cos (rad lat1)) by (apply cos_rad_pos; lra).
    pose proof (sphere_top (rad lon0) (rad lat0) (rad lon1) (rad lat1) _ H) as TOP. cbn [pos upos snd] in TOP.
    apply (lat_below lat _ L) in TOP.
    pose proof (folded_not_up (rad lon0) (rad lat0) (rad lon1) (rad lat1)) as U0.
    pose proof (folded_not_up (rad lon1) (rad lat1) (rad lon0) (rad lat0)) as U1.
    pose proof (folded_not_down (rad lon0) (rad lat0) (rad lon1) (rad lat1)) as D0.
    pose proof (folded_not_down (rad lon1) (rad lat1) (rad lon0) (rad lat0)) as D1.
    replace (- (rad lon1 - rad lon0)) with (rad lon0 - rad lon1) in E by ring.
    replace (5 / 10 * PI) with (PI / 2) in E by field. pose proof (scale_min lat0 lat1) as SMIN. pose proof (scale_max lat0 lat1) as SMAX. fold (rad lat0) (rad lat1) in SMIN, SMAX. rewrite SMIN, SMAX in E.
    set (faz := atan2 0 (sin (rad lon1 - rad lon0) * cos (rad lat1)) (cos (rad lat0) * sin (rad lat1) - sin (rad lat0) * cos (rad lat1) * cos (rad lon1 - rad lon0))) in *.
    set (baz := atan2 0 (sin (rad lon0 - rad lon1) * cos (rad lat0)) (cos (rad lat1) * sin (rad lat0) - sin (rad lat1) * cos (rad lat0) * cos (rad lon0 - rad lon1))) in *.
    pose proof (Rle_abs lat) as AB. pose proof (Rle_abs (- lat)) as AB'. rewrite Rabs_Ropp in AB'.
    unfold rsign in E, E2. destruct (rle 0 lat0) eqn:S0.
    + apply rle_t in S0. destruct (rle 0 lat1) eqn:S1; [|discriminate]. apply rle_t in S1.
      injection E as <- <-. split.
      * apply (low_north lon0 lat0 lon1 lat1 lon lat); try lra. exact H.
      * destruct (rlt (folded faz) (PI / 2)) eqn:F0; [destruct (rlt (folded baz) (PI / 2)) eqn:F1|]; cbn [andb].
        -- lra.
        -- apply rlt_f in F1. eapply Rle_trans; [|apply fmaxr_r]. apply (high_leaving lon1 lat1 lon0 lat0 lon lat); [lra|lra|lra|exact H'|apply U1, F1].
        -- apply rlt_f in F0. eapply Rle_trans; [|apply fmaxr_l]. apply (high_leaving lon0 lat0 lon1 lat1 lon lat); [lra|lra|lra|exact H|apply U0, F0].
    + apply rle_f in S0. destruct (rle 0 lat1) eqn:S1; [discriminate|]. apply rle_f in S1.
      injection E as <- <-. split.
      * destruct (rlt (PI / 2) (folded faz)) eqn:F0; [destruct (rlt (PI / 2) (folded baz)) eqn:F1|]; cbn [andb].
        -- replace (- acos (Rabs (sin faz * cos (rad lat0))) * 180 / PI) with (- (acos (Rabs (sin faz * cos (rad lat0))) * 180 / PI)) by (field; lra). lra.
        -- apply rlt_f in F1. eapply Rle_trans; [apply fminr_r|]. apply (low_leaving lon1 lat1 lon0 lat0 lon lat); [lra|lra|lra|exact H'|apply D1, F1].
        -- apply rlt_f in F0. eapply Rle_trans; [apply fminr_l|]. apply (low_leaving lon0 lat0 lon1 lat1 lon lat); [lra|lra|lra|exact H|apply D0, F0].
      * apply (high_south lon0 lat0 lon1 lat1 lon lat); try lra. exact H.
Qed.
(** The bounds are attained. *)
Lemma rad_of_deg : forall x, rad (x * 180 / PI) = x.
Proof. intros. pose proof PI_RGT_0. unfold rad. field. lra. Qed.
Lemma arc_ends : forall u v, dot u u = 1 -> dot v v = 1 -> on_arc3 u v u /\ on_arc3 u v v.
Proof.
  intros u v U V. split; (split; [assumption|]).
  - exists 1, 0. split; [lra|]. split; [lra|]. destruct u as [[a b] c], v as [[x y] z]. unfold vadd, vscale. cbn. apply v3_eq; ring.
  - exists 0, 1. split; [lra|]. split; [lra|]. destruct u as [[a b] c], v as [[x y] z]. unfold vadd, vscale. cbn. apply v3_eq; ring.
Qed.
Lemma arc_summit : forall u v, dot u u = 1 -> dot v v = 1 -> 0 < 1 - dot u v * dot u v ->
  0 < snd u - dot u v * snd v -> 0 < snd v - dot u v * snd u ->
  exists p, on_arc3 u v p /\ 0 < snd p /\ (1 - snd p * snd p) * (1 - dot u v * dot u v) = snd (vprod u v) * snd (vprod u v).
Proof.
  intros u v U V C S T. set (c := dot u v) in *. set (q := snd u * snd u + snd v * snd v - 2 * c * (snd u * snd v)).
  assert (Q : q = snd u * (snd u - c * snd v) + snd v * (snd v - c * snd u)) by (unfold q; ring).
  assert (G : q = (1 - c * c) - snd (vprod u v) * snd (vprod u v)).
  { unfold q, c. destruct u as [[a1 a2] a3], v as [[b1 b2] b3]. unfold dot, vprod in *. cbn [fst snd] in *.
    assert (E1 : a1 * a1 + a2 * a2 = 1 - a3 * a3) by lra. assert (E2 : b1 * b1 + b2 * b2 = 1 - b3 * b3) by lra.
    assert (E3 : (a1 * b2 - a2 * b1) * (a1 * b2 - a2 * b1) = (a1 * a1 + a2 * a2) * (b1 * b1 + b2 * b2) - (a1 * b1 + a2 * b2) * (a1 * b1 + a2 * b2)) by ring.
    rewrite E3, E1, E2. ring. }
  assert (C1 : -1 < c < 1) by (split; nra).
  assert (QP : 0 < q).
  { assert (0 < (snd u - c * snd v) * (snd u - c * snd v)) by nra.
    assert (q = (snd u - c * snd v) * (snd u - c * snd v) + (1 - c * c) * (snd v * snd v)) by (unfold q; ring).
    pose proof (Rle_0_sqr (snd v)) as SV. unfold Rsqr in SV. assert (0 <= (1 - c * c) * (snd v * snd v)) by (apply Rmult_le_pos; lra). lra. }
  set (m := sqrt ((1 - c * c) * q)).
  assert (MQ : 0 < (1 - c * c) * q) by (apply Rmult_lt_0_compat; assumption).
  assert (MP : 0 < m) by (apply sqrt_lt_R0; exact MQ). assert (MM : m * m = (1 - c * c) * q) by (apply sqrt_sqrt; lra).
  set (s := (snd u - c * snd v) / m). set (t := (snd v - c * snd u) / m).
  set (p := vadd (vscale s u) (vscale t v)).
  assert (Z : snd p = q / m) by (unfold p, vadd, vscale; cbn [snd]; unfold s, t; rewrite Q; field; lra).
  exists p. split; [split|split].
  - rewrite (arc_norm _ _ U V s t p eq_refl). fold c. unfold s, t.
    transitivity ((1 - c * c) * q / (m * m)); [unfold q; field; lra|]. rewrite MM. field. lra.
  - exists s, t. split; [unfold s; apply Rlt_le, Rdiv_lt_0_compat; assumption|]. split; [unfold t; apply Rlt_le, Rdiv_lt_0_compat; assumption|reflexivity].
  - rewrite Z. apply Rdiv_lt_0_compat; assumption.
  - rewrite Z. transitivity ((1 - c * c) - (1 - c * c) * (q * q) / (m * m)); [field; lra|]. rewrite MM.
    transitivity ((1 - c * c) - q); [field; split; lra|]. rewrite G. ring.
Qed.
Lemma top_attained : forall l0 p0 l1 p1, 0 < cos p0 -> 0 < cos p1 ->
  let e0 := sin (l1 - l0) * cos p1 in let n0 := cos p0 * sin p1 - sin p0 * cos p1 * cos (l1 - l0) in
  let n1 := cos p1 * sin p0 - sin p1 * cos p0 * cos (l0 - l1) in
  0 < n0 -> 0 < n1 -> exists p, on_arc3 (upos l0 p0) (upos l1 p1) p /\ snd p = sin (acos (Rabs (sin (atan2 0 e0 n0) * cos p0))).
Proof.
  intros l0 p0 l1 p1 C0 C1 e0 n0 n1 N0 N1. set (k := sin (atan2 0 e0 n0) * cos p0).
  pose proof (en_len l0 p0 l1 p1) as EN. fold e0 n0 in EN.
  pose proof (leaving l0 p0 l1 p1) as L0. fold n0 in L0. pose proof (leaving l1 p1 l0 p0) as L1. fold n1 in L1.
  rewrite (dot_sym (upos l1 p1)) in L1.
  destruct (arc_summit (upos l0 p0) (upos l1 p1)) as (p & A & Z & S); [apply upos_unit|apply upos_unit| | | |].
  - rewrite <- EN. nra.
  - rewrite L1. nra.
  - rewrite L0. nra.
  - exists p. split; [exact A|].
    assert (NZ : n0 <> 0 \/ e0 <> 0) by (left; lra).
    destruct (atan2_polar 0 e0 n0 NZ) as (_ & SS & _). pose proof (norm_pos n0 e0 NZ) as RP. set (r := sqrt (n0 * n0 + e0 * e0)) in *.
    assert (RR : r * r = n0 * n0 + e0 * e0) by (apply sqrt_sqrt; nra).
    rewrite (vprod_z l0 p0 l1 p1) in S. fold e0 in S. rewrite <- EN in S.
    assert (K : k * k = 1 - snd p * snd p).
    { apply Rmult_eq_reg_r with (r * r); [|nra]. replace (r * r) with (e0 * e0 + n0 * n0) at 2 by lra. rewrite S. unfold k.
      transitivity (cos p0 * (r * sin (atan2 0 e0 n0)) * (cos p0 * (r * sin (atan2 0 e0 n0)))); [ring|]. rewrite SS. reflexivity. }
    assert (KB : -1 <= Rabs k <= 1).
    { split; [pose proof (Rabs_pos k); lra|]. unfold k. rewrite Rabs_mult. pose proof (SIN_bound (atan2 0 e0 n0)). pose proof (COS_bound p0).
      assert (Rabs (sin (atan2 0 e0 n0)) <= 1) by (apply Rabs_le; lra). assert (Rabs (cos p0) <= 1) by (apply Rabs_le; lra).
      pose proof (Rabs_pos (sin (atan2 0 e0 n0))). pose proof (Rabs_pos (cos p0)). nra. }
    rewrite sin_acos by exact KB. apply Rsqr_inj; [lra|apply sqrt_pos|]. rewrite Rsqr_sqrt; [unfold Rsqr at 1|].
    + rewrite <- (Rsqr_abs k). unfold Rsqr. lra.
    + rewrite <- (Rsqr_abs k). unfold Rsqr. nra.
Qed.
Lemma bnd_tight : forall p q lo hi, -90 < snd p < 90 -> -90 < snd q < 90 -> -180 < fst q - fst p < 180 ->
  bndlat_sph p q = Some (lo, hi) ->
  (exists w, on_arc3 (pos (fst p) (snd p)) (pos (fst q) (snd q)) w /\ snd w = sin (rad lo)) /\
  (exists w, on_arc3 (pos (fst p) (snd p)) (pos (fst q) (snd q)) w /\ snd w = sin (rad hi)).
Proof.
  intros [lon0 lat0] [lon1 lat1] lo hi A B D E. cbn [fst snd] in *. pose proof PI_RGT_0 as P.
  destruct (arc_ends (pos lon0 lat0) (pos lon1 lat1) (upos_unit _ _) (upos_unit _ _)) as [A0 A1].
  assert (MN : exists w, on_arc3 (pos lon0 lat0) (pos lon1 lat1) w /\ snd w = sin (rad (fminr lat0 lat1))).
  { unfold fminr. destruct (Rle_dec lat0 lat1); [exists (pos lon0 lat0)|exists (pos lon1 lat1)]; (split; [assumption|reflexivity]). }
  assert (MX : exists w, on_arc3 (pos lon0 lat0) (pos lon1 lat1) w /\ snd w = sin (rad (fmaxr lat0 lat1))).
  { unfold fmaxr. destruct (Rle_dec lat0 lat1); [exists (pos lon1 lat1)|exists (pos lon0 lat0)]; (split; [assumption|reflexivity]). }
  unfold bndlat_sph in E. cbn [fst snd] in E. rewrite rad_diff in E.
  change (lat0 * PI / 180) with (rad lat0) in E. change (lat1 * PI / 180) with (rad lat1) in E.
  destruct (req (rad lon1 - rad lon0) 0 && req (rad lat0) (rad lat1)) eqn:E0; [discriminate|].
  destruct (req (rad lon1 - rad lon0) 0 || xorb (rsign lat0) (rsign lat1)) eqn:E1; [injection E as <- <-; split; assumption|].
  apply orb_false_iff in E1. destruct E1 as [E1 E2]. apply req_f in E1.
  assert (C0 : 0 < cos (rad lat0)) by (apply cos_rad_pos; lra). assert (C1 : 0 < cos (rad lat1)) by (apply cos_rad_pos; lra).
  replace (- (rad lon1 - rad lon0)) with (rad lon0 - rad lon1) in E by ring.
  replace (5 / 10 * PI) with (PI / 2) in E by field.
  pose proof (scale_min lat0 lat1) as SMIN. pose proof (scale_max lat0 lat1) as SMAX. fold (rad lat0) (rad lat1) in SMIN, SMAX. rewrite SMIN, SMAX in E.
  assert (SN : forall s, s = sin (rad lon1 - rad lon0) -> s <> 0).
  { intros s ->. destruct (Rtotal_order (rad lon1 - rad lon0) 0) as [T|[T|T]]; [|contradiction|].
    - assert (sin (rad lon1 - rad lon0) < 0); [|lra]. apply sin_lt_0_var; unfold rad in *; nra.
    - assert (0 < sin (rad lon1 - rad lon0)); [|lra]. apply sin_gt_0; unfold rad in *; nra. }
  assert (NE0 : forall n, n <> 0 \/ sin (rad lon1 - rad lon0) * cos (rad lat1) <> 0).
  { intros. right. apply Rmult_integral_contrapositive_currified; [apply SN; reflexivity|lra]. }
  assert (NE1 : forall n, n <> 0 \/ sin (rad lon0 - rad lon1) * cos (rad lat0) <> 0).
  { intros. right. apply Rmult_integral_contrapositive_currified; [|lra].
    replace (rad lon0 - rad lon1) with (- (rad lon1 - rad lon0)) by ring. rewrite sin_neg. specialize (SN _ eq_refl). lra. }
  pose proof (folded_up (rad lon0) (rad lat0) (rad lon1) (rad lat1) (NE0 _)) as [FU0 FD0].
  pose proof (folded_up (rad lon1) (rad lat1) (rad lon0) (rad lat0) (NE1 _)) as [FU1 FD1].
  unfold rsign in E. destruct (rle 0 lat0) eqn:S0.
  - injection E as <- <-. split; [assumption|].
    destruct (rlt _ (PI / 2) && rlt _ (PI / 2)) eqn:F; [|assumption].
    apply andb_prop in F. destruct F as [F0 F1]. apply rlt_t, FU0 in F0. apply rlt_t, FU1 in F1.
    destruct (top_attained (rad lon0) (rad lat0) (rad lon1) (rad lat1) C0 C1 F0 F1) as (w & W & Z).
    exists w. split; [exact W|]. rewrite Z, rad_of_deg. reflexivity.
  - injection E as <- <-. split; [|assumption].
    destruct (rlt (PI / 2) _ && rlt (PI / 2) _) eqn:F; [|assumption].
    apply andb_prop in F. destruct F as [F0 F1]. apply rlt_t, FD0 in F0. apply rlt_t, FD1 in F1.
    destruct (top_attained (rad lon0) (- rad lat0) (rad lon1) (- rad lat1)) as (w & W & Z).
    + rewrite cos_neg. exact C0.
    + rewrite cos_neg. exact C1.
    + rewrite !cos_neg, !sin_neg. lra.
    + rewrite !cos_neg, !sin_neg. lra.
    + exists (mirror w). split.
      * apply mirror_arc in W. 
        assert (M : forall l x, mirror (upos (rad l) (- rad x)) = pos l x).
        { intros. unfold mirror, pos, upos. cbn. rewrite cos_neg, sin_neg. apply v3_eq; ring. }
        rewrite !M in W. exact W.
      * unfold mirror. cbn [snd]. rewrite Z. rewrite !cos_neg, !sin_neg.
        set (e := sin (rad lon1 - rad lon0) * cos (rad lat1)).
        set (n := cos (rad lat0) * sin (rad lat1) - sin (rad lat0) * cos (rad lat1) * cos (rad lon1 - rad lon0)).
        replace (cos (rad lat0) * - sin (rad lat1) - - sin (rad lat0) * cos (rad lat1) * cos (rad lon1 - rad lon0)) with (- n) by (unfold n; ring).
        assert (SE : sin (atan2 0 e (- n)) = sin (atan2 0 e n)).
        { assert (NN : n <> 0 \/ e <> 0) by (apply NE0). assert (NN' : - n <> 0 \/ e <> 0) by (right; unfold e; destruct (NE0 0); [lra|assumption]).
          destruct (atan2_polar 0 e n NN) as (_ & X & _). destruct (atan2_polar 0 e (- n) NN') as (_ & Y & _).
          replace (- n * - n) with (n * n) in Y by ring. pose proof (norm_pos n e NN) as RP.
          apply Rmult_eq_reg_l with (sqrt (n * n + e * e)); [|lra]. rewrite X, Y. reflexivity. }
        rewrite SE. set (z := acos _). replace (rad (- z * 180 / PI)) with (- z) by (unfold rad; field; lra). rewrite sin_neg. reflexivity.
Qed.
(** Across the equator the ends do not bound the arc. *)
Lemma rad_30 : rad 30 = PI / 6. Proof. unfold rad. field. Qed.
Lemma rad_60 : rad 60 = PI / 3. Proof. unfold rad. field. Qed.
Lemma rad_m30 : rad (-30) = - (PI / 6). Proof. unfold rad. field. Qed.
Lemma rad_150 : rad 150 = PI - PI / 6. Proof. unfold rad. field. Qed.
Lemma rad_0 : rad 0 = 0. Proof. unfold rad. field. Qed.
Lemma sqrt3 : sqrt 3 * sqrt 3 = 3 /\ 17 / 10 < sqrt 3 < 174 / 100.
Proof.
  assert (E : sqrt 3 * sqrt 3 = 3) by (apply sqrt_sqrt; lra). pose proof (sqrt_pos 3) as P. split; [exact E|]. split; nra.
Qed.
Lemma bnd_across : bndlat_sph (0, -30) (150, 60) = Some (-30, 60) /\
  exists w, on_arc3 (pos 0 (-30)) (pos 150 60) w /\ sin (rad 60) < snd w.
Proof.
  pose proof PI_RGT_0 as P. destruct sqrt3 as [S3 S3B]. split.
  - unfold bndlat_sph. cbn [fst snd].
    assert (E : req ((150 - 0) * PI / 180) 0 = false) by (apply req_f; lra). rewrite E. cbn [andb orb].
    unfold rsign. rewrite (proj2 (rle_f 0 (-30))) by lra. rewrite (proj2 (rle_t 0 60)) by lra. cbn [xorb].
    unfold fminr, fmaxr. destruct (Rle_dec (-30) 60); [reflexivity|lra].
  - set (m := sqrt (7 / 2 - sqrt 3)).
    assert (MM : m * m = 7 / 2 - sqrt 3) by (apply sqrt_sqrt; lra). assert (MP : 0 < m) by (apply sqrt_lt_R0; lra).
    assert (EA : pos 0 (-30) = (sqrt 3 / 2, 0, - (1 / 2))).
    { unfold pos, upos. rewrite rad_0, rad_m30, cos_neg, sin_neg, cos_0, sin_0, cos_PI6, sin_PI6. apply v3_eq; field. }
    assert (EB : pos 150 60 = (- sqrt 3 / 4, 1 / 4, sqrt 3 / 2)).
    { unfold pos, upos. rewrite rad_60, rad_150, cos_PI3, sin_PI3. 
      replace (cos (PI - PI / 6)) with (- cos (PI / 6)) by (rewrite cos_minus, cos_PI, sin_PI; ring).
      replace (sin (PI - PI / 6)) with (sin (PI / 6)) by (rewrite sin_minus, cos_PI, sin_PI; ring).
      rewrite cos_PI6, sin_PI6. apply v3_eq; field. }
    exists (0, / (2 * m), (sqrt 3 - 1 / 2) / m). split; [split|].
    + unfold dot. cbn [fst snd]. transitivity ((1 / 4 + (sqrt 3 * sqrt 3 - sqrt 3 + 1 / 4)) / (m * m)); [field; lra|]. rewrite S3, MM. field. lra.
    + exists (1 / m), (2 / m). split; [apply Rlt_le, Rdiv_lt_0_compat; lra|]. split; [apply Rlt_le, Rdiv_lt_0_compat; lra|].
      rewrite EA, EB. unfold vadd, vscale. cbn [fst snd]. apply v3_eq; field; lra.
    + cbn [snd]. rewrite rad_60, sin_PI3. apply Rmult_lt_reg_r with m; [exact MP|].
      replace ((sqrt 3 - 1 / 2) / m * m) with (sqrt 3 - 1 / 2) by (field; lra).
      assert (m < 138 / 100) by nra. nra.
Qed.
Lemma bnd_answers : forall p q, bndlat_sph p q = None <-> p = q.
Proof.
  intros [lon0 lat0] [lon1 lat1]. unfold bndlat_sph. cbn [fst snd]. rewrite rad_diff.
  change (lat0 * PI / 180) with (rad lat0). change (lat1 * PI / 180) with (rad lat1). split.
  - destruct (req (rad lon1 - rad lon0) 0) eqn:E1; [|cbn [andb orb]; destruct (xorb _ _), (rsign lat0); discriminate].
    destruct (req (rad lat0) (rad lat1)) eqn:E2; [|cbn [andb orb]; discriminate].
    intros _. apply req_t in E1, E2. f_equal; apply rad_inj; lra.
  - intros E. injection E as -> ->. rewrite (proj2 (req_t _ 0)) by ring. rewrite (proj2 (req_t (rad lat1) _)) by reflexivity. reflexivity.
Qed.
