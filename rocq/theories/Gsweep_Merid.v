(** Proofs about arcs and meridians. *)
From Coq Require Import List ZArith Reals Bool Lra Lia.
From Verif Require Import GeomR_Model Sphere_Model Sphere_Spec Sphere_Proofs Sphere_Dist Sphere_Bnd Sphere_Inter Gsweep_Model Gsweep_Spec Gsweep_Geom.
Import ListNotations.
Open Scope R_scope.

Lemma reduce_lat_id : forall y, -90 < y < 90 -> reduce_lat y = y.
Proof. intros y H. unfold reduce_lat. rewrite (pymod_unique (y + 90) 180 (y + 90) 0%Z); lra. Qed.
Lemma reduce_lat_turn : forall y, -90 < y < 90 -> reduce_lat (y + 180) = y.
Proof. intros y H. unfold reduce_lat. rewrite (pymod_unique (y + 180 + 90) 180 (y + 90) 1%Z); lra. Qed.
Lemma deg_lat : forall t, - (PI / 2) < t < PI / 2 -> -90 < t * 180 / PI < 90.
Proof.
  intros t H. pose proof PI_RGT_0. assert (E : t * 180 / PI * PI = 180 * t) by (field; lra). split; apply Rmult_lt_reg_r with PI; lra.
Qed.
(** The latitude of a direction, once reduced. *)
Lemma lat_val : forall x y z, x <> 0 \/ y <> 0 ->
  option_map reduce_lat (snd (cart2sph_c (x, y, z))) = Some (atan (z / sqrt (x * x + y * y)) * 180 / PI).
Proof.
  intros x y z N. unfold cart2sph_c. cbn [snd]. pose proof PI_RGT_0 as PP.
  set (r := sqrt (x * x + y * y)). assert (r0 : 0 < r) by (apply norm_pos; exact N).
  assert (rr : r * r = x * x + y * y) by (apply sqrt_sqrt; nra).
  set (t := atan (z / r)). pose proof (atan_bound (z / r)) as B. fold t in B.
  destruct (rlt (1 / 100000000) (Rabs z)) eqn:E.
  - apply rlt_t in E. cbn [option_map]. f_equal. destruct (Rlt_le_dec 0 z) as [Z|Z].
    + assert (A : atan (r / z) = PI / 2 - t).
      { unfold t. rewrite <- (atan_inv (z / r)) by (apply Rdiv_lt_0_compat; lra). f_equal. field. lra. }
      rewrite A. replace ((5 / 10 * PI - (PI / 2 - t)) * 180 / PI) with (t * 180 / PI) by (field; lra).
      apply reduce_lat_id, deg_lat. lra.
    + assert (Z' : z < 0). { destruct Z as [Z|Z]; [exact Z|]. rewrite Z, Rabs_R0 in E. lra. }
      assert (A : atan (r / z) = - (PI / 2) - t).
      { unfold t. replace (r / z) with (- (/ (- z / r))) by (field; lra). rewrite atan_opp, atan_inv by (apply Rdiv_lt_0_compat; lra).
        replace (- z / r) with (- (z / r)) by (field; lra). rewrite atan_opp. ring. }
      rewrite A. replace ((5 / 10 * PI - (- (PI / 2) - t)) * 180 / PI) with (t * 180 / PI + 180) by (field; lra).
      apply reduce_lat_turn, deg_lat. lra.
  - set (n := sqrt (x * x + y * y + z * z)). assert (n0 : 0 < n) by (apply sqrt_lt_R0; nra).
    destruct (req n 0) eqn:E2; [apply req_t in E2; lra|]. cbn [option_map]. f_equal.
    assert (A : acos (z / n) = PI / 2 - t).
    { assert (C : z / n = cos (PI / 2 - t)).
      { rewrite cos_shift. destruct (TerrainR_Proofs.atan_polar z r r0) as [_ V]. fold t in V.
        assert (S : sqrt (r * r + z * z) = n) by (unfold n; f_equal; lra). rewrite S in V. rewrite <- V. field. lra. }
      rewrite C. apply acos_cos. lra. }
    rewrite A. replace ((5 / 10 * PI - (PI / 2 - t)) * 180 / PI) with (t * 180 / PI) by (field; lra).
    apply reduce_lat_id, deg_lat. lra.
Qed.

Lemma reduce_degr_id : forall x, -180 <= x < 180 -> reduce_degr x = x.
Proof. intros x H. apply reduce_degr_unique; [exact H|apply congd_refl]. Qed.
(** The same meridian. *)
Lemma same_lon : forall l x k, 0 < k -> k * cos (rad l) = k * cos (rad x) -> k * sin (rad l) = k * sin (rad x) ->
  -180 < l <= 180 -> -180 < x <= 180 -> l = x.
Proof.
  intros l x k K C S L X.
  assert (C' : cos (rad l) = cos (rad x)) by (apply Rmult_eq_reg_l with k; lra). assert (S' : sin (rad l) = sin (rad x)) by (apply Rmult_eq_reg_l with k; lra).
  pose proof (atan2_unique 0 1 (rad l) ltac:(lra) (rad_bounds l L)) as A. pose proof (atan2_unique 0 1 (rad x) ltac:(lra) (rad_bounds x X)) as B.
  rewrite C', S' in A. apply rad_inj. congruence.
Qed.
Section Meridian.
Variables (e : rpt * rpt) (x : R).
Hypothesis Pe : plain e.
Hypothesis X : -180 < x < 180.
Hypothesis IN : fst (fst e) <= x <= fst (snd e) \/ fst (snd e) <= x <= fst (fst e).
Hypothesis RES : resolved_at e x.
Let n := axis e.
Lemma merid_dir : cross3 (eulerpole_c (fst e) (snd e)) (sin (PI * x / 180), cos (PI * x / 180), 0) =
  (- snd n * cos (rad x), - snd n * sin (rad x), fst (fst n) * cos (rad x) + snd (fst n) * sin (rad x)).
Proof.
  unfold eulerpole_c, n, axis. rewrite !sph2cart_pos. replace (PI * x / 180) with (rad x) by (unfold rad; field).
  unfold cross3, vprod, vx, vy, vz. cbn [fst snd]. apply v3_eq; ring.
Qed.
Lemma merid_spec : exists y, -90 < y < 90 /\ intersection_meridian (fst e) (snd e) x = Some y /\ on_edge e (pos x y).
Proof.
  pose proof (plain_z e Pe) as NZ. fold (axis e) in NZ. fold n in NZ.
  unfold intersection_meridian. rewrite merid_dir.
  set (k := - snd n) in *. set (z := fst (fst n) * cos (rad x) + snd (fst n) * sin (rad x)).
  assert (K0 : k <> 0) by (unfold k; lra). pose proof (sin2_cos2 (rad x)) as Q. unfold Rsqr in Q.
  assert (N : k * cos (rad x) <> 0 \/ k * sin (rad x) <> 0).
  { destruct (Req_dec (cos (rad x)) 0) as [C|C]; [right|left; apply Rmult_integral_contrapositive_currified; assumption].
    apply Rmult_integral_contrapositive_currified; [exact K0|]. intros S. rewrite C, S in Q. lra. }
  assert (RR : sqrt (k * cos (rad x) * (k * cos (rad x)) + k * sin (rad x) * (k * sin (rad x))) = Rabs k).
  { replace (k * cos (rad x) * (k * cos (rad x)) + k * sin (rad x) * (k * sin (rad x))) with (k²) by (unfold Rsqr; transitivity (k * k * (sin (rad x) * sin (rad x) + cos (rad x) * cos (rad x))); [rewrite Q; ring|ring]). apply sqrt_Rsqr_abs. }
  destruct (lon_dir (k * cos (rad x)) (k * sin (rad x)) z) as (l & E & L & Ex & Ey); [|exact N|].
  { destruct RES as [B|B]; [left|right; unfold k, n; lra]. unfold k, n. replace (- snd (axis e) * cos (rad x)) with (- (snd (axis e) * cos (rad x))) by ring. rewrite Rabs_Ropp. exact B. }
  pose proof (lat_val (k * cos (rad x)) (k * sin (rad x)) z N) as V. rewrite RR in Ex, Ey, V.
  set (y := atan (z / Rabs k) * 180 / PI) in *. assert (Y : -90 < y < 90) by (apply deg_lat; match goal with |- _ < atan ?u < _ => pose proof (atan_bound u) end; lra).
  destruct (lat_dir (k * cos (rad x)) (k * sin (rad x)) z l N) as (y' & m & Y' & M & W); [rewrite RR; exact Ex | rewrite RR; exact Ey|].
  assert (YY : y' = y).
  { (* the latitude is determined *)
    assert (AK : 0 < Rabs k) by (apply Rabs_pos_lt; exact K0).
    unfold pos, upos, vscale in W. cbn [fst snd] in W. injection W as W1 W2 W3.
    pose proof (cos_rad_pos _ Y') as CY.
    assert (H : m * cos (rad y') = Rabs k).
    { pose proof (sin2_cos2 (rad l)) as Q'. unfold Rsqr in Q'.
      assert (S1 : (Rabs k - m * cos (rad y')) * cos (rad l) = 0) by (rewrite Ex in W1; lra).
      assert (S2 : (Rabs k - m * cos (rad y')) * sin (rad l) = 0) by (rewrite Ey in W2; lra).
      apply Rmult_integral in S1. apply Rmult_integral in S2. destruct S1 as [S1|S1]; [lra|]. destruct S2 as [S2|S2]; [lra|]. rewrite S1, S2 in Q'. lra. }
    assert (TY : z / Rabs k = tan (rad y')). { unfold tan. rewrite W3, <- H. field. split; lra. }
    unfold y. rewrite TY. rewrite atan_tan by (apply rad_lat; exact Y'). unfold rad. rewrite rad_deg. reflexivity. }
  subst y'. clear Y'.
  assert (DN : dot n (pos l y) = 0).
  { assert (D0 : dot n (k * cos (rad x), k * sin (rad x), z) = 0) by (unfold dot, k, z; cbn [fst snd]; ring).
    rewrite W in D0. assert (G : dot n (vscale m (pos l y)) = m * dot n (pos l y)) by (unfold dot, vscale; cbn [fst snd]; ring). rewrite G in D0.
    apply Rmult_integral in D0. destruct D0; [lra|assumption]. }
  destruct (cart2sph_c (k * cos (rad x), k * sin (rad x), z)) as [lon lat]. cbn [fst snd] in E, V. rewrite E, V. cbn [option_map].
  destruct (Rlt_le_dec 0 k) as [KP|KP].
  - rewrite Rabs_right in Ex, Ey by lra.
    assert (LX : l = x) by (apply (same_lon l x k KP); lra). subst l.
    exists y. split; [exact Y|]. rewrite reduce_degr_id by lra. rewrite (proj2 (isbetween_t _ _ _) IN). split; [reflexivity|].
    apply arc_range; [exact Pe|lra|exact Y|]. split; [exact IN|exact DN].
  - assert (KN : k < 0) by lra. rewrite Rabs_left in Ex, Ey by exact KN.
    destruct (antipode l y) as [AN AC]. fold (antipodal l) in AN, AC. pose proof (antipodal_range l) as AR.
    assert (LX : antipodal l = x).
    { destruct (congd_trig _ _ AC) as [T1 T2]. rewrite rad_add in T1, T2. replace (rad 180) with PI in T1, T2 by (unfold rad; field). rewrite neg_cos in T1. rewrite neg_sin in T2.
      destruct (Req_dec (antipodal l) (-180)) as [A|A].
      - exfalso. assert (l = 0). { rewrite A in AC. apply (congd_uniq (-180)) with (a := l + 180) (b := 180) in AC; [lra|exists (-1)%Z; lra|lra]. }
        subst l. rewrite rad_0, cos_0, sin_0 in *.
        assert (x = 180); [|lra]. apply (same_lon x 180 (- k)); try lra.
        + replace (rad 180) with PI by (unfold rad; field). rewrite cos_PI. lra.
        + replace (rad 180) with PI by (unfold rad; field). rewrite sin_PI. lra.
      - apply (same_lon (antipodal l) x (- k)); try lra; [rewrite T1; lra | rewrite T2; lra]. }
    exists (- y). split; [lra|].
    assert (RA : antipodal (reduce_degr l) = x).
    { destruct (Req_dec l 180) as [->|NL].
      - assert (RD : reduce_degr 180 = -180) by (apply reduce_degr_unique; [lra|exists 1%Z; lra]). rewrite RD.
        rewrite <- LX. unfold antipodal. rewrite (pymod_unique (-180 + 360) 360 180 0%Z), (pymod_unique (180 + 360) 360 180 1%Z); lra.
      - rewrite reduce_degr_id by lra. exact LX. }
    rewrite RA. assert (NB : isbetween_inc (fst (fst e)) (Some (reduce_degr l)) (fst (snd e)) = false).
    { destruct (isbetween_inc (fst (fst e)) (Some (reduce_degr l)) (fst (snd e))) eqn:B; [|reflexivity]. exfalso. apply isbetween_t in B.
      destruct Pe as ((B1 & _) & (B2 & _) & _ & SP).
      assert (CL : congd l (reduce_degr l)) by (destruct (reduce_degr_spec l); assumption). destruct (reduce_degr_spec l) as [RB _].
      assert (CX : congd x (reduce_degr l + 180)). { rewrite <- LX. apply congd_trans with (l + 180); [exact AC|]. apply congd_add, CL. }
      destruct (Rlt_le_dec x (reduce_degr l)) as [Q1|Q1].
      - assert (x = reduce_degr l + 180 - 360); [|lra]. apply (congd_uniq x); [apply congd_refl|destruct CX as [j J]; exists (j + 1)%Z; rewrite plus_IZR; lra|lra].
      - assert (x = reduce_degr l + 180); [|lra]. apply (congd_uniq x); [apply congd_refl|exact CX|lra]. }
    rewrite NB, (proj2 (isbetween_t _ _ _) IN). split; [reflexivity|].
    apply arc_range; [exact Pe|lra|lra|]. split; [exact IN|]. rewrite <- LX, AN. apply dot_neg. exact DN.
Qed.
End Meridian.

(** Positions of an edge on a meridian. *)
Lemma upright_pos : forall f p, upright f -> inner (fst f) -> inner (snd f) -> on_edge f p ->
  exists y, -90 < y < 90 /\ p = pos (fst (fst f)) y /\ (snd (fst f) <= y <= snd (snd f) \/ snd (snd f) <= y <= snd (fst f)).
Proof.
  intros [[x ya] [x' yb]] p U (XA & YA) (XB & YB) (UP & s & t & S & T & E). unfold upright in U. cbn [fst snd] in *. subst x'.
  pose proof (cos_rad_pos _ YA) as CA. pose proof (cos_rad_pos _ YB) as CB.
  set (h := s * cos (rad ya) + t * cos (rad yb)). set (z := s * sin (rad ya) + t * sin (rad yb)).
  assert (PP : p = (h * cos (rad x), h * sin (rad x), z)). { rewrite E. unfold pos, upos, vadd, vscale, h, z. cbn [fst snd]. apply v3_eq; ring. }
  assert (HZ : h * h + z * z = 1).
  { rewrite PP in UP. unfold dot in UP. cbn [fst snd] in UP. pose proof (sin2_cos2 (rad x)) as Q. unfold Rsqr in Q.
    transitivity (h * h * (sin (rad x) * sin (rad x) + cos (rad x) * cos (rad x)) + z * z); [rewrite Q; ring|lra]. }
  assert (H0 : 0 < h).
  { assert (0 <= h) by (unfold h; apply Rplus_le_le_0_compat; apply Rmult_le_pos; lra). destruct (Req_dec h 0) as [Z|Z]; [|lra].
    exfalso. unfold h in Z. assert (s * cos (rad ya) = 0 /\ t * cos (rad yb) = 0) as [Z1 Z2].
    { assert (0 <= s * cos (rad ya)) by (apply Rmult_le_pos; lra). assert (0 <= t * cos (rad yb)) by (apply Rmult_le_pos; lra). split; lra. }
    apply Rmult_integral in Z1. apply Rmult_integral in Z2. destruct Z1 as [-> | Z1]; [|lra]. destruct Z2 as [-> | Z2]; [|lra]. unfold h, z in HZ. lra. }
  destruct (TerrainR_Proofs.atan_polar z h H0) as [U V]. rewrite HZ, sqrt_1, !Rmult_1_l in U, V.
  set (y := atan (z / h) * 180 / PI). assert (Y : -90 < y < 90) by (apply deg_lat; match goal with |- _ < atan ?u < _ => pose proof (atan_bound u) end; lra).
  assert (RY : rad y = atan (z / h)) by (unfold y, rad; apply deg_rad). rewrite <- RY in U, V.
  exists y. split; [exact Y|]. split; [rewrite PP; unfold pos, upos; rewrite U, V; reflexivity|].
  assert (D1 : sin (rad (y - ya)) = t * sin (rad (yb - ya))).
  { replace (rad (y - ya)) with (rad y - rad ya) by (unfold rad; field). replace (rad (yb - ya)) with (rad yb - rad ya) by (unfold rad; field).
    rewrite !sin_minus, U, V. unfold h, z. ring. }
  assert (D2 : sin (rad (yb - y)) = s * sin (rad (yb - ya))).
  { replace (rad (yb - y)) with (rad yb - rad y) by (unfold rad; field). replace (rad (yb - ya)) with (rad yb - rad ya) by (unfold rad; field).
    rewrite !sin_minus, U, V. unfold h, z. ring. }
  destruct (Rle_lt_dec ya yb) as [C|C].
  - left. pose proof (sin_rad_nonneg (yb - ya) ltac:(lra)) as N. split.
    + destruct (Rle_lt_dec ya y) as [G|G]; [exact G|]. pose proof (sin_rad_neg (y - ya) ltac:(lra)). assert (0 <= t * sin (rad (yb - ya))) by (apply Rmult_le_pos; lra). lra.
    + destruct (Rle_lt_dec y yb) as [G|G]; [exact G|]. pose proof (sin_rad_neg (yb - y) ltac:(lra)). assert (0 <= s * sin (rad (yb - ya))) by (apply Rmult_le_pos; lra). lra.
  - right. pose proof (sin_rad_neg (yb - ya) ltac:(lra)) as N. split.
    + destruct (Rle_lt_dec yb y) as [G|G]; [exact G|]. pose proof (sin_rad_pos (yb - y) ltac:(lra)). assert (s * sin (rad (yb - ya)) <= 0) by nra. lra.
    + destruct (Rle_lt_dec y ya) as [G|G]; [exact G|]. pose proof (sin_rad_pos (y - ya) ltac:(lra)). assert (t * sin (rad (yb - ya)) <= 0) by nra. lra.
Qed.
Lemma upright_on : forall f y, upright f -> inner (fst f) -> inner (snd f) ->
  (snd (fst f) <= y <= snd (snd f) \/ snd (snd f) <= y <= snd (fst f)) -> on_edge f (pos (fst (fst f)) y).
Proof.
  intros [[x ya] [x' yb]] y U (XA & YA) (XB & YB) B. unfold upright in U. unfold on_edge. cbn [fst snd] in *. subst x'. split; [apply upos_unit|].
  destruct (Req_dec ya yb) as [Q|Q].
  - subst yb. assert (y = ya) by lra. subst y. exists 1, 0. split; [lra|]. split; [lra|]. unfold vadd, vscale, pos, upos. cbn [fst snd]. apply v3_eq; ring.
  - set (d := sin (rad (yb - ya))).
    assert (SG : d <> 0 /\ 0 <= sin (rad (yb - y)) / d /\ 0 <= sin (rad (y - ya)) / d).
    { unfold d. destruct (Rlt_le_dec ya yb) as [C|C].
      - pose proof (sin_rad_pos (yb - ya) ltac:(lra)). pose proof (sin_rad_nonneg (yb - y) ltac:(lra)). pose proof (sin_rad_nonneg (y - ya) ltac:(lra)).
        assert (0 < / sin (rad (yb - ya))) by (apply Rinv_0_lt_compat; lra).
        split; [lra|]. unfold Rdiv. split; apply Rmult_le_pos; lra.
      - pose proof (sin_rad_neg (yb - ya) ltac:(lra)).
        assert (F : forall u, -180 < u <= 0 -> sin (rad u) <= 0). { intros u [U1 [U2|U2]]; [left; apply sin_rad_neg; lra|]. rewrite U2, rad_0, sin_0. lra. }
        pose proof (F (yb - y) ltac:(lra)). pose proof (F (y - ya) ltac:(lra)). assert (/ sin (rad (yb - ya)) < 0) by (apply Rinv_lt_0_compat; lra).
        split; [lra|]. unfold Rdiv. split; nra. }
    destruct SG as (D & A & Bq). exists (sin (rad (yb - y)) / d), (sin (rad (y - ya)) / d). split; [exact A|]. split; [exact Bq|].
    assert (E1 : cos (rad y) = (sin (rad (yb - y)) * cos (rad ya) + sin (rad (y - ya)) * cos (rad yb)) / d).
    { apply Rmult_eq_reg_r with d; [|exact D]. replace ((sin (rad (yb - y)) * cos (rad ya) + sin (rad (y - ya)) * cos (rad yb)) / d * d) with (sin (rad (yb - y)) * cos (rad ya) + sin (rad (y - ya)) * cos (rad yb)) by (field; exact D).
      unfold d. replace (rad (yb - ya)) with (rad yb - rad ya) by (unfold rad; field). replace (rad (yb - y)) with (rad yb - rad y) by (unfold rad; field). replace (rad (y - ya)) with (rad y - rad ya) by (unfold rad; field).
      rewrite !sin_minus. ring. }
    assert (E2 : sin (rad y) = (sin (rad (yb - y)) * sin (rad ya) + sin (rad (y - ya)) * sin (rad yb)) / d).
    { apply Rmult_eq_reg_r with d; [|exact D]. replace ((sin (rad (yb - y)) * sin (rad ya) + sin (rad (y - ya)) * sin (rad yb)) / d * d) with (sin (rad (yb - y)) * sin (rad ya) + sin (rad (y - ya)) * sin (rad yb)) by (field; exact D).
      unfold d. replace (rad (yb - ya)) with (rad yb - rad ya) by (unfold rad; field). replace (rad (yb - y)) with (rad yb - rad y) by (unfold rad; field). replace (rad (y - ya)) with (rad y - rad ya) by (unfold rad; field).
      rewrite !sin_minus. ring. }
    unfold pos, upos, vadd, vscale. cbn [fst snd]. rewrite E1, E2. apply v3_eq; field; exact D.
Qed.
(** Equal positions on a meridian. *)
Lemma pos_lat : forall x y x' y', -90 < y < 90 -> -90 < y' < 90 -> pos x y = pos x' y' -> y = y'.
Proof.
  intros x y x' y' Y Y' E. unfold pos, upos in E. injection E as _ _ E. apply rad_inj.
  apply rad_lat in Y, Y'. rewrite <- (asin_sin (rad y)) by lra. rewrite <- (asin_sin (rad y')) by lra. rewrite E. reflexivity.
Qed.
(** Every position off the poles has a longitude and a latitude. *)
Lemma pos_of : forall p, dot p p = 1 -> fst (fst p) <> 0 \/ snd (fst p) <> 0 -> exists x y, -180 < x <= 180 /\ -90 < y < 90 /\ p = pos x y.
Proof.
  intros [[a b] c] U N. unfold dot in U. cbn [fst snd] in *. pose proof PI_RGT_0 as PP.
  destruct (atan2_polar 0 b a N) as (A & B & C). set (lam := atan2 0 b a) in *.
  assert (RL : rad (lam * 180 / PI) = lam) by (unfold rad; apply deg_rad).
  destruct (lat_dir a b c (lam * 180 / PI) N) as (y & m & Y & M & W); [rewrite RL; symmetry; exact A|rewrite RL; symmetry; exact B|].
  exists (lam * 180 / PI), y. split.
  { assert (E : lam * 180 / PI * PI = 180 * lam) by (field; lra). split; [apply Rmult_lt_reg_r with PI|apply Rmult_le_reg_r with PI]; lra. }
  split; [exact Y|]. assert (M1 : m = 1).
  { assert (D : dot (a, b, c) (a, b, c) = m * m * dot (pos (lam * 180 / PI) y) (pos (lam * 180 / PI) y)) by (rewrite W; unfold dot, vscale; cbn [fst snd]; ring).
    assert (UP : dot (pos (lam * 180 / PI) y) (pos (lam * 180 / PI) y) = 1) by apply upos_unit. rewrite UP in D. unfold dot in D. cbn [fst snd] in D. nra. }
  rewrite W, M1. unfold vscale. destruct (pos (lam * 180 / PI) y) as [[u v] w]. cbn [fst snd]. apply v3_eq; ring.
Qed.
(** Positions of an edge that is not on a meridian. *)
Lemma plain_pos : forall e p, plain e -> on_edge e p -> exists x y, -180 < x <= 180 /\ -90 < y < 90 /\ p = pos x y /\
  (fst (fst e) <= x <= fst (snd e) \/ fst (snd e) <= x <= fst (fst e)).
Proof.
  intros e p Pe O. assert (N : fst (fst p) <> 0 \/ snd (fst p) <> 0).
  { destruct (Req_dec (fst (fst p)) 0) as [A|A]; [|left; exact A]. destruct (Req_dec (snd (fst p)) 0) as [B|B]; [|right; exact B]. exfalso.
    pose proof (plain_z e Pe) as Z. destruct O as (U & s & t & S & T & E).
    set (P := pos (fst (fst e)) (snd (fst e))) in *. set (Q := pos (fst (snd e)) (snd (snd e))) in *. clearbody P Q.
    destruct P as [[a1 a2] a3], Q as [[b1 b2] b3]. rewrite E in A, B, U. unfold vadd, vscale, vprod, dot in *. cbn [fst snd] in *.
    assert (T0 : t * (a1 * b2 - a2 * b1) = 0) by (transitivity (a1 * (s * a2 + t * b2) - a2 * (s * a1 + t * b1)); [ring|rewrite A, B; ring]).
    assert (S0 : s * (a1 * b2 - a2 * b1) = 0) by (transitivity (b2 * (s * a1 + t * b1) - b1 * (s * a2 + t * b2)); [ring|rewrite A, B; ring]).
    apply Rmult_integral in T0. apply Rmult_integral in S0. destruct T0 as [-> | T0]; [|contradiction]. destruct S0 as [-> | S0]; [|contradiction].
    rewrite !Rmult_0_l in U. lra. }
  destruct (pos_of p (proj1 O) N) as (x & y & X & Y & ->). exists x, y. split; [exact X|]. split; [exact Y|]. split; [reflexivity|].
  apply (arc_range e x y Pe X Y) in O. apply O.
Qed.
(** One position over each longitude. *)
Lemma one_height : forall e x y y', plain e -> -180 < x <= 180 -> -90 < y < 90 -> -90 < y' < 90 -> on_edge e (pos x y) -> on_edge e (pos x y') -> y = y'.
Proof.
  intros e x y y' Pe X Y Y' A B. apply arc_range in A; [|assumption..]. apply arc_range in B; [|assumption..]. destruct A as [_ A], B as [_ B].
  pose proof (plain_z e Pe) as Z. set (n := vprod _ _) in *. clearbody n. destruct n as [[n1 n2] n3]. unfold dot, pos, upos in A, B. cbn [fst snd] in *.
  pose proof (cos_rad_pos _ Y). pose proof (cos_rad_pos _ Y').
  assert (K : n3 * sin (rad (y - y')) = 0).
  { replace (rad (y - y')) with (rad y - rad y') by (unfold rad; field). rewrite sin_minus.
    transitivity (cos (rad y') * (n1 * (cos (rad y) * cos (rad x)) + n2 * (cos (rad y) * sin (rad x)) + n3 * sin (rad y)) - cos (rad y) * (n1 * (cos (rad y') * cos (rad x)) + n2 * (cos (rad y') * sin (rad x)) + n3 * sin (rad y'))); [ring|rewrite A, B; ring]. }
  apply Rmult_integral in K. destruct K as [K|K]; [contradiction|].
  destruct (Rtotal_order y y') as [L|[L|L]]; [|exact L|]; exfalso; [pose proof (sin_rad_neg (y - y') ltac:(lra))|pose proof (sin_rad_pos (y - y') ltac:(lra))]; lra.
Qed.
