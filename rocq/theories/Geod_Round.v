(** Spheres and the equator. *)
From Coq Require Import List ZArith Reals Lra Lia Bool.
From Coquelicot Require Import Coquelicot.
From Verif Require Import GeomR_Model GeomR_Proofs Sphere_Model Sphere_Spec Sphere_Proofs Sphere_Area Geod_Model Geod_Spec Geod_Forward
  Geod_Series Geod_Bounds Geod_Revert Geod_Accurate Geod_Symm Geod_Unwrap Geod_Inverse Geod_Answer.
Import ListNotations.
Open Scope R_scope.

(* ---- geodesics of a sphere are great circles *)
Lemma speed_round : forall r C s, 0 < r -> speed r r C s = r.
Proof. intros r C s P. unfold speed. replace (r ^ 2 + (r ^ 2 - r ^ 2) * C ^ 2 * sin s ^ 2) with (r ^ 2) by ring. apply sqrt_pow2. lra. Qed.
Lemma RInt_const_R : forall c x y : R, RInt (fun _ : R => c) x y = (y - x) * c.
Proof. intros. exact (RInt_const (V := R_CompleteNormedModule) x y c). Qed.
Lemma length_round : forall r C s1 s2, 0 < r -> geodesic_length r r C s1 s2 = r * (s2 - s1).
Proof.
  intros r C s1 s2 P. unfold geodesic_length. rewrite (RInt_ext _ (fun _ => r)) by (intros; apply speed_round, P). rewrite RInt_const_R. ring.
Qed.
Lemma lag_round : forall r S C s1 s2, 0 < r -> RInt (lag r r S C) s1 s2 = 0.
Proof.
  intros r S C s1 s2 P. transitivity (RInt (fun _ : R => 0) s1 s2); [apply RInt_ext|rewrite RInt_const_R; apply Rmult_0_r].
  intros x _. assert (Z : lag r r S C x = 0) by (unfold lag; replace (r ^ 2 - r ^ 2) with 0 by ring; unfold Rdiv; ring). exact Z.
Qed.
Lemma geodesic_round1 : forall r l1 p1 a1 l2 p2 a2 d, 0 < r -> geodesic r r l1 p1 a1 l2 p2 a2 d -> travel l1 p1 a1 (d / r) = upos l2 p2.
Proof.
  intros r l1 p1 a1 l2 p2 a2 d P (S & C & s1 & s2 & o1 & o2 & b1 & b2 & N & R1 & R2 & O1 & O2 & D & L).
  rewrite length_round in D by exact P. rewrite lag_round in L by exact P. apply reduced_round in R1 as E1; [|exact P]. apply reduced_round in R2 as E2; [|exact P].
  destruct R1 as (_ & B1 & _). subst b1 b2. assert (PC : 0 < cos p1) by (apply cos_gt_0; lra).
  pose proof (circle_travel _ _ _ _ _ _ (l1 - o1) (d / r) N O1 PC) as T. replace (l1 - o1 + o1) with l1 in T by ring. rewrite T.
  replace (s1 + d / r) with s2 by (rewrite D; field; lra). rewrite <- (circle_pos _ _ _ _ _ _ (l1 - o1) O2). apply upos_congr.
  destruct L as [k K]. exists (- k)%Z. rewrite opp_IZR. lra.
Qed.
Lemma geodesic_round : forall r l1 p1 a1 l2 p2 a2 d, 0 < r -> geodesic r r l1 p1 a1 l2 p2 a2 d ->
  travel l1 p1 a1 (d / r) = upos l2 p2 /\ travel l2 p2 (a2 + PI) (d / r) = upos l1 p1.
Proof.
  intros r l1 p1 a1 l2 p2 a2 d P G. split; [exact (geodesic_round1 _ _ _ _ _ _ _ _ P G)|].
  apply geodesic_back in G; [|assumption|assumption]. exact (geodesic_round1 _ _ _ _ _ _ _ _ P G).
Qed.
Lemma travel_dot : forall l p al d, dot (upos l p) (travel l p al d) = cos d.
Proof.
  intros l p al d. unfold travel, dot, vadd, vscale, upos, east, north. cbn [fst snd]. pose proof (sc l) as H1. pose proof (sc p) as H2. ring [H1 H2].
Qed.
(* ---- the equator *)
Lemma equator_geodesic : forall a b l S d, 0 < a -> 0 < b -> S = 1 \/ S = -1 ->
  geodesic a b l 0 (S * (PI / 2)) (l + S * (d / a)) 0 (S * (PI / 2)) d.
Proof.
  intros a b l S d PA PB HS. pose proof PI_RGT_0.
  assert (SP : forall s, speed a b 0 s = b).
  { intros s. unfold speed. replace (b ^ 2 + (a ^ 2 - b ^ 2) * 0 ^ 2 * sin s ^ 2) with (b ^ 2) by ring. apply sqrt_pow2. lra. }
  assert (RL : reduced_latitude a b 0 0) by (unfold reduced_latitude; rewrite sin_0, cos_0; split; [lra|]; split; [lra|ring]).
  assert (OC : forall s, on_circle S 0 s (S * s) 0 (S * (PI / 2))).
  { intros s. unfold on_circle. rewrite sin_0, cos_0. destruct HS as [-> | ->].
    - rewrite !Rmult_1_l, sin_PI2, cos_PI2. repeat split; ring.
    - replace (-1 * s) with (- s) by ring. replace (-1 * (PI / 2)) with (- (PI / 2)) by ring. rewrite !sin_neg, !cos_neg, sin_PI2, cos_PI2. repeat split; ring. }
  exists S, 0, 0, (d / b), (S * 0), (S * (d / b)), 0, 0. split; [destruct HS as [-> | ->]; ring|]. split; [exact RL|]. split; [exact RL|].
  split; [apply OC|]. split; [apply OC|]. split.
  - unfold geodesic_length. rewrite (RInt_ext _ (fun _ => b)) by (intros; apply SP). rewrite RInt_const_R. field. lra.
  - rewrite (RInt_ext _ (fun _ => (a ^ 2 - b ^ 2) * S / (a * (a + b)))) by (intros; unfold lag; rewrite SP; reflexivity). rewrite RInt_const_R.
    exists 0%Z. cbn [IZR]. field. lra.
Qed.

(* ---- the first azimuth is exact on a sphere *)
Lemma same_direction : forall u v, cos u = cos v -> sin u = sin v -> - (2 * PI) < u - v < 2 * PI -> u = v.
Proof.
  intros u v A B R. assert (K : cos (u - v) = 1) by (rewrite cos_minus, A, B; pose proof (sc v); lra).
  assert (Z : sin (u - v) = 0) by (rewrite sin_minus, A, B; ring).
  pose proof PI_RGT_0. destruct (Rtotal_order (u - v) 0) as [L|[E|G]]; [|lra|].
  - exfalso. destruct (Rtotal_order (u - v) (- PI)) as [L2|[E2|G2]].
    + assert (0 < sin (u - v + 2 * PI)) by (apply sin_gt_0; lra). rewrite sin_period in H0 || rewrite (sin_plus (u - v) (2 * PI)), sin_2PI, cos_2PI in H0. lra.
    + rewrite E2, cos_neg, cos_PI in K. lra.
    + assert (sin (u - v) < 0) by (apply sin_lt_0_var; lra). lra.
  - exfalso. destruct (Rtotal_order (u - v) PI) as [L2|[E2|G2]].
    + assert (0 < sin (u - v)) by (apply sin_gt_0; lra). lra.
    + rewrite E2, cos_PI in K. lra.
    + assert (sin (u - v) < 0) by (apply sin_lt_0; lra). lra.
Qed.
Lemma unwrap_half : forall s t, unwrap s (t + PI) = unwrap s t + PI.
Proof.
  intros s t. unfold unwrap. rewrite neg_sin, neg_cos. replace (- sin t * - cos t) with (sin t * cos t) by ring.
  replace (- cos t * - cos t) with (cos t * cos t) by ring. replace (- sin t * - sin t) with (sin t * sin t) by ring. ring.
Qed.
Lemma first_exact : forall flat r L p1 p2, 0 < r -> 0 < L < PI -> canonical_latitudes p1 p2 ->
  let al1 := atan2 flat (cos p2 * sin L) (cos p1 * sin p2 - sin p1 * cos p2 * cos L) in
  exists now S, (forall tol, 0 <= tol -> newton_step flat r r 0 L p1 p2 tol al1 = Done (now, 0, al1)) /\ found S r r p1 p2 L 0 al1 now.
Proof.
  intros flat r L p1 p2 PR HL CL al1. pose proof PI_RGT_0 as P0.
  destruct (triangles flat p1 p2 al1 CL) as (PC & N & SE & s1 & al2 & s2 & EA & EB & H1 & H2 & H3 & O1 & O2 & Q1 & Q2 & Q3). cbv zeta in *.
  set (al0 := azimuth0 flat al1 p1) in *. set (o1 := atan2 flat (sin al0 * sin s1) (cos s1)) in *. set (o2 := atan2 flat (sin al0 * sin s2) (cos s2)) in *.
  destruct CL as (C1 & C2 & S1 & S2). assert (C2' : 0 < cos p2) by lra. assert (SL : 0 < sin L) by (apply sin_gt_0; lra).
  set (zi := cos p2 * sin L) in *. set (zr := cos p1 * sin p2 - sin p1 * cos p2 * cos L) in *.
  set (M := sqrt (zr * zr + zi * zi)). assert (ZI : 0 < zi) by (apply Rmult_lt_0_compat; assumption).
  assert (MM : M * M = zr * zr + zi * zi) by (apply sqrt_sqrt; nra). assert (MP : 0 < M) by (apply sqrt_lt_R0; nra).
  destruct (polarr flat zi zr M MP ltac:(lra)) as (A1 & A2 & A3). fold al1 in A1, A2, A3.
  set (S := sin al0) in *. set (C := cos al0) in *. destruct O1 as (B1 & B2 & B3 & B4 & B5).
  set (Z := - sin p1 * cos p2 + cos p1 * sin p2 * cos L).
  pose proof (sc p1) as T1. pose proof (sc p2) as T2. pose proof (sc L) as T3.
  assert (MZ : M * M = Z * Z + cos p1 * sin L * (cos p1 * sin L)).
  { rewrite MM. unfold zr, zi, Z. ring [T1 T2 T3]. }
  assert (SM : S * M = cos p1 * zi) by (rewrite SE, <- A2; ring).
  assert (SP : 0 < S) by (apply Rmult_lt_reg_r with M; [exact MP|]; rewrite Rmult_0_l, SM; apply Rmult_lt_0_compat; assumption).
  assert (ZP : 0 <= Z).
  { unfold Z. pose proof (COS_bound L) as CB. apply Rabs_le_between in S2.
    assert (K1 : Rabs (sin p2 * cos L) <= Rabs (sin p2)).
    { rewrite Rabs_mult. rewrite <- (Rmult_1_r (Rabs (sin p2))) at 2. apply Rmult_le_compat_l; [apply Rabs_pos|apply Rabs_le; lra]. }
    assert (K2 : Rabs (sin p2) <= - sin p1) by (apply Rabs_le; lra).
    assert (K3 : Rabs (sin p2 * cos L) <= - sin p1) by lra. apply Rabs_le_between in K3.
    assert (0 <= cos p1 * (sin p2 * cos L + - sin p1)) by (apply Rmult_le_pos; lra).
    assert (0 <= - sin p1 * (cos p2 - cos p1)) by (apply Rmult_le_pos; lra). nra. }
  assert (CM : C * C * (M * M) = M * M - cos p1 * zi * (cos p1 * zi)).
  { rewrite <- SM. rewrite !sq2 in N. replace (C * C) with (1 - S * S) by lra. ring. }
  assert (CS2 : C * cos s2 * M = cos p2 * Z).
  { apply Rsqr_inj.
    - apply Rmult_le_pos; [|lra]. apply Rmult_le_pos; [lra|]. apply cos_ge_0; lra.
    - apply Rmult_le_pos; lra.
    - unfold Rsqr. pose proof (sc s2) as Y.
      replace (C * cos s2 * M * (C * cos s2 * M)) with (C * C * (M * M) - C * sin s2 * (C * sin s2) * (M * M)) by ring [Y].
      rewrite CM, Q3. replace (cos p2 * Z * (cos p2 * Z)) with (cos p2 * cos p2 * (Z * Z)) by ring. replace (Z * Z) with (M * M - cos p1 * sin L * (cos p1 * sin L)) by lra.
      unfold zi. ring [T2]. }
  assert (CS1 : C * cos s1 * M = cos p1 * zr) by (rewrite <- B5, <- A1; ring).
  assert (CPOS : 0 < C * C * (M * M)) by (apply Rmult_lt_0_compat; apply Rmult_lt_0_compat; assumption).
  assert (CO : cos (o2 - o1) = cos L).
  { apply Rmult_eq_reg_l with (C * C * (M * M) * (cos p1 * cos p2)); [|apply Rgt_not_eq, Rmult_lt_0_compat; [exact CPOS|apply Rmult_lt_0_compat; assumption]].
    rewrite cos_minus.
    transitivity (C * C * (M * M) * (cos p2 * cos o2 * (cos p1 * cos o1) + cos p2 * sin o2 * (cos p1 * sin o1))); [ring|].
    rewrite Q1, Q2, B1, B2.
    transitivity (C * cos s2 * M * (C * cos s1 * M) + S * M * (S * M) * (C * sin s2) * (C * sin s1)); [ring|].
    rewrite CS2, CS1, SM, Q3, <- B3, CM, MM. unfold zr, zi, Z. ring [T1 T2 T3]. }
  assert (SO : sin (o2 - o1) = sin L).
  { apply Rmult_eq_reg_l with (C * C * (M * M) * (cos p1 * cos p2)); [|apply Rgt_not_eq, Rmult_lt_0_compat; [exact CPOS|apply Rmult_lt_0_compat; assumption]].
    rewrite sin_minus.
    transitivity (C * C * (M * M) * (cos p2 * sin o2 * (cos p1 * cos o1) - cos p2 * cos o2 * (cos p1 * sin o1))); [ring|].
    rewrite Q1, Q2, B1, B2.
    transitivity (S * M * (C * sin s2 * (C * cos s1 * M) - C * cos s2 * M * (C * sin s1))); [ring|].
    rewrite CS2, CS1, SM, Q3, <- B3, CM, MM. unfold zr, zi, Z. ring [T1 T2 T3]. }
  assert (OR : 0 <= o2 - o1 <= PI).
  { assert (S <= 1) by (rewrite !sq2 in N; nra).
    unfold o1, o2. rewrite !unwrap_atan2 by lra. pose proof (unwrap_rate S s1 s2 ltac:(lra) ltac:(lra)) as U1.
    pose proof (unwrap_rate S s2 (s1 + PI) ltac:(lra) ltac:(lra)) as U2. rewrite unwrap_half in U2.
    assert (0 <= S * (s2 - s1)) by (apply Rmult_le_pos; lra). assert (0 <= S * (s1 + PI - s2)) by (apply Rmult_le_pos; lra). lra. }
  assert (OL : o2 - o1 = L) by (apply same_direction; [exact CO|exact SO|lra]).
  exists (mkSolved al0 s1 al2 s2), S. split.
  - intros tol T. unfold newton_step. fold al0. rewrite EA, EB. cbn [andthen]. rewrite !Rmult_0_l, !Rminus_0_r, OL.
    replace (L - L) with 0 by ring. rewrite Rabs_R0, (proj2 (rlt_f tol 0) T). reflexivity.
  - exists C, o1, o2, 0%Z. cbn [s_alpha0 s_sigma1 s_sigma2 s_alpha2]. split; [exact N|]. split; [reflexivity|]. split; [unfold on_circle; repeat split; assumption|].
    split; [apply O2; lra|]. split; [lra|]. split; [|split; [lra|]; split; [exact PC|]; split; assumption]. rewrite sphere_flattening by exact PR. cbn [IZR].
    match goal with |- Rabs ?v <= _ => replace v with 0 end; [rewrite Rabs_R0; lra|]. rewrite OL. ring.
Qed.
Lemma third_round : forall r, 0 < r -> third r r = 0. Proof. intros. unfold third. field. lra. Qed.


Lemma solve_sphere : forall flat r y1 x2 y2 tol, 0 < r -> -90 < y1 < 0 -> Rabs y2 <= - y1 -> 0 <= x2 <= 180 -> 0 <= tol ->
  x2 = 0 \/ x2 = 180 \/ (87 / 10000 < Rabs (rad y1 + rad y2) /\ rad x2 < PI - 87 / 10000) ->
  exists al s S, solve_inverse flat r r y1 x2 y2 tol = Done (al, s, false) /\ found S r r (rad y1) (rad y2) (rad x2) 0 al s.
Proof.
  intros flat r y1 x2 y2 tol PR Y1 Y2 X2 T0 HX. pose proof PI_RGT_0 as P0. pose proof (sphere_flattening r PR) as F0.
  destruct (canonical_reduced r r y1 y2 PR PR Y1 Y2) as (L1 & L2 & CL). cbv zeta in *. apply Rabs_le_between in Y2 as Y2'.
  pose proof (reduced_round r _ _ PR L1) as E1. pose proof (reduced_round r _ _ PR L2) as E2.
  assert (M : x2 = 0 \/ Rabs (rad x2 - PI) < 1 / 1000000000000 -> x2 = 0 \/ x2 = 180 -> exists al s S, solve_inverse flat r r y1 x2 y2 tol = Done (al, s, false) /\ found S r r (rad y1) (rad y2) (rad x2) 0 al s).
  { intros HM HE. destruct (solve_meridian flat r r y1 x2 y2 tol HM X2 ltac:(lra) CL) as (al & s & SV & lam & F & G0 & G1). rewrite E1, E2 in F.
    exists al, s, 0. split; [exact SV|]. destruct HE as [E|E].
    - rewrite (G0 E) in F. rewrite E. replace (rad 0) with 0 by (unfold rad; field). exact F.
    - rewrite G1 in F by lra. rewrite E. replace (rad 180) with PI by (unfold rad; field). exact F. }
  destruct HX as [HX|[HX|[HX HL]]].
  - apply M; left; exact HX.
  - apply M; [right|right; exact HX]. rewrite HX. replace (rad 180 - PI) with 0 by (unfold rad; field). rewrite Rabs_R0. lra.
  - destruct (Req_dec x2 0) as [Z|NZ]; [apply M; left; exact Z|]. clear M.
    assert (RX : 0 < rad x2 < PI) by (split; [unfold rad; nra|lra]).
    destruct (first_exact flat r (rad x2) (rad y1) (rad y2) PR RX) as (now & S & ST & F). { rewrite E1, E2 in CL. exact CL. }
    set (al := atan2 flat (cos (rad y2) * sin (rad x2)) (cos (rad y1) * sin (rad y2) - sin (rad y1) * cos (rad y2) * cos (rad x2))) in *.
    exists al, now, S. split; [|exact F]. unfold solve_inverse. change (y1 * PI / 180) with (rad y1). change (y2 * PI / 180) with (rad y2).
    rewrite E1, E2, F0. rewrite (proj2 (req_f 0 x2)) by congruence. replace ((x2 - 0) * PI / 180) with (rad x2) by (unfold rad; field).
    rewrite (pymod_unique (rad x2) (2 * PI) (rad x2) 0) by (cbn [IZR]; lra).
    assert (AL : Rabs (rad x2 - PI) = PI - rad x2) by (rewrite Rabs_left by lra; ring). rewrite AL.
    rewrite (proj2 (rlt_f _ _)) by lra. rewrite (proj2 (rlt_t (87 / 10000) (PI - rad x2))) by lra. rewrite (proj2 (rlt_t _ _) HX). cbn [andb].
    destruct L1 as (L1 & _ & _). destruct L2 as (L2 & _ & _).
    destruct (vincenty_sphere flat r (rad x2) (rad y1) (rad y2) L1 L2) as (q & ->). cbn [andthen]. fold al.
    change 100%nat with (Datatypes.S (Datatypes.S 98)). cbn [newton]. rewrite (proj2 (rlt_t tol (Rabs (tol + 1)))) by (rewrite Rabs_right; lra).
    rewrite (ST tol T0). cbn [andthen]. rewrite Rabs_R0, (proj2 (rlt_f tol 0) T0). reflexivity.
Qed.
Lemma rad_abs : forall x, rad (Rabs x) = Rabs (rad x).
Proof. intros x. unfold rad, Rdiv. pose proof PI_RGT_0. rewrite !Rabs_mult, (Rabs_right PI), (Rabs_right (/ 180)) by lra. reflexivity. Qed.
Lemma canonical_sum : forall x1 y1 x2 y2 yf xf ys z y1c x2c y2c, canonicalf x1 y1 x2 y2 = (yf, xf, ys, (z, y1c, x2c, y2c)) ->
  Rabs (rad y1c + rad y2c) = Rabs (rad y1 + rad y2).
Proof.
  intros x1 y1 x2 y2 yf xf ys z y1c x2c y2c E. unfold canonicalf in E.
  destruct (rlt (Rabs y1) (Rabs y2)).
  - destruct (rlt 0 y2); injection E as _ _ _ _ <- _ <-; rewrite ?rad_neg.
    + rewrite <- Rabs_Ropp. f_equal. ring.
    + f_equal. ring.
  - destruct (rlt 0 y1); injection E as _ _ _ _ <- _ <-; rewrite ?rad_neg; [rewrite <- Rabs_Ropp; f_equal; ring|reflexivity].
Qed.
Lemma half_lon : forall d k c m t, Rabs (d + 360 * IZR k) = c -> 0 <= c <= 180 -> d = t + 360 * IZR m -> Rabs t <= 180 -> c = Rabs t.
Proof.
  intros d k c m t E C D T. replace (d + 360 * IZR k) with (t + 360 * IZR (k + m)) in E by (rewrite plus_IZR; lra).
  assert (B : Rabs (t + 360 * IZR (k + m)) <= 180) by lra. apply Rabs_le_between in B. apply Rabs_le_between in T as T'.
  assert (-2 < IZR (k + m) < 2) as [B1 B2] by lra. apply lt_IZR in B1. apply lt_IZR in B2.
  assert (V : (k + m = 0 \/ k + m = -1 \/ k + m = 1)%Z) by lia. destruct V as [V|[V|V]]; rewrite V in E, B.
  - rewrite <- E. f_equal. cbn [IZR]. ring.
  - rewrite Rabs_left1 in E by lra. assert (t = 180) by lra. subst t. rewrite Rabs_right by lra. lra.
  - rewrite Rabs_right in E by lra. assert (t = -180) by lra. subst t. rewrite Rabs_left by lra. lra.
Qed.
Lemma sphere_answer : forall r x1 y1 x2 y2 az baz s, 0 < r -> geodesic r r (rad x1) (rad y1) (rad az) (rad x2) (rad y2) (rad baz + PI) s -> 0 <= s <= PI * r ->
  central_angle (pos x1 y1) (pos x2 y2) (s / r) /\
  travel (rad x1) (rad y1) (rad az) (s / r) = pos x2 y2 /\ travel (rad x2) (rad y2) (rad baz) (s / r) = pos x1 y1.
Proof.
  intros r x1 y1 x2 y2 az baz s PR G B. destruct (geodesic_round _ _ _ _ _ _ _ _ PR G) as [T1 T2].
  assert (T3 : travel (rad x2) (rad y2) (rad baz) (s / r) = pos x1 y1).
  { unfold pos. rewrite <- T2. apply travel_congr; [exists 0%Z; ring|exists (-1)%Z; cbn [IZR]; ring]. }
  split; [|split; [exact T1|exact T3]]. split.
  - split; [apply Rmult_le_pos; [lra|apply Rlt_le, Rinv_0_lt_compat, PR]|].
    apply Rmult_le_reg_r with r; [exact PR|]. replace (s / r * r) with s by (field; lra). lra.
  - unfold pos in *. rewrite <- T1, travel_dot. reflexivity.
Qed.
Lemma inverse_sphere : forall flat r x1 y1 x2 y2 tol, 0 < r -> -90 < y1 < 90 -> -90 < y2 < 90 -> 0 <= tol -> ~ (y1 = 0 /\ y2 = 0) ->
  congd x2 x1 \/ congd x2 (x1 + 180) \/
  (87 / 10000 < Rabs (rad y1 + rad y2) /\ exists t, congd (x2 - x1) t /\ Rabs (rad t) < PI - 87 / 10000) ->
  exists az baz s, inverse flat r r x1 y1 x2 y2 tol = Done (az, baz, s, false) /\ -180 <= az < 180 /\ -180 <= baz < 180 /\
    central_angle (pos x1 y1) (pos x2 y2) (s / r) /\
    travel (rad x1) (rad y1) (rad az) (s / r) = pos x2 y2 /\ travel (rad x2) (rad y2) (rad baz) (s / r) = pos x1 y1.
Proof.
  intros flat r x1 y1 x2 y2 tol PR H1 H2 T0 NZ HX. pose proof PI_RGT_0. unfold inverse.
  destruct (req y1 y2 && req y2 0) eqn:Z; [exfalso; apply andb_true_iff in Z; rewrite !req_t in Z; apply NZ; lra|].
  destruct (canonicalf x1 y1 x2 y2) as [[[yf xf] ys] [[[z y1c] x2c] y2c]] eqn:E. pose proof (canonical_sum _ _ _ _ _ _ _ _ _ _ _ E) as CS.
  destruct (canonical_spec _ _ _ _ _ _ _ _ _ _ _ H1 H2 NZ E) as (Y1 & Y2 & X1 & [k XK] & U).
  destruct (canonical_reduced r r y1c y2c PR PR Y1 Y2) as (L1 & L2 & CL). cbv zeta in *.
  pose proof (reduced_round r _ _ PR L1) as E1. pose proof (reduced_round r _ _ PR L2) as E2. rewrite E1 in L1. rewrite E2 in L2.
  destruct (solve_sphere flat r y1c x2c y2c tol PR Y1 Y2 X1 T0) as (al & so & S & SV & F).
  { destruct HX as [[m HX]|[[m HX]|(HS & t & [m HX] & HT)]].
    - left. rewrite (half_lon _ _ _ m 0 XK X1); [apply Rabs_R0|lra|rewrite Rabs_R0; lra].
    - right; left. rewrite (half_lon _ _ _ m 180 XK X1); [apply Rabs_right; lra|lra|rewrite Rabs_right; lra].
    - right; right. rewrite CS. split; [exact HS|]. rewrite (half_lon _ _ _ m t XK X1 HX); [rewrite rad_abs; exact HT|].
      rewrite <- rad_abs in HT. unfold rad in HT. apply Rnot_lt_le. intros X. nra. }
  rewrite SV. cbn [andthen].
  assert (HT : Rabs (third r r) <= 1 / 10) by (rewrite third_round, Rabs_R0 by exact PR; lra).
  destruct (found_geodesic S r r _ _ _ _ _ _ _ _ PR PR HT L1 L2 F) as (dl & d & G & D1 & D2 & D3 & _).
  rewrite third_round, Rabs_R0 in D1, D2 by exact PR. replace (0 ^ 6) with 0 in D1 by ring. replace (0 ^ 7) with 0 in D2 by ring.
  rewrite Rmult_0_r, Rplus_0_l in D1. rewrite Rmult_0_r in D2.
  assert (DS : s12_of r r so = d). { destruct (Req_dec (s12_of r r so - d) 0) as [|W]; [lra|]. apply Rabs_pos_lt in W. lra. }
  specialize (U r r al (s_alpha2 so) dl d PR PR G). rewrite finish_undo. destruct (undo yf xf ys al (s_alpha2 so)) as [u1 u2].
  do 3 eexists. split; [reflexivity|]. destruct (deg_congr u1) as [A1' A2']. destruct (deg_congr (u2 + PI)) as [B1' B2']. cbv zeta in *.
  split; [exact A1'|]. split; [exact B1'|]. destruct U as (dl' & DD & GG).
  assert (DZ : dl' = 0). { destruct (Req_dec dl' 0) as [|W]; [assumption|]. apply Rabs_pos_lt in W. lra. } rewrite DZ, Rplus_0_r in GG.
  rewrite DS. apply sphere_answer; [exact PR| |rewrite Rmax_left in D3 by lra; exact D3].
  eapply geodesic_congr; [| | |exact GG]; [apply congr_sym; exact A2'|exists 0%Z; ring|].
  destruct B2' as [m B2']. rewrite B2'. exists (- m - 1)%Z. rewrite minus_IZR, opp_IZR. cbn [IZR]. ring.
Qed.
(** The equator of an ellipsoid. *)
Lemma inverse_equator : forall flat a b x1 x2 tol, 0 < a -> 0 < b -> Rabs (x1 - x2) <= 180 ->
  exists az baz s, inverse flat a b x1 0 x2 0 tol = Done (az, baz, s, false) /\ -180 <= az < 180 /\ -180 <= baz < 180 /\ 0 <= s <= PI * a /\
    geodesic a b (rad x1) 0 (rad az) (rad x2) 0 (rad baz + PI) s.
Proof.
  intros flat a b x1 x2 tol PA PB H. pose proof PI_RGT_0. unfold inverse. rewrite !(proj2 (req_t 0 0)) by reflexivity. cbn [andb]. unfold inverse_equatorial.
  destruct (reduced_deg (x2 - x1)) as [RA RB]. set (df := pymod (x2 - x1 + 180) 360 - 180) in *.
  set (s := 2 * PI * a * Rabs (x1 - x2) / 360).
  assert (SR : 0 <= s <= PI * a).
  { unfold s. pose proof (Rabs_pos (x1 - x2)). assert (0 <= PI * a) by (apply Rmult_le_pos; lra). split; nra. }
  assert (SA : s / a = Rabs (rad (x2 - x1))) by (rewrite <- rad_abs, Rabs_minus_sym; unfold s, rad; field; lra).
  destruct (rlt df 0) eqn:D.
  - do 3 eexists. split; [reflexivity|]. split; [lra|]. split; [lra|]. split; [exact SR|].
    replace (rad (-90)) with (-1 * (PI / 2)) by (unfold rad; field). pose proof (equator_geodesic a b (rad x1) (-1) s PA PB (or_intror eq_refl)) as G.
    eapply geodesic_congr; [| | |exact G]; [exists 0%Z; ring| |exists (-1)%Z; unfold rad; cbn [IZR]; field].
    apply rlt_t in D. rewrite SA. destruct RB as [k K]. apply Rabs_le_between in H.
    destruct (Rle_dec (x2 - x1) 0) as [L|L].
    + exists 0%Z. rewrite Rabs_left1 by (unfold rad; nra). rewrite rad_sub. cbn [IZR]. ring.
    + assert (-2 < IZR k < 0) as [K1 K2] by lra. apply lt_IZR in K1. apply lt_IZR in K2. assert (k = -1)%Z by lia. subst k. exists (-1)%Z.
      assert (x2 - x1 = 180) by lra. rewrite H1. replace x2 with (x1 + 180) by lra. unfold rad. replace (180 * PI / 180) with PI by field. rewrite Rabs_right by lra. cbn [IZR]. field.
  - do 3 eexists. split; [reflexivity|]. split; [lra|]. split; [lra|]. split; [exact SR|].
    replace (rad 90) with (1 * (PI / 2)) by (unfold rad; field). pose proof (equator_geodesic a b (rad x1) 1 s PA PB (or_introl eq_refl)) as G.
    eapply geodesic_congr; [| | |exact G]; [exists 0%Z; ring| |exists 0%Z; unfold rad; cbn [IZR]; field].
    apply rlt_f in D. rewrite SA. destruct RB as [k K]. apply Rabs_le_between in H. exists 0%Z.
    assert (0 <= x2 - x1) by (apply Rnot_lt_le; intros X; assert (0 < IZR k < 1) as [K1 K2] by lra; apply lt_IZR in K1; apply lt_IZR in K2; lia).
    rewrite Rabs_right by (unfold rad; nra). rewrite rad_sub. cbn [IZR]. ring.
Qed.
