(** Distances along great circles have one valley unless the farthest point is on the arc. *)
From Coq Require Import List Reals Bool Arith Lra Lia Psatz.
From Verif Require Import Sphere_Spec GeomR_Model Arc_Model Arc_Spec Arc_Proofs.
Import ListNotations.
Open Scope R_scope.

Lemma abs_both : forall x a, Rabs x <= a -> - a <= x <= a.
Proof. intros x a H. unfold Rabs in H. destruct (Rcase_abs x); lra. Qed.
Lemma angle_lt : forall a b, 0 <= a <= PI -> 0 <= b <= PI -> cos b < cos a -> a < b.
Proof. intros a b A B H. apply cos_decreasing_0; lra. Qed.
Lemma angle_le : forall a b, 0 <= a <= PI -> 0 <= b <= PI -> cos b <= cos a -> a <= b.
Proof. intros a b A B H. apply Rnot_lt_le. intros N. pose proof (cos_decreasing_1 b a ltac:(lra) ltac:(lra) ltac:(lra) ltac:(lra) N). lra. Qed.

Lemma turn : forall h tau d a b, 0 <= h <= 1 -> 0 <= d -> 0 <= a <= PI -> 0 <= b <= PI ->
  cos a = h * cos tau -> cos b = h * cos (tau + d) -> b <= a + d.
Proof.
  intros h tau d a b H D A B Ca Cb. destruct (Rle_dec PI (a + d)) as [P|P]; [lra|].
  apply angle_le; [exact B | lra|]. rewrite Cb, !cos_plus, Ca.
  assert (Sd : 0 <= sin d) by (apply sin_ge_0; lra).
  assert (Sa : 0 <= sin a) by (apply sin_ge_0; lra).
  assert (K : h * sin tau <= sin a).
  { apply Rnot_lt_le. intros N. assert (Q : sin a * sin a < (h * sin tau) * (h * sin tau)) by nra.
    pose proof (sin2_cos2 a) as E1. pose proof (sin2_cos2 tau) as E2. unfold Rsqr in E1, E2. rewrite Ca in E1.
    assert (E3 : sin a * sin a = 1 - h * h * (cos tau * cos tau)) by lra.
    assert (E4 : h * sin tau * (h * sin tau) = h * h * (1 - cos tau * cos tau)) by (transitivity (h * h * (sin tau * sin tau)); [ring | f_equal; lra]).
    rewrite E3, E4 in Q. nra. }
  pose proof (Rmult_le_compat_r (sin d) _ _ Sd K). lra.
Qed.

Section Great.
Context (D : R -> R) (r h t0 b : R).
Hypothesis Hr : 0 < r.
Hypothesis Hh : 0 <= h <= 1.
Hypothesis HD : forall f, 0 <= f <= b -> 0 <= D f / r <= PI /\ cos (D f / r) = h * cos (f / r - t0).
Lemma great_lipschitz : lipschitz D b.
Proof.
  intros s t S T B. destruct (HD s ltac:(lra)) as [As Cs]. destruct (HD t ltac:(lra)) as [At Ct].
  assert (Hd : 0 <= (t - s) / r) by (apply Rmult_le_pos; [lra | left; apply Rinv_0_lt_compat; exact Hr]).
  assert (U : D t / r <= D s / r + (t - s) / r).
  { apply (turn h (s / r - t0)); try assumption. rewrite Ct. do 2 f_equal. field. lra. }
  assert (V : D s / r <= D t / r + (t - s) / r).
  { apply (turn h (- (t / r - t0))); try assumption; [rewrite cos_neg; exact Ct|]. rewrite Cs. rewrite <- (cos_neg (s / r - t0)). do 2 f_equal. field. lra. }
  assert (M : forall x y, x / r <= y / r -> x <= y).
  { intros x y X. apply (Rmult_le_compat_r r) in X; [|lra]. replace (x / r * r) with x in X by (field; lra). replace (y / r * r) with y in X by (field; lra). exact X. }
  apply Rabs_le. split.
  - assert (D s <= D t + (t - s)); [|lra]. apply M. unfold Rdiv in *. lra.
  - assert (D t <= D s + (t - s)); [|lra]. apply M. unfold Rdiv in *. lra.
Qed.
Lemma great_valley : 0 < h -> 0 <= b -> b / r - PI <= t0 <= PI -> one_valley D b.
Proof.
  intros Ph Hb T.
  assert (Dr : forall x y, x <= y -> x / r <= y / r) by (intros x y X; apply Rmult_le_compat_r; [left; apply Rinv_0_lt_compat; exact Hr | exact X]).
  assert (Dl : forall x y, x < y -> x / r < y / r) by (intros x y X; apply Rmult_lt_compat_r; [apply Rinv_0_lt_compat; exact Hr | exact X]).
  assert (M : forall x y, x / r <= y / r -> x <= y).
  { intros x y X. apply (Rmult_le_compat_r r) in X; [|lra]. replace (x / r * r) with x in X by (field; lra). replace (y / r * r) with y in X by (field; lra). exact X. }
  assert (M' : forall x y, x / r < y / r -> x < y) by (intros x y X; apply Rnot_le_lt; intros N; apply Dr in N; lra).
  assert (Z : r * t0 / r = t0) by (field; lra).
  assert (O : 0 / r = 0) by (unfold Rdiv; ring).
  exists (Rmax 0 (Rmin b (r * t0))). split; [|split].
  - split; [apply Rmax_l | apply Rmax_lub; [exact Hb | apply Rmin_l]].
  - intros s t S ST TM. destruct (HD s) as [As Cs]; [split; [lra|]; eapply Rle_trans; [exact ST|]; eapply Rle_trans; [exact TM|]; apply Rmax_lub; [exact Hb | apply Rmin_l]|].
    destruct (HD t) as [At Ct]; [split; [lra|]; eapply Rle_trans; [exact TM|]; apply Rmax_lub; [exact Hb | apply Rmin_l]|].
    destruct (Rle_dec t 0) as [T0|T0]; [replace t with s by lra; lra|].
    assert (TM' : t <= r * t0).
    { destruct (Rle_dec (Rmin b (r * t0)) 0) as [N|N]; [rewrite Rmax_left in TM by exact N; lra|]. rewrite Rmax_right in TM by lra. eapply Rle_trans; [exact TM | apply Rmin_r]. }
    apply M. apply angle_le; try assumption. rewrite Cs, Ct. apply Rmult_le_compat_l; [lra|].
    rewrite <- (cos_neg (s / r - t0)), <- (cos_neg (t / r - t0)).
    pose proof (Dr _ _ TM'). pose proof (Dr _ _ ST). pose proof (Dr _ _ S). rewrite Z in *. rewrite O in *.
    destruct (Req_dec s t) as [-> |N]; [lra|]. left. apply cos_decreasing_1; try lra. pose proof (Dl s t ltac:(lra)). lra.
  - intros s t MS ST TB. assert (S0 : 0 <= s) by (eapply Rle_trans; [apply Rmax_l | exact MS]).
    destruct (HD s ltac:(lra)) as [As Cs]. destruct (HD t ltac:(lra)) as [At Ct].
    assert (MS' : r * t0 <= s).
    { assert (Rmin b (r * t0) <= s) by (eapply Rle_trans; [apply Rmax_r | exact MS]). destruct (Rle_dec b (r * t0)) as [N|N]; [rewrite Rmin_left in H by exact N; lra|].
      rewrite Rmin_right in H by lra. exact H. }
    apply M'. apply angle_lt; try assumption. rewrite Cs, Ct. apply Rmult_lt_compat_l; [lra|].
    pose proof (Dr _ _ MS'). pose proof (Dl _ _ ST). pose proof (Dr _ _ TB). rewrite Z in *. apply cos_decreasing_1; lra.
Qed.
End Great.

(* vectors *)
Lemma bessel : forall u w q, dot u u = 1 -> dot w w = 1 -> dot u w = 0 -> dot q q = 1 -> dot u q * dot u q + dot w q * dot w q <= 1.
Proof.
  intros [[u1 u2] u3] [[w1 w2] w3] [[q1 q2] q3] U W O Q. unfold dot in *. cbn [fst snd] in *.
  set (a := u1 * q1 + u2 * q2 + u3 * q3). set (c := w1 * q1 + w2 * q2 + w3 * q3).
  assert (P : 0 <= (q1 - a * u1 - c * w1) * (q1 - a * u1 - c * w1) + (q2 - a * u2 - c * w2) * (q2 - a * u2 - c * w2) + (q3 - a * u3 - c * w3) * (q3 - a * u3 - c * w3)).
  { pose proof (Rle_0_sqr (q1 - a * u1 - c * w1)). pose proof (Rle_0_sqr (q2 - a * u2 - c * w2)). pose proof (Rle_0_sqr (q3 - a * u3 - c * w3)). unfold Rsqr in *. lra. }
  replace ((q1 - a * u1 - c * w1) * (q1 - a * u1 - c * w1) + (q2 - a * u2 - c * w2) * (q2 - a * u2 - c * w2) + (q3 - a * u3 - c * w3) * (q3 - a * u3 - c * w3))
    with ((q1 * q1 + q2 * q2 + q3 * q3) - 2 * a * (u1 * q1 + u2 * q2 + u3 * q3) - 2 * c * (w1 * q1 + w2 * q2 + w3 * q3)
          + a * a * (u1 * u1 + u2 * u2 + u3 * u3) + c * c * (w1 * w1 + w2 * w2 + w3 * w3) + 2 * a * c * (u1 * w1 + u2 * w2 + u3 * w3)) in P by ring.
  rewrite Q, U, W, O in P. fold a in P. fold c in P. lra.
Qed.
Definition dirv (lam phi az : R) : v3 := vadd (vscale (sin az) (east lam)) (vscale (cos az) (north lam phi)).
Lemma upos_unit : forall l p, dot (upos l p) (upos l p) = 1.
Proof.
  intros l p. unfold dot, upos. cbn [fst snd]. pose proof (sin2_cos2 l) as E1. pose proof (sin2_cos2 p) as E2. unfold Rsqr in *.
  transitivity (cos p * cos p * (sin l * sin l + cos l * cos l) + sin p * sin p); [ring|]. rewrite E1. lra.
Qed.
Lemma dirv_unit : forall l p z, dot (dirv l p z) (dirv l p z) = 1.
Proof.
  intros l p z. unfold dot, dirv, vadd, vscale, east, north. cbn [fst snd]. pose proof (sin2_cos2 l) as E1. pose proof (sin2_cos2 p) as E2. pose proof (sin2_cos2 z) as E3. unfold Rsqr in *.
  transitivity (sin z * sin z * (sin l * sin l + cos l * cos l) + cos z * cos z * (sin p * sin p * (sin l * sin l + cos l * cos l) + cos p * cos p)); [ring|].
  rewrite E1, Rmult_1_r, Rmult_1_r, E2. lra.
Qed.
Lemma dirv_orth : forall l p z, dot (upos l p) (dirv l p z) = 0.
Proof.
  intros l p z. unfold dot, dirv, vadd, vscale, east, north, upos. cbn [fst snd]. pose proof (sin2_cos2 l) as E1. unfold Rsqr in *.
  transitivity (cos p * cos z * sin p * (1 - (sin l * sin l + cos l * cos l))); [ring|]. rewrite E1. ring.
Qed.
Lemma travel_dot : forall l p z t q, dot (travel l p z t) q = dot (upos l p) q * cos t + dot (dirv l p z) q * sin t.
Proof. intros l p z t [[q1 q2] q3]. unfold dot, travel, dirv, vadd, vscale, upos, east, north. cbn [fst snd]. ring. Qed.

Lemma polar : forall a c, 0 <= a -> 0 < a * a + c * c -> exists h t0, 0 < h /\ h * h = a * a + c * c /\ - (PI / 2) <= t0 <= PI / 2 /\ a = h * cos t0 /\ c = h * sin t0.
Proof.
  intros a c A P. set (h := sqrt (a * a + c * c)).
  assert (H : 0 < h) by (apply sqrt_lt_R0; exact P).
  assert (HH : h * h = a * a + c * c) by (apply sqrt_sqrt; lra).
  assert (B : -1 <= c / h <= 1).
  { assert (Rabs c <= h). { unfold h. rewrite <- (sqrt_Rsqr_abs c). apply sqrt_le_1_alt. unfold Rsqr. nra. }
    apply abs_both in H0. split.
    - apply (Rmult_le_reg_r h); [exact H|]. replace (c / h * h) with c by (field; lra). lra.
    - apply (Rmult_le_reg_r h); [exact H|]. replace (c / h * h) with c by (field; lra). lra. }
  exists h, (asin (c / h)). split; [exact H|]. split; [exact HH|]. split; [apply asin_bound|]. split.
  - rewrite cos_asin by exact B. assert (E : 1 - (c / h)² = (a / h)²). { unfold Rsqr. replace (a * a) with (h * h - c * c) by lra. apply (Rmult_eq_reg_r (h * h)); [|nra]. field_simplify; [|lra|lra]. replace (a ^ 2) with (h ^ 2 - c ^ 2) by (cbn [pow]; lra). ring. }
    rewrite E, sqrt_Rsqr; [field; lra|]. apply Rmult_le_pos; [exact A | left; apply Rinv_0_lt_compat; exact H].
  - rewrite sin_asin by exact B. field. lra.
Qed.

Section Sphere.
Context (r : R) (fwd inv : R -> R -> R -> R -> R * R * R) (pt e0 e1 : R * R) (az L : R).
Hypothesis Hr : 0 < r.
Hypothesis Os : on_sphere r fwd inv pt e0 e1 az L.
Let D := distance_along fwd inv pt e0 az.
Let d := / 10000000 * L.
Let u := upos (rad (fst e0)) (rad (snd e0)).
Let w := dirv (rad (fst e0)) (rad (snd e0)) (rad az).
Let q := pos (fst pt) (snd pt).

Lemma L_pos : 0 <= L.
Proof.
  destruct (s_length _ _ _ _ _ _ _ _ Os) as [[H _] _]. apply (Rmult_le_compat_r r) in H; [|lra]. replace (L / r * r) with L in H by (field; lra). lra.
Qed.
Lemma D_eq : forall f, 0 <= f <= L + d -> 0 <= D f / r <= PI /\ cos (D f / r) = dot u q * cos (f / r) + dot w q * sin (f / r).
Proof.
  intros f F. destruct (s_distance _ _ _ _ _ _ _ _ Os f F) as [A C]. pose proof (s_forward _ _ _ _ _ _ _ _ Os f F) as P. cbn zeta in A, C, P.
  rewrite P in C. rewrite travel_dot in C. split; [exact A | exact C].
Qed.

(* the arc: unit vectors on it are those reached by travelling *)
Let th := L / r.
Lemma v_eq : pos (fst e1) (snd e1) = vadd (vscale (cos th) u) (vscale (sin th) w).
Proof. unfold th. rewrite <- (s_end _ _ _ _ _ _ _ _ Os). reflexivity. Qed.
Lemma on_arc_travel : th < PI -> forall c, on_arc3 (pos (fst e0) (snd e0)) (pos (fst e1) (snd e1)) c <->
  exists f, 0 <= f <= L /\ c = vadd (vscale (cos (f / r)) u) (vscale (sin (f / r)) w).
Proof.
  intros Th c. assert (T0 : 0 <= th) by (destruct (s_length _ _ _ _ _ _ _ _ Os) as [[H _] _]; exact H).
  rewrite v_eq. change (pos (fst e0) (snd e0)) with u.
  pose proof (upos_unit (rad (fst e0)) (rad (snd e0))) as U. fold u in U. pose proof (dirv_unit (rad (fst e0)) (rad (snd e0)) (rad az)) as W. fold w in W.
  pose proof (dirv_orth (rad (fst e0)) (rad (snd e0)) (rad az)) as O. fold u in O. fold w in O.
  assert (N : forall a b, dot (vadd (vscale a u) (vscale b w)) (vadd (vscale a u) (vscale b w)) = a * a + b * b).
  { intros a b. transitivity (a * a * dot u u + b * b * dot w w + 2 * a * b * dot u w); [|rewrite U, W, O; ring].
    clear. clearbody u w. destruct u as [[u1 u2] u3], w as [[w1 w2] w3]. unfold dot, vadd, vscale. cbn [fst snd]. ring. }
  assert (Comb : forall s t, vadd (vscale s u) (vscale t (vadd (vscale (cos th) u) (vscale (sin th) w))) = vadd (vscale (s + t * cos th) u) (vscale (t * sin th) w)).
  { intros s t. clear. clearbody u w. destruct u as [[u1 u2] u3], w as [[w1 w2] w3]. unfold vadd, vscale. cbn [fst snd]. f_equal; [f_equal|]; ring. }
  split.
  - intros [C1 [s [t [S [T Ce]]]]]. rewrite Comb in Ce. rewrite Ce, N in C1.
    set (a := s + t * cos th) in *. set (b := t * sin th) in *.
    assert (B0 : 0 <= b) by (apply Rmult_le_pos; [exact T | apply sin_ge_0; lra]).
    assert (A1 : -1 <= a <= 1) by nra.
    set (f := acos a). assert (Fb : 0 <= f <= PI) by (apply acos_bound).
    assert (Cf : cos f = a) by (apply cos_acos; lra).
    assert (Sf : sin f = b).
    { unfold f. rewrite sin_acos by lra. replace (1 - a²) with (b²) by (unfold Rsqr; lra). apply sqrt_Rsqr. exact B0. }
    assert (Lf : f <= th).
    { apply Rnot_lt_le. intros G. assert (Z : 0 <= sin (th - f)).
      { rewrite sin_minus, Cf, Sf. unfold a, b. replace (sin th * (s + t * cos th) - cos th * (t * sin th)) with (s * sin th) by ring. apply Rmult_le_pos; [exact S | apply sin_ge_0; lra]. }
      destruct (Req_dec f PI) as [E|E].
      - assert (Cc : cos f = -1) by (rewrite E; apply cos_PI). rewrite Cf in Cc. assert (Sc : b = 0) by (rewrite <- Sf, E; apply sin_PI).
        unfold a, b in *. destruct (Req_dec t 0) as [Z0|Z0]; [rewrite Z0 in *; lra|].
        assert (sin th = 0) by (destruct (Rmult_integral _ _ Sc); [contradiction | assumption]).
        destruct (Req_dec th 0) as [Y|Y]; [rewrite Y, cos_0 in Cc; lra|]. assert (0 < sin th) by (apply sin_gt_0; lra). lra.
      - assert (sin (f - th) <= 0) by (replace (f - th) with (- (th - f)) by ring; rewrite sin_neg; lra). assert (0 < sin (f - th)) by (apply sin_gt_0; lra). lra. }
    exists (r * f). split.
    + split; [apply Rmult_le_pos; lra|]. unfold th in Lf. apply (Rmult_le_compat_l r) in Lf; [|lra]. replace (r * (L / r)) with L in Lf by (field; lra). exact Lf.
    + replace (r * f / r) with f by (field; lra). rewrite Ce, Cf, Sf. reflexivity.
  - intros [f [F ->]]. set (x := f / r).
    assert (X0 : 0 <= x) by (apply Rmult_le_pos; [lra | left; apply Rinv_0_lt_compat; exact Hr]).
    assert (X1 : x <= th) by (apply Rmult_le_compat_r; [left; apply Rinv_0_lt_compat; exact Hr | lra]).
    split; [rewrite N; pose proof (sin2_cos2 x) as E; unfold Rsqr in E; lra|].
    destruct (Req_dec th 0) as [Y|Y].
    + exists 1, 0. split; [lra|]. split; [lra|]. rewrite Comb. replace x with 0 by lra. rewrite cos_0, sin_0. f_equal; f_equal; ring.
    + assert (St : 0 < sin th) by (apply sin_gt_0; lra).
      exists (sin (th - x) / sin th), (sin x / sin th). split; [|split].
      * apply Rmult_le_pos; [apply sin_ge_0; lra | left; apply Rinv_0_lt_compat; exact St].
      * apply Rmult_le_pos; [apply sin_ge_0; lra | left; apply Rinv_0_lt_compat; exact St].
      * rewrite Comb. rewrite sin_minus. f_equal; f_equal; field; lra.
Qed.

Lemma sphere_near : forall tol n a0 a1, 0 < tol -> (0 < n)%nat -> L <= tol * 2 ^ n -> (L + d) / r < PI ->
  central_angle (pos (fst e0) (snd e0)) q a0 -> a0 <= PI / 2 -> central_angle (pos (fst e1) (snd e1)) q a1 -> a1 + d / r <= PI / 2 ->
  exists p x, pt_nearest_proj fwd inv pt e0 e1 tol n = Found p x /\
    on_arc3 (pos (fst e0) (snd e0)) (pos (fst e1) (snd e1)) (pos (fst p) (snd p)) /\
    central_angle (pos (fst p) (snd p)) q (x / r) /\
    forall c a, on_arc3 (pos (fst e0) (snd e0)) (pos (fst e1) (snd e1)) c -> central_angle c q a -> x <= r * a + (tol + d).
Proof.
  intros tol n a0 a1 T N W Pi A0 A0' A1 A1'. pose proof L_pos as L0. assert (d0 : 0 <= d) by (unfold d; lra).
  destruct (s_inverse _ _ _ _ _ _ _ _ Os) as [baz E].
  assert (Rp : 0 < / r) by (apply Rinv_0_lt_compat; exact Hr).
  assert (Th : th < PI). { eapply Rle_lt_trans; [|exact Pi]. apply Rmult_le_compat_r; lra. }
  assert (Key : exists p x f, pt_nearest_proj fwd inv pt e0 e1 tol n = Found p x /\ 0 <= f <= L /\ x = D f /\ reached fwd p e0 e1 az L f /\
      forall s, 0 <= s <= L -> x <= D s + (tol + d)).
  { set (a := dot u q). set (c := dot w q).
    assert (Bs : a * a + c * c <= 1).
    { apply bessel; [apply upos_unit | apply dirv_unit | apply dirv_orth | apply upos_unit]. }
    assert (Ap : 0 <= a).
    { destruct A0 as [A0 C0]. change (pos (fst e0) (snd e0)) with u in C0. fold a in C0. rewrite <- C0. apply cos_ge_0; lra. }
    destruct (Req_dec (a * a + c * c) 0) as [Z|Z].
    - assert (a = 0) by nra. assert (c = 0) by nra.
      destruct (near_total fwd inv pt e0 e1 tol n az baz L E L0 T N W) as [p [x [f [F1 [F2 [F3 F4]]]]]].
      exists p, x, f. split; [exact F1|]. split; [exact F2|]. split; [exact F3|]. split; [exact F4|]. intros s S.
      assert (K : forall y, 0 <= y <= L -> D y / r = PI / 2).
      { intros y Y. destruct (D_eq y ltac:(lra)) as [B C]. fold a c in C. rewrite H, H0 in C. rewrite <- cos_PI2 in C at 1 || idtac.
        assert (C' : cos (D y / r) = cos (PI / 2)) by (rewrite cos_PI2; rewrite C; try rewrite cos_PI2; ring).
        apply Rle_antisym; apply angle_le; lra. }
      rewrite F3. fold D. pose proof (K f F2). pose proof (K s S). assert (D f = D s); [|lra].
      replace (D f) with (D f / r * r) by (field; lra). replace (D s) with (D s / r * r) by (field; lra). rewrite H1, H2. reflexivity.
    - assert (Zp : 0 < a * a + c * c) by nra. destruct (polar a c Ap Zp) as [h [t0 [H [HH [Tb [Ea Ec]]]]]].
      assert (H1 : h <= 1) by nra.
      assert (DD : forall f, 0 <= f <= L + d -> 0 <= D f / r <= PI /\ cos (D f / r) = h * cos (f / r - t0)).
      { intros f F. destruct (D_eq f F) as [B C]. fold a c in C. split; [exact B|]. rewrite C, cos_minus, Ea, Ec. ring. }
      assert (Lip : lipschitz D (L + d)) by (apply (great_lipschitz D r h t0 (L + d) Hr ltac:(lra) DD)).
      assert (End : D (L + d) / r <= PI / 2).
      { assert (DL : D L / r = a1).
        { destruct (D_eq L ltac:(lra)) as [B C]. destruct A1 as [B1 C1]. rewrite v_eq in C1.
          assert (X : cos a1 = cos (D L / r)). { rewrite C1, C. fold th. clear. clearbody u w q. destruct u as [[u1 u2] u3], w as [[w1 w2] w3], q as [[q1 q2] q3]. unfold dot, vadd, vscale. cbn [fst snd]. ring. }
          apply Rle_antisym; apply angle_le; lra. }
        pose proof (Lip L (L + d) L0 ltac:(lra) ltac:(lra)) as Q. apply abs_both in Q. assert (D (L + d) <= D L + d) by lra.
        eapply Rle_trans; [apply Rmult_le_compat_r; [lra | exact H0]|]. rewrite Rmult_plus_distr_r. fold (D L / r) (d / r). lra. }
      assert (Cend : 0 <= cos ((L + d) / r - t0)).
      { destruct (DD (L + d) ltac:(lra)) as [B C]. assert (0 <= cos (D (L + d) / r)) by (apply cos_ge_0; lra). rewrite C in H0.
        apply (Rmult_le_reg_l h); [exact H | lra]. }
      assert (Up : (L + d) / r - t0 <= PI / 2).
      { apply Rnot_lt_le. intros G. assert (Rp2 : 0 <= (L + d) / r) by (apply Rmult_le_pos; lra). assert (cos ((L + d) / r - t0) < 0); [|lra].
        apply cos_lt_0; lra. }
      destruct (near_ok fwd inv pt e0 e1 tol n az baz L E L0 T N W) as [p [x [f [F1 [F2 [F3 [F4 F5]]]]]]].
      + apply (great_valley D r h t0 (L + d) Hr ltac:(lra) DD H ltac:(lra)). lra.
      + exact Lip.
      + exists p, x, f. split; [exact F1|]. split; [exact F2|]. split; [exact F3|]. split; [exact F4 | exact F5]. }
  destruct Key as [p [x [f [F1 [F2 [F3 [F4 F5]]]]]]].
  assert (P : pos (fst p) (snd p) = travel (rad (fst e0)) (rad (snd e0)) (rad az) (f / r)).
  { destruct F4 as [[-> ->]|[[-> ->]| ->]].
    - replace (0 / r) with 0 by (unfold Rdiv; ring). unfold travel. rewrite cos_0, sin_0. change (pos (fst e0) (snd e0)) with u. fold u. clear.
      clearbody u. destruct u as [[u1 u2] u3]. unfold vadd, vscale, east, north. cbn [fst snd]. f_equal; [f_equal|]; ring.
    - symmetry. apply (s_end _ _ _ _ _ _ _ _ Os).
    - apply (s_forward _ _ _ _ _ _ _ _ Os). fold d. lra. }
  exists p, x. split; [exact F1|]. split; [|split].
  - apply on_arc_travel; [exact Th|]. exists f. split; [exact F2 | exact P].
  - destruct (D_eq f ltac:(lra)) as [B C]. rewrite F3. split; [exact B|]. rewrite P, travel_dot. exact C.
  - intros c a Ca [B C]. apply on_arc_travel in Ca; [|exact Th]. destruct Ca as [s [S Cs]].
    pose proof (F5 s S) as G. destruct (D_eq s ltac:(lra)) as [B' C']. assert (X : a = D s / r).
    { assert (Y : cos a = cos (D s / r)). { rewrite C, C', Cs. clear. clearbody u w q. destruct u as [[u1 u2] u3], w as [[w1 w2] w3], q as [[q1 q2] q3]. unfold dot, vadd, vscale. cbn [fst snd]. ring. }
      apply Rle_antisym; apply angle_le; lra. }
    rewrite X. replace (r * (D s / r)) with (D s) by (field; lra). exact G.
Qed.
End Sphere.
