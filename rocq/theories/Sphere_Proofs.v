(** Proofs about angles over the reals, the plane, and positions, distances and azimuths
    on the sphere. *)
From Coq Require Import List ZArith Reals Bool Arith Lia Lra.
From Verif Require Import Geom_Model GeomR_Model GeomR_Spec GeomR_Proofs Sphere_Model Sphere_Spec.
From Verif Require TerrainR_Model TerrainR_Proofs.
Import ListNotations.
Open Scope R_scope.

Lemma rlt_t : forall a b, rlt a b = true <-> a < b.
Proof. intros a b. unfold rlt. destruct (Rlt_dec a b); split; intros; try discriminate; try reflexivity; try assumption; contradiction. Qed.
Lemma rlt_f : forall a b, rlt a b = false <-> b <= a.
Proof. intros a b. unfold rlt. destruct (Rlt_dec a b); split; intros; try discriminate; try reflexivity; lra. Qed.
Lemma rle_t : forall a b, rle a b = true <-> a <= b.
Proof. intros a b. unfold rle. destruct (Rle_dec a b); split; intros; try discriminate; try reflexivity; try assumption; contradiction. Qed.
Lemma rle_f : forall a b, rle a b = false <-> b < a.
Proof. intros a b. unfold rle. destruct (Rle_dec a b); split; intros; try discriminate; try reflexivity; lra. Qed.
Lemma req_t : forall a b, req a b = true <-> a = b.
Proof. intros a b. unfold req. destruct (Req_EM_T a b); split; intros; try discriminate; try reflexivity; try assumption; contradiction. Qed.
Lemma req_f : forall a b, req a b = false <-> a <> b.
Proof. intros a b. unfold req. destruct (Req_EM_T a b); split; intros; try discriminate; try reflexivity; try assumption; contradiction. Qed.

(* ---- modulo *)
Lemma close_int : forall m a b k, 0 < m -> a = b + m * IZR k -> - m < a - b < m -> a = b.
Proof.
  intros m a b k M E H. assert (k = 0)%Z as ->; [|lra].
  assert (- 1 < IZR k < 1) as [A B] by (split; apply Rmult_lt_reg_l with m; lra).
  apply (lt_IZR (-1)) in A. apply (lt_IZR _ 1) in B. lia.
Qed.
Lemma pymod_unique : forall x m y k, 0 < m -> 0 <= y < m -> x = y + m * IZR k -> pymod x m = y.
Proof.
  intros x m y k M Y E. destruct (pymod_spec x m M) as [A (j & J)].
  apply (close_int m _ _ (k - j) M); [|lra]. rewrite minus_IZR. lra.
Qed.
Lemma two_pi : 0 < 2 * PI. Proof. pose proof PI_RGT_0. lra. Qed.
Lemma unroll_rad_spec : forall x, 0 <= unroll_rad x < 2 * PI /\ congr x (unroll_rad x).
Proof.
  intros x. destruct (pymod_spec x (2 * PI) two_pi) as [A (k & K)]. split; [exact A|]. exists k. unfold unroll_rad. lra.
Qed.
Lemma reduce_rad_spec : forall x, - PI <= reduce_rad x < PI /\ congr x (reduce_rad x).
Proof.
  intros x. unfold reduce_rad. destruct (pymod_spec (x + PI) (2 * PI) two_pi) as [A (k & K)].
  split; [lra|]. exists k. lra.
Qed.
Lemma unroll_rad_unique : forall x y, 0 <= y < 2 * PI -> congr x y -> unroll_rad x = y.
Proof. intros x y Y (k & K). apply (pymod_unique x (2 * PI) y k two_pi Y K). Qed.
Lemma reduce_rad_unique : forall x y, - PI <= y < PI -> congr x y -> reduce_rad x = y.
Proof.
  intros x y Y (k & K). unfold reduce_rad. rewrite (pymod_unique (x + PI) (2 * PI) (y + PI) k two_pi); lra.
Qed.
Lemma unroll_degr_unique : forall x y, 0 <= y < 360 -> congd x y -> unroll_degr x = y.
Proof. intros x y Y (k & K). apply (pymod_unique x 360 y k); lra. Qed.
Lemma reduce_degr_unique : forall x y, -180 <= y < 180 -> congd x y -> reduce_degr x = y.
Proof. intros x y Y (k & K). unfold reduce_degr. rewrite (pymod_unique (x + 180) 360 (y + 180) k); lra. Qed.
Lemma unroll_degr_spec : forall x, 0 <= unroll_degr x < 360 /\ congd x (unroll_degr x).
Proof. intros x. destruct (pymod_spec x 360 ltac:(lra)) as [A (k & K)]. split; [exact A|]. exists k. unfold unroll_degr. lra. Qed.
Lemma reduce_degr_spec : forall x, -180 <= reduce_degr x < 180 /\ congd x (reduce_degr x).
Proof. intros x. unfold reduce_degr. destruct (pymod_spec (x + 180) 360 ltac:(lra)) as [A (k & K)]. split; [lra|]. exists k. lra. Qed.

(* ---- the plane *)
Lemma atan2_polar : forall flat y x, x <> 0 \/ y <> 0 ->
  sqrt (x * x + y * y) * cos (atan2 flat y x) = x /\ sqrt (x * x + y * y) * sin (atan2 flat y x) = y /\
  - PI < atan2 flat y x <= PI.
Proof. exact TerrainR_Proofs.atan2_polar. Qed.
Lemma norm_pos : forall x y, x <> 0 \/ y <> 0 -> 0 < sqrt (x * x + y * y).
Proof. intros x y H. apply sqrt_lt_R0, TerrainR_Proofs.sqrt_pos_sum, H. Qed.
(** [atan2] is the angle of any polar form. *)
Lemma atan2_unique : forall flat r t, 0 < r -> - PI < t <= PI -> atan2 flat (r * sin t) (r * cos t) = t.
Proof.
  intros flat r t P T.
  assert (N : r * cos t <> 0 \/ r * sin t <> 0).
  { destruct (Req_dec (cos t) 0) as [C|C]; [right|left; apply Rmult_integral_contrapositive; lra].
    pose proof (sin2_cos2 t) as H. unfold Rsqr in H. rewrite C in H.
    apply Rmult_integral_contrapositive. split; [lra|]. intros S. rewrite S in H. lra. }
  destruct (atan2_polar flat (r * sin t) (r * cos t) N) as (A & B & C).
  assert (E : sqrt (r * cos t * (r * cos t) + r * sin t * (r * sin t)) = r).
  { replace (r * cos t * (r * cos t) + r * sin t * (r * sin t)) with (r * r * (Rsqr (sin t) + Rsqr (cos t))) by (unfold Rsqr; ring).
    rewrite sin2_cos2, Rmult_1_r. apply sqrt_square. lra. }
  rewrite E in A, B. set (u := atan2 flat (r * sin t) (r * cos t)) in *.
  assert (cos u = cos t) by (apply Rmult_eq_reg_l with r; lra).
  assert (sin u = sin t) by (apply Rmult_eq_reg_l with r; lra).
  destruct (same_angle u t) as [k K]; try assumption.
  pose proof PI_RGT_0. apply (close_int (2 * PI) u t k); lra.
Qed.
Lemma deg_rad : forall x, x * 180 / PI * PI / 180 = x.
Proof. intros x. pose proof PI_RGT_0. field. lra. Qed.
Lemma rad_deg : forall x, x * PI / 180 * 180 / PI = x.
Proof. intros x. pose proof PI_RGT_0. field. lra. Qed.
Lemma rad_alt : forall x, x / 180 * PI = rad x. Proof. intros. unfold rad. field. Qed.
Lemma unroll_deg_rad : forall x, 0 <= unroll_rad x * 180 / PI < 360 /\ congd (x * 180 / PI) (unroll_rad x * 180 / PI).
Proof.
  intros x. destruct (unroll_rad_spec x) as ([A B] & (k & K)). pose proof PI_RGT_0 as P. split.
  - split.
    + apply Rmult_le_reg_r with PI; [exact P|]. replace (unroll_rad x * 180 / PI * PI) with (unroll_rad x * 180) by (field; lra). lra.
    + apply Rmult_lt_reg_r with PI; [exact P|]. replace (unroll_rad x * 180 / PI * PI) with (unroll_rad x * 180) by (field; lra). lra.
  - exists k. rewrite K at 1. field. lra.
Qed.
Lemma forward_spec : forall x y az d, exists x2 y2 baz, cart_forward x y az d = (x2, y2, baz) /\
  bearing (x, y) (x2, y2) d az /\ 0 <= baz < 360 /\ congd (az + 180) baz.
Proof.
  intros x y az d. unfold cart_forward. do 3 eexists. split; [reflexivity|]. rewrite rad_alt. split.
  - unfold bearing, rad. cbn [fst snd]. split; reflexivity.
  - destruct (unroll_deg_rad (rad az + PI)) as [A B]. split; [exact A|].
    replace ((rad az + PI) * 180 / PI) with (az + 180) in B by (unfold rad; field; pose proof PI_RGT_0; lra). exact B.
Qed.
Lemma inverse_spec : forall x1 y1 x2 y2, exists az baz d, cart_inverse x1 y1 x2 y2 = (az, baz, d) /\
  d = edist (x1, y1) (x2, y2) /\ bearing (x1, y1) (x2, y2) d az /\ bearing (x2, y2) (x1, y1) d baz /\
  ((x1, y1) <> (x2, y2) -> -180 < az <= 180) /\ 0 <= baz < 360.
Proof.
  intros x1 y1 x2 y2. unfold cart_inverse. do 3 eexists. split; [reflexivity|].
  assert (D : plane_distance x1 y1 x2 y2 = edist (x1, y1) (x2, y2)).
  { unfold plane_distance, edist. cbn [fst snd]. f_equal. ring. }
  split; [exact D|].
  assert (P : plane_distance x1 y1 x2 y2 * sin (plane_azimuth x1 y1 x2 y2) = x2 - x1 /\
              plane_distance x1 y1 x2 y2 * cos (plane_azimuth x1 y1 x2 y2) = y2 - y1 /\
              ((x1, y1) <> (x2, y2) -> - PI < plane_azimuth x1 y1 x2 y2 <= PI)).
  { destruct (Req_dec (y2 - y1) 0) as [Y|Y]; [destruct (Req_dec (x2 - x1) 0) as [X|X]|].
    - unfold plane_distance. rewrite X, Y. replace (0 * 0 + 0 * 0) with 0 by ring. rewrite sqrt_0.
      split; [ring|]. split; [ring|]. intros N. exfalso. apply N. f_equal; lra.
    - destruct (atan2_polar 0 (x2 - x1) (y2 - y1)) as (A & B & C); [right; exact X|].
      unfold plane_distance, plane_azimuth. rewrite (Rplus_comm ((x2 - x1) * (x2 - x1))). split; [exact B|]. split; [exact A|]. intros _. exact C.
    - destruct (atan2_polar 0 (x2 - x1) (y2 - y1)) as (A & B & C); [left; exact Y|].
      unfold plane_distance, plane_azimuth. rewrite (Rplus_comm ((x2 - x1) * (x2 - x1))). split; [exact B|]. split; [exact A|]. intros _. exact C. }
  destruct P as (P1 & P2 & P3). set (a := plane_azimuth x1 y1 x2 y2) in *. set (d := plane_distance x1 y1 x2 y2) in *.
  split; [|split; [|split]].
  - unfold bearing. cbn [fst snd]. rewrite deg_rad. split; lra.
  - destruct (unroll_rad_spec (a + PI)) as (_ & (k & K)). unfold bearing. cbn [fst snd]. rewrite deg_rad.
    assert (U : unroll_rad (a + PI) = (a + PI) + 2 * IZR (- k) * PI) by (rewrite opp_IZR; lra).
    rewrite U. destruct (trig_period (a + PI) (- k)) as [-> ->]. rewrite neg_cos, neg_sin. split; lra.
  - intros N. specialize (P3 N). pose proof PI_RGT_0 as P.
    assert (E : a * 180 / PI * PI = 180 * a) by (field; lra).
    split; [apply Rmult_lt_reg_r with PI|apply Rmult_le_reg_r with PI]; lra.
  - apply unroll_deg_rad.
Qed.
Lemma there_and_back : forall x y az d, 0 < d -> exists x2 y2 baz az' baz',
  cart_forward x y az d = (x2, y2, baz) /\ cart_inverse x y x2 y2 = (az', baz', d) /\ congd az az' /\ baz' = baz.
Proof.
  intros x y az d D. destruct (forward_spec x y az d) as (x2 & y2 & baz & E & B & R & C).
  destruct (inverse_spec x y x2 y2) as (az' & baz' & d' & E' & D' & B' & B'' & _ & R').
  assert (dd : d' = d).
  { rewrite D'. rewrite (bearing_dist _ _ _ _ B). apply Rabs_right. lra. }
  rewrite dd in *.
  destruct (bearing_unique _ _ _ _ _ D B B') as [k K].
  assert (Bb : bearing (x2, y2) (x, y) d baz).
  { destruct C as (j & C). apply bearing_period with (k := (- j)%Z) in B. unfold bearing in *. cbn [fst snd] in *.
    assert (Eb : baz * PI / 180 = (az + 360 * IZR (- j)) * PI / 180 + PI) by (rewrite opp_IZR; replace baz with (az + 180 - 360 * IZR j) by lra; field).
    rewrite Eb, neg_sin, neg_cos. lra. }
  destruct (bearing_unique _ _ _ _ _ D B'' Bb) as [j J].
  exists x2, y2, baz, az', baz'. split; [exact E|]. split; [exact E'|]. split; [exists k; exact K|].
  apply (close_int 360 _ _ j); lra.
Qed.

(* ---- positions *)
Lemma sph2cart_pos : forall lon lat, sph2cart lon lat = pos lon lat.
Proof.
  intros lon lat. unfold sph2cart, pos, upos, rad.
  replace (PI * (90 - lat) / 180) with (PI / 2 - lat * PI / 180) by field.
  rewrite sin_shift, cos_shift. replace (PI * lon / 180) with (lon * PI / 180) by field. reflexivity.
Qed.
Lemma upos_unit : forall lam phi, dot (upos lam phi) (upos lam phi) = 1.
Proof.
  intros. unfold dot, upos. cbn [fst snd]. pose proof (sin2_cos2 lam) as A. pose proof (sin2_cos2 phi) as B. unfold Rsqr in *.
  transitivity (cos phi * cos phi * (sin lam * sin lam + cos lam * cos lam) + sin phi * sin phi); [ring|]. rewrite A. lra.
Qed.
Lemma upos_dot : forall l1 p1 l2 p2, dot (upos l1 p1) (upos l2 p2) = sin p1 * sin p2 + cos p1 * cos p2 * cos (l1 - l2).
Proof. intros. unfold dot, upos. cbn [fst snd]. rewrite cos_minus. ring. Qed.
Lemma v3_eq : forall a b c a' b' c' : R, a = a' -> b = b' -> c = c' -> (a, b, c) = (a', b', c').
Proof. intros; subst; reflexivity. Qed.
Lemma cos_rad_pos : forall x, -90 < x < 90 -> 0 < cos (rad x).
Proof. intros x H. pose proof PI_RGT_0. apply cos_gt_0; unfold rad; nra. Qed.
Lemma upos_inj : forall l1 p1 l2 p2, - PI < l1 <= PI -> - PI < l2 <= PI -> - (PI / 2) < p1 < PI / 2 -> - (PI / 2) < p2 < PI / 2 ->
  upos l1 p1 = upos l2 p2 -> l1 = l2 /\ p1 = p2.
Proof.
  intros l1 p1 l2 p2 A B C D E. unfold upos in E. injection E as E1 E2 E3.
  assert (P : p1 = p2). { rewrite <- (asin_sin p1), <- (asin_sin p2) by lra. rewrite E3. reflexivity. }
  subst p2. assert (0 < cos p1) by (apply cos_gt_0; lra). split; [|reflexivity].
  assert (cos l1 = cos l2) by (apply Rmult_eq_reg_l with (cos p1); lra).
  assert (sin l1 = sin l2) by (apply Rmult_eq_reg_l with (cos p1); lra).
  destruct (same_angle l1 l2) as [k K]; try assumption. pose proof PI_RGT_0. apply (close_int (2 * PI) _ _ k); lra.
Qed.

(** When the vector points north, or nearly to the equator, and not to the far side near
    the 90th meridians, the position is right. *)
Lemma cart2sph_spec : forall x y z, Rabs z <= 1 / 10000 \/ 0 < z -> 1 / 10000 < Rabs x \/ 0 <= x -> x <> 0 \/ y <> 0 ->
  exists lon lat, cart2sph (x, y, z) = Some (lon, lat) /\ (x, y, z) = vscale (sqrt (x * x + y * y + z * z)) (pos lon lat) /\
  -180 < lon <= 180 /\ -90 < lat < 90.
Proof.
  intros x y z HZ HX N. unfold cart2sph.
  pose proof PI_RGT_0 as PP.
  set (r := sqrt (x * x + y * y)). assert (r0 : 0 < r) by (apply norm_pos; exact N).
  assert (rr : r * r = x * x + y * y) by (apply sqrt_sqrt; nra).
  set (n := sqrt (x * x + y * y + z * z)). assert (n0 : 0 < n) by (apply sqrt_lt_R0; nra).
  assert (nn : n * n = x * x + y * y + z * z) by (apply sqrt_sqrt; nra).
  (* latitude *)
  assert (T : exists th, (if rlt (1 / 10000) (Rabs z) then Some (atan (r / z)) else if req n 0 then None else Some (acos (z / n))) = Some th /\
              0 < th < PI /\ n * cos th = z /\ n * sin th = r).
  { destruct (rlt (1 / 10000) (Rabs z)) eqn:E.
    - apply rlt_t in E. assert (Z : 0 < z) by lra. exists (atan (r / z)). split; [reflexivity|].
      assert (0 < atan (r / z)). { rewrite <- atan_0. apply atan_increasing. apply Rdiv_lt_0_compat; lra. }
      destruct (atan_bound (r / z)). split; [lra|].
      destruct (TerrainR_Proofs.atan_polar r z Z) as [U V].
      assert (S : sqrt (z * z + r * r) = n) by (unfold n; f_equal; lra). rewrite S in U, V. split; assumption.
    - destruct (req n 0) eqn:E2; [apply req_t in E2; lra|].
      assert (B : -1 < z / n < 1).
      { assert (z / n * n = z) by (field; lra). assert (z * z < n * n) by nra.
        split; apply Rmult_lt_reg_r with n; try lra; nra. }
      exists (acos (z / n)). split; [reflexivity|].
      assert (A : 0 < acos (z / n) < PI).
      { pose proof (acos_bound (z / n)) as [L1 L2]. pose proof (cos_acos (z / n) ltac:(lra)) as C. split.
        - destruct L1 as [L|L]; [exact L|]. rewrite <- L, cos_0 in C. lra.
        - destruct L2 as [L|L]; [exact L|]. rewrite L, cos_PI in C. lra. }
      split; [exact A|]. rewrite cos_acos by lra. split; [field; lra|].
      rewrite sin_acos by lra.
      assert (Q : sqrt (1 - (z / n)²) = r / n).
      { apply Rsqr_inj; [apply sqrt_pos|left; apply Rdiv_lt_0_compat; lra|]. rewrite Rsqr_sqrt.
        - unfold Rsqr. apply Rmult_eq_reg_r with (n * n); [|nra].
          replace ((1 - z / n * (z / n)) * (n * n)) with (n * n - z * z) by (field; lra).
          replace (r / n * (r / n) * (n * n)) with (r * r) by (field; lra). lra.
        - unfold Rsqr. nra. }
      rewrite Q. field. lra. }
  destruct T as (th & T & Th & T1 & T2). rewrite T. clear T.
  (* longitude *)
  assert (L : exists lam, (if rlt (1 / 10000) (Rabs x) then Some (atan2 0 y x) else if req r 0 then None else Some (asin (y / r))) = Some lam /\
              - PI < lam <= PI /\ r * cos lam = x /\ r * sin lam = y).
  { destruct (rlt (1 / 10000) (Rabs x)) eqn:E.
    - exists (atan2 0 y x). split; [reflexivity|]. destruct (atan2_polar 0 y x N) as (A & B & C). auto.
    - apply rlt_f in E. destruct (req r 0) eqn:E2; [apply req_t in E2; lra|].
      assert (X : 0 <= x) by lra.
      assert (B : -1 <= y / r <= 1).
      { assert (y / r * r = y) by (field; lra). split; apply Rmult_le_reg_r with r; try lra; nra. }
      exists (asin (y / r)). split; [reflexivity|]. pose proof (asin_bound (y / r)). split; [lra|].
      rewrite sin_asin by lra. rewrite cos_asin by lra. split; [|field; lra].
      assert (Q : sqrt (1 - (y / r)²) = x / r).
      { apply Rsqr_inj; [apply sqrt_pos|unfold Rdiv; apply Rmult_le_pos; [lra|left; apply Rinv_0_lt_compat; lra]|]. rewrite Rsqr_sqrt.
        - unfold Rsqr. apply Rmult_eq_reg_r with (r * r); [|nra].
          replace ((1 - y / r * (y / r)) * (r * r)) with (r * r - y * y) by (field; lra).
          replace (x / r * (x / r) * (r * r)) with (x * x) by (field; lra). lra.
        - unfold Rsqr. nra. }
      rewrite Q. field. lra. }
  destruct L as (lam & L & La & L1 & L2). rewrite L. clear L.
  do 2 eexists. split; [reflexivity|]. split; [|split].
  - unfold pos, rad. rewrite !deg_rad. replace (5 / 10 * PI - th) with (PI / 2 - th) by field.
    unfold upos, vscale. cbn [fst snd]. rewrite cos_shift, sin_shift. apply v3_eq.
    + transitivity (n * sin th * cos lam); [rewrite T2; lra|ring].
    + transitivity (n * sin th * sin lam); [rewrite T2; lra|ring].
    + lra.
  - assert (E : lam * 180 / PI * PI = 180 * lam) by (field; lra). split; [apply Rmult_lt_reg_r with PI|apply Rmult_le_reg_r with PI]; lra.
  - assert (E : (5 / 10 * PI - th) * 180 / PI * PI = 90 * PI - 180 * th) by (field; lra). split; apply Rmult_lt_reg_r with PI; lra.
Qed.
Lemma rad_bounds : forall x, -180 < x <= 180 -> - PI < rad x <= PI.
Proof. intros x H. pose proof PI_RGT_0. unfold rad. split; nra. Qed.
Lemma rad_lat : forall x, -90 < x < 90 -> - (PI / 2) < rad x < PI / 2.
Proof. intros x H. pose proof PI_RGT_0. unfold rad. split; nra. Qed.
Lemma rad_inj : forall x y, rad x = rad y -> x = y.
Proof. intros x y H. pose proof PI_RGT_0. unfold rad in H. apply Rmult_eq_reg_r with (PI / 180); lra. Qed.
(** Round trip. *)
Lemma round_trip : forall lon lat, -180 < lon <= 180 -> -90 < lat < 90 ->
  0 <= sin (rad lat) \/ Rabs (sin (rad lat)) <= 1 / 10000 ->
  0 <= cos (rad lon) \/ 1 / 10000 < Rabs (cos (rad lat) * cos (rad lon)) ->
  cart2sph (sph2cart lon lat) = Some (lon, lat).
Proof.
  intros lon lat LO LA HZ HX. rewrite sph2cart_pos.
  assert (C : 0 < cos (rad lat)) by (apply cos_rad_pos; exact LA).
  set (x := cos (rad lat) * cos (rad lon)). set (y := cos (rad lat) * sin (rad lon)). set (z := sin (rad lat)).
  assert (U : x * x + y * y + z * z = 1).
  { pose proof (upos_unit (rad lon) (rad lat)) as H. unfold dot, upos in H. cbn [fst snd] in H. exact H. }
  assert (N : x <> 0 \/ y <> 0).
  { destruct (Req_dec x 0) as [X|X]; [right|left; exact X]. intros Y.
    pose proof (sin2_cos2 (rad lat)) as H. unfold Rsqr in H. fold z in H. rewrite X, Y in U. nra. }
  destruct (cart2sph_spec x y z) as (lon' & lat' & E & V & B1 & B2).
  - destruct HZ as [[H|H]|H]; [right; exact H| |left; exact H]. left. unfold z. rewrite <- H, Rabs_R0. lra.
  - destruct HX as [H|H]; [right; unfold x; apply Rmult_le_pos; lra|left; exact H].
  - exact N.
  - change (pos lon lat) with (x, y, z). rewrite E. rewrite U, sqrt_1 in V.
    assert (P : pos lon lat = pos lon' lat').
    { change (pos lon lat) with (x, y, z). rewrite V. unfold vscale. rewrite !Rmult_1_l. destruct (pos lon' lat') as [[? ?] ?]. reflexivity. }
    destruct (upos_inj _ _ _ _ (rad_bounds _ LO) (rad_bounds _ B1) (rad_lat _ LA) (rad_lat _ B2) P) as [Q1 Q2].
    rewrite (rad_inj _ _ Q1), (rad_inj _ _ Q2). reflexivity.
Qed.
Lemma sin_45_big : 1 / 10000 < sin (PI / 4).
Proof. rewrite sin_PI4. assert (0 < sqrt 2) by (apply sqrt_lt_R0; lra). assert (sqrt 2 * sqrt 2 = 2) by (apply sqrt_sqrt; lra).
  apply Rmult_lt_reg_r with (sqrt 2); [lra|]. replace (1 / sqrt 2 * sqrt 2) with 1 by (field; lra). nra. Qed.
Lemma south_wrong : cart2sph (sph2cart 0 (-45)) = Some (0, 135).
Proof.
  rewrite sph2cart_pos. unfold pos, upos, rad. replace (0 * PI / 180) with 0 by field.
  replace (-45 * PI / 180) with (- (PI / 4)) by field. rewrite cos_neg, sin_neg, cos_0, sin_0, Rmult_1_r, Rmult_0_r.
  pose proof sin_45_big as B. pose proof PI_RGT_0 as P.
  assert (CS : cos (PI / 4) = sin (PI / 4)) by (rewrite cos_PI4, sin_PI4; reflexivity). rewrite CS.
  set (s := sin (PI / 4)) in *. unfold cart2sph.
  rewrite (proj2 (rlt_t (1 / 10000) (Rabs (- s)))) by (rewrite Rabs_Ropp, Rabs_right; lra).
  rewrite (proj2 (rlt_t (1 / 10000) (Rabs s))) by (rewrite Rabs_right; lra).
  replace (s * s + 0 * 0) with (s * s) by ring. rewrite sqrt_square by lra.
  replace (s / - s) with (-1) by (field; lra).
  unfold atan2, TerrainR_Model.atan2. destruct (Rlt_dec 0 s); [|lra].
  replace (0 / s) with 0 by (field; lra). rewrite atan_0. replace (-1) with (- (1)) by ring. rewrite atan_opp, atan_1.
  f_equal. f_equal; field; lra.
Qed.
Lemma pole_raises : cart2sph (sph2cart 0 90) = None.
Proof.
  unfold sph2cart. replace (PI * (90 - 90) / 180) with 0 by field. rewrite sin_0, cos_0. unfold cart2sph.
  rewrite (proj2 (rlt_f (1 / 10000) (Rabs (0 * cos (PI * 0 / 180))))) by (rewrite Rmult_0_l, Rabs_R0; lra).
  rewrite !Rmult_0_l. replace (0 + 0) with 0 by ring. rewrite sqrt_0. rewrite (proj2 (req_t 0 0) eq_refl).
  destruct (if rlt (1 / 10000) (Rabs 1) then _ else _); reflexivity.
Qed.
Lemma there_distance : forall x y az d, exists x2 y2 baz az' baz',
  cart_forward x y az d = (x2, y2, baz) /\ cart_inverse x y x2 y2 = (az', baz', Rabs d).
Proof.
  intros x y az d. destruct (forward_spec x y az d) as (x2 & y2 & baz & E & B & _ & _).
  destruct (inverse_spec x y x2 y2) as (az' & baz' & d' & E' & D' & _).
  exists x2, y2, baz, az', baz'. split; [exact E|]. rewrite E', D', (bearing_dist _ _ _ _ B). reflexivity.
Qed.
