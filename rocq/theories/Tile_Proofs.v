(** Proofs about map tiles. *)
From Coq Require Import ZArith Reals R_Ifp Lia Lra.
From Verif Require Import Tile_Model Tile_Spec.
Open Scope R_scope.

Lemma floor_spec : forall x, IZR (Int_part x) <= x < IZR (Int_part x) + 1.
Proof. intros x. destruct (base_Int_part x) as [A B]. lra. Qed.
Lemma floor_unique : forall x n, IZR n <= x < IZR n + 1 -> Int_part x = n.
Proof.
  intros x n H. pose proof (floor_spec x). assert (IZR (Int_part x) < IZR (n + 1)) as A by (rewrite plus_IZR; lra).
  assert (IZR n < IZR (Int_part x + 1)) as B by (rewrite plus_IZR; lra). apply lt_IZR in A. apply lt_IZR in B. lia.
Qed.
Lemma pow2_pos : forall z, 0 < 2 ^ z. Proof. intros z. apply pow_lt. lra. Qed.
Lemma pow2_IZR : forall z, 2 ^ z = IZR (2 ^ Z.of_nat z).
Proof. intros z. rewrite pow_IZR. reflexivity. Qed.

(* ---- the Mercator function and its inverse *)
Lemma sinh_increasing : forall a b, a < b -> sinh a < sinh b.
Proof. intros a b H. unfold sinh. pose proof (exp_increasing a b H). pose proof (exp_increasing (- b) (- a) ltac:(lra)). lra. Qed.
Definition merc (phi : R) : R := ln (tan (PI / 4 + phi / 2)).
Lemma tan_half : forall phi, - (PI / 2) < phi < PI / 2 -> 0 < tan (PI / 4 + phi / 2) /\ tan (PI / 4 + phi / 2) = (1 + sin phi) / cos phi.
Proof.
  intros phi H. pose proof PI_RGT_0.
  assert (0 < cos phi) as C by (apply cos_gt_0; lra).
  set (u := PI / 4 + phi / 2). assert (0 < cos u) as Cu by (apply cos_gt_0; unfold u; lra).
  assert (0 < sin u) as Su by (apply sin_gt_0; unfold u; lra).
  assert (phi = 2 * u - PI / 2) as E by (unfold u; lra).
  assert (sin phi = - cos (2 * u)) as Es by (rewrite E, sin_minus, cos_PI2, sin_PI2; ring).
  assert (cos phi = sin (2 * u)) as Ec by (rewrite E, cos_minus, cos_PI2, sin_PI2; ring).
  split.
  - unfold tan. apply Rdiv_lt_0_compat; assumption.
  - rewrite Es, Ec, sin_2a, cos_2a_sin. unfold tan. field. lra.
Qed.
Lemma sinh_merc : forall phi, - (PI / 2) < phi < PI / 2 -> sinh (merc phi) = tan phi.
Proof.
  intros phi H. destruct (tan_half phi H) as (P & E). unfold sinh, merc. rewrite exp_Ropp, exp_ln by exact P. rewrite E.
  assert (0 < cos phi) as C by (apply cos_gt_0; lra). unfold tan.
  pose proof (sin2_cos2 phi) as S2. unfold Rsqr in S2.
  assert (0 < 1 + sin phi) as Q.
  { rewrite E in P. apply (Rmult_lt_compat_r (cos phi)) in P; [|exact C]. unfold Rdiv in P. rewrite Rmult_assoc, Rinv_l in P by lra. lra. }
  apply (Rmult_eq_reg_r (2 * cos phi * (1 + sin phi))); [|nra]. field_simplify; [|lra|split; lra].
  nra.
Qed.
Lemma atan_merc : forall phi, - (PI / 2) < phi < PI / 2 -> atan (sinh (merc phi)) = phi.
Proof. intros phi H. rewrite sinh_merc by exact H. apply atan_tan; lra. Qed.
Lemma atan_le : forall a b, atan a <= atan b <-> a <= b.
Proof.
  intros a b. split; intros H.
  - destruct (Rle_lt_dec a b) as [L|L]; [exact L|]. apply atan_increasing in L. lra.
  - destruct H as [H|H]; [left; apply atan_increasing; exact H|right; congruence].
Qed.
Lemma sinh_le : forall a b, sinh a <= sinh b <-> a <= b.
Proof.
  intros a b. split; intros H.
  - destruct (Rle_lt_dec a b) as [L|L]; [exact L|]. apply sinh_increasing in L. lra.
  - destruct H as [H|H]; [left; apply sinh_increasing; exact H|right; congruence].
Qed.
Lemma deg_le : forall u v, u * 180 / PI <= v * 180 / PI <-> u <= v.
Proof.
  intros u v. pose proof PI_RGT_0 as P. pose proof (Rinv_0_lt_compat _ P). unfold Rdiv. split; intros Q.
  - apply (Rmult_le_reg_r (180 * / PI)); [nra|lra].
  - apply Rmult_le_compat_r; lra.
Qed.
(** The latitude of row boundary y and the row coordinate of a latitude. *)
Definition row_lat (z : nat) (y : R) : R := atan (sinh (PI * (1 - 2 * y / 2 ^ z))) * 180 / PI.
Definition row_of (z : nat) (lat : R) : R := 2 ^ z / 2 * (1 - merc (lat * PI / 180) / PI).
Definition col_of (z : nat) (lon : R) : R := 2 ^ z * ((lon + 180) / 360).
Lemma row_of_spec : forall z y lat, -90 < lat < 90 -> (lat <= row_lat z y <-> y <= row_of z lat).
Proof.
  intros z y lat H. pose proof PI_RGT_0. pose proof (pow2_pos z).
  assert (- (PI / 2) < lat * PI / 180 < PI / 2) as A by nra.
  set (m := merc (lat * PI / 180)). assert (atan (sinh m) * 180 / PI = lat) as E.
  { unfold m. rewrite atan_merc by exact A. field. lra. }
  transitivity (m <= PI * (1 - 2 * y / 2 ^ z)).
  - rewrite <- E at 1. unfold row_lat. rewrite deg_le, atan_le, sinh_le. reflexivity.
  - unfold row_of. fold m. split; intros Q.
    + apply (Rmult_le_reg_r (2 * PI / 2 ^ z)); [apply Rdiv_lt_0_compat; lra|].
      replace (2 ^ z / 2 * (1 - m / PI) * (2 * PI / 2 ^ z)) with (PI - m) by (field; lra).
      replace (y * (2 * PI / 2 ^ z)) with (PI - PI * (1 - 2 * y / 2 ^ z)) by (field; lra). lra.
    + apply (Rmult_le_compat_r (2 * PI / 2 ^ z)) in Q; [|apply Rlt_le, Rdiv_lt_0_compat; lra].
      replace (2 ^ z / 2 * (1 - m / PI) * (2 * PI / 2 ^ z)) with (PI - m) in Q by (field; lra).
      replace (y * (2 * PI / 2 ^ z)) with (PI - PI * (1 - 2 * y / 2 ^ z)) in Q by (field; lra). lra.
Qed.
Lemma row_of_lt : forall z y lat, -90 < lat < 90 -> (row_lat z y < lat <-> row_of z lat < y).
Proof.
  intros z y lat H. pose proof (row_of_spec z y lat H) as [A B]. split; intros Q.
  - destruct (Rlt_le_dec (row_of z lat) y) as [L|L]; [exact L|]. specialize (B L). lra.
  - destruct (Rlt_le_dec (row_lat z y) lat) as [L|L]; [exact L|]. specialize (A L). lra.
Qed.
Lemma col_of_spec : forall z x lon, x / 2 ^ z * 360 - 180 <= lon <-> x <= col_of z lon.
Proof.
  intros z x lon. pose proof (pow2_pos z). unfold col_of. split; intros Q.
  - apply (Rmult_le_reg_r (360 / 2 ^ z)); [apply Rdiv_lt_0_compat; lra|].
    replace (2 ^ z * ((lon + 180) / 360) * (360 / 2 ^ z)) with (lon + 180) by (field; lra). lra.
  - apply (Rmult_le_compat_r (360 / 2 ^ z)) in Q; [|apply Rlt_le, Rdiv_lt_0_compat; lra].
    replace (2 ^ z * ((lon + 180) / 360) * (360 / 2 ^ z)) with (lon + 180) in Q by (field; lra). lra.
Qed.
Lemma col_of_lt : forall z x lon, lon < x / 2 ^ z * 360 - 180 <-> col_of z lon < x.
Proof.
  intros z x lon. pose proof (col_of_spec z x lon) as [A B]. split; intros Q.
  - destruct (Rlt_le_dec (col_of z lon) x) as [L|L]; [exact L|]. specialize (B L). lra.
  - destruct (Rlt_le_dec lon (x / 2 ^ z * 360 - 180)) as [L|L]; [exact L|]. specialize (A L). lra.
Qed.
Lemma tile_from_eq : forall lon lat z, tile_from_point lon lat z = Tile z (Int_part (col_of z lon)) (Int_part (row_of z lat)).
Proof.
  intros lon lat z. pose proof PI_RGT_0. unfold tile_from_point, col_of, row_of, merc. f_equal; f_equal.
  - field. lra.
  - replace (PI / 4 + lat * PI / 180 / 2) with (PI / 4 + lat * PI / 360) by field. field. lra.
Qed.
(** A box contains a position exactly when floor selects its tile. *)
Lemma bbox_iff : forall t lon lat, -90 < lat < 90 ->
  (bbox_contains (tile_bbox t) lon lat <-> tile_from_point lon lat (tz t) = t).
Proof.
  intros [z x y] lon lat H. rewrite tile_from_eq. unfold bbox_contains, tile_bbox, nw_corner. cbn [fst snd tx ty tz].
  fold (row_lat z (IZR y)). fold (row_lat z (IZR (y + 1))).
  rewrite col_of_spec, col_of_lt, row_of_lt by exact H. rewrite row_of_spec by exact H. rewrite !plus_IZR. split.
  - intros [A B]. f_equal; apply floor_unique; lra.
  - intros E. injection E as <- <-. pose proof (floor_spec (col_of z lon)). pose proof (floor_spec (row_of z lat)). lra.
Qed.
Lemma tile_contains : forall lon lat z, -90 < lat < 90 -> bbox_contains (tile_bbox (tile_from_point lon lat z)) lon lat.
Proof. intros lon lat z H. apply bbox_iff; [exact H|]. reflexivity. Qed.
Lemma tile_unique : forall t lon lat, -90 < lat < 90 -> bbox_contains (tile_bbox t) lon lat -> t = tile_from_point lon lat (tz t).
Proof. intros t lon lat H B. apply bbox_iff in B; auto. Qed.

Lemma limit_pos : 0 < mercator_limit < 90.
Proof.
  unfold mercator_limit. pose proof PI_RGT_0. pose proof (atan_bound (sinh PI)) as B.
  pose proof (atan_increasing 0 (sinh PI)) as A. rewrite atan_0 in A.
  assert (0 < sinh PI) as S by (rewrite <- sinh_0; apply sinh_increasing; lra). specialize (A S).
  split.
  - apply Rdiv_lt_0_compat; lra.
  - apply (Rmult_lt_reg_r (PI / 180)); [lra|]. replace (atan (sinh PI) * 180 / PI * (PI / 180)) with (atan (sinh PI)) by (field; lra). lra.
Qed.
Lemma limit_row0 : forall z, row_lat z 0 = mercator_limit.
Proof. intros z. pose proof (pow2_pos z). unfold row_lat, mercator_limit. do 4 f_equal. field. lra. Qed.
Lemma sinh_neg : forall x, sinh (- x) = - sinh x. Proof. intros x. unfold sinh. rewrite Ropp_involutive. field. Qed.
Lemma limit_rown : forall z, row_lat z (2 ^ z) = - mercator_limit.
Proof.
  intros z. pose proof (pow2_pos z). pose proof PI_RGT_0. unfold row_lat, mercator_limit.
  replace (PI * (1 - 2 * 2 ^ z / 2 ^ z)) with (- PI) by (field; lra). rewrite sinh_neg, atan_opp. field. lra.
Qed.
Lemma tile_exists : forall lon lat z, -180 <= lon < 180 -> - mercator_limit < lat <= mercator_limit -> tile_valid (tile_from_point lon lat z).
Proof.
  intros lon lat z L P. pose proof limit_pos as LP. pose proof (pow2_pos z) as Z0. assert (-90 < lat < 90) as B by lra.
  rewrite tile_from_eq. unfold tile_valid. cbn [tx ty tz].
  assert (0 <= col_of z lon < 2 ^ z) as C.
  { split; [apply (col_of_spec z 0 lon); unfold Rdiv; rewrite Rmult_0_l; lra|].
    apply (col_of_lt z (2 ^ z) lon). unfold Rdiv. rewrite Rinv_r by lra. lra. }
  assert (0 <= row_of z lat < 2 ^ z) as D.
  { split; [apply (row_of_spec z 0 lat B); rewrite limit_row0|apply (row_of_lt z (2 ^ z) lat B); rewrite limit_rown]; lra. }
  rewrite pow2_IZR in C, D.
  assert (forall v n, 0 <= v < IZR n -> (0 <= Int_part v < n)%Z) as W.
  { clear. intros v n H. pose proof (floor_spec v) as F. split.
    - assert (-1 < IZR (Int_part v)) as A by lra. apply (lt_IZR (-1)) in A. lia.
    - apply lt_IZR. lra. }
  split; apply W; assumption.
Qed.
Lemma corner_round_trip : forall t, tile_from_point (fst (nw_corner t)) (snd (nw_corner t)) (tz t) = t.
Proof.
  intros [z x y]. pose proof PI_RGT_0. pose proof (pow2_pos z).
  assert (-90 < snd (nw_corner (Tile z x y)) < 90) as B.
  { unfold nw_corner. cbn [snd tz ty]. set (u := sinh _). pose proof (atan_bound u) as A. generalize dependent (atan u). intros v A.
    split; apply (Rmult_lt_reg_r (PI / 180)); try lra; replace (v * 180 / PI * (PI / 180)) with v by (field; lra); lra. }
  apply bbox_iff; [exact B|]. unfold bbox_contains, tile_bbox. cbn [tz tx ty]. split; [split; [right; reflexivity|]|split; [|right; reflexivity]].
  - unfold nw_corner. cbn [fst tz tx]. rewrite plus_IZR. unfold Rdiv. rewrite Rmult_plus_distr_r.
    pose proof (Rinv_0_lt_compat _ H0). lra.
  - unfold nw_corner. cbn [snd tz ty]. apply Rmult_lt_compat_r; [apply Rinv_0_lt_compat; lra|]. apply Rmult_lt_compat_r; [lra|].
    apply atan_increasing, sinh_increasing. apply Rmult_lt_compat_l; [lra|]. rewrite plus_IZR. unfold Rdiv.
    pose proof (Rinv_0_lt_compat _ H0). nra.
Qed.
Lemma child_iff : forall t lon lat, -90 < lat < 90 ->
  (bbox_contains (tile_bbox t) lon lat <-> exists e s, bbox_contains (tile_bbox (child t e s)) lon lat).
Proof.
  intros [z x y] lon lat H. split.
  - intros B. apply bbox_iff in B; [|exact H]. rewrite tile_from_eq in B. cbn [tz] in B. injection B as Bx By.
    assert (forall v n, Int_part v = n -> exists b : bool, Int_part (2 * v) = (2 * n + (if b then 1 else 0))%Z) as W.
    { clear. intros v n E. pose proof (floor_spec v) as F. rewrite E in F. clear E.
      destruct (Rlt_le_dec (2 * v) (2 * IZR n + 1)); [exists false|exists true]; apply floor_unique;
        rewrite plus_IZR, mult_IZR; lra. }
    destruct (W _ _ Bx) as (e & E). destruct (W _ _ By) as (s & S). exists e, s. apply bbox_iff; [exact H|].
    rewrite tile_from_eq. unfold child. cbn [tz tx ty]. f_equal.
    + rewrite <- E. f_equal. unfold col_of. cbn [pow]. ring.
    + rewrite <- S. f_equal. unfold row_of. cbn [pow]. field. apply PI_neq0.
  - intros (e & s & B). apply bbox_iff in B; [|exact H]. apply bbox_iff; [exact H|]. unfold child in B. rewrite tile_from_eq in *. cbn [tz tx ty] in *.
    pose proof (f_equal tx B) as Bx. pose proof (f_equal ty B) as By. cbn [tx ty] in Bx, By.
    assert (forall v n (b : bool), Int_part (2 * v) = (2 * n + (if b then 1 else 0))%Z -> Int_part v = n) as W.
    { clear. intros v n b E. pose proof (floor_spec (2 * v)) as F. rewrite E, plus_IZR, mult_IZR in F. apply floor_unique. destruct b; lra. }
    f_equal; [apply W with e; rewrite <- Bx|apply W with s; rewrite <- By]; f_equal.
    + unfold col_of. cbn [pow]. ring.
    + unfold row_of. cbn [pow]. field. apply PI_neq0.
Qed.
Lemma child_disjoint : forall t e s e' s', child t e s = child t e' s' -> e = e' /\ s = s'.
Proof. intros t e s e' s' E. unfold child in E. pose proof (f_equal tx E) as A. pose proof (f_equal ty E) as B. cbn [tx ty] in A, B. split; [destruct e, e'|destruct s, s']; lia || reflexivity. Qed.
Lemma child_valid : forall t e s, tile_valid t -> tile_valid (child t e s).
Proof.
  intros [z x y] e s H. unfold tile_valid, child in *. cbn [tx ty tz] in *. rewrite Nat2Z.inj_succ, Z.pow_succ_r by lia.
  destruct e, s; lia.
Qed.
Lemma east_edge : forall lat z, tx (tile_from_point 180 lat z) = (2 ^ Z.of_nat z)%Z.
Proof.
  intros lat z. rewrite tile_from_eq. cbn [tx]. apply floor_unique. rewrite <- pow2_IZR. unfold col_of. lra.
Qed.
Lemma tile_eqb_iff : forall s t, tile_eqb s t = true <-> s = t.
Proof.
  intros [z x y] [z' x' y']. unfold tile_eqb. cbn [tz tx ty]. rewrite !Bool.andb_true_iff, PeanoNat.Nat.eqb_eq, !Z.eqb_eq.
  split; [intros ((-> & ->) & ->); reflexivity|intros E; injection E as -> -> ->; auto].
Qed.
Lemma valid_extent : forall t lon lat, tile_valid t -> -90 < lat < 90 -> bbox_contains (tile_bbox t) lon lat ->
  -180 <= lon < 180 /\ - mercator_limit < lat <= mercator_limit.
Proof.
  intros [z x y] lon lat V H B. apply bbox_iff in B; [|exact H]. rewrite tile_from_eq in B. cbn [tz] in B. injection B as Bx By.
  unfold tile_valid in V. cbn [tx ty tz] in V. pose proof (pow2_pos z).
  assert (forall v n k, Int_part v = n -> (0 <= n < k)%Z -> 0 <= v < IZR k) as W.
  { clear. intros v n k E N. pose proof (floor_spec v) as F. rewrite E in F. split.
    - pose proof (IZR_le 0 n ltac:(lia)). lra.
    - pose proof (IZR_le (n + 1) k ltac:(lia)) as P. rewrite plus_IZR in P. lra. }
  destruct V as [Vx Vy]. pose proof (W _ _ _ Bx Vx) as Wx. pose proof (W _ _ _ By Vy) as Wy. rewrite <- pow2_IZR in Wx, Wy. clear W.
  rewrite <- (limit_rown z), <- (limit_row0 z).
  destruct Wx as [Wx1 Wx2]. destruct Wy as [Wy1 Wy2]. apply col_of_spec in Wx1. apply col_of_lt in Wx2.
  apply (row_of_spec z 0 lat H) in Wy1. apply (row_of_lt z _ lat H) in Wy2.
  unfold Rdiv in Wx1, Wx2. rewrite Rmult_0_l in Wx1. rewrite Rinv_r in Wx2 by lra. lra.
Qed.
Lemma origin_tile : tile_from_point 0 0 1 = Tile 1 1 1.
Proof.
  rewrite tile_from_eq. unfold col_of, row_of, merc. replace (PI / 4 + 0 * PI / 180 / 2) with (PI / 4) by field.
  rewrite tan_PI4, ln_1. f_equal; apply floor_unique; [lra|]. pose proof PI_RGT_0. unfold Rdiv. rewrite Rmult_0_l. lra.
Qed.
