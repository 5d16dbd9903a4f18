(** Areas of edges and polygons on the ellipsoid against the areas below geodesics. *)
From Coq Require Import List ZArith Reals Lra Lia Bool.
From Coquelicot Require Import Coquelicot.
From Verif Require Brent_Model.
From Verif Require Import GeomR_Model GeomR_Proofs Sphere_Model Sphere_Spec Sphere_Proofs Sphere_Area Geod_Model Geod_Spec Geod_Forward
  Geod_Series Geod_Bounds Geod_Revert Geod_Accurate Geod_Symm Geod_Unwrap Geod_Inverse Geod_Answer Geod_Round Geod_More Geod_Area
  Geod_AreaSpec Geod_AreaSeries Geod_AreaTrue.
Import ListNotations.
Open Scope R_scope.

Definition area_err (a b : R) : R := b ^ 2 * ((a ^ 2 - b ^ 2) / b ^ 2) ^ 6 * (10 / 9009 + 512 / 3003 * ((a ^ 2 - b ^ 2) / b ^ 2)).
Lemma G1_pos : forall a b, 0 < b -> b < a -> 0 <= Gu a b 1.
Proof.
  intros a b HB HA. unfold Gu. apply RInt_ge_0; [lra| |].
  - apply (ex_RInt_continuous (V := R_CompleteNormedModule)). intros. apply g_cont; assumption.
  - intros x _. pose proof (g_ge a b HB HA x). lra.
Qed.
Lemma e2_value : forall a b, 0 < b -> b < a -> flattening a b * (2 - flattening a b) = (a ^ 2 - b ^ 2) / a ^ 2.
Proof. intros. unfold flattening. field. lra. Qed.
Lemma e_value : forall a b, 0 < b -> b < a -> sqrt (flattening a b * (2 - flattening a b)) = sqrt (a ^ 2 - b ^ 2) / a.
Proof.
  intros a b HB HA. pose proof (q_pos a b HB HA). rewrite e2_value by assumption. rewrite sqrt_div by (try apply pow_lt; lra). rewrite sqrt_pow2 by lra. reflexivity.
Qed.
(** The square of the authalic radius. *)
Lemma authalic : forall a b, 0 < b -> b < a -> let e := sqrt (flattening a b * (2 - flattening a b)) in
  sqrt (a ^ 2 / 2 + b ^ 2 / 2 * atanh e / e) ^ 2 = a * Gu a b 1.
Proof.
  intros a b HB HA e. assert (E : a ^ 2 / 2 + b ^ 2 / 2 * atanh e / e = a * Gu a b 1).
  { rewrite (G_closed a b HB HA), (g_one a b HB HA), (K_one a b HB HA). unfold e. rewrite e_value by assumption.
    assert (0 < sqrt (a ^ 2 - b ^ 2)) by (apply sqrt_lt_R0, q_pos; assumption). field. lra. }
  rewrite E. apply pow2_sqrt. apply Rmult_le_pos; [lra|apply G1_pos; assumption].
Qed.
Lemma canonical_value : forall flat a b p1 p2 al1, 0 < b -> b < a ->
  let be1 := reduced (flattening a b) p1 in let be2 := reduced (flattening a b) p2 in
  canonical_latitudes be1 be2 -> 0 < sin al1 -> sin be1 + sin be2 < 0 ->
  let S := sin (azimuth0 flat al1 be1) in let C := cos (azimuth0 flat al1 be1) in
  exists v s1 s2 o1 o2 al2, area_canonical flat a b p1 p2 al1 = Done v /\ 0 < S /\ 0 < C /\ S ^ 2 + C ^ 2 = 1 /\
    - PI < s1 < 0 /\ - (PI / 2) <= s2 <= PI / 2 /\ s1 <= s2 <= s1 + PI /\
    on_circle S C s1 o1 be1 al1 /\ on_circle S C s2 o2 be2 al2 /\ Rabs (v - area_below a b S C s1 s2) <= area_err a b /\
    Rabs (v + 10 / 9009 * b ^ 2 * ((a ^ 2 - b ^ 2) / b ^ 2) ^ 6 * (C ^ 4 * (C * S) * (cos s2 - cos s1)) - area_below a b S C s1 s2) <= 128 / 3003 * b ^ 2 * ((a ^ 2 - b ^ 2) / b ^ 2) ^ 7 * Rabs (s2 - s1).
Proof.
  intros flat a b p1 p2 al1 HB HA be1 be2 CL SA NB S C. pose proof PI_RGT_0 as P0. pose proof PI_4 as P4.
  destruct (triangles flat be1 be2 al1 CL) as (PC & N & SE & s1 & al2 & s2 & EA & EB & H1 & H2 & H3 & O1 & O2 & _). cbv zeta in *.
  set (al0 := azimuth0 flat al1 be1) in *. fold S in N, SE, O1, O2, EA, EB. fold C in PC, N, O1, O2.
  set (o1 := atan2 flat (S * sin s1) (cos s1)) in *. set (o2 := atan2 flat (S * sin s2) (cos s2)) in *.
  assert (PS : 0 < S) by (rewrite SE; apply Rmult_lt_0_compat; [exact SA|apply CL]). specialize (O2 ltac:(lra)).
  assert (R12 : s1 <= s2 < s1 + PI).
  { split; [lra|]. destruct (Req_dec s2 (s1 + PI)) as [E|]; [|lra]. exfalso. destruct O1 as (_ & _ & Q1 & _). destruct O2 as (_ & _ & Q2 & _).
    rewrite E, neg_sin in Q2. lra. }
  set (ep := (a ^ 2 - b ^ 2) / b ^ 2).
  set (v := area_sum a b S C s2 - area_sum a b S C s1 - (a ^ 2 - b ^ 2) * C * S * (10 / 9009 * ep ^ 3 * (ep * C ^ 2) ^ 2) * (cos s2 - cos s1)).
  exists v, s1, s2, o1, o2, al2. split; [|do 8 (split; [assumption|])].
  - unfold area_canonical. cbv zeta. assert (QP := q_pos a b HB HA). assert (A2 : 0 < a ^ 2) by (apply pow_lt; lra).
    assert (E2 : 0 < flattening a b * (2 - flattening a b)) by (rewrite e2_value by assumption; apply Rdiv_lt_0_compat; assumption).
    rewrite (proj2 (rlt_f _ _)) by lra. rewrite (proj2 (req_f _ _)) by (apply Rgt_not_eq, sqrt_lt_R0; exact E2).
    fold be1 be2 al0. rewrite EA, EB. cbn [andthen]. rewrite authalic by assumption. rewrite second_value by lra. fold ep. f_equal.
    fold S C. pose proof O1 as (A1' & A2' & A3' & _). pose proof O2 as (D1' & D2' & D3' & _).
    rewrite (bessel S C s1 s2 o1 o2 be1 be2) by (try assumption; apply reduced_range).
    rewrite pow2_sqrt by lra. rewrite e2_value by assumption. unfold v, area_sum. fold ep. rewrite !C4p_value. field. lra.
  - pose proof (area_series a b S C s1 s2 HB HA PS N) as AS. fold ep in AS. unfold area_err. fold ep.
    assert (EP : 0 < ep) by (apply ep_pos; assumption). assert (B2 : 0 < b ^ 2) by (apply pow_lt; lra).
    assert (E6 : 0 < ep ^ 6) by (apply pow_lt; exact EP). assert (QE : a ^ 2 - b ^ 2 = b ^ 2 * ep) by (unfold ep; field; lra).
    set (k := 10 / 9009 * b ^ 2 * ep ^ 6). assert (KP : 0 < k) by (unfold k; apply Rmult_lt_0_compat; [lra|exact E6]).
    assert (VE : v - area_below a b S C s1 s2 = (area_sum a b S C s2 - area_sum a b S C s1 - area_below a b S C s1 s2) - k * (C ^ 4 * (C * S) * (cos s2 - cos s1))).
    { unfold v, k. rewrite QE. ring. }
    assert (X1 : Rabs (C ^ 4 * (C * S) * (cos s2 - cos s1)) <= 1).
    { assert (C1 : C ^ 2 <= 1) by (pose proof (pow2_ge_0 S); lra). assert (C4 : 0 <= C ^ 4 <= 1) by (replace (C ^ 4) with (C ^ 2 * C ^ 2) by ring; pose proof (pow2_ge_0 C); nra).
      assert (CS : 0 <= C * S <= 1 / 2) by (pose proof (pow2_ge_0 (C - S)); split; [apply Rmult_le_pos; lra|nra]).
      assert (D : Rabs (cos s2 - cos s1) <= 2) by (pose proof (COS_bound s1); pose proof (COS_bound s2); apply Rabs_le; lra).
      rewrite Rabs_mult, (Rabs_right (C ^ 4 * (C * S))) by (apply Rle_ge, Rmult_le_pos; lra). pose proof (Rabs_pos (cos s2 - cos s1)).
      assert (0 <= C ^ 4 * (C * S) <= 1 / 2) by (split; [apply Rmult_le_pos; lra|nra]). nra. }
    assert (X2 : Rabs (k * (C ^ 4 * (C * S) * (cos s2 - cos s1))) <= k).
    { rewrite Rabs_mult, (Rabs_right k) by lra. rewrite <- (Rmult_1_r k) at 2. apply Rmult_le_compat_l; lra. }
    assert (X3 : 128 / 3003 * b ^ 2 * ep ^ 7 * Rabs (s2 - s1) <= 128 / 3003 * b ^ 2 * ep ^ 7 * 4).
    { apply Rmult_le_compat_l; [|rewrite Rabs_right; lra]. pose proof (pow_lt ep 7 EP). apply Rmult_le_pos; lra. }
    replace (b ^ 2 * ep ^ 6 * (10 / 9009 + 512 / 3003 * ep)) with (128 / 3003 * b ^ 2 * ep ^ 7 * 4 + k) by (unfold k; field).
    split.
    + rewrite VE. unfold Rminus at 1. eapply Rle_trans; [apply Rabs_triang|]. rewrite Rabs_Ropp. lra.
    + fold ep. fold k. eapply Rle_trans; [|exact AS]. right. f_equal. lra.
Qed.

(* ---- an edge in the canonical configuration *)
Lemma sin_same_arc : forall s t, - (PI / 2) <= s <= PI / 2 -> - (PI / 2) <= t <= PI / 2 -> sin s = sin t -> s = t.
Proof. intros s t H1 H2 E. rewrite <- (asin_sin s H1), <- (asin_sin t H2), E. reflexivity. Qed.
Lemma zero_right : forall x y, 0 < x -> x * y = 0 -> y = 0.
Proof. intros x y P E. apply Rmult_eq_reg_l with x; [rewrite Rmult_0_r; exact E|lra]. Qed.
Lemma same_right : forall x y z, 0 < x -> x * y = x * z -> y = z.
Proof. intros x y z P E. apply Rmult_eq_reg_l with x; [exact E|lra]. Qed.
Lemma part_over : forall flat a b u w x al so, 0 < b -> b < a -> Rabs (third a b) <= 1 / 10 -> -90 < u < 0 -> Rabs w <= - u -> u + w < 0 ->
  1 / 1000000000 <= x <= 180 - 1 / 1000000000 -> solve_inverse flat a b u x w tol0 = Done (al, so, false) ->
  exists v dl A, part flat a b (u, w) x = Done v /\ geodesic_over a b 0 (rad u) (rad x + dl) (rad w) A /\
    Rabs dl <= 2 / 1000000000000 + 140 * Rabs (flattening a b) * Rabs (third a b) ^ 6 /\ Rabs (v - A) <= area_err a b.
Proof.
  intros flat a b u w x al so HB HA HT HU HW UW HX SV. pose proof PI_RGT_0 as P0. pose proof PI_4 as P4. pose proof PI2_3_2 as P3.
  assert (PA : 0 < a) by lra. unfold part. cbn [fst snd]. unfold inverse.
  assert (Z : (req u w && req w 0)%bool = false).
  { apply andb_false_iff. destruct (Req_dec u w) as [<-|N]; [right; apply req_f; lra|left; apply req_f; exact N]. }
  assert (AU : Rabs w <= Rabs u) by (rewrite (Rabs_left u); lra).
  rewrite Z, canonicalf_parts, (proj2 (rlt_f (Rabs u) (Rabs w))), (proj2 (rlt_f 0 u)) by lra.
  assert (OU : ordered_lats u w = (u, w)).
  { unfold ordered_lats. rewrite (proj2 (rlt_f (Rabs u) (Rabs w))), (proj2 (rlt_f 0 u)) by lra. reflexivity. }
  rewrite OU. cbn [fst snd]. replace (x - 0) with x by ring.
  assert (RX : reduce_degr x = x) by (apply reduce_degr_unique; [lra|exists 0%Z; cbn [IZR]; ring]).
  unfold folded_lon. rewrite RX, (proj2 (rlt_f x 0)), (proj2 (rlt_f 180 x)) by lra. cbn [orb]. rewrite SV. cbn [andthen].
  rewrite finish_undo. unfold undo. destruct (deg_congr al) as [_ AZ]. cbv zeta in AZ. set (az := pymod (al * 180 / PI + 180) 360 - 180) in *. cbn [andthen].
  change (az * PI / 180) with (rad az). change (u * PI / 180) with (rad u). change (w * PI / 180) with (rad w).
  destruct (congr_trig _ _ AZ) as [CAZ SAZ].
  destruct (canonical_reduced a b u w PA HB HU HW) as (L1 & L2 & CL). cbv zeta in L1, L2, CL.
  set (be1 := reduced (flattening a b) (rad u)) in *. set (be2 := reduced (flattening a b) (rad w)) in *.
  assert (RXR : 16 / 1000000000000 <= rad x <= PI - 16 / 1000000000000) by (unfold rad; split; nra).
  destruct (solve_found flat a b u x w tol0 al so PA HB HT ltac:(lra) ltac:(lra) ltac:(unfold tol0; lra) ltac:(right; unfold tol0; lra) CL SV) as (S & C & o1 & o2 & k & N & E & O1 & O2 & R1 & B & S0 & C0 & S1 & S2).
  replace (tol0 + 1 / 1000000000000) with (2 / 1000000000000) in B by (unfold tol0; field).
  set (s1 := s_sigma1 so) in *. set (s2 := s_sigma2 so) in *. fold be1 in O1. fold be2 in O2. pose proof O1 as (A1 & A2 & A3 & A4 & A5). pose proof O2 as (D1 & D2 & D3 & D4 & D5). pose proof CL as (PB1 & PB2 & SB1 & SB2).
  assert (SP : 0 < S).
  { destruct (Req_dec S 0) as [SZ|]; [|lra]. exfalso. rewrite SZ in A2, D2, B. rewrite Rmult_0_l in A2, D2. rewrite Rmult_0_r, Rmult_0_l, Rminus_0_r in B.
    assert (Z1 : sin o1 = 0) by exact (zero_right _ _ PB1 A2). assert (Z2 : sin o2 = 0) by (apply (zero_right (cos be2)); [lra|exact D2]).
    destruct (congr_trig (o2 - o1 + 2 * PI * IZR k) (o2 - o1)) as [_ Z3]; [exists k; reflexivity|]. rewrite sin_minus, Z1, Z2 in Z3.
    assert (0 < sin (o2 - o1 + 2 * PI * IZR k)) by (apply Rabs_le_between in B; apply sin_gt_0; lra). lra. }
  assert (SA : 0 < sin (rad az)) by (rewrite SAZ; apply Rmult_lt_reg_l with (cos be1); [exact PB1|]; rewrite Rmult_0_r, A4; exact SP).
  assert (NB : sin be1 + sin be2 < 0).
  { apply Rabs_le_between in SB2. destruct (Req_dec (sin be1 + sin be2) 0) as [ZB|]; [|lra]. exfalso.
    assert (EB : be2 = - be1). { apply sin_same_arc; [|pose proof (proj1 (proj2 L1)); lra|rewrite sin_neg; lra]. pose proof (proj1 (proj2 L2)). lra. }
    assert (RW : rad w = - rad u).
    { destruct L1 as (I1 & J1 & K1). destruct L2 as (I2 & J2 & K2). rewrite EB, sin_neg, cos_neg in K2.
      assert (KK : b * cos be1 * sin (rad w + rad u) = 0) by (rewrite sin_plus; transitivity (cos (rad u) * (b * sin (rad w) * cos be1) + cos (rad w) * (b * sin (rad u) * cos be1)); [ring|]; rewrite <- K1, <- K2; ring). assert (0 < b * cos be1) by (apply Rmult_lt_0_compat; assumption).
      assert (sin (rad w + rad u) = 0) by (eapply zero_right; eassumption). destruct (Rtotal_order (rad w + rad u) 0) as [LT|[EQ|GT]]; [|lra|].
      - assert (0 < sin (- (rad w + rad u))) by (apply sin_gt_0; lra). rewrite sin_neg in *. lra.
      - assert (0 < sin (rad w + rad u)) by (apply sin_gt_0; lra). lra. }
    unfold rad in RW. nra. }
  destruct (canonical_value flat a b (rad u) (rad w) (rad az) HB HA CL SA NB) as (v & t1 & t2 & q1 & q2 & al2 & VE & SP' & CP' & N' & T1 & T2 & T3 & Q1 & Q2 & VB & _).
  fold be1 be2 in SP', CP', N', Q1, Q2, VB.
  assert (SE : sin (azimuth0 flat (rad az) be1) = S).
  { destruct (azimuth0_spec flat (rad az) be1) as (X & _). rewrite X, SAZ, Rmult_comm. exact A4. }
  rewrite SE in *. assert (CE : cos (azimuth0 flat (rad az) be1) = C) by nra. rewrite CE in *.
  pose proof Q1 as (_ & _ & F3 & _ & F5). pose proof Q2 as (_ & _ & G3 & _).
  assert (E1 : t1 = s1).
  { apply same_direction; [|apply (same_right C); [exact C0|lra]|lra]. rewrite CAZ in F5. apply (same_right C); [exact C0|lra]. }
  assert (E2 : t2 = s2) by (apply sin_same_arc; [exact T2|exact S2|apply (same_right C); [exact C0|lra]]). subst t1 t2.
  set (il := RInt (lag a b S C) s1 s2). set (m := o2 - o1 - il + 2 * PI * IZR k).
  exists v, (m - rad x), (area_below a b S C s1 s2). split; [exact VE|]. split; [|split; [|exact VB]].
  - exists S, C, s1, s2, o1, o2, be1, be2, al, (s_alpha2 so). do 5 (split; [assumption|]). split; [lra|]. split; [|reflexivity]. fold il. exists k. unfold m. ring.
  - pose proof (lag_error a b S C s1 s2 PA HB N HT) as G. cbv zeta in G. fold il in G. set (n := third a b) in *. set (f := flattening a b) in *.
    set (ml := f * S * (I3 n (epsilon a b C) s2 - I3 n (epsilon a b C) s1)) in *.
    replace (m - rad x) with (o2 - o1 - ml + 2 * PI * IZR k - rad x + (ml - il)) by (unfold m; ring).
    eapply Rle_trans; [apply Rabs_triang|]. apply Rplus_le_compat; [exact B|]. eapply Rle_trans; [exact G|].
    assert (Z6 : 0 <= Rabs n ^ 6) by apply pow_le, Rabs_pos. assert (SL : Rabs S <= 1) by (apply Rabs_le; pose proof (pow2_ge_0 C); nra).
    pose proof (Rabs_pos f) as F0. pose proof (Rabs_pos S) as SS.
    assert (Q : 35 * Rabs f * Rabs S * Rabs n ^ 6 <= 35 * Rabs f * Rabs n ^ 6) by (apply Rmult_le_compat_r; [exact Z6|]; nra).
    assert (Q0 : 0 <= 35 * Rabs f * Rabs S * Rabs n ^ 6) by (apply Rmult_le_pos; [|exact Z6]; apply Rmult_le_pos; [|exact SS]; lra).
    assert (AB : Rabs (s2 - s1) <= 4) by (rewrite Rabs_right; lra). pose proof (Rabs_pos (s2 - s1)).
    apply Rle_trans with (35 * Rabs f * Rabs S * Rabs n ^ 6 * 4); [apply Rmult_le_compat_l; assumption|]. lra.
Qed.

(* ---- an edge *)
Lemma inverse_solved : forall flat a b x1 y1 x2 y2 tol az baz s, ~ (y1 = 0 /\ y2 = 0) -> inverse flat a b x1 y1 x2 y2 tol = Done (az, baz, s, false) ->
  exists al so, solve_inverse flat a b (fst (ordered_lats y1 y2)) (folded_lon (x2 - x1)) (snd (ordered_lats y1 y2)) tol = Done (al, so, false).
Proof.
  intros flat a b x1 y1 x2 y2 tol az baz s NZ H. pose proof (inverse_distance flat a b x1 y1 x2 y2 tol NZ) as D. rewrite H in D. cbn [distance_of] in D.
  destruct (solve_inverse _ _ _ _ _ _ _) as [[[al so] w]|]; [|discriminate]. injection D as _ <-. exists al, so. reflexivity.
Qed.
Lemma area_edge_over : forall flat a b x1 y1 x2 y2 az baz s, 0 < b -> b < a -> Rabs (third a b) <= 1 / 10 -> -90 < y1 < 90 -> -90 < y2 < 90 -> y1 + y2 <> 0 ->
  1 / 1000000000 <= Rabs (x2 - x1) <= 180 - 1 / 1000000000 -> inverse flat a b x1 y1 x2 y2 (1 / 1000000000000) = Done (az, baz, s, false) ->
  exists v dl A, area_edge flat a b x1 y1 x2 y2 = Done v /\ geodesic_over a b (rad x1) (rad y1) (rad x2 + dl) (rad y2) A /\
    Rabs dl <= 2 / 1000000000000 + 140 * Rabs (flattening a b) * Rabs (third a b) ^ 6 /\
    (y1 + y2 < 0 -> Rabs (v - A) <= area_err a b) /\ (0 < y1 + y2 -> Rabs (v + A) <= area_err a b).
Proof.
  intros flat a b x1 y1 x2 y2 az baz s HB HA HT Y1 Y2 YN HX H.
  assert (NZ : ~ (y1 = 0 /\ y2 = 0)) by (intros [-> ->]; apply YN; ring).
  destruct (inverse_solved _ _ _ _ _ _ _ _ _ _ _ NZ H) as (al & so & SV).
  assert (FX : folded_lon (x2 - x1) = Rabs (x2 - x1)).
  { unfold folded_lon. assert (HX' : Rabs (x2 - x1) <= 180 - 1 / 1000000000) by lra. apply Rabs_le_between in HX'.
    rewrite (reduce_degr_unique (x2 - x1) (x2 - x1)); [|lra|exists 0%Z; cbn [IZR]; ring]. rewrite (proj2 (rlt_f 180 (x2 - x1))) by lra. rewrite orb_false_r.
    destruct (rlt (x2 - x1) 0) eqn:L; rl L; [rewrite Rabs_left; lra|rewrite Rabs_right; lra]. }
  rewrite FX in SV. rewrite area_edge_part, FX.
  set (sg := if rlt x2 x1 then -1 else 1). set (xa := Rabs (x2 - x1)) in *.
  assert (SX : (sg = 1 /\ xa = x2 - x1) \/ (sg = -1 /\ xa = - (x2 - x1))).
  { unfold sg, xa. destruct (rlt x2 x1) eqn:L; rl L; [right; rewrite Rabs_left by lra|left; rewrite Rabs_right by lra]; split; lra. }
  set (q := ordered_lats y1 y2) in *. assert (QE : q = ordered_lats y1 y2) by reflexivity. destruct q as [u w]. cbn [fst snd] in SV.
  assert (UW : -90 < u < 0 /\ Rabs w <= - u /\ u + w < 0 /\
    ((y1 + y2 < 0 /\ ((u = y1 /\ w = y2) \/ (u = y2 /\ w = y1))) \/ (0 < y1 + y2 /\ ((u = - y1 /\ w = - y2) \/ (u = - y2 /\ w = - y1))))).
  { unfold ordered_lats in QE. assert (AB : forall t, (0 <= t /\ Rabs t = t) \/ (t < 0 /\ Rabs t = - t)) by (intros t; destruct (Rle_lt_dec 0 t); [left; rewrite Rabs_right by lra|right; rewrite Rabs_left by lra]; auto).
    destruct (rlt (Rabs y1) (Rabs y2)) eqn:L; rl L; [destruct (rlt 0 y2) eqn:P|destruct (rlt 0 y1) eqn:P]; rl P; injection QE as -> ->; rewrite ?Rabs_Ropp;
      destruct (AB y1) as [[? E1]|[? E1]], (AB y2) as [[? E2]|[? E2]]; rewrite ?E1, ?E2 in *; lra. }
  destruct UW as (U & W & UWN & CASES).
  destruct (part_over flat a b u w xa al so HB HA HT U W UWN HX SV) as (v & dl & A & PV & G & D & VB).
  rewrite PV. cbn [scaled andthen]. unfold scaled. cbn [andthen].
  assert (G2 : exists tau, geodesic_over a b 0 (rad y1) (rad xa + dl) (rad y2) (tau * A) /\ ((y1 + y2 < 0 /\ tau = 1) \/ (0 < y1 + y2 /\ tau = -1))).
  { destruct CASES as [[YS [[-> ->]|[-> ->]]]|[YS [[-> ->]|[-> ->]]]].
    - exists 1. rewrite Rmult_1_l. split; [exact G|left; auto].
    - exists 1. rewrite Rmult_1_l. split; [apply over_swap; assumption|left; auto].
    - exists (-1). split; [|right; auto]. apply over_north in G; [|assumption|assumption]. rewrite !rad_neg, !Ropp_involutive in G. replace (-1 * A) with (- A) by ring. exact G.
    - exists (-1). split; [|right; auto]. apply over_swap in G; [|assumption|assumption]. apply over_north in G; [|assumption|assumption].
      rewrite !rad_neg, !Ropp_involutive in G. replace (-1 * A) with (- A) by ring. exact G. }
  destruct G2 as (tau & G2 & TAU). exists (sg * v), (sg * dl), (sg * tau * A).
  assert (SG : sg = 1 \/ sg = -1) by tauto.
  assert (G3 : geodesic_over a b (rad x1) (rad y1) (rad x2 + sg * dl) (rad y2) (sg * tau * A)).
  { assert (G4 : geodesic_over a b 0 (rad y1) (sg * (rad xa + dl)) (rad y2) (sg * (tau * A))).
    { destruct SG as [-> | ->]; [rewrite !Rmult_1_l; exact G2|]. apply over_east in G2; [|assumption|assumption]. rewrite Ropp_0 in G2.
      replace (-1 * (rad xa + dl)) with (- (rad xa + dl)) by ring. replace (-1 * (tau * A)) with (- (tau * A)) by ring. exact G2. }
    apply (over_turn _ _ (rad x1)) in G4. rewrite Rplus_0_l in G4. replace (sg * tau * A) with (sg * (tau * A)) by ring.
    replace (rad x2 + sg * dl) with (sg * (rad xa + dl) + rad x1); [exact G4|]. destruct SX as [[-> ->]|[-> ->]]; unfold rad; field. }
  split; [reflexivity|]. split; [exact G3|].
  assert (AS : forall t, Rabs (sg * t) = Rabs t) by (intros t; destruct SG as [-> | ->]; [rewrite Rmult_1_l|replace (-1 * t) with (- t) by ring; rewrite Rabs_Ropp]; reflexivity).
  split; [rewrite AS; exact D|]. split; intros YS; (destruct TAU as [[YT ->]|[YT ->]]; [|try lra]; try lra).
  - replace (sg * v - sg * 1 * A) with (sg * (v - A)) by ring. rewrite AS. exact VB.
  - replace (sg * v + sg * -1 * A) with (sg * (v - A)) by ring. rewrite AS. exact VB.
Qed.
