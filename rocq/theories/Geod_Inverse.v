(** The inverse problem: what is returned without a warning is a geodesic. *)
From Coq Require Import List ZArith QArith Qreals Reals Lra Lia Bool.
From Coquelicot Require Import Coquelicot.
From Verif Require Import GeomR_Model GeomR_Proofs Sphere_Model Sphere_Spec Sphere_Proofs Geod_Model Geod_Spec Geod_Forward Geod_Poly
  Geod_Series Geod_Bounds Geod_Revert Geod_Accurate Geod_Symm Geod_Unwrap.
Import ListNotations.
Open Scope R_scope.

(* ---- the triangle at the end *)
Lemma acos_01 : forall x, 0 <= x <= 1 -> cos (acos x) = x /\ sin (acos x) = sqrt (1 - x * x) /\ 0 <= acos x <= PI.
Proof.
  intros x H. split; [apply cos_acos; lra|]. split; [|apply acos_bound].
  rewrite sin_acos by lra. unfold Rsqr. reflexivity.
Qed.
Lemma NEB_spec : forall flat al1 b1 b2, 0 < cos b1 -> cos b1 <= cos b2 -> let al0 := azimuth0 flat al1 b1 in 0 < cos al0 ->
  exists al2 s2 o2, solve_NEB flat al0 al1 b1 b2 = Done (al2, s2, o2) /\ 0 <= cos s2 /\ - PI < s2 <= PI /\
    cos al0 * sin s2 = sin b2 /\ o2 = atan2 flat (sin al0 * sin s2) (cos s2) /\
    cos b2 * cos o2 = cos s2 /\ cos b2 * sin o2 = sin al0 * sin s2 /\ cos b2 * sin al2 = Rabs (sin al0) /\ cos b2 * cos al2 = cos al0 * cos s2.
Proof.
  intros flat al1 b1 b2 P1 P2 al0 PC. destruct (azimuth0_spec flat al1 b1) as (A & B & N & E & _). fold al0 in A, B, N, E.
  rewrite !sq2 in N. set (C := cos al0) in *. set (S := sin al0) in *. set (c2 := cos b2) in *.
  unfold solve_NEB. fold S. fold c2.
  set (q := cos al1 ^ 2 * cos b1 ^ 2 + (c2 ^ 2 - cos b1 ^ 2)).
  assert (QE : q = c2 * c2 - S * S).
  { unfold q. rewrite !sq2. rewrite A. pose proof (sc al1). replace (sin al1 * cos b1 * (sin al1 * cos b1)) with (sin al1 * sin al1 * (cos b1 * cos b1)) by ring. rewrite H. ring. }
  assert (SB : S * S <= cos b1 * cos b1).
  { rewrite A. pose proof (sc al1) as X. pose proof (Rle_0_sqr (cos al1)) as Y. unfold Rsqr in Y.
    replace (sin al1 * cos b1 * (sin al1 * cos b1)) with (sin al1 * sin al1 * (cos b1 * cos b1)) by ring. rewrite X. nra. }
  assert (Q0 : 0 <= q) by (rewrite QE; nra).
  pose proof (sqrt_pos q) as W0. pose proof (sqrt_sqrt q Q0) as WW. set (w := sqrt q) in *.
  assert (WC : 0 <= w / c2 <= 1).
  { split; [apply Rmult_le_pos; [exact W0|apply Rlt_le, Rinv_0_lt_compat; lra]|].
    apply Rmult_le_reg_r with c2; [lra|]. replace (w / c2 * c2) with w by (field; lra). rewrite Rmult_1_l.
    apply Rnot_lt_le. intros X. nra. }
  rewrite (proj2 (rle_t 0 q) Q0), (proj2 (rle_t (-1) (w / c2))), (proj2 (rle_t (w / c2) 1)) by lra. cbn [andb andthen].
  destruct (acos_01 _ WC) as (AC & AS & AB). set (al2 := acos (w / c2)) in *.
  assert (K1 : c2 * cos al2 = w) by (rewrite AC; field; lra).
  assert (K2 : c2 * sin al2 = Rabs S).
  { assert (Z : 0 <= sin al2) by (apply sin_ge_0; lra).
    rewrite <- (Rabs_right (c2 * sin al2)) by (apply Rle_ge, Rmult_le_pos; lra).
    apply Rsqr_eq_abs_0. unfold Rsqr. pose proof (sc al2) as X.
    replace (c2 * sin al2 * (c2 * sin al2)) with (c2 * c2 * (sin al2 * sin al2)) by ring. rewrite X.
    replace (c2 * c2 * (1 - cos al2 * cos al2)) with (c2 * c2 - c2 * cos al2 * (c2 * cos al2)) by ring. rewrite K1, WW, QE. ring. }
  replace (cos al2 * c2) with w by (rewrite <- K1; ring).
  assert (CC : w * w + sin b2 * sin b2 = C * C).
  { rewrite WW, QE. pose proof (sc b2) as X. fold c2 in X. rewrite X. lra. }
  destruct (polarr flat (sin b2) w C PC CC) as (L1 & L2 & L3). set (s2 := atan2 flat (sin b2) w) in *.
  destruct (polarr flat (S * sin s2) (cos s2) c2) as (M1 & M2 & M3); [lra| |].
  { assert (X : C * C * (sin s2 * sin s2) = sin b2 * sin b2) by (rewrite <- L2; ring). pose proof (sc b2) as Y. fold c2 in Y. pose proof (sc s2) as V.
    replace (S * sin s2 * (S * sin s2)) with (S * S * (sin s2 * sin s2)) by ring. replace (S * S) with (1 - C * C) by lra. lra. }
  exists al2, s2, (atan2 flat (S * sin s2) (cos s2)). split; [reflexivity|]. split.
  { apply Rmult_le_reg_l with C; [exact PC|]. rewrite Rmult_0_r, L1. exact W0. }
  split; [exact L3|]. split; [exact L2|]. split; [reflexivity|]. split; [exact M1|]. split; [exact M2|]. split; [exact K2|].
  rewrite K1. symmetry. exact L1.
Qed.

(* ---- arcs *)
Lemma half_turn : forall s, - PI < s <= PI -> 0 <= cos s -> - (PI / 2) <= s <= PI / 2.
Proof.
  intros s H C. pose proof PI_RGT_0. split; apply Rnot_lt_le; intros X.
  - assert (cos (- s) < 0) by (apply cos_lt_0; lra). rewrite cos_neg in *. lra.
  - assert (cos s < 0) by (apply cos_lt_0; lra). lra.
Qed.
Lemma arc_range : forall s1 s2, - PI < s1 < 0 -> - PI < s2 <= PI -> 0 <= cos s2 -> Rabs (sin s2) <= - sin s1 -> s1 <= s2 <= s1 + PI.
Proof.
  intros s1 s2 H1 H2 C B. pose proof (half_turn s2 H2 C) as H. apply Rabs_le_between in B. pose proof PI_RGT_0.
  destruct (Rle_lt_dec (- (PI / 2)) s1) as [L|L].
  - split; apply Rnot_lt_le; intros X.
    + pose proof (sin_increasing_1 s2 s1). lra.
    + pose proof (sin_increasing_1 (- s1) s2) as Y. rewrite sin_neg in Y. lra.
  - split; [lra|]. apply Rnot_lt_le; intros X. pose proof (sin_increasing_1 (s1 + PI) s2) as Y. rewrite neg_sin in Y. lra.
Qed.
Lemma sin_down : forall flat y x, y < 0 -> - PI < atan2 flat y x < 0.
Proof.
  intros flat y x Y. set (r := sqrt (x * x + y * y)). assert (0 < x * x + y * y) by nra. assert (R0 : 0 < r) by (apply sqrt_lt_R0; lra).
  destruct (polarr flat y x r R0) as (_ & B & D); [unfold r; rewrite sqrt_sqrt; lra|]. set (t := atan2 flat y x) in *.
  split; [lra|]. apply Rnot_le_lt. intros T. assert (0 <= sin t) by (apply sin_ge_0; lra). nra.
Qed.

(* ---- longitudes *)
Lemma I3_rate : forall n e s1 s2, Rabs n <= 1 / 10 -> Rabs e <= Rabs n -> s1 <= s2 -> Rabs (I3 n e s2 - I3 n e s1) <= 5 / 4 * (s2 - s1).
Proof.
  intros n e s1 s2 HN HE L.
  assert (B : forall s, Rabs (A3 n e * (1 + dsines 0 (C3 n e) s)) <= 5 / 4).
  { intros s. destruct (ratio n e HE) as (u & EU & HU). set (c := cos (2 * s)). set (env := [n; u; c]).
    assert (HK : Rabs c <= 1) by (apply Rabs_le; pose proof (COS_bound (2 * s)); unfold c; lra).
    assert (EE : xev (Mul (X 0) (X 1)) env = e) by (unfold env; cbn [xev nth]; lra).
    assert (EC : xev (X 2) env = c) by reflexivity. assert (EN : xev (X 0) env = n) by reflexivity.
    pose proof (P3x_val (X 0) (Mul (X 0) (X 1)) (X 2) env s EC) as V3. rewrite EE, EN in V3.
    pose proof (bounded 3 _ _ _ env P3_bound eq_refl) as B. cbn [xev] in B. rewrite V3 in B. unfold one in B. cbn [xev] in B. rewrite q2r in B.
    set (P3 := A3 n e * (1 + dsines 0 (C3 n e) s)) in *.
    assert (W : Rabs (P3 - 1 / 1) <= 1 / 4). { apply B. unfold env. f2. }
    apply Rabs_le_between in W. apply Rabs_le. lra. }
  destruct (MVT_gen (I3 n e) s1 s2 (fun s => A3 n e * (1 + dsines 0 (C3 n e) s))) as (c & _ & E).
  - intros x _. apply I3_derive.
  - intros x _. apply continuity_pt_filterlim, (ex_derive_continuous (K := R_AbsRing) (V := R_NormedModule)). eexists. apply I3_derive.
  - rewrite E, Rabs_mult, (Rabs_right (s2 - s1)) by lra. apply Rmult_le_compat_r; [lra|apply B].
Qed.
Lemma flat_bound : forall a b, 0 < a -> 0 < b -> Rabs (third a b) <= 1 / 10 -> Rabs (flattening a b) <= 2223 / 10000.
Proof.
  intros a b PA PB H. unfold third, flattening in *. apply Rabs_le_between in H.
  assert (E : (a - b) / (a + b) * (a + b) = a - b) by (field; lra). set (n := (a - b) / (a + b)) in *.
  assert (F : (a - b) / a = 2 * n / (1 + n)) by (unfold n; field; lra). rewrite F.
  assert (Q : 0 < / (1 + n) <= 10 / 9).
  { split; [apply Rinv_0_lt_compat; lra|]. replace (10 / 9) with (/ (9 / 10)) by field. apply Rinv_le_contravar; lra. }
  apply Rabs_le. unfold Rdiv. set (v := / (1 + n)) in *. assert (VN : v * (1 + n) = 1) by (unfold v; field; lra). nra.
Qed.
(** Going west does not increase the longitude. *)
Lemma westward : forall flat a b S C s1 s2, 0 < a -> 0 < b -> Rabs (third a b) <= 1 / 10 -> S < 0 -> S ^ 2 + C ^ 2 = 1 ->
  - PI < s1 < 0 -> - (PI / 2) <= s2 <= PI / 2 -> s1 <= s2 ->
  atan2 flat (S * sin s2) (cos s2) - atan2 flat (S * sin s1) (cos s1)
    - flattening a b * S * (I3 (third a b) (epsilon a b C) s2 - I3 (third a b) (epsilon a b C) s1) <= 0.
Proof.
  intros flat a b S C s1 s2 PA PB HT HS N H1 H2 L. pose proof PI_RGT_0.
  assert (HC : C ^ 2 <= 1) by (eapply one_bound; eassumption). assert (S1 : - S <= 1) by (pose proof (pow2_ge_0 C); nra).
  assert (AE : forall s, - PI < s < PI -> atan2 flat (S * sin s) (cos s) = - unwrap (- S) s).
  { intros s Hs. destruct (unwrap_circle (- S) s) as (R0 & R1 & R2); [lra|]. set (r := sqrt _) in *.
    rewrite <- R1. replace (S * sin s) with (r * sin (- unwrap (- S) s)) by (rewrite sin_neg; lra). rewrite <- (cos_neg (unwrap (- S) s)).
    apply atan2_unique; [exact R0|]. destruct (unwrap_at (- S)) as (U0 & U1 & U2).
    pose proof (unwrap_rate (- S) (- PI) s ltac:(lra) ltac:(lra)). pose proof (unwrap_rate (- S) s PI ltac:(lra) ltac:(lra)).
    assert (0 < - S * (s - - PI)) by (apply Rmult_lt_0_compat; lra). assert (0 < - S * (PI - s)) by (apply Rmult_lt_0_compat; lra). lra. }
  rewrite !AE by lra. pose proof (unwrap_rate (- S) s1 s2 ltac:(lra) L) as U.
  pose proof (flat_bound a b PA PB HT) as F. destruct (epsilon_spec a b C PA PB HC) as (_ & E2 & _).
  pose proof (I3_rate (third a b) (epsilon a b C) s1 s2 HT E2 L) as I. set (f := flattening a b) in *. set (dI := I3 _ _ s2 - I3 _ _ s1) in *.
  assert (T : Rabs (f * S * dI) <= 2223 / 10000 * (- S) * (5 / 4 * (s2 - s1))).
  { rewrite !Rabs_mult, (Rabs_left S) by exact HS. pose proof (Rabs_pos f). pose proof (Rabs_pos dI).
    apply Rmult_le_compat; [apply Rmult_le_pos; lra|assumption|apply Rmult_le_compat_r; lra|exact I]. }
  apply Rabs_le_between in T. assert (0 <= - S * (s2 - s1)) by (apply Rmult_le_pos; lra). lra.
Qed.

(* ---- one pass *)
Definition found (S a b be1 be2 lam tol al1 : R) (s : solved) : Prop :=
  exists C o1 o2 k, S ^ 2 + C ^ 2 = 1 /\ C ^ 2 = cos (s_alpha0 s) ^ 2 /\ on_circle S C (s_sigma1 s) o1 be1 al1 /\
    on_circle S C (s_sigma2 s) o2 be2 (s_alpha2 s) /\ 0 <= s_sigma2 s - s_sigma1 s <= PI /\
    Rabs (o2 - o1 - flattening a b * S * (I3 (third a b) (epsilon a b C) (s_sigma2 s) - I3 (third a b) (epsilon a b C) (s_sigma1 s))
          + 2 * PI * IZR k - lam) <= tol /\
    0 <= S /\ 0 < C /\ - PI < s_sigma1 s < 0 /\ - (PI / 2) <= s_sigma2 s <= PI / 2.
Definition canonical_latitudes (be1 be2 : R) : Prop := 0 < cos be1 /\ cos be1 <= cos be2 /\ sin be1 < 0 /\ Rabs (sin be2) <= - sin be1.

Lemma triangles : forall flat be1 be2 al1, canonical_latitudes be1 be2 -> let al0 := azimuth0 flat al1 be1 in
  0 < cos al0 /\ sin al0 ^ 2 + cos al0 ^ 2 = 1 /\ sin al0 = sin al1 * cos be1 /\
  exists s1 al2 s2, let o1 := atan2 flat (sin al0 * sin s1) (cos s1) in let o2 := atan2 flat (sin al0 * sin s2) (cos s2) in
    solve_NEA flat al0 al1 be1 = (s1, o1) /\ solve_NEB flat al0 al1 be1 be2 = Done (al2, s2, o2) /\
    - PI < s1 < 0 /\ - (PI / 2) <= s2 <= PI / 2 /\ s1 <= s2 <= s1 + PI /\
    on_circle (sin al0) (cos al0) s1 o1 be1 al1 /\
    (0 <= sin al0 -> on_circle (sin al0) (cos al0) s2 o2 be2 al2) /\
    cos be2 * cos o2 = cos s2 /\ cos be2 * sin o2 = sin al0 * sin s2 /\ cos al0 * sin s2 = sin be2.
Proof.
  intros flat be1 be2 al1 (P1 & P2 & P3 & P4) al0. destruct (azimuth0_spec flat al1 be1) as (A & B & N & E & _). fold al0 in A, B, N, E.
  assert (PC : 0 < cos al0) by (apply Rnot_le_lt; intros Z; assert (cos al0 = 0) by lra; nra).
  split; [exact PC|]. split; [exact N|]. split; [exact A|].
  destruct (NEB_spec flat al1 be1 be2 P1 P2) as (al2 & s2 & o2 & EB & B1 & B2 & B3 & -> & B5 & B6 & B7 & B8); [exact PC|]. fold al0 in EB, B3, B5, B6, B7, B8.
  set (s1 := atan2 flat (sin be1) (cos al1 * cos be1)). exists s1, al2, s2. cbv zeta.
  set (o1 := atan2 flat (sin al0 * sin s1) (cos s1)). assert (EA : solve_NEA flat al0 al1 be1 = (s1, o1)) by reflexivity.
  destruct (NEA_spec flat al1 be1 P1 s1 o1 EA) as [O1 _]. fold al0 in O1.
  assert (S1 : - PI < s1 < 0) by (apply sin_down; exact P3). pose proof (half_turn s2 B2 B1) as H2.
  assert (AR : s1 <= s2 <= s1 + PI).
  { apply arc_range; try assumption. destruct O1 as (_ & _ & Q & _). apply Rmult_le_reg_l with (cos al0); [exact PC|].
    replace (cos al0 * - sin s1) with (- sin be1) by lra. rewrite <- (Rabs_right (cos al0)) at 1 by lra. rewrite <- Rabs_mult, B3. exact P4. }
  do 6 (split; [assumption|]). split; [|repeat split; assumption].
  intros S0. rewrite Rabs_right in B7 by lra. unfold on_circle. repeat split; lra.
Qed.
Lemma step_found : forall flat a b lam be1 be2 tol al1 now d al1', 0 < a -> 0 < b -> Rabs (third a b) <= 1 / 10 ->
  canonical_latitudes be1 be2 -> tol < lam ->
  newton_step flat a b (flattening a b) lam be1 be2 tol al1 = Done (now, d, al1') -> Rabs d <= tol -> al1' = al1 /\ exists S, found S a b be1 be2 lam tol al1 now.
Proof.
  intros flat a b lam be1 be2 tol al1 now d al1' PA PB HT CL TL H D.
  destruct (triangles flat be1 be2 al1 CL) as (PC & N & SE & s1 & al2 & s2 & EA & EB & H1 & H2 & H3 & O1 & O2 & _). cbv zeta in *.
  unfold newton_step in H. set (al0 := azimuth0 flat al1 be1) in *. rewrite EA, EB in H. cbn [andthen] in H.
  rewrite third_model in H by assumption. fold (epsilon a b (cos al0)) in H. set (e := epsilon a b (cos al0)) in *.
  set (o1 := atan2 flat (sin al0 * sin s1) (cos s1)) in *. set (o2 := atan2 flat (sin al0 * sin s2) (cos s2)) in *.
  match type of H with (if rlt tol (Rabs ?q) then _ else _) = _ => set (dl := q) in H end.
  destruct (rlt tol (Rabs dl)) eqn:T.
  { exfalso. apply rlt_t in T. destruct (req _ _); [discriminate|]. destruct (req _ _); [discriminate|]. injection H as _ <- _. lra. }
  injection H as <- <- <-. split; [reflexivity|].
  assert (DE : dl = o2 - o1 - flattening a b * sin al0 * (I3 (third a b) e s2 - I3 (third a b) e s1) - lam) by (unfold dl; ring).
  assert (S0 : 0 <= sin al0).
  { apply Rnot_lt_le. intros SN. pose proof (westward flat a b (sin al0) (cos al0) s1 s2 PA PB HT SN N H1 H2 ltac:(lra)) as W.
    fold e in W. fold o1 o2 in W. apply Rabs_le_between in D. lra. }
  exists (sin al0). exists (cos al0), o1, o2, 0%Z. cbn [s_alpha0 s_sigma1 s_sigma2 s_alpha2]. fold e.
  split; [exact N|]. split; [reflexivity|]. split; [exact O1|]. split; [exact (O2 S0)|]. split; [lra|].
  split; [|split; [exact S0|]; split; [exact PC|]; split; assumption]. eapply Rle_trans; [|exact D]. right. f_equal. rewrite DE. cbn [IZR]. ring.
Qed.
Lemma newton_found : forall flat a b lam be1 be2 tol, 0 < a -> 0 < b -> Rabs (third a b) <= 1 / 10 ->
  canonical_latitudes be1 be2 -> tol < lam -> forall n al1 d last al s,
  (forall s, last = Some s -> Rabs d <= tol -> exists S, found S a b be1 be2 lam tol al1 s) ->
  newton flat a b (flattening a b) lam be1 be2 tol n al1 d last = Done (al, s, false) -> exists S, found S a b be1 be2 lam tol al s.
Proof.
  intros flat a b lam be1 be2 tol PA PB HT CL TL. induction n as [|n IH]; intros al1 d last al s HL H; cbn [newton] in H.
  - destruct last; discriminate.
  - destruct (rlt tol (Rabs d)) eqn:T.
    + destruct (newton_step flat a b (flattening a b) lam be1 be2 tol al1) as [[[now d'] al1']|] eqn:E; [|discriminate]. cbn [andthen] in H.
      apply IH in H; [exact H|]. intros s' S' D'. injection S' as <-.
      destruct (step_found _ _ _ _ _ _ _ _ _ _ _ PA PB HT CL TL E D') as [-> F]. exact F.
    + apply rlt_f in T. destruct last as [s'|]; [|discriminate]. injection H as <- <-. apply HL; [reflexivity|exact T].
Qed.

(* ---- along the meridians *)
Lemma sin_same : forall flat al0 al0' al1 b1 b2, sin al0 = sin al0' ->
  solve_NEA flat al0 al1 b1 = solve_NEA flat al0' al1 b1 /\ solve_NEB flat al0 al1 b1 b2 = solve_NEB flat al0' al1 b1 b2.
Proof. intros flat al0 al0' al1 b1 b2 H. unfold solve_NEA, solve_NEB. rewrite H. split; reflexivity. Qed.
Lemma meridian : forall flat a b be1 be2 al1, 0 < cos be2 -> canonical_latitudes be1 be2 -> sin al1 = 0 -> cos al1 = 1 \/ cos al1 = -1 ->
  forall lam k, (if Rlt_dec 0 (cos al1) then 0 else - PI) + 2 * PI * IZR k = lam ->
  exists s1 al2 s2 o1 o2, solve_NEA flat (azimuth0 flat al1 be1) al1 be1 = (s1, o1) /\
    solve_NEB flat (azimuth0 flat al1 be1) al1 be1 be2 = Done (al2, s2, o2) /\
    forall al0 tol, cos al0 ^ 2 = 1 -> 0 <= tol -> found 0 a b be1 be2 lam tol al1 (mkSolved al0 s1 0 s2).
Proof.
  intros flat a b be1 be2 al1 P2 CL SZ CZ lam k LK.
  destruct (triangles flat be1 be2 al1 CL) as (PC & N & SE & s1 & al2 & s2 & EA & EB & H1 & H2 & H3 & O1 & _ & Q1 & Q2 & Q3). cbv zeta in *.
  set (al0 := azimuth0 flat al1 be1) in *. exists s1, al2, s2. do 2 eexists. split; [exact EA|]. split; [exact EB|].
  rewrite SZ, Rmult_0_l in SE. rewrite SE in *. assert (C1 : cos al0 = 1) by nra. rewrite C1 in *. destruct O1 as (A & B & D & E & F).
  assert (CS : cos s2 = cos be2).
  { assert (0 <= cos s2) by (apply cos_ge_0; lra). pose proof (sc s2). pose proof (sc be2). nra. }
  intros al0' tol CA TT. exists 1, (if Rlt_dec 0 (cos al1) then 0 else PI), 0, k. cbn [s_alpha0 s_sigma1 s_sigma2 s_alpha2].
  split; [lra|]. split; [lra|]. split; [|split; [|split; [lra|split; [|split; [lra|]; split; [lra|]; split; assumption]]]].
  - unfold on_circle. rewrite SZ. destruct (Rlt_dec 0 (cos al1)) as [L|L].
    + rewrite sin_0, cos_0. destruct CZ as [CZ|CZ]; [|lra]. rewrite CZ in *. repeat split; lra.
    + rewrite sin_PI, cos_PI. destruct CZ as [CZ|CZ]; [lra|]. rewrite CZ in *. repeat split; lra.
  - unfold on_circle. rewrite sin_0, cos_0. repeat split; lra.
  - rewrite <- LK. match goal with |- Rabs ?v <= _ => replace v with 0 end; [rewrite Rabs_R0; exact TT|].
    destruct (Rlt_dec 0 (cos al1)); ring.
Qed.
Lemma found_less : forall S a b be1 be2 lam lam' tol tol' al s, found S a b be1 be2 lam tol al s -> tol + Rabs (lam' - lam) <= tol' -> found S a b be1 be2 lam' tol' al s.
Proof.
  intros S a b be1 be2 lam lam' tol tol' al s (C & o1 & o2 & k & N & E & O1 & O2 & R1 & B & W) T. exists C, o1, o2, k.
  do 5 (split; [assumption|]). split; [|exact W]. apply Rabs_le_between in B. apply Rabs_le_between in T || idtac.
  assert (T1 : Rabs (lam' - lam) <= tol' - tol) by lra. apply Rabs_le_between in T1. apply Rabs_le. lra.
Qed.
Lemma solve_meridian : forall flat a b y1 x2 y2 tol, x2 = 0 \/ Rabs (rad x2 - PI) < 1 / 1000000000000 -> 0 <= x2 <= 180 -> y1 + y2 <= 0 ->
  let be1 := reduced (flattening a b) (rad y1) in let be2 := reduced (flattening a b) (rad y2) in canonical_latitudes be1 be2 ->
  exists al s, solve_inverse flat a b y1 x2 y2 tol = Done (al, s, false) /\
    exists lam, found 0 a b be1 be2 lam 0 al s /\ (x2 = 0 -> lam = 0) /\ (x2 <> 0 -> lam = PI).
Proof.
  intros flat a b y1 x2 y2 tol HX R2 YY be1 be2 CL. pose proof PI_RGT_0. assert (P2 : 0 < cos be2) by (destruct CL; lra).
  unfold solve_inverse. change (y1 * PI / 180) with (rad y1). change (y2 * PI / 180) with (rad y2). fold be1 be2.
  destruct (req 0 x2) eqn:E0.
  - apply req_t in E0. subst x2.
    destruct (meridian flat a b be1 be2 0 P2 CL sin_0 (or_introl cos_0) 0 0) as (s1 & al2 & s2 & o1 & o2 & EA & EB & F).
    { rewrite cos_0. destruct (Rlt_dec 0 1); lra. }
    rewrite EA, EB. cbn [andthen]. do 2 eexists. split; [reflexivity|]. exists 0. split; [|split; [reflexivity|intros X; congruence]].
    apply F; [|lra]. destruct (azimuth0_spec flat 0 be1) as (A & _ & N & _). rewrite A, sin_0 in N. lra.
  - apply req_f in E0. destruct HX as [HX|HX]; [congruence|].
    replace ((x2 - 0) * PI / 180) with (rad x2) by (unfold rad; field).
    assert (RX : 0 < rad x2 <= PI) by (unfold rad; nra).
    rewrite (pymod_unique (rad x2) (2 * PI) (rad x2) 0) by (cbn [IZR]; lra). rewrite (proj2 (rlt_t _ _) HX), (proj2 (rlt_f 0 (y1 + y2)) YY).
    destruct (meridian flat a b be1 be2 PI P2 CL sin_PI (or_intror cos_PI) PI 1) as (s1 & al2 & s2 & o1 & o2 & EA & EB & F).
    { rewrite cos_PI. destruct (Rlt_dec 0 (-1)); lra. }
    destruct (sin_same flat PI (azimuth0 flat PI be1) PI be1 be2) as [SA SB].
    { destruct (azimuth0_spec flat PI be1) as (A & _). rewrite A, sin_PI. ring. }
    rewrite SA, SB, EA, EB. cbn [andthen]. do 2 eexists. split; [reflexivity|]. exists PI. split; [|split; [intros X; congruence|reflexivity]].
    apply F; [rewrite cos_PI; lra|lra].
Qed.
Lemma solve_found : forall flat a b y1 x2 y2 tol al s, 0 < a -> 0 < b -> Rabs (third a b) <= 1 / 10 -> 0 <= x2 <= 180 -> y1 + y2 <= 0 ->
  0 <= tol -> x2 = 0 \/ tol < rad x2 ->
  let be1 := reduced (flattening a b) (rad y1) in let be2 := reduced (flattening a b) (rad y2) in canonical_latitudes be1 be2 ->
  solve_inverse flat a b y1 x2 y2 tol = Done (al, s, false) -> exists S, found S a b be1 be2 (rad x2) (tol + 1 / 1000000000000) al s.
Proof.
  intros flat a b y1 x2 y2 tol al s PA PB HT R2 YY T0 TX be1 be2 CL H. pose proof PI_RGT_0.
  assert (M : x2 = 0 \/ Rabs (rad x2 - PI) < 1 / 1000000000000 -> exists S, found S a b be1 be2 (rad x2) (tol + 1 / 1000000000000) al s).
  { intros M. destruct (solve_meridian flat a b y1 x2 y2 tol M R2 YY CL) as (al' & s' & E & lam & F & L1 & L2). rewrite E in H. injection H as -> ->.
    exists 0. eapply found_less; [exact F|]. destruct (Req_dec x2 0) as [Z|Z].
    - rewrite (L1 Z), Z. unfold rad. replace (0 * PI / 180 - 0) with 0 by field. rewrite Rabs_R0. lra.
    - rewrite (L2 Z). destruct M; [contradiction|]. lra. }
  destruct (req 0 x2) eqn:E0; [apply req_t in E0; apply M; left; auto|]. apply req_f in E0.
  destruct (Rlt_dec (Rabs (rad x2 - PI)) (1 / 1000000000000)) as [L|L]; [apply M; right; exact L|]. clear M.
  assert (RX : 0 < rad x2 <= PI) by (unfold rad; nra).
  unfold solve_inverse in H. change (y1 * PI / 180) with (rad y1) in H. change (y2 * PI / 180) with (rad y2) in H. fold be1 be2 in H.
  rewrite (proj2 (req_f 0 x2) E0) in H. replace ((x2 - 0) * PI / 180) with (rad x2) in H by (unfold rad; field).
  rewrite (pymod_unique (rad x2) (2 * PI) (rad x2) 0) in H by (cbn [IZR]; lra).
  rewrite (proj2 (rlt_f _ _) (Rnot_lt_le _ _ L)) in H.
  match type of H with andthen ?g _ = _ => destruct g as [al1|]; [|discriminate] end. cbn [andthen] in H.
  destruct TX as [TX|TX]; [congruence|].
  destruct (newton_found flat a b (rad x2) be1 be2 tol PA PB HT CL TX 100%nat al1 (tol + 1) None al s) as [S F]; [intros ? X; discriminate X|exact H|].
  exists S. eapply found_less; [exact F|]. replace (rad x2 - rad x2) with 0 by ring. rewrite Rabs_R0. lra.
Qed.
