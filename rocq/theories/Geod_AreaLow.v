(** Lower bounds for areas below geodesics, and what follows for the findings. *)
From Coq Require Import List ZArith Reals Lra Lia Bool.
From Coquelicot Require Import Coquelicot.
From Verif Require Brent_Model.
From Verif Require Import GeomR_Model GeomR_Proofs Sphere_Model Sphere_Spec Sphere_Proofs Sphere_Area Geod_Model Geod_Spec Geod_Forward
  Geod_Series Geod_Bounds Geod_Revert Geod_Accurate Geod_Symm Geod_Unwrap Geod_Inverse Geod_Answer Geod_Round Geod_More Geod_Area Geod_Near
  Geod_AreaSpec Geod_AreaSeries Geod_AreaTrue Geod_AreaEdge Geod_AreaPoly.
Import ListNotations.
Open Scope R_scope.

(* ---- the longitude grows by the integral of its growth *)
Lemma growth_continuous : forall a b S C s, 0 < b -> b < a -> S <> 0 -> S ^ 2 + C ^ 2 = 1 -> continuous (growth a b S C) s.
Proof.
  intros a b S C s HB HA HS N. apply (ex_derive_continuous (K := R_AbsRing) (V := R_NormedModule)). destruct (u_range S C s HS N) as [U _].
  assert (DU : is_derive (fun s => C * sin s) s (C * cos s)) by apply d_scal, is_derive_sin.
  eexists. apply (is_derive_ext (fun s => S * gu a b (C * sin s) / (a * (1 - (C * sin s) ^ 2)))); [intros t; symmetry; apply growth_spec; assumption|].
  apply (d_div (fun s => S * gu a b (C * sin s)) (fun s => a * (1 - (C * sin s) ^ 2))).
  - apply d_scal. apply (d_comp (gu a b) (fun s => C * sin s)); [apply g_derive; assumption|exact DU].
  - apply d_scal. apply d_minus; [apply d_const|]. apply (is_derive_ext (fun s => (C * sin s) * (C * sin s))); [intros; inR; ring|]. apply d_mult; exact DU.
  - apply Rgt_not_eq, Rmult_lt_0_compat; lra.
Qed.
Lemma ex_growth : forall a b S C s1 s2, 0 < b -> b < a -> S <> 0 -> S ^ 2 + C ^ 2 = 1 -> ex_RInt (growth a b S C) s1 s2.
Proof. intros. apply (ex_RInt_continuous (V := R_CompleteNormedModule)). intros. apply growth_continuous; assumption. Qed.
Lemma circle_den : forall S C s, S ^ 2 + C ^ 2 = 1 -> cos s * cos s + S * S * (sin s * sin s) = 1 - (C * sin s) ^ 2.
Proof. intros S C s N. pose proof (sc s) as X. replace (S * S) with (1 - C ^ 2) by (rewrite <- N; ring). replace (cos s * cos s) with (1 - sin s * sin s) by lra. ring. Qed.
Lemma growth_total : forall a b S C s1 s2, 0 < b -> b < a -> 0 < S -> S ^ 2 + C ^ 2 = 1 ->
  RInt (growth a b S C) s1 s2 = unwrap S s2 - unwrap S s1 - RInt (lag a b S C) s1 s2.
Proof.
  intros a b S C s1 s2 HB HA HS N. assert (HC : C ^ 2 <= 1) by (eapply one_bound; eassumption).
  assert (EL : ex_RInt (lag a b S C) s1 s2) by (apply (ex_RInt_continuous (V := R_CompleteNormedModule)); intros; apply lag_continuous; assumption || lra).
  assert (IU : is_RInt (fun s => S / (1 - (C * sin s) ^ 2)) s1 s2 (unwrap S s2 - unwrap S s1)).
  { apply (is_RInt_derive (unwrap S) (fun s => S / (1 - (C * sin s) ^ 2))).
    - intros s _. rewrite <- (circle_den S C s N). apply unwrap_derive, HS.
    - intros s _. apply (ex_derive_continuous (K := R_AbsRing) (V := R_NormedModule)). destruct (u_range S C s ltac:(lra) N) as [U _].
      assert (DU : is_derive (fun s => C * sin s) s (C * cos s)) by apply d_scal, is_derive_sin.
      eexists. apply (d_div (fun _ => S) (fun s => 1 - (C * sin s) ^ 2)); [apply d_const| |lra].
      apply d_minus; [apply d_const|]. apply (is_derive_ext (fun s => (C * sin s) * (C * sin s))); [intros; inR; ring|]. apply d_mult; exact DU. }
  apply is_RInt_unique. unfold growth. apply (is_RInt_minus (V := R_NormedModule) (fun s => S / (1 - (C * sin s) ^ 2)) (lag a b S C)); [exact IU|]. apply (RInt_correct (V := R_CompleteNormedModule)). exact EL.
Qed.
Lemma circle_unwrap : forall S C s o be al, 0 < S -> S ^ 2 + C ^ 2 = 1 -> 0 < cos be -> on_circle S C s o be al -> cos o = cos (unwrap S s) /\ sin o = sin (unwrap S s).
Proof.
  intros S C s o be al HS N PB (A1 & A2 & A3 & _). destruct (unwrap_circle S s HS) as (RP & X & Y). cbv zeta in *.
  assert (RE : sqrt (cos s * cos s + S * S * (sin s * sin s)) = cos be).
  { rewrite (circle_den S C s N), <- A3. replace (1 - sin be ^ 2) with (cos be ^ 2) by (pose proof (sc be); rewrite !sq2; lra). apply sqrt_pow2. lra. }
  rewrite RE in *. split; apply (same_right (cos be)); try assumption; lra.
Qed.
Lemma direction_congr : forall u v, cos u = cos v -> sin u = sin v -> congr u v.
Proof.
  intros u v A B. pose proof PI_RGT_0 as P0. set (k := Int_part ((u - v) / (2 * PI))). pose proof (base_Int_part ((u - v) / (2 * PI))) as [L1 L2]. fold k in L1, L2.
  exists k. assert (E : u = v + 2 * PI * IZR k); [|lra]. apply same_direction.
  - rewrite A. symmetry. apply congr_trig. exists k. ring.
  - rewrite B. symmetry. apply congr_trig. exists k. ring.
  - assert (M : u - v = (u - v) / (2 * PI) * (2 * PI)) by (field; lra). split; nra.
Qed.
Lemma over_growth : forall a b S C s1 s2 o1 o2 be1 be2 al1 al2, 0 < b -> b < a -> 0 < S -> S ^ 2 + C ^ 2 = 1 -> 0 < cos be1 -> 0 < cos be2 ->
  on_circle S C s1 o1 be1 al1 -> on_circle S C s2 o2 be2 al2 -> congr (o2 - o1 - RInt (lag a b S C) s1 s2) (RInt (growth a b S C) s1 s2).
Proof.
  intros a b S C s1 s2 o1 o2 be1 be2 al1 al2 HB HA HS N B1 B2 O1 O2. rewrite (growth_total a b S C s1 s2 HB HA HS N).
  destruct (circle_unwrap S C s1 o1 be1 al1 HS N B1 O1) as [X1 Y1]. destruct (circle_unwrap S C s2 o2 be2 al2 HS N B2 O2) as [X2 Y2].
  destruct (direction_congr _ _ X1 Y1) as [k1 K1]. destruct (direction_congr _ _ X2 Y2) as [k2 K2]. exists (k2 - k1)%Z. rewrite minus_IZR. lra.
Qed.
Lemma growth_range : forall a b S C s1 s2, 0 < b -> b < a -> 0 < S -> S ^ 2 + C ^ 2 = 1 -> s1 <= s2 <= s1 + PI -> 0 <= RInt (growth a b S C) s1 s2 <= PI.
Proof.
  intros a b S C s1 s2 HB HA HS N T. assert (HC : C ^ 2 <= 1) by (eapply one_bound; eassumption). split.
  - apply RInt_ge_0; [lra|apply ex_growth; assumption || lra|]. intros s _. rewrite (growth_spec a b S C s HB HA ltac:(lra) N). destruct (u_range S C s ltac:(lra) N) as [U _].
    pose proof (g_ge a b HB HA (C * sin s)). apply Rmult_le_pos; [apply Rmult_le_pos; lra|]. apply Rlt_le, Rinv_0_lt_compat, Rmult_lt_0_compat; lra.
  - rewrite (growth_total a b S C s1 s2 HB HA HS N).
    assert (L0 : 0 <= RInt (lag a b S C) s1 s2).
    { apply RInt_ge_0; [lra|apply (ex_RInt_continuous (V := R_CompleteNormedModule)); intros; apply lag_continuous; assumption || lra|].
      intros s _. unfold lag. rewrite speed_gu. pose proof (g_ge a b HB HA (C * sin s)). pose proof (q_pos a b HB HA). apply Rmult_le_pos; [apply Rmult_le_pos; lra|].
      apply Rlt_le, Rinv_0_lt_compat, Rmult_lt_0_compat; lra. }
    assert (M : unwrap S s2 <= unwrap S (s1 + PI)).
    { pose proof (unwrap_rate S s2 (s1 + PI)) as X. assert (S1 : S <= 1) by (pose proof (pow2_ge_0 C); nra). specialize (X ltac:(lra) ltac:(lra)). assert (0 <= S * (s1 + PI - s2)) by (apply Rmult_le_pos; lra). lra. }
    rewrite unwrap_half in M. lra.
Qed.

(* ---- between two points of an arc its latitude is no less than that of the lower one *)
Lemma arc_low : forall C u s1 s2 s, 0 < u -> u <= C * sin s1 -> u <= C * sin s2 -> s1 <= s <= s2 -> s2 <= s1 + PI -> u <= C * sin s.
Proof.
  intros C u s1 s2 s HU H1 H2 T L. destruct (Req_dec s2 (s1 + PI)) as [E|NE]; [rewrite E, neg_sin in H2; lra|].
  destruct (Req_dec s s1) as [->|N1]; [exact H1|]. destruct (Req_dec s s2) as [->|N2]; [exact H2|].
  assert (D : 0 < sin (s2 - s1)) by (apply sin_gt_0; lra). assert (D1 : 0 < sin (s - s1)) by (apply sin_gt_0; lra). assert (D2 : 0 < sin (s2 - s)) by (apply sin_gt_0; lra).
  assert (E : C * sin s * sin (s2 - s1) = C * sin s1 * sin (s2 - s) + C * sin s2 * sin (s - s1)).
  { rewrite !sin_minus. pose proof (sc s) as X. replace (C * sin s * (sin s2 * cos s1 - cos s2 * sin s1)) with (C * (sin s * sin s2 * cos s1 - sin s * cos s2 * sin s1)) by ring. ring. }
  assert (SB : sin (s2 - s1) <= sin (s2 - s) + sin (s - s1)).
  { replace (s2 - s1) with ((s2 - s) + (s - s1)) by ring. rewrite sin_plus. pose proof (COS_bound (s - s1)). pose proof (COS_bound (s2 - s)).
    assert (sin (s2 - s) * cos (s - s1) <= sin (s2 - s) * 1) by (apply Rmult_le_compat_l; lra). assert (cos (s2 - s) * sin (s - s1) <= 1 * sin (s - s1)) by (apply Rmult_le_compat_r; lra). lra. }
  apply Rmult_le_reg_r with (sin (s2 - s1)); [exact D|]. rewrite E.
  apply Rle_trans with (u * (sin (s2 - s) + sin (s - s1))); [apply Rmult_le_compat_l; lra|].
  assert (u * sin (s2 - s) <= C * sin s1 * sin (s2 - s)) by (apply Rmult_le_compat_r; lra). assert (u * sin (s - s1) <= C * sin s2 * sin (s - s1)) by (apply Rmult_le_compat_r; lra). lra.
Qed.
Lemma G_low : forall a b u0 u, 0 < b -> b < a -> 0 <= u0 <= u -> b * u0 <= Gu a b u.
Proof.
  intros a b u0 u HB HA H. apply Rle_trans with (b * u); [apply Rmult_le_compat_l; lra|]. unfold Gu.
  assert (E : RInt (fun _ => b) 0 u = b * u) by (rewrite (RInt_const (V := R_CompleteNormedModule)); change ((u - 0) * b = b * u); ring).
  rewrite <- E. apply RInt_le; [lra| | |].
  - apply (ex_RInt_const (V := R_NormedModule)).
  - apply (ex_RInt_continuous (V := R_CompleteNormedModule)). intros. apply g_cont; assumption.
  - intros x _. apply g_ge; assumption.
Qed.
Lemma below_low : forall a b S C s1 s2 u, 0 < b -> b < a -> 0 < S -> S ^ 2 + C ^ 2 = 1 -> s1 <= s2 <= s1 + PI -> 0 < u -> u <= C * sin s1 -> u <= C * sin s2 ->
  a * b * u * RInt (growth a b S C) s1 s2 <= area_below a b S C s1 s2.
Proof.
  intros a b S C s1 s2 u HB HA HS N T HU H1 H2. rewrite (below_rate a b S C s1 s2 HB HA ltac:(lra) N).
  assert (EG := ex_growth a b S C s1 s2 HB HA ltac:(lra) N).
  assert (E : RInt (fun s => a * b * u * growth a b S C s) s1 s2 = a * b * u * RInt (growth a b S C) s1 s2) by (apply (RInt_scal (V := R_CompleteNormedModule) (growth a b S C)); exact EG).
  rewrite <- E. apply RInt_le; [lra|apply (ex_RInt_scal (V := R_NormedModule)); exact EG|apply ex_rate; assumption || lra|].
  intros s HS'. pose proof (arc_low C u s1 s2 s HU H1 H2 ltac:(lra) ltac:(lra)) as L. rewrite (growth_spec a b S C s HB HA ltac:(lra) N). unfold rate. set (x := C * sin s) in *.
  destruct (u_range S C s ltac:(lra) N) as [U _]. fold x in U. pose proof (g_ge a b HB HA x) as G. pose proof (G_low a b u x HB HA ltac:(lra)) as GL.
  assert (K : 0 < S * gu a b x / (1 - x ^ 2)) by (apply Rdiv_lt_0_compat; [apply Rmult_lt_0_compat; lra|lra]).
  replace (a * b * u * (S * gu a b x / (a * (1 - x ^ 2)))) with (b * u * (S * gu a b x / (1 - x ^ 2))) by (field; lra).
  replace (S * (Gu a b x * gu a b x / (1 - x ^ 2))) with (Gu a b x * (S * gu a b x / (1 - x ^ 2))) by (field; lra).
  apply Rmult_le_compat_r; lra.
Qed.
Lemma reduced_low : forall a b p be, 0 < b -> b < a -> reduced_latitude a b p be -> 0 < p -> b / a * sin p <= sin be.
Proof.
  intros a b p be HB HA (HP & HBE & E) PP. assert (0 < cos p) by (apply cos_gt_0; lra). assert (0 < cos be) by (apply cos_gt_0; lra). assert (SP : 0 < sin p) by (apply sin_gt_0; lra).
  assert (SB : 0 < sin be).
  { apply Rmult_lt_reg_r with (a * cos p); [apply Rmult_lt_0_compat; lra|]. rewrite Rmult_0_l. replace (sin be * (a * cos p)) with (a * sin be * cos p) by ring. rewrite E.
    apply Rmult_lt_0_compat; [apply Rmult_lt_0_compat; lra|lra]. }
  (* squares: a² sin²be cos²p = b² sin²p cos²be, so sin²be (a² cos²p + b² sin²p) = b² sin²p *)
  assert (Q : sin be ^ 2 * (a ^ 2 * cos p ^ 2 + b ^ 2 * sin p ^ 2) = b ^ 2 * sin p ^ 2).
  { assert (E2 : (a * sin be * cos p) ^ 2 = (b * sin p * cos be) ^ 2) by (rewrite E; reflexivity). rewrite !Rpow_mult_distr in E2.
    replace (cos be ^ 2) with (1 - sin be ^ 2) in E2 by (pose proof (sc be); rewrite !sq2; lra). lra. }
  assert (D : a ^ 2 * cos p ^ 2 + b ^ 2 * sin p ^ 2 <= a ^ 2).
  { replace (cos p ^ 2) with (1 - sin p ^ 2) by (pose proof (sc p); rewrite !sq2; lra). pose proof (pow2_ge_0 (sin p)). pose proof (q_pos a b HB HA). nra. }
  apply Rsqr_incr_0_var; [|lra]. unfold Rsqr. apply Rmult_le_reg_r with (a ^ 2); [apply pow_lt; lra|].
  replace (b / a * sin p * (b / a * sin p) * a ^ 2) with (b ^ 2 * sin p ^ 2) by (field; lra). rewrite <- Q. pose proof (pow2_ge_0 (sin be)).
  replace (sin be * sin be * a ^ 2) with (sin be ^ 2 * a ^ 2) by ring. apply Rmult_le_compat_l; lra.
Qed.
(** An eastward geodesic beyond latitude p0 in the north has at least this area below it. *)
Lemma over_low : forall a b l1 p1 l2 p2 A p0, 0 < b -> b < a -> geodesic_over a b l1 p1 l2 p2 A -> 0 < l2 - l1 < PI -> 0 < p0 -> p0 <= p1 -> p0 <= p2 ->
  b ^ 2 * sin p0 * (l2 - l1) <= A.
Proof.
  intros a b l1 p1 l2 p2 A p0 HB HA (S & C & s1 & s2 & o1 & o2 & be1 & be2 & al1 & al2 & N & R1 & R2 & O1 & O2 & T & L & ->) D P0 P1 P2. pose proof PI_RGT_0 as PP.
  pose proof (proj1 (proj2 R1)) as X1. pose proof (proj1 (proj2 R2)) as X2. assert (B1 : 0 < cos be1) by (apply cos_gt_0; lra). assert (B2 : 0 < cos be2) by (apply cos_gt_0; lra).
  assert (HC : C ^ 2 <= 1) by (eapply one_bound; eassumption).
  destruct (Rtotal_order S 0) as [SN|[SZ|SP]].
  - exfalso. assert (K : forall s o be al, on_circle S C s o be al -> on_circle (- S) C s (- o) be (- al)).
    { intros s o be al (Z1 & Z2 & E & F & G). unfold on_circle. rewrite !sin_neg, !cos_neg. repeat split; lra. }
    pose proof (over_growth a b (- S) C s1 s2 (- o1) (- o2) be1 be2 (- al1) (- al2) HB HA ltac:(lra) ltac:(lra) B1 B2 (K _ _ _ _ O1) (K _ _ _ _ O2)) as G.
    rewrite RInt_lag_opp in G by (try lra; assumption). pose proof (growth_range a b (- S) C s1 s2 HB HA ltac:(lra) ltac:(lra) T) as GR.
    destruct L as [k KE]. destruct G as [m ME]. set (g := RInt (growth a b (- S) C) s1 s2) in *.
    assert (E : l2 - l1 + g = 2 * PI * IZR (k - m)) by (rewrite minus_IZR; lra). set (z := (k - m)%Z) in *.
    assert (0 < IZR z) by nra. assert (IZR z < 1) by nra. apply lt_IZR in H. apply (lt_IZR z 1) in H0. lia.
  - exfalso. subst S. destruct O1 as (A1 & A2 & _). destruct O2 as (D1 & D2 & _). rewrite Rmult_0_l in A2, D2. apply zero_right in A2; [|exact B1]. apply zero_right in D2; [|exact B2].
    assert (Z : RInt (lag a b 0 C) s1 s2 = 0).
    { rewrite (RInt_ext _ (fun _ => 0)); [|intros s _; unfold lag, Rdiv; inR; ring]. rewrite (RInt_const (V := R_CompleteNormedModule)). change ((s2 - s1) * 0 = 0). ring. }
    rewrite Z in L. destruct (congr_trig _ _ L) as [_ E]. rewrite Rminus_0_r, (sin_minus o2 o1), A2, D2 in E. assert (0 < sin (l2 - l1)) by (apply sin_gt_0; lra). lra.
  - pose proof (over_growth a b S C s1 s2 o1 o2 be1 be2 al1 al2 HB HA SP N B1 B2 O1 O2) as G. pose proof (growth_range a b S C s1 s2 HB HA SP N T) as GR.
    assert (E : RInt (growth a b S C) s1 s2 = l2 - l1).
    { destruct L as [k KE]. destruct G as [m ME]. set (g := RInt (growth a b S C) s1 s2) in *. assert (E : l2 - l1 - g = 2 * PI * IZR (k + m)) by (rewrite plus_IZR; lra).
      set (z := (k + m)%Z) in *. assert (-1 < IZR z) by nra. assert (IZR z < 1) by nra. apply (lt_IZR (-1)) in H. apply (lt_IZR z 1) in H0. assert (z = 0%Z) by lia. rewrite H1 in E. lra. }
    rewrite <- E at 1. pose proof (reduced_low a b p1 be1 HB HA R1 ltac:(lra)) as Y1. pose proof (reduced_low a b p2 be2 HB HA R2 ltac:(lra)) as Y2.
    assert (BA : 0 < b / a) by (apply Rdiv_lt_0_compat; lra). pose proof (proj1 R1) as Q1. pose proof (proj1 R2) as Q2.
    assert (SP0 : 0 < sin p0) by (apply sin_gt_0; lra).
    assert (M1 : sin p0 <= sin p1) by (destruct P1 as [P1|<-]; [left; apply sin_increasing_1; lra|right; reflexivity]).
    assert (M2 : sin p0 <= sin p2) by (destruct P2 as [P2|<-]; [left; apply sin_increasing_1; lra|right; reflexivity]).
    assert (b / a * sin p0 <= b / a * sin p1) by (apply Rmult_le_compat_l; lra). assert (b / a * sin p0 <= b / a * sin p2) by (apply Rmult_le_compat_l; lra).
    destruct O1 as (_ & _ & F1 & _). destruct O2 as (_ & _ & F2 & _).
    replace (b ^ 2 * sin p0) with (a * b * (b / a * sin p0)) by (field; lra). apply below_low; try assumption; try lra. apply Rmult_lt_0_compat; assumption.
Qed.
