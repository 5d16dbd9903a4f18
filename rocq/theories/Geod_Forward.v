(** The triangles of the direct problem: great circles of the auxiliary sphere. *)
From Coq Require Import List ZArith Reals Lra Bool.
From Verif Require Import GeomR_Model GeomR_Proofs Sphere_Model Sphere_Spec Sphere_Proofs Sphere_Area.
From Verif Require Import Geod_Model Geod_Spec.
Import ListNotations.
Open Scope R_scope.

Lemma sc : forall x, sin x * sin x = 1 - cos x * cos x.
Proof. intros x. pose proof (sin2_cos2 x) as H. unfold Rsqr in H. lra. Qed.
Lemma sq2 : forall x, x ^ 2 = x * x. Proof. intros. ring. Qed.
Lemma polar1 : forall flat y x, x * x + y * y = 1 -> cos (atan2 flat y x) = x /\ sin (atan2 flat y x) = y /\ - PI < atan2 flat y x <= PI.
Proof.
  intros flat y x H. destruct (atan2_polar flat y x) as (A & B & D).
  { destruct (Req_dec x 0) as [->|]; [right; intros ->; lra|left; assumption]. }
  rewrite H, sqrt_1, Rmult_1_l in A. rewrite H, sqrt_1, Rmult_1_l in B. auto.
Qed.
Lemma polarr : forall flat y x r, 0 < r -> x * x + y * y = r * r ->
  r * cos (atan2 flat y x) = x /\ r * sin (atan2 flat y x) = y /\ - PI < atan2 flat y x <= PI.
Proof.
  intros flat y x r P H. destruct (atan2_polar flat y x) as (A & B & D).
  { destruct (Req_dec x 0) as [->|]; [right; intros ->; nra|left; assumption]. }
  rewrite H, sqrt_square in A, B by lra. auto.
Qed.

(* ---- reduced latitudes *)
Lemma atan_range : forall t, - (PI / 2) < atan t < PI / 2.
Proof. intros t. pose proof (atan_bound t). lra. Qed.
Lemma reduced_spec : forall a b phi, 0 < a -> 0 < b -> - (PI / 2) < phi < PI / 2 ->
  reduced_latitude a b phi (reduced (flattening a b) phi).
Proof.
  intros a b phi PA PB P. unfold reduced_latitude, reduced, flattening. split; [exact P|]. split; [apply atan_range|].
  assert (PC : 0 < cos phi) by (apply cos_gt_0; lra).
  set (t := (1 - (a - b) / a) * tan phi).
  pose proof (atan_range t) as B. assert (BC : 0 < cos (atan t)) by (apply cos_gt_0; lra).
  assert (E : sin (atan t) = t * cos (atan t)).
  { pose proof (tan_atan t) as T. unfold tan in T at 1. rewrite <- T at 2. field. lra. }
  rewrite E. unfold t, tan. field. lra.
Qed.
Lemma reduced_unique : forall a b phi beta beta', 0 < a -> 0 < b -> reduced_latitude a b phi beta -> reduced_latitude a b phi beta' -> beta = beta'.
Proof.
  intros a b phi beta beta' PA PB (P & B & E) (_ & B' & E').
  assert (cos phi <> 0) by (apply Rgt_not_eq, cos_gt_0; lra).
  assert (PC : 0 < cos beta) by (apply cos_gt_0; lra). assert (PC' : 0 < cos beta') by (apply cos_gt_0; lra).
  assert (T : tan beta = tan beta').
  { unfold tan. apply (Rmult_eq_reg_l (a * cos phi * cos beta * cos beta')).
    2:{ repeat apply Rmult_integral_contrapositive_currified; lra. }
    transitivity (a * sin beta * cos phi * cos beta'); [field; lra|]. rewrite E.
    transitivity (a * sin beta' * cos phi * cos beta); [rewrite E'; ring|field; lra]. }
  rewrite <- (atan_tan beta), <- (atan_tan beta'), T by lra. reflexivity.
Qed.
Lemma reduced_sphere : forall phi, - (PI / 2) < phi < PI / 2 -> reduced 0 phi = phi.
Proof. intros phi P. unfold reduced. rewrite Rminus_0_r, Rmult_1_l. apply atan_tan. lra. Qed.
(** The way back from the reduced latitude. *)
Lemma unreduced : forall a b beta, 0 < a -> 0 < b -> - (PI / 2) < beta < PI / 2 ->
  reduced_latitude a b (atan (tan beta / (1 - flattening a b))) beta.
Proof.
  intros a b beta PA PB B. set (t := tan beta / (1 - flattening a b)). split; [apply atan_range|]. split; [exact B|].
  assert (PC : 0 < cos beta) by (apply cos_gt_0; lra).
  pose proof (atan_range t) as B'. assert (BC : 0 < cos (atan t)) by (apply cos_gt_0; lra).
  assert (E : sin (atan t) = t * cos (atan t)).
  { pose proof (tan_atan t) as T. unfold tan in T at 1. rewrite <- T at 2. field. lra. }
  rewrite E. unfold t, tan, flattening. field. split; [lra|]. split; [|lra]. replace (a - (a - b)) with b by ring. lra.
Qed.

(* ---- great circles *)
Lemma circle_cos : forall S C s o b al, S ^ 2 + C ^ 2 = 1 -> on_circle S C s o b al ->
  cos b * cos b = 1 - C * C * (sin s * sin s).
Proof. intros S C s o b al N (_ & _ & E & _). pose proof (sc b) as H. rewrite E in H. nra. Qed.
(** Travelling along the circle. *)
Definition turned (l : R) (v : v3) : v3 :=
  (cos l * fst (fst v) - sin l * snd (fst v), sin l * fst (fst v) + cos l * snd (fst v), snd v).
Definition circle (S C s : R) : v3 := (cos s, S * sin s, C * sin s).
Lemma circle_pos : forall S C s o b al l, on_circle S C s o b al -> upos (l + o) b = turned l (circle S C s).
Proof.
  intros S C s o b al l (A & B & D & _). unfold upos, turned, circle. cbn [fst snd].
  rewrite cos_plus, sin_plus, D. apply v3_eq; [|  |reflexivity]; rewrite <- A, <- B; ring.
Qed.
Lemma circle_travel : forall S C s o b al l d, S ^ 2 + C ^ 2 = 1 -> on_circle S C s o b al -> 0 < cos b ->
  travel (l + o) b al d = turned l (circle S C (s + d)).
Proof.
  intros S C s o b al l d N H P. pose proof (circle_cos _ _ _ _ _ _ N H) as Q. pose proof (circle_pos _ _ _ _ _ _ l H) as U.
  destruct H as (A & B & D & E & F). unfold travel. rewrite U. unfold turned, circle, vadd, vscale, east, north. cbn [fst snd].
  rewrite !cos_plus, !sin_plus, D.
  set (cb := cos b) in *.
  assert (CO : cos o = cos s / cb) by (rewrite <- A; field; lra).
  assert (SO : sin o = S * sin s / cb) by (rewrite <- B; field; lra).
  assert (SA : sin al = S / cb) by (rewrite <- E; field; lra).
  assert (CA : cos al = C * cos s / cb) by (rewrite <- F; field; lra).
  rewrite CO, SO, SA, CA. pose proof (sc s) as SS. assert (SN : S * S = 1 - C * C) by lra.
  clearbody cb. clear - P Q SS SN.
  assert (Q' : cb * cb = 1 - C * C * (1 - cos s * cos s)) by (rewrite Q, SS; ring).
  apply v3_eq.
  - apply (Rmult_eq_reg_l (cb * cb)); [|nra]. field_simplify; [|lra]. ring [Q' SS SN].
  - apply (Rmult_eq_reg_l (cb * cb)); [|nra]. field_simplify; [|lra]. ring [Q' SS SN].
  - field. lra.
Qed.
(** The triangle at the start. *)
Lemma azimuth0_spec : forall flat al1 b1, let al0 := azimuth0 flat al1 b1 in
  sin al0 = sin al1 * cos b1 /\ 0 <= cos al0 /\ sin al0 ^ 2 + cos al0 ^ 2 = 1 /\
  cos al0 * cos al0 = sin b1 * sin b1 + cos al1 * cos b1 * (cos al1 * cos b1) /\ - PI < al0 <= PI.
Proof.
  intros flat al1 b1 al0. unfold al0, azimuth0.
  set (w := cos al1 ^ 2 + (sin al1 * sin b1) ^ 2). assert (W : 0 <= w) by (unfold w; nra).
  pose proof (sqrt_sqrt w W) as Q. pose proof (sqrt_pos w) as Q0.
  destruct (polar1 flat (sin al1 * cos b1) (sqrt w)) as (A & B & D).
  { rewrite Q. unfold w. pose proof (sc al1). pose proof (sc b1). nra. }
  rewrite A, B. split; [reflexivity|]. split; [exact Q0|]. rewrite !sq2, Q. split; [|split; [|exact D]].
  - unfold w. pose proof (sc al1). pose proof (sc b1). nra.
  - unfold w. pose proof (sc al1) as H1. pose proof (sc b1) as H2. rewrite !sq2. ring [H1 H2].
Qed.
Lemma NEA_spec : forall flat al1 b1, 0 < cos b1 -> let al0 := azimuth0 flat al1 b1 in
  forall s1 o1, solve_NEA flat al0 al1 b1 = (s1, o1) -> on_circle (sin al0) (cos al0) s1 o1 b1 al1 /\ - PI < o1 <= PI.
Proof.
  intros flat al1 b1 P al0 s1 o1 H. destruct (azimuth0_spec flat al1 b1) as (A & B & N & E & _). fold al0 in A, B, N, E.
  unfold solve_NEA in H. injection H as S1 O1.
  assert (K : cos al0 * cos s1 = cos al1 * cos b1 /\ cos al0 * sin s1 = sin b1).
  { destruct (Req_dec (cos al0) 0) as [Z|Z].
    - rewrite Z in E |- *. assert (sin b1 = 0) by nra. assert (cos al1 * cos b1 = 0) by nra. lra.
    - rewrite <- S1. destruct (polarr flat (sin b1) (cos al1 * cos b1) (cos al0)) as (K1 & K2 & _); [lra|lra|]. split; assumption. }
  destruct K as [K1 K2]. rewrite S1 in O1.
  destruct (polarr flat (sin al0 * sin s1) (cos s1) (cos b1) P) as (L1 & L2 & L3).
  { pose proof (sc s1) as X. pose proof (sc b1) as Y. rewrite !sq2 in N.
    assert (sin al0 * sin al0 = 1 - cos al0 * cos al0) by lra.
    replace (sin al0 * sin s1 * (sin al0 * sin s1)) with (sin al0 * sin al0 * (sin s1 * sin s1)) by ring. rewrite H.
    replace ((1 - cos al0 * cos al0) * (sin s1 * sin s1)) with (sin s1 * sin s1 - cos al0 * sin s1 * (cos al0 * sin s1)) by ring.
    rewrite K2. lra. }
  rewrite O1 in L1, L2, L3. split; [|exact L3].
  unfold on_circle. split; [exact L1|]. split; [exact L2|]. split; [lra|]. split; [lra|lra].
Qed.
(** The triangle at the end. *)
Lemma end_spec : forall flat S C s, S ^ 2 + C ^ 2 = 1 -> S <> 0 \/ C * cos s <> 0 ->
  let b2 := atan2 flat (C * sin s) (sqrt ((C * cos s) ^ 2 + S ^ 2)) in
  on_circle S C s (atan2 flat (S * sin s) (cos s)) b2 (atan2 flat S (C * cos s)) /\ - (PI / 2) < b2 < PI / 2.
Proof.
  intros flat S C s N H b2. set (w := (C * cos s) ^ 2 + S ^ 2) in b2.
  assert (W : 0 < w) by (unfold w; destruct H as [H|H]; nra).
  pose proof (sqrt_sqrt w (Rlt_le _ _ W)) as Q. pose proof (sqrt_lt_R0 w W) as Q0.
  pose proof (sc s) as SS. assert (SN : S * S = 1 - C * C) by lra.
  assert (WE : w = 1 - C * sin s * (C * sin s)) by (unfold w; rewrite !sq2; ring [SS SN]).
  destruct (polar1 flat (C * sin s) (sqrt w)) as (A & B & D). { rewrite Q, WE. ring. }
  fold b2 in A, B, D.
  destruct (polarr flat (S * sin s) (cos s) (sqrt w) Q0) as (E & F & _). { rewrite Q, WE. ring [SS SN]. }
  destruct (polarr flat S (C * cos s) (sqrt w) Q0) as (G & I & _). { rewrite Q. unfold w. ring. }
  split; [unfold on_circle; rewrite A; auto|].
  assert (P : 0 < cos b2) by lra. split; apply Rnot_le_lt; intros L; pose proof PI_RGT_0.
  - assert (cos (- b2) <= 0) by (apply cos_le_0; lra). rewrite cos_neg in *. lra.
  - assert (cos b2 <= 0) by (apply cos_le_0; lra). lra.
Qed.

(* ---- the direct problem *)
Lemma congd_rad : forall x y, congd x y -> congr (rad x) (rad y).
Proof. intros x y [k ->]. exists k. unfold rad. field. Qed.
Lemma congr_sym : forall x y, congr x y -> congr y x.
Proof. intros x y [k ->]. exists (- k)%Z. rewrite opp_IZR. ring. Qed.
Lemma congr_trans : forall x y z, congr x y -> congr y z -> congr x z.
Proof. intros x y z [k ->] [l ->]. exists (k + l)%Z. rewrite plus_IZR. ring. Qed.
Lemma congd_sym : forall x y, congd x y -> congd y x.
Proof. intros x y [k ->]. exists (- k)%Z. rewrite opp_IZR. ring. Qed.
Lemma congd_trans : forall x y z, congd x y -> congd y z -> congd x z.
Proof. intros x y z [k ->] [l ->]. exists (k + l)%Z. rewrite plus_IZR. ring. Qed.
Lemma rad_of_deg : forall t, rad (t * 180 / PI) = t.
Proof. intros t. unfold rad. apply deg_rad. Qed.
Lemma reduced_deg : forall x, -180 <= pymod (x + 180) 360 - 180 < 180 /\ congd (pymod (x + 180) 360 - 180) x.
Proof. intros x. destruct (reduce_degr_spec x) as [A B]. unfold reduce_degr in A, B. split; [exact A|apply congd_sym, B]. Qed.

(** What the direct problem does, on every ellipsoid. *)
Lemma forward_structure : forall flat a b x y az d, 0 < a -> 0 < b -> -90 < y < 90 ->
  exists S C s1 o1 b1, S ^ 2 + C ^ 2 = 1 /\ 0 <= C /\ S = sin (rad az) * cos b1 /\
    reduced_latitude a b (rad y) b1 /\ on_circle S C s1 o1 b1 (rad az) /\
    let f := flattening a b in
    let eps := eps_of (second_eccn2 f * C ^ 2) in
    let tau := (I1 eps s1 * b + d) / (b * A1 eps) in
    let s2 := tau + sines 0 (C1p eps) tau in
    (S <> 0 \/ C * cos s2 <> 0 -> exists o2 b2 al2 x2 y2 baz,
      forward flat a b x y az d = (x2, y2, baz) /\ on_circle S C s2 o2 b2 al2 /\ reduced_latitude a b (rad y2) b2 /\
      -180 <= x2 < 180 /\ -90 < y2 < 90 /\ -180 <= baz < 180 /\
      congr (rad x2) (rad x + (o2 - o1 - f * S * (I3 (f / (2 - f)) eps s2 - I3 (f / (2 - f)) eps s1))) /\ congr (rad baz) (al2 + PI)).
Proof.
  intros flat a b x y az d PA PB PY.
  set (f := flattening a b). set (b1 := reduced f (PI * y / 180)). set (al1 := PI * az / 180).
  assert (RY : PI * y / 180 = rad y) by (unfold rad; field). assert (RA : al1 = rad az) by (unfold al1, rad; field).
  assert (RL : reduced_latitude a b (rad y) b1) by (unfold b1; rewrite RY; apply reduced_spec; [assumption|assumption|apply rad_lat, PY]).
  assert (PC : 0 < cos b1) by (destruct RL as (_ & L & _); apply cos_gt_0; lra).
  destruct (azimuth0_spec flat al1 b1) as (A & B & N & _ & _). set (al0 := azimuth0 flat al1 b1) in *.
  destruct (solve_NEA flat al0 al1 b1) as [s1 o1] eqn:NEA.
  destruct (NEA_spec flat al1 b1 PC s1 o1 NEA) as [O1 _]. fold al0 in O1.
  exists (sin al0), (cos al0), s1, o1, b1. rewrite <- RA. split; [exact N|]. split; [exact B|]. split; [exact A|].
  split; [exact RL|]. split; [exact O1|].
  cbv zeta. fold f. set (eps := eps_of (second_eccn2 f * cos al0 ^ 2)). set (tau := (I1 eps s1 * b + d) / (b * A1 eps)).
  set (s2 := tau + sines 0 (C1p eps) tau). intros H.
  destruct (end_spec flat (sin al0) (cos al0) s2 N H) as [O2 L2].
  set (b2 := atan2 flat (cos al0 * sin s2) (sqrt ((cos al0 * cos s2) ^ 2 + sin al0 ^ 2))) in *.
  set (o2 := atan2 flat (sin al0 * sin s2) (cos s2)) in *. set (al2 := atan2 flat (sin al0) (cos al0 * cos s2)) in *.
  set (n := f / (2 - f)).
  set (l12 := o2 - f * sin al0 * I3 n eps s2 - (o1 - f * sin al0 * I3 n eps s1)).
  set (x2 := x + l12 * 180 / PI). set (x2' := if rle 180 x2 then x2 - 360 else x2).
  exists o2, b2, al2, (pymod (x2' + 180) 360 - 180), (atan (tan b2 / (1 - f)) * 180 / PI), (pymod ((al2 + PI) * 180 / PI + 180) 360 - 180).
  split. { unfold forward. fold f. fold b1. fold al1. fold al0. rewrite NEA. reflexivity. }
  split; [exact O2|]. rewrite rad_of_deg.
  split; [apply unreduced; assumption|].
  destruct (reduced_deg x2') as [X1 X2]. destruct (reduced_deg ((al2 + PI) * 180 / PI)) as [Z1 Z2].
  split; [exact X1|]. split.
  { pose proof (atan_range (tan b2 / (1 - f))) as T. pose proof PI_RGT_0 as PP.
    set (t := atan (tan b2 / (1 - f))) in *. assert (E : t = rad (t * 180 / PI)) by (symmetry; apply rad_of_deg).
    unfold rad in E. set (v := t * 180 / PI) in *. split; nra. }
  split; [exact Z1|]. split.
  - apply congr_trans with (rad x2'); [apply congd_rad, X2|]. apply congr_trans with (rad x2).
    + apply congd_rad. unfold x2'. destruct (rle 180 x2); [exists (-1)%Z; lra|exists 0%Z; lra].
    + exists 0%Z. unfold x2, l12. unfold rad. field. apply PI_neq0.
  - apply congd_rad in Z2. rewrite rad_of_deg in Z2. exact Z2.
Qed.

(* ---- on a sphere *)
Lemma congr_trig : forall x y, congr x y -> cos x = cos y /\ sin x = sin y.
Proof.
  intros x y [k ->]. replace (y + 2 * PI * IZR k) with (y + 2 * IZR k * PI) by ring. destruct (trig_period y k) as [A B]. auto.
Qed.
Lemma upos_congr : forall l l' p, congr l l' -> upos l p = upos l' p.
Proof. intros l l' p H. destruct (congr_trig _ _ H) as [A B]. unfold upos. rewrite A, B. reflexivity. Qed.
Lemma travel_congr : forall l l' p al al' d, congr l l' -> congr al al' -> travel l p al d = travel l' p al' d.
Proof.
  intros l l' p al al' d H K. destruct (congr_trig _ _ H) as [A B]. destruct (congr_trig _ _ K) as [E F].
  unfold travel, upos, east, north. rewrite A, B, E, F. reflexivity.
Qed.
Lemma travel_back : forall l p al d, travel l p (al + PI) d = travel l p al (- d).
Proof.
  intros. unfold travel. rewrite neg_sin, neg_cos, sin_neg, cos_neg. unfold vadd, vscale. cbn [fst snd]. apply v3_eq; ring.
Qed.
Lemma sphere_flattening : forall r, 0 < r -> flattening r r = 0.
Proof. intros r P. unfold flattening. field. lra. Qed.
Lemma eps_zero : forall k, eps_of (0 * k) = 0.
Proof. intros k. unfold eps_of. rewrite Rmult_0_l, Rplus_0_r, sqrt_1. field. Qed.
Lemma second_zero : second_eccn2 0 = 0.
Proof. unfold second_eccn2. field. Qed.
Lemma I1_zero : forall s, I1 0 s = s.
Proof. intros s. unfold I1, A1, C1. cbn [sines]. field. Qed.
Lemma C1p_zero : forall s, sines 0 (C1p 0) s = 0.
Proof. intros s. unfold C1p. cbn [sines]. field. Qed.
Lemma A1_zero : A1 0 = 1.
Proof. unfold A1. field. Qed.
Lemma reduced_round : forall r phi beta, 0 < r -> reduced_latitude r r phi beta -> beta = phi.
Proof.
  intros r phi beta P H. apply (reduced_unique r r phi beta phi P P H). destruct H as (H & _ & _). split; [exact H|]. split; [exact H|]. ring.
Qed.
Lemma turned_circle_z : forall l S C s, snd (turned l (circle S C s)) = C * sin s.
Proof. reflexivity. Qed.

Lemma forward_sphere : forall flat r x y az d, 0 < r -> -90 < y < 90 ->
  -1 < snd (travel (rad x) (rad y) (rad az) (d / r)) < 1 ->
  exists x2 y2 baz, forward flat r r x y az d = (x2, y2, baz) /\
    -180 <= x2 < 180 /\ -90 < y2 < 90 /\ -180 <= baz < 180 /\
    pos x2 y2 = travel (rad x) (rad y) (rad az) (d / r) /\ travel (rad x2) (rad y2) (rad baz) (d / r) = pos x y.
Proof.
  intros flat r x y az d P PY Z.
  destruct (forward_structure flat r r x y az d P P PY) as (S & C & s1 & o1 & b1 & N & PC & SE & RL & O1 & K).
  cbv zeta in K. rewrite sphere_flattening, second_zero, eps_zero, I1_zero, C1p_zero, A1_zero in K by exact P.
  pose proof (reduced_round _ _ _ P RL) as ->.
  assert (PB : 0 < cos (rad y)) by (apply cos_rad_pos, PY).
  assert (T : (s1 * r + d) / (r * 1) + 0 = s1 + d / r) by (field; lra). rewrite T in K.
  assert (T1 : travel (rad x) (rad y) (rad az) (d / r) = turned (rad x - o1) (circle S C (s1 + d / r))).
  { rewrite <- (circle_travel _ _ _ _ _ _ (rad x - o1) (d / r) N O1 PB). f_equal. ring. }
  rewrite T1, turned_circle_z in Z.
  destruct K as (o2 & b2 & al2 & x2 & y2 & baz & F & O2 & RL2 & R1 & R2 & R3 & X & B).
  { destruct (Req_dec S 0) as [S0|]; [right|left; assumption]. intros Q. rewrite S0 in N.
    pose proof (sc (s1 + d / r)) as SS. set (s2 := s1 + d / r) in *. assert (C = 1) by nra. nra. }
  pose proof (reduced_round _ _ _ P RL2) as ->.
  exists x2, y2, baz. split; [exact F|]. split; [exact R1|]. split; [exact R2|]. split; [exact R3|].
  assert (PB2 : 0 < cos (rad y2)) by (apply cos_rad_pos, R2).
  assert (X' : congr (rad x2) (rad x - o1 + o2)). { eapply congr_trans; [exact X|]. exists 0%Z. ring. }
  split.
  - rewrite T1. unfold pos. rewrite (upos_congr _ _ _ X'). apply (circle_pos _ _ _ _ _ _ _ O2).
  - rewrite (travel_congr _ _ _ _ _ _ X' B), travel_back, (circle_travel _ _ _ _ _ _ _ _ N O2 PB2).
    replace (s1 + d / r + - (d / r)) with s1 by ring. rewrite <- (circle_pos _ _ _ _ _ _ _ O1). unfold pos. f_equal. ring.
Qed.
