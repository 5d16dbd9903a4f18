(** The inverse problem: from the canonical configuration back to the given positions. *)
From Coq Require Import List ZArith Reals Lra Lia Bool.
From Coquelicot Require Import Coquelicot.
From Verif Require Import GeomR_Model GeomR_Proofs Sphere_Model Sphere_Spec Sphere_Proofs Geod_Model Geod_Spec Geod_Forward
  Geod_Series Geod_Bounds Geod_Revert Geod_Accurate Geod_Symm Geod_Unwrap Geod_Inverse.
Import ListNotations.
Open Scope R_scope.

(* ---- lengths *)
Lemma speed_max : forall a b C s, 0 < a -> 0 < b -> C ^ 2 <= 1 -> 0 <= speed a b C s <= Rmax a b.
Proof.
  intros a b C s PA PB HC. split; [apply sqrt_pos|]. unfold speed.
  assert (M : 0 <= Rmax a b) by (apply Rle_trans with a; [lra|apply Rmax_l]).
  rewrite <- (sqrt_pow2 (Rmax a b)) by exact M. apply sqrt_le_1_alt.
  pose proof (Rmax_l a b) as L1. pose proof (Rmax_r a b) as L2. set (m := Rmax a b) in *.
  pose proof (sc s) as X. pose proof (pow2_ge_0 C) as C0. pose proof (pow2_ge_0 (sin s)) as S0.
  assert (S1 : sin s ^ 2 <= 1) by (rewrite sq2; pose proof (Rle_0_sqr (cos s)); unfold Rsqr in *; lra).
  set (z := C ^ 2 * sin s ^ 2). assert (Z : 0 <= z <= 1) by (unfold z; split; nra).
  replace (b ^ 2 + (a ^ 2 - b ^ 2) * C ^ 2 * sin s ^ 2) with (a ^ 2 * z + b ^ 2 * (1 - z)) by (unfold z; ring).
  assert (a ^ 2 <= m ^ 2) by (apply pow_incr; lra). assert (b ^ 2 <= m ^ 2) by (apply pow_incr; lra).
  assert (a ^ 2 * z <= m ^ 2 * z) by (apply Rmult_le_compat_r; lra).
  assert (b ^ 2 * (1 - z) <= m ^ 2 * (1 - z)) by (apply Rmult_le_compat_r; lra). lra.
Qed.
Lemma ex_speed : forall a b C x y, 0 < a -> 0 < b -> C ^ 2 <= 1 -> ex_RInt (speed a b C) x y.
Proof. intros. apply (ex_RInt_continuous (V := R_CompleteNormedModule)). intros. apply speed_continuous; assumption. Qed.
Lemma length_le : forall a b C x y z, 0 < a -> 0 < b -> C ^ 2 <= 1 -> x <= y -> y <= z -> geodesic_length a b C x y <= geodesic_length a b C x z.
Proof.
  intros a b C x y z PA PB HC L1 L2. unfold geodesic_length.
  assert (E := RInt_Chasles (speed a b C) x y z (ex_speed a b C x y PA PB HC) (ex_speed a b C y z PA PB HC)). change plus with Rplus in E.
  assert (0 <= RInt (speed a b C) y z) by (apply RInt_ge_0; [exact L2|apply ex_speed; assumption|intros; apply speed_max; assumption]). lra.
Qed.
Lemma length_nonneg : forall a b C x y, 0 < a -> 0 < b -> C ^ 2 <= 1 -> x <= y -> 0 <= geodesic_length a b C x y.
Proof. intros. apply RInt_ge_0; [assumption|apply ex_speed; assumption|intros; apply speed_max; assumption]. Qed.
Lemma length_half : forall a b C x, 0 < a -> 0 < b -> C ^ 2 <= 1 -> geodesic_length a b C x (x + PI) = geodesic_length a b C 0 PI.
Proof.
  intros a b C x PA PB HC. unfold geodesic_length. set (g := speed a b C).
  assert (EX : forall u v, ex_RInt g u v) by (intros; apply ex_speed; assumption).
  assert (P : RInt g PI (x + PI) = RInt g 0 x).
  { replace PI with (1 * 0 + PI) at 1 by ring. replace (x + PI) with (1 * x + PI) by ring.
    rewrite <- (RInt_comp_lin g 1 PI 0 x) by apply EX. apply RInt_ext. intros t _. change (1 * g (1 * t + PI) = g t). rewrite Rmult_1_l.
    unfold g, speed. replace (1 * t + PI) with (t + PI) by ring. rewrite neg_sin. replace ((- sin t) ^ 2) with (sin t ^ 2) by ring. reflexivity. }
  assert (E1 := RInt_Chasles g x 0 PI (EX _ _) (EX _ _)). assert (E2 := RInt_Chasles g x PI (x + PI) (EX _ _) (EX _ _)).
  assert (E3 := RInt_Chasles g x 0 x (EX _ _) (EX _ _)). rewrite RInt_point in E3. change (zero : R) with 0 in E3. change plus with Rplus in *. lra.
Qed.
Lemma length_max : forall a b C, 0 < a -> 0 < b -> C ^ 2 <= 1 -> geodesic_length a b C 0 PI <= PI * Rmax a b.
Proof.
  intros a b C PA PB HC. pose proof PI_RGT_0.
  assert (K : RInt (fun _ : R => Rmax a b) 0 PI = PI * Rmax a b).
  { rewrite (RInt_const (V := R_CompleteNormedModule)). change ((PI - 0) * Rmax a b = PI * Rmax a b). ring. }
  rewrite <- K. apply RInt_le; [lra|apply ex_speed; assumption|apply ex_RInt_const|]. intros x _. apply speed_max; assumption.
Qed.

(* ---- what was found is a geodesic *)
Definition s12_of (a b : R) (s : solved) : R :=
  let eps := eps_of (second_eccn2 (flattening a b) * cos (s_alpha0 s) ^ 2) in I1 eps (s_sigma2 s) * b - I1 eps (s_sigma1 s) * b.
Lemma found_geodesic : forall S a b p1 be1 p2 be2 lam tol al s, 0 < a -> 0 < b -> Rabs (third a b) <= 1 / 10 ->
  reduced_latitude a b p1 be1 -> reduced_latitude a b p2 be2 -> found S a b be1 be2 lam tol al s ->
  exists dl d, geodesic a b 0 p1 al (lam + dl) p2 (s_alpha2 s) d /\ Rabs dl <= tol + 140 * Rabs (flattening a b) * Rabs S * Rabs (third a b) ^ 6 /\
    Rabs (s12_of a b s - d) <= 68 * b * Rabs (third a b) ^ 7 /\ 0 <= d <= PI * Rmax a b /\
    (S = 0 -> d <= geodesic_length a b 1 0 PI).
Proof.
  intros S a b p1 be1 p2 be2 lam tol al s PA PB HT L1 L2 (C & o1 & o2 & k & N & E & O1 & O2 & R1 & B & _).
  pose proof PI_RGT_0 as P0. pose proof PI_4 as P4.
  assert (HC : C ^ 2 <= 1) by (eapply one_bound; eassumption). destruct (epsilon_spec a b C PA PB HC) as (_ & E2 & _).
  set (s1 := s_sigma1 s) in *. set (s2 := s_sigma2 s) in *. set (n := third a b) in *. set (f := flattening a b) in *.
  assert (N7 : Rabs (epsilon a b C) ^ 7 <= Rabs n ^ 7) by (apply pow_incr; split; [apply Rabs_pos|exact E2]).
  assert (Z7 : 0 <= Rabs (epsilon a b C) ^ 7) by apply pow_le, Rabs_pos. assert (Z6 : 0 <= Rabs n ^ 6) by apply pow_le, Rabs_pos.
  assert (AB : Rabs (s2 - s1) <= 4) by (rewrite Rabs_right; lra). pose proof (Rabs_pos (s2 - s1)) as AP.
  set (il := RInt (lag a b S C) s1 s2). set (m := o2 - o1 - il + 2 * PI * IZR k).
  exists (m - lam), (geodesic_length a b C s1 s2). replace (lam + (m - lam)) with m by ring. split; [|split; [|split; [|split]]].
  - exists S, C, s1, s2, o1, o2, be1, be2. do 5 (split; [assumption|]). split; [reflexivity|]. fold il. exists k. unfold m. ring.
  - pose proof (lag_error a b S C s1 s2 PA PB N HT) as G. cbv zeta in G. fold n in G. fold f in G. fold il in G.
    set (ml := f * S * (I3 n (epsilon a b C) s2 - I3 n (epsilon a b C) s1)) in *.
    replace (m - lam) with (o2 - o1 - ml + 2 * PI * IZR k - lam + (ml - il)) by (unfold m; ring).
    eapply Rle_trans; [apply Rabs_triang|]. apply Rplus_le_compat; [exact B|]. eapply Rle_trans; [exact G|].
    assert (Q : 0 <= 35 * Rabs f * Rabs S * Rabs n ^ 6).
    { pose proof (Rabs_pos f). pose proof (Rabs_pos S). apply Rmult_le_pos; [|exact Z6]. apply Rmult_le_pos; [|assumption]. apply Rmult_le_pos; lra. }
    replace (140 * Rabs f * Rabs S * Rabs n ^ 6) with (35 * Rabs f * Rabs S * Rabs n ^ 6 * 4) by ring. apply Rmult_le_compat_l; assumption.
  - unfold s12_of. rewrite <- E. fold (epsilon a b C). fold s1 s2. eapply Rle_trans; [apply (length_error a b C s1 s2 PA PB HC HT)|].
    replace (68 * b * Rabs n ^ 7) with (17 * b * Rabs n ^ 7 * 4) by ring.
    apply Rmult_le_compat; [apply Rmult_le_pos; [lra|exact Z7]|exact AP|apply Rmult_le_compat_l; [lra|exact N7]|exact AB].
  - split; [apply length_nonneg; try assumption; lra|]. eapply Rle_trans; [|apply (length_max a b C PA PB HC)].
    rewrite <- (length_half a b C s1 PA PB HC). apply length_le; try assumption; lra.
  - intros SZ. assert (C2 : C ^ 2 = 1) by (rewrite SZ in N; lra).
    replace (geodesic_length a b 1 0 PI) with (geodesic_length a b C 0 PI).
    + rewrite <- (length_half a b C s1 PA PB HC). apply length_le; try assumption; lra.
    + unfold geodesic_length. apply RInt_ext. intros x _. unfold speed. rewrite C2. f_equal. ring.
Qed.

(* ---- the original positions *)
Definition undo (yf xf ys : bool) (al1 al2 : R) : R * R :=
  let '(al1, al2) := if xf then (- al1, - al2) else (al1, al2) in
  let '(al1, al2) := if yf then (PI - al2, PI - al1) else (al1, al2) in
  if ys then (PI - al1, PI - al2) else (al1, al2).
Lemma finish_undo : forall a b yf xf ys al s, finish a b (yf, xf, ys) (al, s) =
  let '(al1, al2) := undo yf xf ys al (s_alpha2 s) in
  (pymod (al1 * 180 / PI + 180) 360 - 180, pymod ((al2 + PI) * 180 / PI + 180) 360 - 180, s12_of a b s).
Proof. intros a b [|] [|] [|] al s; reflexivity. Qed.
Lemma deg_congr : forall t, let z := pymod (t * 180 / PI + 180) 360 - 180 in -180 <= z < 180 /\ congr (rad z) t.
Proof.
  intros t z. destruct (reduced_deg (t * 180 / PI)) as [A B]. split; [exact A|]. apply congd_rad in B. rewrite rad_of_deg in B. exact B.
Qed.
Lemma rad_neg : forall x, rad (- x) = - rad x. Proof. intros. unfold rad. field. Qed.
Lemma rad_sub : forall x y, rad (x - y) = rad x - rad y. Proof. intros. unfold rad. field. Qed.
Lemma canonical_spec : forall x1 y1 x2 y2 yf xf ys z y1c x2c y2c, -90 < y1 < 90 -> -90 < y2 < 90 -> ~ (y1 = 0 /\ y2 = 0) ->
  canonicalf x1 y1 x2 y2 = (yf, xf, ys, (z, y1c, x2c, y2c)) ->
  -90 < y1c < 0 /\ Rabs y2c <= - y1c /\ 0 <= x2c <= 180 /\ (exists k, Rabs (x2 - x1 + 360 * IZR k) = x2c) /\
  forall a b al1 al2 dl d, 0 < a -> 0 < b -> geodesic a b 0 (rad y1c) al1 (rad x2c + dl) (rad y2c) al2 d ->
    let '(al1', al2') := undo yf xf ys al1 al2 in
    exists dl', Rabs dl' = Rabs dl /\ geodesic a b (rad x1) (rad y1) al1' (rad x2 + dl') (rad y2) al2' d.
Proof.
  intros x1 y1 x2 y2 yf xf ys z y1c x2c y2c H1 H2 NZ E. unfold canonicalf in E.
  destruct (reduce_degr_spec (x2 - x1)) as [RX [k RK]]. set (rx := reduce_degr (x2 - x1)) in *.
  set (p := if rlt (Rabs y1) (Rabs y2) then (y2, y1) else (y1, y2)) in E.
  assert (PS : p = if rlt (Rabs y1) (Rabs y2) then (y2, y1) else (y1, y2)) by reflexivity. destruct p as [u v].
  set (q := if rlt 0 u then (- u, - v) else (u, v)) in E.
  assert (QS : q = if rlt 0 u then (- u, - v) else (u, v)) by reflexivity. destruct q as [u' v'].
  injection E as EY EX ES _ EU EC EV. subst u' v'.
  assert (XX : 0 <= x2c <= 180 /\ rx = (if xf then - x2c else x2c)).
  { destruct xf; rewrite EX in EC.
    - apply orb_true_iff in EX. rewrite !rlt_t in EX. split; lra.
    - apply orb_false_iff in EX. rewrite !rlt_f in EX. split; lra. }
  destruct XX as [X1 X2].
  assert (UV : Rabs v <= Rabs u /\ -90 < u < 90 /\ -90 < v < 90 /\ ~ u = 0).
  { rewrite EY in PS. destruct yf; injection PS as -> ->.
    - apply rlt_t in EY. split; [lra|]. split; [lra|]. split; [lra|]. intros Z. rewrite Z, Rabs_R0 in EY. pose proof (Rabs_pos y1). lra.
    - apply rlt_f in EY. split; [lra|]. split; [lra|]. split; [lra|]. intros Z. rewrite Z, Rabs_R0 in EY. apply NZ. split; [exact Z|].
      pose proof (Rabs_pos y2). destruct (Req_dec y2 0) as [|W]; [assumption|]. apply Rabs_no_R0 in W. lra. }
  destruct UV as (U1 & U2 & U3 & U4).
  assert (YY : y1c < 0 /\ -90 < y1c /\ Rabs y2c <= - y1c /\ u = (if ys then - y1c else y1c) /\ v = (if ys then - y2c else y2c)).
  { rewrite ES in QS. destruct ys; injection QS as -> ->.
    - apply rlt_t in ES. rewrite Rabs_Ropp. rewrite (Rabs_right u) in U1 by lra. repeat split; lra.
    - apply rlt_f in ES. rewrite (Rabs_left u) in U1 by lra. repeat split; lra. }
  destruct YY as (Y1 & Y2 & Y3 & Y4 & Y5).
  split; [lra|]. split; [exact Y3|]. split; [exact X1|]. split.
  { exists (- k)%Z. rewrite opp_IZR. replace (x2 - x1 + 360 * - IZR k) with rx by lra. rewrite X2. destruct xf; [rewrite Rabs_Ropp|]; apply Rabs_right; lra. }
  intros a b al1 al2 dl d PA PB G. unfold undo.
  assert (G1 : exists dl', Rabs dl' = Rabs dl /\ let '(al1, al2) := if xf then (- al1, - al2) else (al1, al2) in
    geodesic a b 0 (rad y1c) al1 (rad rx + dl') (rad y2c) al2 d).
  { destruct xf; rewrite X2.
    - exists (- dl). split; [apply Rabs_Ropp|]. apply geodesic_east in G; [|assumption|assumption]. rewrite rad_neg.
      replace (- 0) with 0 in G by ring. replace (- rad x2c + - dl) with (- (rad x2c + dl)) by ring. exact G.
    - exists dl. split; [reflexivity|]. exact G. }
  clear G. destruct G1 as (dl' & D & G). destruct (if xf then (- al1, - al2) else (al1, al2)) as [b1 b2].
  assert (G2 : let '(al1, al2) := if yf then (PI - b2, PI - b1) else (b1, b2) in
    let '(p1, p2) := if yf then (rad y2c, rad y1c) else (rad y1c, rad y2c) in geodesic a b 0 p1 al1 (rad rx + dl') p2 al2 d).
  { destruct yf; [apply geodesic_swap|]; assumption. }
  clear G. destruct (if yf then (PI - b2, PI - b1) else (b1, b2)) as [c1 c2].
  assert (G3 : let '(al1, al2) := if ys then (PI - c1, PI - c2) else (c1, c2) in geodesic a b 0 (rad y1) al1 (rad rx + dl') (rad y2) al2 d).
  { rewrite EY in PS. destruct yf; injection PS as PU PV; destruct ys.
    - apply geodesic_north in G2. rewrite <- !rad_neg in G2. rewrite <- PV, <- PU, Y4, Y5. exact G2.
    - rewrite <- PV, <- PU, Y4, Y5. exact G2.
    - apply geodesic_north in G2. rewrite <- !rad_neg in G2. rewrite <- PV, <- PU, Y4, Y5. exact G2.
    - rewrite <- PV, <- PU, Y4, Y5. exact G2. }
  clear G2. destruct (if ys then (PI - c1, PI - c2) else (c1, c2)) as [e1 e2]. exists dl'. split; [exact D|].
  apply (geodesic_turn _ _ (rad x1)) in G3. rewrite Rplus_0_l in G3. eapply geodesic_congr; [| | |exact G3]; try (exists 0%Z; ring).
  exists (- k)%Z. rewrite opp_IZR. replace rx with (x2 - x1 - 360 * IZR k) by lra. unfold rad. field.
Qed.
Lemma canonical_reduced : forall a b y1 y2, 0 < a -> 0 < b -> -90 < y1 < 0 -> Rabs y2 <= - y1 ->
  let be1 := reduced (flattening a b) (rad y1) in let be2 := reduced (flattening a b) (rad y2) in
  reduced_latitude a b (rad y1) be1 /\ reduced_latitude a b (rad y2) be2 /\ canonical_latitudes be1 be2.
Proof.
  intros a b y1 y2 PA PB H1 H2 be1 be2. pose proof PI_RGT_0. apply Rabs_le_between in H2.
  assert (R1 : - (PI / 2) < rad y1 < 0) by (unfold rad; split; nra). assert (R2 : - (PI / 2) < rad y2 < PI / 2) by (unfold rad; split; nra).
  pose proof (reduced_spec a b (rad y1) PA PB ltac:(lra)) as S1. fold be1 in S1. pose proof (reduced_spec a b (rad y2) PA PB R2) as S2. fold be2 in S2.
  assert (MONO : forall u v, - (PI / 2) < u < PI / 2 -> - (PI / 2) < v < PI / 2 -> u <= v -> reduced (flattening a b) u <= reduced (flattening a b) v).
  { intros u v Hu Hv L. unfold reduced. destruct (Req_dec u v) as [->|NE]; [lra|]. apply Rlt_le, atan_increasing.
    replace (1 - flattening a b) with (b / a) by (unfold flattening; field; lra). apply Rmult_lt_compat_l; [apply Rdiv_lt_0_compat; assumption|].
    apply tan_increasing; lra. }
  assert (Z : reduced (flattening a b) 0 = 0) by (unfold reduced; rewrite tan_0, Rmult_0_r, atan_0; reflexivity).
  assert (ODD : reduced (flattening a b) (- rad y1) = - be1) by (unfold be1, reduced; rewrite tan_neg, <- atan_opp; f_equal; ring).
  assert (B1 : be1 < 0).
  { assert (be1 <= 0) by (rewrite <- Z; apply MONO; lra). destruct (Req_dec be1 0) as [E|]; [|lra]. exfalso.
    destruct S1 as (_ & _ & S1). rewrite E, sin_0, cos_0 in S1. assert (sin (rad y1) < 0) by (apply sin_lt_0_var; lra). nra. }
  assert (B2 : be1 <= be2 <= - be1).
  { split; [apply MONO; try lra; unfold rad; nra|]. rewrite <- ODD. apply MONO; try lra. unfold rad; nra. }
  split; [exact S1|]. split; [exact S2|]. destruct S1 as (_ & S1 & _). unfold canonical_latitudes.
  assert (P1 : 0 < cos be1) by (apply cos_gt_0; lra). split; [exact P1|]. split; [|split].
  - destruct (Rle_dec 0 be2).
    + rewrite <- (cos_neg be1). apply cos_decr_1; lra.
    + rewrite <- (cos_neg be1), <- (cos_neg be2). apply cos_decr_1; lra.
  - apply sin_lt_0_var; lra.
  - apply Rabs_le. rewrite Ropp_involutive, <- sin_neg. split; apply sin_incr_1; lra.
Qed.

Lemma inverse_geodesic : forall flat a b x1 y1 x2 y2 tol az baz s, 0 < a -> 0 < b -> Rabs (third a b) <= 1 / 10 ->
  -90 < y1 < 90 -> -90 < y2 < 90 -> ~ (y1 = 0 /\ y2 = 0) -> 0 <= tol ->
  congd x1 x2 \/ (forall k, tol < Rabs (rad (x2 - x1 + 360 * IZR k))) ->
  inverse flat a b x1 y1 x2 y2 tol = Done (az, baz, s, false) ->
  -180 <= az < 180 /\ -180 <= baz < 180 /\
  exists dl d, geodesic a b (rad x1) (rad y1) (rad az) (rad x2 + dl) (rad y2) (rad baz + PI) d /\
    Rabs dl <= tol + 1 / 1000000000000 + 140 * Rabs (flattening a b) * Rabs (third a b) ^ 6 /\
    Rabs (s - d) <= 68 * b * Rabs (third a b) ^ 7 /\ 0 <= d <= PI * Rmax a b.
Proof.
  intros flat a b x1 y1 x2 y2 tol az baz s PA PB HT H1 H2 NZ T0 HX H. unfold inverse in H.
  destruct (req y1 y2 && req y2 0) eqn:Z; [exfalso; apply andb_true_iff in Z; rewrite !req_t in Z; apply NZ; lra|].
  destruct (canonicalf x1 y1 x2 y2) as [[[yf xf] ys] [[[z y1c] x2c] y2c]] eqn:E.
  destruct (canonical_spec _ _ _ _ _ _ _ _ _ _ _ H1 H2 NZ E) as (Y1 & Y2 & X1 & [k XK] & U).
  destruct (canonical_reduced a b y1c y2c PA PB Y1 Y2) as (L1 & L2 & CL). cbv zeta in *.
  destruct (solve_inverse flat a b y1c x2c y2c tol) as [[[al so] w]|] eqn:SV; [|discriminate]. cbn [andthen] in H. rewrite finish_undo in H.
  assert (W : w = false) by (destruct (undo yf xf ys al (s_alpha2 so)); injection H; auto). subst w.
  apply Rabs_le_between in Y2 as Y2'.
  destruct (solve_found flat a b y1c x2c y2c tol al so PA PB HT X1 ltac:(lra) T0) as [S F]; [|exact CL|exact SV|].
  { destruct HX as [[m HX]|HX].
    - destruct (Req_dec x2c 0) as [|W]; [left; assumption|]. exfalso. replace (x2 - x1 + 360 * IZR k) with (0 + 360 * IZR (k - m)) in XK by (rewrite minus_IZR; lra).
      assert (W2 : (k - m)%Z = 0%Z).
      { apply Rabs_right in XK || idtac. assert (B : Rabs (360 * IZR (k - m)) <= 180) by (rewrite <- (Rplus_0_l (360 * _)), XK; lra).
        apply Rabs_le_between in B. assert (-1 < IZR (k - m) < 1) as [B1 B2] by lra. apply lt_IZR in B1. apply lt_IZR in B2. lia. }
      rewrite W2, Rmult_0_r, Rplus_0_r, Rabs_R0 in XK. congruence.
    - right. specialize (HX k). rewrite <- XK. replace (rad (Rabs (x2 - x1 + 360 * IZR k))) with (Rabs (rad (x2 - x1 + 360 * IZR k))); [exact HX|].
      unfold rad. pose proof PI_RGT_0. unfold Rdiv. rewrite !Rabs_mult, (Rabs_right PI), (Rabs_right (/ 180)) by lra. reflexivity. }
  destruct (found_geodesic S a b _ _ _ _ _ _ _ _ PA PB HT L1 L2 F) as (dl & d & G & D1 & D2 & D3 & _).
  specialize (U a b al (s_alpha2 so) dl d PA PB G). destruct (undo yf xf ys al (s_alpha2 so)) as [u1 u2].
  injection H as <- <- <-. destruct (deg_congr u1) as [A1' A2']. destruct (deg_congr (u2 + PI)) as [B1' B2']. cbv zeta in *.
  split; [exact A1'|]. split; [exact B1'|]. destruct U as (dl' & DD & GG). exists dl', d. split.
  { eapply geodesic_congr; [| | |exact GG]; [apply congr_sym; exact A2'|exists 0%Z; ring|].
    destruct B2' as [m B2']. rewrite B2'. exists (- m - 1)%Z. rewrite minus_IZR, opp_IZR. cbn [IZR]. ring. }
  split; [|split; assumption]. rewrite DD. eapply Rle_trans; [exact D1|]. apply Rplus_le_compat_l.
  apply Rmult_le_compat_r; [apply pow_le, Rabs_pos|]. destruct F as (C & _ & _ & _ & N & _).
  assert (Rabs S <= 1) by (apply Rabs_le; pose proof (pow2_ge_0 C); nra). pose proof (Rabs_pos (flattening a b)). pose proof (Rabs_pos S). nra.
Qed.
(** Along the meridians the directions are exact. *)
Lemma inverse_meridian : forall flat a b x1 y1 x2 y2 tol, 0 < a -> 0 < b -> Rabs (third a b) <= 1 / 10 ->
  -90 < y1 < 90 -> -90 < y2 < 90 -> ~ (y1 = 0 /\ y2 = 0) -> congd x2 x1 \/ congd x2 (x1 + 180) ->
  exists az baz s, inverse flat a b x1 y1 x2 y2 tol = Done (az, baz, s, false) /\ -180 <= az < 180 /\ -180 <= baz < 180 /\
  exists d, geodesic a b (rad x1) (rad y1) (rad az) (rad x2) (rad y2) (rad baz + PI) d /\
    Rabs (s - d) <= 68 * b * Rabs (third a b) ^ 7 /\ 0 <= d <= geodesic_length a b 1 0 PI.
Proof.
  intros flat a b x1 y1 x2 y2 tol PA PB HT H1 H2 NZ HX. unfold inverse.
  destruct (req y1 y2 && req y2 0) eqn:Z; [exfalso; apply andb_true_iff in Z; rewrite !req_t in Z; apply NZ; lra|].
  destruct (canonicalf x1 y1 x2 y2) as [[[yf xf] ys] [[[z y1c] x2c] y2c]] eqn:E.
  destruct (canonical_spec _ _ _ _ _ _ _ _ _ _ _ H1 H2 NZ E) as (Y1 & Y2 & X1 & [k XK] & U).
  destruct (canonical_reduced a b y1c y2c PA PB Y1 Y2) as (L1 & L2 & CL). cbv zeta in *. apply Rabs_le_between in Y2 as Y2'.
  assert (XC : x2c = 0 \/ x2c = 180).
  { destruct HX as [[m HX]|[m HX]].
    - left. replace (x2 - x1 + 360 * IZR k) with (360 * IZR (k + m)) in XK by (rewrite plus_IZR; lra).
      assert (B : Rabs (360 * IZR (k + m)) <= 180) by lra. apply Rabs_le_between in B.
      assert (-1 < IZR (k + m) < 1) as [B1 B2] by lra. apply lt_IZR in B1. apply lt_IZR in B2. replace (k + m)%Z with 0%Z in XK by lia.
      rewrite Rmult_0_r, Rabs_R0 in XK. congruence.
    - right. replace (x2 - x1 + 360 * IZR k) with (180 + 360 * IZR (k + m)) in XK by (rewrite plus_IZR; lra).
      assert (B : Rabs (180 + 360 * IZR (k + m)) <= 180) by lra. apply Rabs_le_between in B.
      assert (-2 < IZR (k + m) < 1) as [B1 B2] by lra. apply lt_IZR in B1. apply lt_IZR in B2.
      assert (C : (k + m = 0 \/ k + m = -1)%Z) by lia. destruct C as [C|C]; rewrite C in XK; [rewrite Rabs_right in XK by lra|rewrite Rabs_left in XK by lra]; lra. }
  assert (HM : x2c = 0 \/ Rabs (rad x2c - PI) < 1 / 1000000000000).
  { destruct XC as [X|X]; [left; exact X|right]. rewrite X. replace (rad 180 - PI) with 0 by (unfold rad; field). rewrite Rabs_R0. lra. }
  destruct (solve_meridian flat a b y1c x2c y2c tol HM X1 ltac:(lra) CL) as (al & so & SV & lam & F & F0 & F1). rewrite SV. cbn [andthen].
  assert (LE : lam = rad x2c).
  { destruct XC as [X|X]; [rewrite (F0 X), X; unfold rad; field|rewrite F1, X by lra; unfold rad; field]. }
  destruct (found_geodesic 0 a b _ _ _ _ _ _ _ _ PA PB HT L1 L2 F) as (dl & d & G & D1 & D2 & D3 & D4). specialize (D4 eq_refl). rewrite LE in G.
  rewrite Rabs_R0, Rmult_0_r, Rmult_0_l, Rplus_0_l in D1.
  specialize (U a b al (s_alpha2 so) dl d PA PB G). rewrite finish_undo. destruct (undo yf xf ys al (s_alpha2 so)) as [u1 u2].
  do 3 eexists. split; [reflexivity|]. destruct (deg_congr u1) as [A1' A2']. destruct (deg_congr (u2 + PI)) as [B1' B2']. cbv zeta in *.
  split; [exact A1'|]. split; [exact B1'|]. destruct U as (dl' & DD & GG). exists d. split; [|split; [exact D2|lra]].
  assert (DZ : dl' = 0). { destruct (Req_dec dl' 0) as [|W]; [assumption|]. apply Rabs_pos_lt in W. lra. } rewrite DZ, Rplus_0_r in GG.
  eapply geodesic_congr; [| | |exact GG]; [apply congr_sym; exact A2'|exists 0%Z; ring|].
  destruct B2' as [m B2']. rewrite B2'. exists (- m - 1)%Z. rewrite minus_IZR, opp_IZR. cbn [IZR]. ring.
Qed.
