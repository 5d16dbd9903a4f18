(** Intersections of great circle segments. *)
From Coq Require Import List ZArith Reals Bool Arith Lia Lra Psatz.
From Verif Require Import Geom_Model GeomR_Model GeomR_Spec GeomR_Proofs Sphere_Model Sphere_Spec Sphere_Proofs Sphere_Dist Sphere_Bnd.
From Verif Require TerrainR_Model TerrainR_Proofs.
Import ListNotations.
Open Scope R_scope.

Lemma congd_refl : forall x, congd x x. Proof. intros. exists 0%Z. ring. Qed.
Lemma congd_sym : forall x y, congd x y -> congd y x.
Proof. intros x y [k K]. exists (- k)%Z. rewrite opp_IZR. lra. Qed.
Lemma congd_trans : forall x y z, congd x y -> congd y z -> congd x z.
Proof. intros x y z [k K] [j J]. exists (k + j)%Z. rewrite plus_IZR. lra. Qed.
Lemma congd_add : forall x y c, congd x y -> congd (x + c) (y + c).
Proof. intros x y c [k K]. exists k. lra. Qed.
Lemma congd_shift : forall x y c, congd (x - c) y -> congd x (c + y).
Proof. intros x y c [k K]. exists k. lra. Qed.
Lemma congd_unshift : forall x y c, congd x (c + y) -> congd (x - c) y.
Proof. intros x y c [k K]. exists k. lra. Qed.
Lemma between_spec : forall x x0 x1, isbetween_circularr x x0 x1 = true <-> lon_between x x0 x1.
Proof.
  assert (ONE : forall x x0 x1, unroll_degr (x1 - x0) <= 180 -> (rle 0 (reduce_degr (x - x0)) && rle (reduce_degr (x - x0)) (reduce_degr (x1 - x0)) = true <->
     exists s d, 0 <= s <= d /\ d < 180 /\ congd x1 (x0 + d) /\ congd x (x0 + s))).
  { intros x x0 x1 U. destruct (unroll_degr_spec (x1 - x0)) as [UB UC]. destruct (reduce_degr_spec (x1 - x0)) as [RB RC].
    destruct (reduce_degr_spec (x - x0)) as [XB XC]. split.
    - intros H. apply andb_prop in H. destruct H as [H1 H2]. apply rle_t in H1, H2.
      exists (reduce_degr (x - x0)), (reduce_degr (x1 - x0)). split; [lra|]. split; [lra|]. split; apply congd_shift; assumption.
    - intros (s & d & S & D & C1 & C2). apply congd_unshift in C1, C2.
      rewrite (reduce_degr_unique (x1 - x0) d) by (try lra; assumption). rewrite (reduce_degr_unique (x - x0) s) by (try lra; assumption).
      apply andb_true_intro. split; apply rle_t; lra. }
  intros x x0 x1. unfold isbetween_circularr. destruct (unroll_degr_spec (x1 - x0)) as [UB UC].
  assert (REV : forall d, 0 <= d < 180 -> congd x0 (x1 + d) -> unroll_degr (x1 - x0) <= 180 -> d = 0 /\ congd x1 x0).
  { intros d D C U. assert (C' : congd (x1 - x0) (- d)). { destruct C as [k K]. exists (- k)%Z. rewrite opp_IZR. lra. }
    destruct (Req_dec d 0) as [Z|Z].
    - split; [exact Z|]. destruct C as [k K]. exists (- k)%Z. rewrite opp_IZR. lra.
    - exfalso. rewrite (unroll_degr_unique (x1 - x0) (360 - d)) in U; [lra|lra|]. destruct C' as [k K]. exists (k - 1)%Z. rewrite minus_IZR. lra. }
  destruct (rlt 180 (unroll_degr (x1 - x0))) eqn:E.
  - apply rlt_t in E. cbv beta iota.
    assert (U : unroll_degr (x0 - x1) <= 180).
    { rewrite (unroll_degr_unique (x0 - x1) (360 - unroll_degr (x1 - x0))); [lra|lra|]. destruct UC as [k K]. exists (- k - 1)%Z. rewrite minus_IZR, opp_IZR. lra. }
    rewrite (ONE x x1 x0 U). split.
    + intros (s & d & S & D & C1 & C2). exists s, d. split; [exact S|]. split; [exact D|]. right. split; assumption.
    + intros (s & d & S & D & [[C1 C2]|[C1 C2]]); [|exists s, d; auto].
      exfalso. apply congd_unshift in C1. rewrite (unroll_degr_unique (x1 - x0) d) in E; [lra|lra|exact C1].
  - apply rlt_f in E. cbv beta iota. rewrite (ONE x x0 x1 E). split.
    + intros (s & d & S & D & C1 & C2). exists s, d. split; [exact S|]. split; [exact D|]. left. split; assumption.
    + intros (s & d & S & D & [[C1 C2]|[C1 C2]]); [exists s, d; auto|].
      destruct (REV d) as [Z C]; [lra|exact C1|exact E|]. subst d. assert (s = 0) by lra. subst s. exists 0, 0. split; [lra|]. split; [lra|].
      split; [rewrite Rplus_0_r; exact C|]. rewrite Rplus_0_r in *. eapply congd_trans; eassumption.
Qed.
(** Trigonometric functions of congruent longitudes. *)
Lemma congd_trig : forall x y, congd x y -> cos (rad x) = cos (rad y) /\ sin (rad x) = sin (rad y).
Proof.
  intros x y [k K]. assert (E : rad x = rad y + 2 * IZR k * PI) by (rewrite K; unfold rad; field).
  rewrite E. apply trig_period.
Qed.
Lemma pos_congd : forall x y lat, congd x y -> pos x lat = pos y lat.
Proof. intros x y lat C. destruct (congd_trig _ _ C) as [A B]. unfold pos, upos. rewrite A, B. reflexivity. Qed.
Lemma rad_add : forall x y, rad (x + y) = rad x + rad y. Proof. intros. unfold rad. field. Qed.
Lemma sin_rad_nonneg : forall x, 0 <= x <= 180 -> 0 <= sin (rad x).
Proof. intros x H. pose proof PI_RGT_0. apply sin_ge_0; unfold rad; nra. Qed.
Lemma sin_rad_pos : forall x, 0 < x < 180 -> 0 < sin (rad x).
Proof. intros x H. pose proof PI_RGT_0. apply sin_gt_0; unfold rad; nra. Qed.
Lemma sin_rad_neg : forall x, -180 < x < 0 -> sin (rad x) < 0.
Proof. intros x H. pose proof PI_RGT_0. apply sin_lt_0_var; unfold rad; nra. Qed.
Lemma sin_rad_neg' : forall x, 180 < x < 360 -> sin (rad x) < 0.
Proof. intros x H. pose proof PI_RGT_0. apply sin_lt_0; unfold rad; nra. Qed.
(** The arc from longitude 0 to [d], seen from the first end. *)
Section Arc.
Variables l0 d ya yb yp o : R.
Hypothesis Ya : -90 < ya < 90.
Hypothesis Yb : -90 < yb < 90.
Hypothesis Yp : -90 < yp < 90.
Hypothesis D : 0 < d < 180.
Let A := pos l0 ya.
Let B := pos (l0 + d) yb.
Let P := pos (l0 + o) yp.
Lemma turn_zs : snd (vprod A P) = cos (rad ya) * cos (rad yp) * sin (rad o) /\ snd (vprod P B) = cos (rad yp) * cos (rad yb) * sin (rad (d - o)) /\
  snd (vprod A B) = cos (rad ya) * cos (rad yb) * sin (rad d).
Proof.
  unfold A, B, P, pos. rewrite !vprod_z, !rad_add. replace (rad (d - o)) with ((rad l0 + rad d) - (rad l0 + rad o)) by (unfold rad; field).
  replace (rad l0 + rad o - rad l0) with (rad o) by ring. replace (rad l0 + rad d - rad l0) with (rad d) by ring. repeat split; ring.
Qed.
Lemma arc_lon : 0 <= o < 360 -> on_arc3 A B P -> o <= d.
Proof.
  intros O (_ & s & t & S & T & E). destruct turn_zs as (Z1 & Z2 & Z3).
  pose proof (cos_rad_pos ya Ya) as Ca. pose proof (cos_rad_pos yb Yb) as Cb. pose proof (cos_rad_pos yp Yp) as Cp. pose proof (sin_rad_pos d D) as Sd.
  assert (W1 : snd (vprod A P) = t * snd (vprod A B)) by (rewrite E; unfold vprod, vadd, vscale; cbn [fst snd]; ring).
  assert (W2 : snd (vprod P B) = s * snd (vprod A B)) by (rewrite E; unfold vprod, vadd, vscale; cbn [fst snd]; ring).
  rewrite Z1, Z3 in W1. rewrite Z2, Z3 in W2.
  assert (K : 0 < cos (rad ya) * cos (rad yb) * sin (rad d)) by (repeat apply Rmult_lt_0_compat; assumption).
  assert (K1 : 0 < cos (rad ya) * cos (rad yp)) by (apply Rmult_lt_0_compat; assumption).
  assert (K2 : 0 < cos (rad yp) * cos (rad yb)) by (apply Rmult_lt_0_compat; assumption).
  assert (S1 : 0 <= sin (rad o)). { apply Rmult_le_reg_l with (cos (rad ya) * cos (rad yp)); [exact K1|]. rewrite W1, Rmult_0_r. apply Rmult_le_pos; lra. }
  assert (S2 : 0 <= sin (rad (d - o))). { apply Rmult_le_reg_l with (cos (rad yp) * cos (rad yb)); [exact K2|]. rewrite W2, Rmult_0_r. apply Rmult_le_pos; lra. }
  destruct (Rle_lt_dec o 180) as [O1|O1]; [|pose proof (sin_rad_neg' o ltac:(lra)); lra].
  destruct (Rle_lt_dec o d) as [O2|O2]; [exact O2|]. pose proof (sin_rad_neg (d - o) ltac:(lra)). lra.
Qed.
Lemma lon_arc : 0 <= o <= d -> dot (vprod A B) P = 0 -> on_arc3 A B P.
Proof.
  intros O PL. split; [apply upos_unit|].
  pose proof (cos_rad_pos ya Ya) as Ca. pose proof (cos_rad_pos yb Yb) as Cb. pose proof (cos_rad_pos yp Yp) as Cp. pose proof (sin_rad_pos d D) as Sd.
  pose proof (sin_rad_nonneg o ltac:(lra)) as So. pose proof (sin_rad_nonneg (d - o) ltac:(lra)) as Sdo.
  exists (cos (rad yp) * sin (rad (d - o)) / (cos (rad ya) * sin (rad d))), (cos (rad yp) * sin (rad o) / (cos (rad yb) * sin (rad d))).
  assert (DIV : forall x y, 0 <= x -> 0 < y -> 0 <= x / y).
  { intros x y X Y. unfold Rdiv. apply Rmult_le_pos; [exact X|]. left. apply Rinv_0_lt_compat, Y. }
  split; [apply DIV; [apply Rmult_le_pos; lra|apply Rmult_lt_0_compat; assumption]|].
  split; [apply DIV; [apply Rmult_le_pos; lra|apply Rmult_lt_0_compat; assumption]|].
  unfold A, B, P, pos, upos, vadd, vscale, dot, vprod in *. cbn [fst snd] in *.
  revert PL. rewrite !rad_add. replace (rad (d - o)) with (rad d - rad o) by (unfold rad; field). rewrite !sin_plus, !cos_plus, !sin_minus. intros PL.
  set (sa := sin (rad ya)) in *. set (ca := cos (rad ya)) in *. set (sb := sin (rad yb)) in *. set (cb := cos (rad yb)) in *.
  set (sp := sin (rad yp)) in *. set (cp := cos (rad yp)) in *. set (sd := sin (rad d)) in *. set (cd := cos (rad d)) in *.
  set (so := sin (rad o)) in *. set (co := cos (rad o)) in *.
  pose proof (sin2_cos2 (rad l0)) as Q. unfold Rsqr in Q. set (s0 := sin (rad l0)) in *. set (c0 := cos (rad l0)) in *.
  apply v3_eq.
  - field. repeat split; lra.
  - field. repeat split; lra.
  - assert (F : sp * (ca * cb * sd) * (s0 * s0 + c0 * c0) = (sa * cb * cp * (sd * co - cd * so) + sb * ca * cp * so) * (s0 * s0 + c0 * c0)) by (clearbody sa ca sb cb sp cp sd cd so co s0 c0; nra).
    rewrite Q, !Rmult_1_r in F. apply Rmult_eq_reg_r with (ca * cb * sd); [|apply Rgt_not_eq; repeat apply Rmult_lt_0_compat; assumption].
    rewrite F. field. repeat split; lra.
Qed.
End Arc.
Lemma between_sym : forall x a b, lon_between x a b -> lon_between x b a.
Proof. intros x a b (s & d & S & D & H). exists s, d. split; [exact S|]. split; [exact D|]. tauto. Qed.
Lemma congd_uniq : forall x a b, congd x a -> congd x b -> -360 < a - b < 360 -> a = b.
Proof.
  intros x a b [k K] [j J] H. apply (close_int 360 a b (j - k)); [lra| |exact H]. rewrite minus_IZR. lra.
Qed.
Lemma congd_plus : forall x y c e, congd x (y + c) -> congd y e -> congd x (e + c).
Proof. intros x y c e [k K] [j J]. exists (k + j)%Z. rewrite plus_IZR. lra. Qed.
Lemma arc_forward : forall l0 l1 d ya yb lon lat, -90 < ya < 90 -> -90 < yb < 90 -> -90 < lat < 90 -> 0 < d < 180 -> congd l1 (l0 + d) ->
  (on_arc3 (pos l0 ya) (pos l1 yb) (pos lon lat) <-> lon_between lon l0 l1 /\ dot (vprod (pos l0 ya) (pos l1 yb)) (pos lon lat) = 0).
Proof.
  intros l0 l1 d ya yb lon lat Ya Yb Yl D C. rewrite (pos_congd l1 (l0 + d) yb C).
  destruct (unroll_degr_spec (lon - l0)) as [OB OC]. set (o := unroll_degr (lon - l0)) in *. apply congd_shift in OC.
  rewrite (pos_congd lon (l0 + o) lat OC). split.
  - intros H. split.
    + pose proof (arc_lon l0 d ya yb lat o Ya Yb Yl D OB H) as L. exists o, d. split; [lra|]. split; [lra|]. left. split; assumption.
    + destruct H as (_ & s & t & _ & _ & E). rewrite E. unfold dot, vprod, vadd, vscale. cbn [fst snd]. ring.
  - intros [(s & e & S & E & H) PL]. apply lon_arc; try assumption.
    destruct H as [[H1 H2]|[H1 H2]].
    + assert (e = d). { assert (Q := congd_uniq l1 (l0 + e) (l0 + d) H1 C). assert (l0 + e = l0 + d) by (apply Q; lra). lra. }
      assert (l0 + o = l0 + s) by (apply (congd_uniq lon); [assumption|assumption|lra]). lra.
    + exfalso. destruct C as [k K]. destruct H1 as [j J]. assert (Z : d + e = 0 + 360 * IZR (- (k + j))). { rewrite opp_IZR, plus_IZR. lra. }
      apply (close_int 360 (d + e) 0) in Z; lra.
Qed.
Lemma arc_iff : forall a b lon lat, -90 < snd a < 90 -> -90 < snd b < 90 -> -90 < lat < 90 -> apart a b ->
  (on_arc3 (pos (fst a) (snd a)) (pos (fst b) (snd b)) (pos lon lat) <->
   lon_between lon (fst a) (fst b) /\ dot (vprod (pos (fst a) (snd a)) (pos (fst b) (snd b))) (pos lon lat) = 0).
Proof.
  intros [l0 ya] [l1 yb] lon lat Ya Yb Yl (d & D & [C|C]); cbn [fst snd] in *.
  - apply (arc_forward l0 l1 d); try assumption; lra.
  - pose proof (arc_forward l1 l0 d yb ya lon lat Yb Ya Yl ltac:(lra) C) as H.
    assert (F : forall u v p, dot (vprod u v) p = 0 <-> dot (vprod v u) p = 0).
    { intros u v p. assert (E : dot (vprod u v) p = - dot (vprod v u) p) by (unfold dot, vprod; cbn [fst snd]; ring). rewrite E. split; lra. }
    rewrite F. split.
    + intros Q. apply arc_swap, H in Q. destruct Q as [Q1 Q2]. split; [apply between_sym, Q1|exact Q2].
    + intros [Q1 Q2]. apply arc_swap, H. split; [apply between_sym, Q1|exact Q2].
Qed.
Lemma between_congd : forall x a b a' b', congd a a' -> congd b b' -> lon_between x a b -> lon_between x a' b'.
Proof.
  intros x a b a' b' CA CB (s & d & S & D & H). exists s, d. split; [exact S|]. split; [exact D|].
  destruct H as [[H1 H2]|[H1 H2]]; [left|right].
  - split; [|apply congd_plus with a; assumption]. apply congd_trans with b; [apply congd_sym, CB|]. apply congd_plus with a; assumption.
  - split; [|apply congd_plus with b; assumption]. apply congd_trans with a; [apply congd_sym, CA|]. apply congd_plus with b; assumption.
Qed.
Lemma apart_reduced : forall a b, apart a b -> 1 / 100000000 <= Rabs (reduce_degr (unroll_degr (fst b) - unroll_degr (fst a))).
Proof.
  intros a b (d & D & H).
  destruct (unroll_degr_spec (fst a)) as [_ CA]. destruct (unroll_degr_spec (fst b)) as [_ CB].
  destruct H as [C|C].
  - rewrite (reduce_degr_unique _ d); [rewrite Rabs_right; lra|lra|].
    destruct C as [k K], CA as [i I0], CB as [j J]. exists (k + i - j)%Z. rewrite minus_IZR, plus_IZR. lra.
  - rewrite (reduce_degr_unique _ (- d)); [rewrite Rabs_Ropp, Rabs_right; lra|lra|].
    destruct C as [k K], CA as [i I0], CB as [j J]. exists (i - k - j)%Z. rewrite !minus_IZR. lra.
Qed.
Lemma check_spec : forall pt a b, apart a b -> (check_in_segment_range pt a b = true <-> lon_between (fst pt) (fst a) (fst b)).
Proof.
  intros pt a b AP. unfold check_in_segment_range. rewrite (proj2 (rlt_f _ _) (apart_reduced a b AP)). cbn [andb].
  rewrite between_spec. destruct (unroll_degr_spec (fst a)) as [_ CA]. destruct (unroll_degr_spec (fst b)) as [_ CB].
  split; apply between_congd; try assumption; apply congd_sym; assumption.
Qed.
Lemma cross_vprod : forall u v, cross u v = vprod u v. Proof. reflexivity. Qed.
Lemma eulerpole_vprod : forall p q, eulerpole p q = vprod (pos (fst p) (snd p)) (pos (fst q) (snd q)).
Proof. intros. unfold eulerpole. rewrite !sph2cart_pos. reflexivity. Qed.
Lemma rad_neg : forall x, rad (- x) = - rad x. Proof. intros. unfold rad. field. Qed.
Lemma antipode : forall lon lat, pos (pymod (lon + 360) 360 - 180) (- lat) = vscale (-1) (pos lon lat) /\ congd (pymod (lon + 360) 360 - 180) (lon + 180).
Proof.
  intros lon lat.
  assert (C : congd (pymod (lon + 360) 360 - 180) (lon + 180)).
  { destruct (unroll_degr_spec (lon + 360)) as [_ [k K]]. exists (- k)%Z. rewrite opp_IZR. unfold unroll_degr in K. lra. }
  split; [|exact C]. rewrite (pos_congd _ _ _ C). unfold pos, upos, vscale. cbn [fst snd]. rewrite rad_add, rad_neg, cos_neg, sin_neg.
  replace (rad 180) with PI by (unfold rad; field). rewrite neg_cos, neg_sin. apply v3_eq; ring.
Qed.
Section Crossing.
Variables a b c d : rpt.
Hypothesis Ya : -90 < snd a < 90.
Hypothesis Yb : -90 < snd b < 90.
Hypothesis Yc : -90 < snd c < 90.
Hypothesis Yd : -90 < snd d < 90.
Hypothesis AB : apart a b.
Hypothesis CD : apart c d.
Hypothesis GOOD : good_crossing (crossing a b c d).
Let A := pos (fst a) (snd a).
Let B := pos (fst b) (snd b).
Let C := pos (fst c) (snd c).
Let D := pos (fst d) (snd d).
Lemma crossing_pos : exists lon lat m, 0 < m /\ cart2sph (cross (eulerpole a b) (eulerpole c d)) = Some (lon, lat) /\ -90 < lat < 90 /\
  crossing a b c d = vscale m (pos lon lat).
Proof.
  rewrite !eulerpole_vprod, cross_vprod. fold (crossing a b c d). destruct (crossing a b c d) as [[x y] z] eqn:E.
  destruct GOOD as (G1 & G2 & G3). cbn [fst snd] in *.
  destruct (cart2sph_spec x y z G1 G2 G3) as (lon & lat & E1 & E2 & _ & L). exists lon, lat, (sqrt (x * x + y * y + z * z)).
  split; [|split; [exact E1|split; [exact L|exact E2]]].
  apply sqrt_lt_R0. pose proof (Rle_0_sqr z). unfold Rsqr in *. pose proof (norm_pos x y G3) as N.
  assert (0 < x * x + y * y); [|lra]. destruct (Rle_lt_dec (x * x + y * y) 0) as [K|K]; [|exact K].
  rewrite sqrt_neg_0 in N by exact K. lra.
Qed.
Lemma crossing_planes : forall m lon lat, 0 < m -> crossing a b c d = vscale m (pos lon lat) ->
  dot (vprod A B) (pos lon lat) = 0 /\ dot (vprod C D) (pos lon lat) = 0.
Proof.
  intros m lon lat M E.
  assert (F : forall w, dot w (crossing a b c d) = m * dot w (pos lon lat)) by (intros; rewrite E; unfold dot, vscale; cbn [fst snd]; ring).
  assert (F1 : dot (vprod A B) (crossing a b c d) = 0) by (unfold crossing, A, B, dot, vprod; cbn [fst snd]; ring).
  assert (F2 : dot (vprod C D) (crossing a b c d) = 0) by (unfold crossing, C, D, dot, vprod; cbn [fst snd]; ring).
  rewrite F in F1, F2. split; apply Rmult_eq_reg_l with m; lra.
Qed.
Lemma dot_neg : forall w p, dot w p = 0 -> dot w (vscale (-1) p) = 0.
Proof. intros w p H. transitivity (- dot w p); [unfold dot, vscale; cbn [fst snd]; ring|rewrite H; ring]. Qed.
Lemma intersection_sound : forall q, intersection_spherical a b c d = Point_ q ->
  -90 < snd q < 90 /\ on_arc3 A B (pos (fst q) (snd q)) /\ on_arc3 C D (pos (fst q) (snd q)).
Proof.
  intros q H. destruct crossing_pos as (lon & lat & m & M & E1 & L & E2). destruct (crossing_planes m lon lat M E2) as [P1 P2].
  unfold intersection_spherical in H. rewrite E1 in H. destruct (antipode lon lat) as [AN _].
  destruct (check_in_segment_range (lon, lat) a b && check_in_segment_range (lon, lat) c d) eqn:K1.
  - injection H as <-. cbn [fst snd]. apply andb_prop in K1. destruct K1 as [K1 K2]. apply check_spec in K1, K2; try assumption.
    split; [exact L|]. split; apply arc_iff; try assumption; split; assumption.
  - destruct (check_in_segment_range (_, - lat) a b && check_in_segment_range (_, - lat) c d) eqn:K2; [|discriminate].
    injection H as <-. cbn [fst snd]. apply andb_prop in K2. destruct K2 as [K2 K3]. apply check_spec in K2, K3; try assumption. cbn [fst snd] in *.
    split; [lra|]. split; (apply arc_iff; [assumption|assumption|lra|assumption|]); (split; [assumption|]); rewrite AN; apply dot_neg; assumption.
Qed.
Lemma parallel : forall n p, dot n n = 1 -> dot p p = 1 -> vprod n p = (0, 0, 0) -> p = n \/ p = vscale (-1) n.
Proof.
  intros [[n1 n2] n3] [[p1 p2] p3] N P V. unfold dot, vprod, vscale in *. cbn [fst snd] in *. injection V as V1 V2 V3.
  set (k := n1 * p1 + n2 * p2 + n3 * p3).
  assert (Q1 : p1 = k * n1). { transitivity (p1 * (n1 * n1 + n2 * n2 + n3 * n3)); [rewrite N; ring|]. unfold k. 
    transitivity (n1 * (n1 * p1) + n2 * (n2 * p1) + n3 * (n3 * p1)); [ring|]. replace (n2 * p1) with (n1 * p2) by lra. replace (n3 * p1) with (n1 * p3) by lra. ring. }
  assert (Q2 : p2 = k * n2). { transitivity (p2 * (n1 * n1 + n2 * n2 + n3 * n3)); [rewrite N; ring|]. unfold k.
    transitivity (n1 * (n1 * p2) + n2 * (n2 * p2) + n3 * (n3 * p2)); [ring|]. replace (n1 * p2) with (n2 * p1) by lra. replace (n3 * p2) with (n2 * p3) by lra. ring. }
  assert (Q3 : p3 = k * n3). { transitivity (p3 * (n1 * n1 + n2 * n2 + n3 * n3)); [rewrite N; ring|]. unfold k.
    transitivity (n1 * (n1 * p3) + n2 * (n2 * p3) + n3 * (n3 * p3)); [ring|]. replace (n1 * p3) with (n3 * p1) by lra. replace (n2 * p3) with (n3 * p2) by lra. ring. }
  assert (KK : k * k = 1). { transitivity (k * k * (n1 * n1 + n2 * n2 + n3 * n3)); [rewrite N; ring|]. rewrite <- P. rewrite Q1 at 1 2. rewrite Q2 at 1 2. rewrite Q3 at 1 2. ring. }
  assert (K : k = 1 \/ k = -1). { assert (Z : (k - 1) * (k + 1) = 0) by lra. apply Rmult_integral in Z. destruct Z; [left|right]; lra. }
  clearbody k. destruct K as [-> | ->]; [left|right]; apply v3_eq; lra.
Qed.
Lemma not_both_ends : forall u v p, snd (vprod u v) <> 0 -> on_arc3 u v p -> on_arc3 u v (vscale (-1) p) -> False.
Proof.
  intros u v p N (U & s & t & S & T & E) (_ & s' & t' & S' & T' & E').
  assert (Z : vadd (vscale (s + s') u) (vscale (t + t') v) = (0, 0, 0)).
  { assert (Q : vadd p (vscale (-1) p) = (0, 0, 0)) by (unfold vadd, vscale; cbn [fst snd]; apply v3_eq; ring).
    rewrite <- Q. rewrite E' , E. unfold vadd, vscale. cbn [fst snd]. apply v3_eq; ring. }
  assert (W1 : snd (vprod u (vadd (vscale (s + s') u) (vscale (t + t') v))) = (t + t') * snd (vprod u v)) by (unfold vprod, vadd, vscale; cbn [fst snd]; ring).
  assert (W2 : snd (vprod (vadd (vscale (s + s') u) (vscale (t + t') v)) v) = (s + s') * snd (vprod u v)) by (unfold vprod, vadd, vscale; cbn [fst snd]; ring).
  rewrite Z in W1, W2. unfold vprod in W1 at 1. unfold vprod in W2 at 1. cbn [fst snd] in W1, W2.
  assert (T0 : t + t' = 0). { apply Rmult_eq_reg_r with (snd (vprod u v)); [|exact N]. unfold vprod in *. cbn [fst snd] in *. lra. }
  assert (S0 : s + s' = 0). { apply Rmult_eq_reg_r with (snd (vprod u v)); [|exact N]. unfold vprod in *. cbn [fst snd] in *. lra. }
  assert (t = 0) by lra. assert (s = 0) by lra. subst s t. rewrite E in U. unfold dot, vadd, vscale in U. cbn [fst snd] in U. lra.
Qed.
Lemma apart_z : forall p q, -90 < snd p < 90 -> -90 < snd q < 90 -> apart p q -> snd (vprod (pos (fst p) (snd p)) (pos (fst q) (snd q))) <> 0.
Proof.
  intros p q Yp Yq (e & E & H). unfold pos. rewrite vprod_z. pose proof (cos_rad_pos _ Yp). pose proof (cos_rad_pos _ Yq). pose proof (sin_rad_pos e ltac:(lra)) as S.
  assert (SN : sin (rad (fst q) - rad (fst p)) <> 0).
  { destruct H as [K|K].
    - assert (K' : congd (fst q - fst p) e) by (apply congd_unshift, K). destruct (congd_trig _ _ K') as [_ Q].
      replace (rad (fst q) - rad (fst p)) with (rad (fst q - fst p)) by (unfold rad; field). rewrite Q. lra.
    - assert (K' : congd (fst p - fst q) e) by (apply congd_unshift, K). destruct (congd_trig _ _ K') as [_ Q].
      replace (rad (fst q) - rad (fst p)) with (- rad (fst p - fst q)) by (unfold rad; field). rewrite sin_neg. rewrite Q. lra. }
  repeat apply Rmult_integral_contrapositive_currified; try exact SN; apply Rgt_not_eq; assumption.
Qed.
Lemma intersection_complete : forall p, on_arc3 A B p -> on_arc3 C D p ->
  exists q, intersection_spherical a b c d = Point_ q /\ pos (fst q) (snd q) = p.
Proof.
  intros p HAB HCD. destruct crossing_pos as (lon & lat & m & M & E1 & L & E2). destruct (crossing_planes m lon lat M E2) as [P1 P2].
  destruct (antipode lon lat) as [AN ANC].
  assert (PP : dot p p = 1) by apply HAB.
  assert (D1 : dot (vprod A B) p = 0). { destruct HAB as (_ & s & t & _ & _ & E). rewrite E. unfold dot, vprod, vadd, vscale. cbn [fst snd]. ring. }
  assert (D2 : dot (vprod C D) p = 0). { destruct HCD as (_ & s & t & _ & _ & E). rewrite E. unfold dot, vprod, vadd, vscale. cbn [fst snd]. ring. }
  assert (PAR : vprod (pos lon lat) p = (0, 0, 0)).
  { assert (Q : vprod (crossing a b c d) p = (0, 0, 0)).
    { unfold crossing. fold A B C D. set (u := vprod A B) in *. set (v := vprod C D) in *.
      assert (T : vprod (vprod u v) p = vadd (vscale (dot u p) v) (vscale (- dot v p) u)) by (unfold vprod, vadd, vscale, dot; cbn [fst snd]; apply v3_eq; ring).
      rewrite T, D1, D2. unfold vadd, vscale. cbn [fst snd]. apply v3_eq; ring. }
    rewrite E2 in Q. revert Q. generalize (pos lon lat) as w. clear -M. intros [[w1 w2] w3]. destruct p as [[p1 p2] p3].
    unfold vprod, vscale. cbn [fst snd]. intros Q. injection Q as Q1 Q2 Q3. apply v3_eq; apply Rmult_eq_reg_l with m; lra. }
  unfold intersection_spherical. rewrite E1.
  destruct (parallel (pos lon lat) p (upos_unit _ _) PP PAR) as [K|K].
  - exists (lon, lat). cbn [fst snd]. split; [|symmetry; exact K]. rewrite K in HAB, HCD.
    apply arc_iff in HAB; try assumption. apply arc_iff in HCD; try assumption.
    rewrite (proj2 (check_spec (lon, lat) a b AB)) by apply HAB. rewrite (proj2 (check_spec (lon, lat) c d CD)) by apply HCD. reflexivity.
  - exists (pymod (lon + 360) 360 - 180, - lat). cbn [fst snd]. split; [|rewrite AN; symmetry; exact K].
    destruct (check_in_segment_range (lon, lat) a b && check_in_segment_range (lon, lat) c d) eqn:K1.
    + exfalso. apply andb_prop in K1. destruct K1 as [K1 _]. apply check_spec in K1; [|assumption]. cbn [fst] in K1.
      assert (H : on_arc3 A B (pos lon lat)) by (apply arc_iff; try assumption; split; assumption).
      apply (not_both_ends A B (pos lon lat)); [apply apart_z; assumption|exact H|]. rewrite <- K. exact HAB.
    + assert (K2 : p = pos (pymod (lon + 360) 360 - 180) (- lat)) by (rewrite AN; exact K). rewrite K2 in HAB, HCD.
      apply arc_iff in HAB; try assumption; try lra. apply arc_iff in HCD; try assumption; try lra.
      rewrite (proj2 (check_spec (_, - lat) a b AB)) by apply HAB. rewrite (proj2 (check_spec (_, - lat) c d CD)) by apply HCD. reflexivity.
Qed.
End Crossing.
(* ---- what goes wrong *)
Lemma south_latitude : forall a b c d q, snd (crossing a b c d) < - (1 / 10000) ->
  intersection_spherical a b c d = Point_ q -> 90 < Rabs (snd q).
Proof.
  intros a b c d q Z H. unfold intersection_spherical in H. rewrite !eulerpole_vprod, cross_vprod in H. fold (crossing a b c d) in H.
  destruct (crossing a b c d) as [[x y] z]. cbn [snd] in Z. unfold cart2sph in H.
  pose proof PI_RGT_0 as P.
  assert (RZ : rlt (1 / 10000) (Rabs z) = true) by (apply rlt_t; rewrite Rabs_left; lra). rewrite RZ in H.
  set (r := sqrt (x * x + y * y)) in *.
  destruct (Req_dec r 0) as [R0|R0].
  - exfalso. assert (X : x * x + y * y = 0). { apply sqrt_eq_0; [|exact R0]. pose proof (Rle_0_sqr x). pose proof (Rle_0_sqr y). unfold Rsqr in *. lra. }
    assert (X0 : x = 0). { apply Rsqr_0_uniq. unfold Rsqr. pose proof (Rle_0_sqr x). pose proof (Rle_0_sqr y). unfold Rsqr in *. lra. }
    rewrite X0, Rabs_R0 in H. rewrite (proj2 (rlt_f (1 / 10000) 0)) in H by lra. rewrite (proj2 (req_t r 0) R0) in H. discriminate.
  - assert (RP : 0 < r) by (pose proof (sqrt_pos (x * x + y * y)); fold r in H0; lra).
    rewrite (proj2 (req_f r 0) R0) in H.
    assert (T : atan (r / z) < 0). { rewrite <- atan_0. apply atan_increasing. assert (0 < r / - z) by (apply Rdiv_lt_0_compat; lra). replace (r / z) with (- (r / - z)) by (field; lra). lra. }
    assert (L : 90 < (5 / 10 * PI - atan (r / z)) * 180 / PI).
    { apply Rmult_lt_reg_r with PI; [exact P|]. replace ((5 / 10 * PI - atan (r / z)) * 180 / PI * PI) with ((5 / 10 * PI - atan (r / z)) * 180) by (field; lra). lra. }
    set (lat := (5 / 10 * PI - atan (r / z)) * 180 / PI) in *.
    destruct (rlt (1 / 10000) (Rabs x)); cbv iota beta in H;
    (destruct (_ && _) in H; [injection H as <-; cbn [snd]; rewrite Rabs_right; lra|]);
    (destruct (_ && _) in H; [injection H as <-; cbn [snd]; rewrite Rabs_left; lra|discriminate]).
Qed.
Lemma rad_45 : rad 45 = PI / 4. Proof. unfold rad. field. Qed.
Lemma rad_m45 : rad (-45) = - (PI / 4). Proof. unfold rad. field. Qed.
Lemma rad_90 : rad 90 = PI / 2. Proof. unfold rad. field. Qed.
Lemma half_sqrt2 : exists h, 7 / 10 < h < 71 / 100 /\ h * h = 1 / 2 /\ cos (PI / 4) = h /\ sin (PI / 4) = h.
Proof.
  exists (cos (PI / 4)). assert (E : cos (PI / 4) * cos (PI / 4) = 1 / 2).
  { rewrite cos_PI4. assert (S : sqrt 2 * sqrt 2 = 2) by (apply sqrt_sqrt; lra). assert (0 < sqrt 2) by (apply sqrt_lt_R0; lra).
    transitivity (1 / (sqrt 2 * sqrt 2)); [field; lra|]. rewrite S. reflexivity. }
  assert (P : 0 < cos (PI / 4)) by (apply cos_gt_0; pose proof PI_RGT_0; lra).
  split; [split; nra|]. split; [exact E|]. split; [reflexivity|]. rewrite sin_PI4, cos_PI4. reflexivity.
Qed.
(** A crossing in the south: the point returned is not a position. *)
Lemma south_crossing : exists q, intersection_spherical (-45, 0) (90, -45) (-45, -45) (45, -45) = Point_ q /\ 90 < snd q /\
  exists p, on_arc3 (pos (-45) 0) (pos 90 (-45)) p /\ on_arc3 (pos (-45) (-45)) (pos 45 (-45)) p.
Proof.
  pose proof PI_RGT_0 as P. destruct half_sqrt2 as (h & HB & HH & HC & HS).
  assert (EA : pos (-45) 0 = (h, - h, 0)). { unfold pos, upos. rewrite rad_0, rad_m45, cos_neg, sin_neg, cos_0, sin_0, HC, HS. apply v3_eq; ring. }
  assert (EB : pos 90 (-45) = (0, h, - h)). { unfold pos, upos. rewrite rad_90, rad_m45, cos_neg, sin_neg, cos_PI2, sin_PI2, HC, HS. apply v3_eq; ring. }
  assert (EC : pos (-45) (-45) = (1 / 2, - (1 / 2), - h)). { unfold pos, upos. rewrite rad_m45, cos_neg, sin_neg, HC, HS. apply v3_eq; lra. }
  assert (ED : pos 45 (-45) = (1 / 2, 1 / 2, - h)). { unfold pos, upos. rewrite rad_45, rad_m45, cos_neg, sin_neg, HC, HS. apply v3_eq; lra. }
  assert (EN : crossing (-45, 0) (90, -45) (-45, -45) (45, -45) = (1 / 4, h / 2 - 1 / 4, - (h / 2))).
  { unfold crossing. cbn [fst snd]. rewrite EA, EB, EC, ED. unfold vprod. cbn [fst snd]. apply v3_eq; nra. }
  assert (ATAN : 0 < atan ((h / 2 - 1 / 4) / (1 / 4)) < PI / 4).
  { rewrite <- atan_0 at 1. rewrite <- atan_1. split; apply atan_increasing; lra. }
  assert (AP1 : apart (-45, 0) (90, -45)) by (exists 135; split; [lra|]; left; exists 0%Z; cbn; lra).
  assert (AP2 : apart (-45, -45) (45, -45)) by (exists 90; split; [lra|]; left; exists 0%Z; cbn; lra).
  assert (R : exists q, intersection_spherical (-45, 0) (90, -45) (-45, -45) (45, -45) = Point_ q).
  { unfold intersection_spherical. rewrite !eulerpole_vprod, cross_vprod. fold (crossing (-45, 0) (90, -45) (-45, -45) (45, -45)). rewrite EN.
    unfold cart2sph. rewrite (proj2 (rlt_t (1 / 10000) (Rabs (- (h / 2))))) by (rewrite Rabs_left; lra).
    rewrite (proj2 (rlt_t (1 / 10000) (Rabs (1 / 4)))) by (rewrite Rabs_right; lra). cbv iota beta zeta.
    unfold atan2, TerrainR_Model.atan2. destruct (Rlt_dec 0 (1 / 4)) as [_|N]; [|lra].
    set (t := atan ((h / 2 - 1 / 4) / (1 / 4))) in *.
    assert (LB : 0 < t * 180 / PI < 45). { assert (E : t * 180 / PI * PI = t * 180) by (field; lra). split; apply Rmult_lt_reg_r with PI; lra. }
    set (lat := (5 / 10 * PI - _) * 180 / PI). set (lon := t * 180 / PI) in *.
    rewrite (proj2 (check_spec (lon, lat) (-45, 0) (90, -45) AP1)); [|exists (lon + 45), 135; split; [lra|]; split; [lra|]; left; split; exists 0%Z; cbn; lra].
    rewrite (proj2 (check_spec (lon, lat) (-45, -45) (45, -45) AP2)); [|exists (lon + 45), 90; split; [lra|]; split; [lra|]; left; split; exists 0%Z; cbn; lra].
    eexists. reflexivity. }
  destruct R as [q Q]. exists q. split; [exact Q|]. split.
  - (* the first candidate, so the latitude is above 90 *)
    revert Q. unfold intersection_spherical. rewrite !eulerpole_vprod, cross_vprod. fold (crossing (-45, 0) (90, -45) (-45, -45) (45, -45)). rewrite EN.
    unfold cart2sph. rewrite (proj2 (rlt_t (1 / 10000) (Rabs (- (h / 2))))) by (rewrite Rabs_left; lra).
    rewrite (proj2 (rlt_t (1 / 10000) (Rabs (1 / 4)))) by (rewrite Rabs_right; lra). cbv iota beta zeta.
    unfold atan2, TerrainR_Model.atan2. destruct (Rlt_dec 0 (1 / 4)) as [_|N]; [|lra].
    set (t := atan ((h / 2 - 1 / 4) / (1 / 4))) in *.
    assert (LB : 0 < t * 180 / PI < 45). { assert (E : t * 180 / PI * PI = t * 180) by (field; lra). split; apply Rmult_lt_reg_r with PI; lra. }
    set (lat := (5 / 10 * PI - _) * 180 / PI). set (lon := t * 180 / PI) in *.
    rewrite (proj2 (check_spec (lon, lat) (-45, 0) (90, -45) AP1)); [|exists (lon + 45), 135; split; [lra|]; split; [lra|]; left; split; exists 0%Z; cbn; lra].
    rewrite (proj2 (check_spec (lon, lat) (-45, -45) (45, -45) AP2)); [|exists (lon + 45), 90; split; [lra|]; split; [lra|]; left; split; exists 0%Z; cbn; lra].
    intros Q. injection Q as <-. cbn [snd]. unfold lat. set (r := sqrt _).
    assert (RP : 0 < r) by (apply sqrt_lt_R0; nra).
    assert (T : atan (r / - (h / 2)) < 0). { rewrite <- atan_0. apply atan_increasing. assert (0 < r / (h / 2)) by (apply Rdiv_lt_0_compat; lra). replace (r / - (h / 2)) with (- (r / (h / 2))) by (field; lra). lra. }
    apply Rmult_lt_reg_r with PI; [exact P|]. replace ((5 / 10 * PI - atan (r / - (h / 2))) * 180 / PI * PI) with ((5 / 10 * PI - atan (r / - (h / 2))) * 180) by (field; lra). lra.
  - set (m := sqrt (1 / 4 * (1 / 4) + (h / 2 - 1 / 4) * (h / 2 - 1 / 4) + h / 2 * (h / 2))).
    assert (MP : 0 < m) by (apply sqrt_lt_R0; nra). assert (MM : m * m = 1 / 4 * (1 / 4) + (h / 2 - 1 / 4) * (h / 2 - 1 / 4) + h / 2 * (h / 2)) by (apply sqrt_sqrt; nra).
    assert (U : dot (1 / 4 / m, (h / 2 - 1 / 4) / m, - (h / 2) / m) (1 / 4 / m, (h / 2 - 1 / 4) / m, - (h / 2) / m) = 1).
    { unfold dot. cbn [fst snd]. transitivity ((1 / 4 * (1 / 4) + (h / 2 - 1 / 4) * (h / 2 - 1 / 4) + h / 2 * (h / 2)) / (m * m)); [field; lra|]. rewrite <- MM. field. lra. }
    assert (DV : forall x, 0 <= x -> 0 <= x / m) by (intros; unfold Rdiv; apply Rmult_le_pos; [assumption|left; apply Rinv_0_lt_compat, MP]).
    exists (1 / 4 / m, (h / 2 - 1 / 4) / m, - (h / 2) / m). split; (split; [exact U|]).
    + exists (h / 2 / m), (1 / 2 / m). split; [apply DV; lra|]. split; [apply DV; lra|]. rewrite EA, EB. unfold vadd, vscale. cbn [fst snd].
      apply v3_eq; apply Rmult_eq_reg_r with m; try lra; (field_simplify; [|lra|lra]); try lra; replace (h ^ 2) with (h * h) by ring; rewrite ?HH; lra.
    + exists ((1 / 2 - h / 2) / m), (h / 2 / m). split; [apply DV; lra|]. split; [apply DV; lra|]. rewrite EC, ED. unfold vadd, vscale. cbn [fst snd].
      apply v3_eq; apply Rmult_eq_reg_r with m; try lra; (field_simplify; [|lra|lra]); try lra; replace (h ^ 2) with (h * h) by ring; rewrite ?HH; lra.
Qed.
(** A segment of a meridian that runs to the south meets nothing. *)
Lemma southward_check : forall pt lon hi lo, lo < hi -> check_in_segment_range pt (lon, hi) (lon, lo) = false.
Proof.
  intros pt lon hi lo H. unfold check_in_segment_range. cbn [fst snd].
  assert (E : reduce_degr (unroll_degr lon - unroll_degr lon) = 0) by (apply reduce_degr_unique; [lra|exists 0%Z; ring]). rewrite E, Rabs_R0.
  rewrite (proj2 (rlt_t 0 (1 / 100000000))) by lra. rewrite (proj2 (rlt_t 0 (Rabs (hi - lo)))) by (rewrite Rabs_right; lra). cbn [andb].
  destruct (rle hi (snd pt)) eqn:E1; [|rewrite andb_false_r; reflexivity].
  destruct (rle (snd pt) lo) eqn:E2; [|rewrite andb_false_r; reflexivity]. apply rle_t in E1, E2. lra.
Qed.
Lemma southward_nothing : forall lon hi lo c d q, lo < hi -> intersection_spherical (lon, hi) (lon, lo) c d <> Point_ q.
Proof.
  intros lon hi lo c d q H. unfold intersection_spherical. destruct (cart2sph _) as [[x y]|]; [|discriminate].
  rewrite !southward_check by exact H. cbn [andb]. discriminate.
Qed.
Lemma southward_meets : on_arc3 (pos 0 45) (pos 0 (-45)) (pos 0 0) /\ on_arc3 (pos (-45) 0) (pos 45 0) (pos 0 0).
Proof.
  destruct half_sqrt2 as (h & HB & HH & HC & HS).
  split; (split; [apply upos_unit|]); exists h, h; (split; [lra|]); (split; [lra|]); unfold pos, upos, vadd, vscale; cbn [fst snd];
    rewrite !rad_0, rad_45, rad_m45, cos_neg, sin_neg, cos_0, sin_0, HC, HS; apply v3_eq; lra.
Qed.
(** Short segments whose crossing lies west of 90W or east of 90E. *)
Lemma short_crossing : intersection_spherical (1349 / 10, 0) (1351 / 10, 0) (135, - (1 / 10)) (135, 1 / 10) = NoIntersection /\
  exists p, on_arc3 (pos (1349 / 10) 0) (pos (1351 / 10) 0) p /\ on_arc3 (pos 135 (- (1 / 10))) (pos 135 (1 / 10)) p.
Proof.
  pose proof PI_RGT_0 as P. destruct half_sqrt2 as (h & HB & HH & HC & HS).
  set (e := rad (1 / 10)).
  assert (EB : 0 < e < 3 / 1000) by (unfold e, rad; pose proof PI_4; split; lra).
  assert (E1 : rad (1349 / 10) = rad 135 - e) by (unfold e, rad; field). assert (E2 : rad (1351 / 10) = rad 135 + e) by (unfold e, rad; field).
  assert (E3 : rad (- (1 / 10)) = - e) by (unfold e, rad; field). fold e.
  assert (C135 : cos (rad 135) = - h). { replace (rad 135) with (PI - PI / 4) by (unfold rad; field). rewrite cos_minus, cos_PI, sin_PI, HC, HS. ring. }
  assert (S135 : sin (rad 135) = h). { replace (rad 135) with (PI - PI / 4) by (unfold rad; field). rewrite sin_minus, cos_PI, sin_PI, HC, HS. ring. }
  set (ce := cos e). set (se := sin e).
  assert (SE : 0 < se < 3 / 1000). { unfold se. pose proof PI2_1. split; [apply sin_gt_0; lra|]. pose proof (sin_lt_x e). lra. }
  assert (CE : 0 < ce <= 1). { unfold ce. pose proof PI2_1. split; [apply cos_gt_0; lra|apply COS_bound]. }
  assert (Q : se * se + ce * ce = 1) by (pose proof (sin2_cos2 e) as Q; exact Q).
  assert (EA : pos (1349 / 10) 0 = (h * (se - ce), h * (se + ce), 0)).
  { unfold pos, upos. rewrite E1, rad_0, cos_0, sin_0, cos_minus, sin_minus, C135, S135. fold ce se. apply v3_eq; ring. }
  assert (EBB : pos (1351 / 10) 0 = (- (h * (se + ce)), h * (ce - se), 0)).
  { unfold pos, upos. rewrite E2, rad_0, cos_0, sin_0, cos_plus, sin_plus, C135, S135. fold ce se. apply v3_eq; ring. }
  assert (EC : pos 135 (- (1 / 10)) = (- (h * ce), h * ce, - se)).
  { unfold pos, upos. rewrite E3, cos_neg, sin_neg, C135, S135. fold ce se. apply v3_eq; ring. }
  assert (ED : pos 135 (1 / 10) = (- (h * ce), h * ce, se)).
  { unfold pos, upos. fold e. fold ce se. rewrite C135, S135. apply v3_eq; ring. }
  set (k := 2 * (se * ce)).
  assert (KB : 0 < k < 6 / 1000) by (unfold k; split; nra).
  assert (EN : crossing (1349 / 10, 0) (1351 / 10, 0) (135, - (1 / 10)) (135, 1 / 10) = (- (k * k * h), k * k * h, 0)).
  { unfold crossing. cbn [fst snd]. rewrite EA, EBB, EC, ED. unfold vprod, k. cbn [fst snd].
    assert (Z : h * (se - ce) * (h * (ce - se)) - h * (se + ce) * - (h * (se + ce)) = 2 * (se * ce)).
    { transitivity (h * h * (4 * (se * ce))); [ring|]. rewrite HH. lra. }
    apply v3_eq.
    - transitivity (- ((h * (se - ce) * (h * (ce - se)) - h * (se + ce) * - (h * (se + ce))) * (2 * (se * ce) * h))); [ring|]. rewrite Z. ring.
    - transitivity ((h * (se - ce) * (h * (ce - se)) - h * (se + ce) * - (h * (se + ce))) * (2 * (se * ce) * h)); [ring|]. rewrite Z. ring.
    - ring. }
  split.
  - unfold intersection_spherical. rewrite !eulerpole_vprod, cross_vprod. fold (crossing (1349 / 10, 0) (1351 / 10, 0) (135, - (1 / 10)) (135, 1 / 10)). rewrite EN.
    assert (KH : 0 < k * k * h < 1 / 10000) by (split; nra). set (w := k * k * h) in *.
    unfold cart2sph. rewrite (proj2 (rlt_f (1 / 10000) (Rabs 0))) by (rewrite Rabs_R0; lra).
    rewrite (proj2 (rlt_f (1 / 10000) (Rabs (- w)))) by (rewrite Rabs_left; lra).
    assert (N0 : sqrt (- w * - w + w * w + 0 * 0) = w / h).
    { replace (- w * - w + w * w + 0 * 0) with (w / h * (w / h)). - apply sqrt_square. left. apply Rdiv_lt_0_compat; lra.
      - transitivity (w * w / (h * h)); [field; lra|]. rewrite HH. field. }
    assert (N1 : sqrt (- w * - w + w * w) = w / h) by (rewrite <- N0; f_equal; ring).
    assert (WH : 0 < w / h) by (apply Rdiv_lt_0_compat; lra).
    rewrite N0, N1. rewrite (proj2 (req_f (w / h) 0)) by lra.
    replace (0 / (w / h)) with 0 by (field; lra). replace (w / (w / h)) with h by (field; lra).
    rewrite acos_0. assert (AS : asin h = PI / 4) by (rewrite <- HS; apply asin_sin; lra). rewrite AS.
    assert (L1 : PI / 4 * 180 / PI = 45) by (field; lra). assert (L2 : (5 / 10 * PI - PI / 2) * 180 / PI = 0) by (field; lra). rewrite L1, L2.
    assert (AP : apart (1349 / 10, 0) (1351 / 10, 0)) by (exists (2 / 10); split; [lra|]; left; exists 0%Z; cbn; lra).
    assert (NB : forall x, (x = 45 \/ x = -135) -> ~ lon_between x (1349 / 10) (1351 / 10)).
    { intros x X (s & d & S & D & [[H1 H2]|[H1 H2]]).
      - assert (DD : d = 2 / 10). { assert (C : congd (1351 / 10) (1349 / 10 + 2 / 10)) by (exists 0%Z; lra). pose proof (congd_uniq _ _ _ H1 C). lra. }
        destruct X as [-> | ->].
        + assert (C : congd 45 45) by apply congd_refl. pose proof (congd_uniq _ _ _ H2 C). lra.
        + assert (C : congd (-135) 225) by (exists (-1)%Z; lra). pose proof (congd_uniq _ _ _ H2 C). lra.
      - assert (C : congd (1349 / 10) (1351 / 10 + (360 - 2 / 10))) by (exists (-1)%Z; lra). pose proof (congd_uniq _ _ _ H1 C). lra. }
    destruct (check_in_segment_range (45, 0) (1349 / 10, 0) (1351 / 10, 0)) eqn:K1; [exfalso; apply check_spec in K1; [|exact AP]; revert K1; apply NB; left; reflexivity|]. cbn [andb].
    assert (AN : pymod (45 + 360) 360 - 180 = -135). { rewrite (pymod_unique (45 + 360) 360 45 1%Z); lra. } rewrite AN.
    destruct (check_in_segment_range (-135, - 0) (1349 / 10, 0) (1351 / 10, 0)) eqn:K2; [exfalso; apply check_spec in K2; [|exact AP]; revert K2; apply NB; right; reflexivity|]. reflexivity.
  - exists (- h, h, 0). assert (U : dot (- h, h, 0) (- h, h, 0) = 1) by (unfold dot; cbn [fst snd]; lra).
    assert (IC : 0 <= / (2 * ce)) by (left; apply Rinv_0_lt_compat; lra).
    split; (split; [exact U|]); exists (/ (2 * ce)), (/ (2 * ce)); (split; [exact IC|]); (split; [exact IC|]).
    + rewrite EA, EBB. unfold vadd, vscale. cbn [fst snd]. apply v3_eq; field; lra.
    + rewrite EC, ED. unfold vadd, vscale. cbn [fst snd]. apply v3_eq; field; lra.
Qed.
Lemma good_example : apart (-45, 0) (90, 45) /\ apart (45, 45) (-45, 45) /\ good_crossing (crossing (-45, 0) (90, 45) (45, 45) (-45, 45)).
Proof.
  destruct half_sqrt2 as (h & HB & HH & HC & HS).
  split; [exists 135; split; [lra|]; left; exists 0%Z; cbn; lra|]. split; [exists 90; split; [lra|]; right; exists 0%Z; cbn; lra|].
  assert (EA : pos (-45) 0 = (h, - h, 0)). { unfold pos, upos. rewrite rad_0, rad_m45, cos_neg, sin_neg, cos_0, sin_0, HC, HS. apply v3_eq; ring. }
  assert (EB : pos 90 45 = (0, h, h)). { unfold pos, upos. rewrite rad_90, rad_45, cos_PI2, sin_PI2, HC, HS. apply v3_eq; ring. }
  assert (EC : pos (-45) 45 = (1 / 2, - (1 / 2), h)). { unfold pos, upos. rewrite rad_m45, rad_45, cos_neg, sin_neg, HC, HS. apply v3_eq; lra. }
  assert (ED : pos 45 45 = (1 / 2, 1 / 2, h)). { unfold pos, upos. rewrite rad_45, HC, HS. apply v3_eq; lra. }
  assert (EN : crossing (-45, 0) (90, 45) (45, 45) (-45, 45) = (1 / 4, h / 2 - 1 / 4, h / 2)).
  { unfold crossing. cbn [fst snd]. rewrite EA, EB, EC, ED. unfold vprod. cbn [fst snd]. apply v3_eq; nra. }
  rewrite EN. unfold good_crossing. cbn [fst snd]. split; [right; lra|]. split; [right; lra|left; lra].
Qed.
