(** Examples and findings about areas on ellipsoids. *)
From Coq Require Import List ZArith Reals Lra Lia Bool.
From Coquelicot Require Import Coquelicot.
From Verif Require Brent_Model.
From Verif Require Import GeomR_Model GeomR_Proofs Sphere_Model Sphere_Spec Sphere_Proofs Sphere_Area Geod_Model Geod_Spec Geod_Forward
  Geod_Series Geod_Bounds Geod_Revert Geod_Accurate Geod_Symm Geod_Unwrap Geod_Inverse Geod_Answer Geod_Round Geod_More Geod_Area Geod_Near
  Geod_AreaSpec Geod_AreaSeries Geod_AreaTrue Geod_AreaEdge Geod_AreaPoly Geod_AreaLow.
Import ListNotations.
Open Scope R_scope.

Lemma inverse_near : forall flat a b x1 y1 x2 y2, nearly_round a b -> -90 < y1 < 90 -> -90 < y2 < 90 -> 1 < Rabs (y1 + y2) -> 0 < Rabs (x2 - x1) < 179 ->
  exists az baz s, inverse flat a b x1 y1 x2 y2 (1 / 1000000000000) = Done (az, baz, s, false).
Proof.
  intros flat a b x1 y1 x2 y2 NR Y1 Y2 HY HX. pose proof PI_RGT_0 as P0. pose proof PI_4 as P4. pose proof PI2_3_2 as P3. unfold inverse.
  assert (Z : (req y1 y2 && req y2 0)%bool = false).
  { apply andb_false_iff. destruct (Req_dec y2 0) as [E|N]; [|right; apply req_f; exact N]. left. apply req_f. intros E1. rewrite E1, E, Rplus_0_r, Rabs_R0 in HY. lra. }
  rewrite Z, canonicalf_parts.
  assert (FX : folded_lon (x2 - x1) = Rabs (x2 - x1)).
  { unfold folded_lon. destruct HX as [_ HX]. apply Rabs_def2 in HX as HX'. rewrite (reduce_degr_unique (x2 - x1) (x2 - x1)); [|lra|exists 0%Z; cbn [IZR]; ring].
    rewrite (proj2 (rlt_f 180 (x2 - x1))) by lra. rewrite orb_false_r. destruct (rlt (x2 - x1) 0) eqn:L; rl L; [rewrite Rabs_left|rewrite Rabs_right]; lra. }
  rewrite FX. pose proof (ordered_ok y1 y2) as OK. pose proof (ordered_facts y1 y2 Y1 Y2) as YS. destruct (ordered_lats y1 y2) as [u w]. destruct OK as [U W]. destruct YS as (YS & YU).
  replace (rad y1 + rad y2) with (PI / 180 * (y1 + y2)) in YS by (unfold rad; field). rewrite Rabs_mult, (Rabs_right (PI / 180)) in YS by lra.
  assert (UN : u <> 0).
  { intros ->. rewrite Rabs_R0 in W. assert (W0 : w = 0) by (destruct (Req_dec w 0) as [E|E]; [exact E|apply Rabs_pos_lt in E; lra]). subst w. unfold rad in YS. replace (0 * PI / 180 + 0 * PI / 180) with 0 in YS by field. rewrite Rabs_R0 in YS. nra. }
  assert (UW : Rabs w <= - u) by (rewrite (Rabs_left u) in W; lra). cbn [fst snd].
  destruct (solve_near flat a b u (Rabs (x2 - x1)) w NR ltac:(lra) UW ltac:(lra) ltac:(rewrite YS; nra) ltac:(unfold rad; nra)) as (al & so & SV). change (1 / 1000000000000) with tol0.
  rewrite SV. cbn [andthen]. destruct (finish _ _ _ _) as [[az baz] s]. exists az, baz, s. reflexivity.
Qed.
Lemma near_oblate : 0 < nearly1 /\ nearly1 < 1 /\ Rabs (third 1 nearly1) <= 1 / 10.
Proof.
  unfold third, nearly1. split; [lra|]. split; [lra|]. rewrite Rabs_right.
  - apply Rmult_le_reg_r with (1 + (1 - 1 / 100000000000000)); [lra|]. unfold Rdiv at 1. rewrite Rmult_assoc, Rinv_l by lra. lra.
  - apply Rle_ge, Rmult_le_pos; [lra|]. apply Rlt_le, Rinv_0_lt_compat. lra.
Qed.
(** The second eccentricity squared bounds the error of areas. *)
Lemma err_bound : forall a b E K, 0 < b -> b < a -> a ^ 2 - b ^ 2 <= E * b ^ 2 -> 0 <= E -> b ^ 2 * E ^ 6 * (10 / 9009 + 512 / 3003 * E) <= K -> area_err a b <= K.
Proof.
  intros a b E K HB HA HE E0 HK. eapply Rle_trans; [|exact HK]. unfold area_err. pose proof (ep_pos a b HB HA) as EP. pose proof (b2_pos b HB) as B2. set (ep := (a ^ 2 - b ^ 2) / b ^ 2) in *.
  assert (LE : ep <= E). { unfold ep. apply Rmult_le_reg_r with (b ^ 2); [exact B2|]. unfold Rdiv. rewrite Rmult_assoc, Rinv_l by lra. lra. }
  assert (P6 : ep ^ 6 <= E ^ 6) by (apply pow_incr; lra). assert (0 < ep ^ 6) by (apply pow_lt; exact EP).
  apply Rmult_le_compat; [apply Rmult_le_pos; lra|lra| |lra]. apply Rmult_le_compat_l; lra.
Qed.
Lemma lon_bound : forall a b N K, 0 < b -> b < a -> a - b <= N * b -> 0 <= N <= 1 -> 2 / 1000000000000 + 140 * N ^ 7 <= K -> lon_err a b <= K.
Proof.
  intros a b N K HB HA HN N0 HK. eapply Rle_trans; [|exact HK]. unfold lon_err. apply Rplus_le_compat_l.
  assert (F : 0 <= flattening a b <= N).
  { unfold flattening. split; [apply Rmult_le_pos; [lra|apply Rlt_le, Rinv_0_lt_compat; lra]|]. apply Rmult_le_reg_r with a; [lra|]. unfold Rdiv. rewrite Rmult_assoc, Rinv_l by lra. nra. }
  assert (T : 0 <= third a b <= N).
  { unfold third. split; [apply Rmult_le_pos; [lra|apply Rlt_le, Rinv_0_lt_compat; lra]|]. apply Rmult_le_reg_r with (a + b); [lra|]. unfold Rdiv. rewrite Rmult_assoc, Rinv_l by lra. nra. }
  rewrite (Rabs_right (flattening a b)), (Rabs_right (third a b)) by lra. assert (P6 : 0 <= third a b ^ 6 <= N ^ 6) by (split; [apply pow_le|apply pow_incr]; lra).
  replace (140 * N ^ 7) with (140 * N * N ^ 6) by ring. apply Rmult_le_compat; lra.
Qed.
(** On the Earth (any of the usual reference ellipsoids close to WGS 84) the error is below a
    hundredth of a square metre per edge, and geodesics end within 3e-12 radians. *)
Lemma earth_errors : forall b, 6356752 <= b <= 6356753 -> area_err 6378137 b <= 1 / 100 /\ lon_err 6378137 b <= 3 / 1000000000000.
Proof.
  intros b HB. assert (B1 : 6356752 ^ 2 <= b ^ 2) by (apply pow_incr; lra). assert (B2 : b ^ 2 <= 6356753 ^ 2) by (apply pow_incr; lra). split.
  - apply (err_bound 6378137 b (67397 / 10000000)); [lra|lra| |lra|].
    + assert (E : 6378137 ^ 2 <= (1 + 67397 / 10000000) * 6356752 ^ 2) by lra. lra.
    + assert (E : 6356753 ^ 2 * ((67397 / 10000000) ^ 6 * (10 / 9009 + 512 / 3003 * (67397 / 10000000))) <= 1 / 100) by lra.
      eapply Rle_trans; [|exact E]. rewrite Rmult_assoc. apply Rmult_le_compat_r; lra.
  - apply (lon_bound 6378137 b (34 / 10000)); lra.
Qed.
Lemma near_errors : area_err 1 nearly1 <= 1 / 1000000 /\ lon_err 1 nearly1 <= 1 / 1000000.
Proof.
  destruct near_oblate as (N1 & N2 & _). split.
  - apply (err_bound 1 nearly1 (1 / 1000)); [exact N1|exact N2| |lra|]; unfold nearly1; lra.
  - apply (lon_bound 1 nearly1 (1 / 1000)); [exact N1|exact N2| |lra|]; unfold nearly1; lra.
Qed.

(* ---- an example in the north and one about the date line *)
Ltac near_edge := right; right; split; [unfold Rabs; destruct (Rcase_abs _); lra|apply inverse_near; [exact (proj2 earth_like)|lra|lra|unfold Rabs; destruct (Rcase_abs _); lra|unfold Rabs; destruct (Rcase_abs _); lra]].
Lemma triangle_applies : forall flat, (forall p, In p [(0, 10); (60, 20); (20, 40)] -> 0 <= snd p < 90) /\ forall e, In e (ring_edges [(0, 10); (60, 20); (20, 40)]) -> answered flat 1 nearly1 e.
Proof.
  intros flat. split.
  - intros p [<-|[<-|[<-|[]]]]; cbn [snd]; lra.
  - intros e [<-|[<-|[<-|[]]]]; cbn [answered]; near_edge.
Qed.
(** An edge along which the latitude of both ends is 30 degrees. *)
Lemma thirty : forall flat x1 x2, 15 <= x2 - x1 <= 30 -> exists v dl A, area_edge flat 1 nearly1 x1 30 x2 30 = Done v /\
  geodesic_over 1 nearly1 (rad x1) (rad 30) (rad x2 + dl) (rad 30) A /\ Rabs dl <= lon_err 1 nearly1 /\ 12 / 100 <= A /\ Rabs (v + A) <= 1 / 1000000.
Proof.
  intros flat x1 x2 HX. destruct near_oblate as (N1 & N2 & N3). destruct near_errors as [EA EL]. pose proof PI_RGT_0 as P0. pose proof PI_4 as P4. pose proof PI2_3_2 as P3.
  destruct (inverse_near flat 1 nearly1 x1 30 x2 30) as (az & baz & s & IV); [exact (proj2 earth_like)|lra|lra|rewrite Rabs_right; lra|rewrite Rabs_right; lra|].
  destruct (area_edge_over flat 1 nearly1 x1 30 x2 30 az baz s N1 N2 N3) as (v & dl & A & V & G & D & _ & B); try lra; [rewrite Rabs_right; lra|exact IV|].
  exists v, dl, A. split; [exact V|]. split; [exact G|]. split; [exact D|]. specialize (B ltac:(lra)). split; [|lra].
  fold (lon_err 1 nearly1) in D. assert (DL : Rabs dl <= 1 / 1000000) by lra. apply Rabs_le_between in DL.
  assert (DX : 249 / 1000 <= rad x2 + dl - rad x1 <= 1) by (unfold rad; split; [|nra]; assert (15 * PI / 180 <= (x2 - x1) * PI / 180) by nra; lra).
  pose proof (over_low 1 nearly1 _ _ _ _ A (rad 30) N1 N2 G ltac:(lra)) as L. assert (R30 : rad 30 = PI / 6) by (unfold rad; field). rewrite R30, sin_PI6 in L. specialize (L ltac:(lra) ltac:(lra) ltac:(lra)).
  eapply Rle_trans; [|exact L]. assert (B2 : 99 / 100 <= nearly1 ^ 2) by (unfold nearly1; lra).
  apply Rle_trans with (99 / 100 * (1 / 2) * (249 / 1000)); [lra|]. apply Rmult_le_compat; lra.
Qed.

(** The same polygon, with longitudes beyond 180 and with longitudes between -180 and 180. *)
Lemma dateline_area : forall flat, exists v, 23 / 100 <= v /\ polygon_area flat 1 nearly1 [(160, 0); (190, 0); (190, 30); (175, 30); (160, 30)] = Done v /\
  polygon_area flat 1 nearly1 [(160, 0); (-170, 0); (-170, 30); (175, 30); (160, 30)] = Done 0.
Proof.
  intros flat. destruct near_oblate as (N1 & N2 & _). destruct (thirty flat 160 175 ltac:(lra)) as (v & dl & A & V & _ & _ & AL & VB). destruct (thirty flat 175 190 ltac:(lra)) as (w & _ & _ & W & _).
  assert (VW : w = v).
  { rewrite area_edge_part in V, W. rewrite (proj2 (rlt_f 175 160)) in V by lra. rewrite (proj2 (rlt_f 190 175)) in W by lra. replace (190 - 175) with (175 - 160) in W by ring. rewrite V in W. injection W as <-. reflexivity. }
  subst w. exists (Rabs (2 * v)). apply Rabs_le_between in VB. split; [rewrite Rabs_left; lra|].
  assert (V1 : area_edge flat 1 nearly1 175 30 160 30 = Done (- v)) by (apply area_edge_back; exact V).
  assert (W1 : area_edge flat 1 nearly1 190 30 175 30 = Done (- v)) by (apply area_edge_back; exact W).
  assert (W2 : area_edge flat 1 nearly1 (-170) 30 175 30 = Done v).
  { pose proof (area_shift flat 1 nearly1 175 30 190 30 (-1) ltac:(lra) ltac:(lra)) as SH. rewrite W in SH. replace (190 + 360 * IZR (-1)) with (-170) in SH by (cbn [IZR]; lra).
    cbn [scaled andthen] in SH. apply area_edge_back in SH. rewrite SH. f_equal. ring. }
  split; apply polygon_done.
  - exists (-2 * v). split; [|rewrite <- Rabs_Ropp; f_equal; ring].
    change (ring_pairs [(160, 0); (190, 0); (190, 30); (175, 30); (160, 30)]) with [((160, 30), (160, 0)); ((160, 0), (190, 0)); ((190, 0), (190, 30)); ((190, 30), (175, 30)); ((175, 30), (160, 30))].
    rewrite !edges_cons. cbn [fst snd edges_area]. rewrite (meridian_edge flat 1 nearly1 160 30 0), (equator_edge flat 1 nearly1 160 190), (meridian_edge flat 1 nearly1 190 0 30), W1, V1 by lra. cbn [andthen]. f_equal. ring.
  - exists 0. split; [|symmetry; apply Rabs_R0].
    change (ring_pairs [(160, 0); (-170, 0); (-170, 30); (175, 30); (160, 30)]) with [((160, 30), (160, 0)); ((160, 0), (-170, 0)); ((-170, 0), (-170, 30)); ((-170, 30), (175, 30)); ((175, 30), (160, 30))].
    rewrite !edges_cons. cbn [fst snd edges_area]. rewrite (meridian_edge flat 1 nearly1 160 30 0), (equator_edge flat 1 nearly1 160 (-170)), (meridian_edge flat 1 nearly1 (-170) 0 30), W2, V1 by lra. cbn [andthen]. f_equal. ring.
Qed.
(** A rectangle about the equator, with its true area. *)
Lemma balanced_true : forall flat, polygon_area flat 1 nearly1 [(0, -30); (30, -30); (30, 30); (0, 30)] = Done 0 /\
  exists As, Forall2 (edge_over 1 nearly1 (lon_err 1 nearly1)) (ring_edges [(0, -30); (30, -30); (30, 30); (0, 30)]) As /\ 24 / 100 <= Rabs (total As).
Proof.
  intros flat. destruct near_oblate as (N1 & N2 & N3). destruct (err_pos 1 nearly1 N1 N2) as [_ LP]. destruct (thirty flat 0 30 ltac:(lra)) as (v & dl & A & V & G & D & AL & VB). split.
  - assert (V1 : area_edge flat 1 nearly1 30 30 0 30 = Done (- v)) by (apply area_edge_back; exact V).
    assert (V2 : area_edge flat 1 nearly1 0 (-30) 30 (-30) = Done v).
    { rewrite area_edge_part in V |- *. replace (ordered_lats (-30) (-30)) with (ordered_lats 30 30); [exact V|]. unfold ordered_lats.
      rewrite !(Rabs_right 30), !(Rabs_left (-30)) by lra. rewrite (proj2 (rlt_f 30 30)), (proj2 (rlt_f (- -30) (- -30))), (proj2 (rlt_t 0 30)), (proj2 (rlt_f 0 (-30))) by lra. f_equal; lra. }
    apply polygon_done. exists 0. split; [|symmetry; apply Rabs_R0].
    change (ring_pairs [(0, -30); (30, -30); (30, 30); (0, 30)]) with [((0, 30), (0, -30)); ((0, -30), (30, -30)); ((30, -30), (30, 30)); ((30, 30), (0, 30))].
    rewrite !edges_cons. cbn [fst snd edges_area]. rewrite (meridian_edge flat 1 nearly1 0 30 (-30)), V2, (meridian_edge flat 1 nearly1 30 (-30) 30), V1 by lra. cbn [andthen]. f_equal. ring.
  - exists [- A; 0; - A; 0]. split; [|cbn [total fold_right]; rewrite Rabs_left; lra].
    change (ring_edges [(0, -30); (30, -30); (30, 30); (0, 30)]) with [((0, -30), (30, -30)); ((30, -30), (30, 30)); ((30, 30), (0, 30)); ((0, 30), (0, -30))].
    constructor; [|constructor; [|constructor; [|constructor; [|constructor]]]]; right.
    + exists dl. split; [exact D|]. replace (rad (-30)) with (- rad 30) by (unfold rad; field). apply over_north; assumption.
    + exists 0. rewrite Rabs_R0, Rplus_0_r. split; [lra|]. apply meridian_over; assumption || lra.
    + exists (- dl). split; [rewrite Rabs_Ropp; exact D|]. apply over_back in G; [|assumption|assumption]. apply (over_turn _ _ (- dl)) in G. replace (rad 30 + dl + - dl) with (rad 30) in G by ring. exact G.
    + exists 0. rewrite Rabs_R0, Rplus_0_r. split; [lra|]. apply meridian_over; assumption || lra.
Qed.

(* ---- the coefficient *)
Lemma coefficient : exists a b p1 p2 al, 0 < b /\ b < a /\ forall flat, exists v l A, area_canonical flat a b p1 p2 al = Done v /\ geodesic_over a b 0 p1 l p2 A /\
  10 * (128 / 3003 * b ^ 2 * ((a ^ 2 - b ^ 2) / b ^ 2) ^ 7 * PI) < Rabs (v - A).
Proof.
  pose proof PI_RGT_0 as P0. pose proof PI_4 as P4. set (a := 1 + 1 / 100000). assert (HA : 1 < a) by (unfold a; lra).
  exists a, 1, (- atan a), 0, (PI / 2). split; [lra|]. split; [exact HA|]. intros flat.
  assert (F : 1 - flattening a 1 = / a) by (unfold flattening; field; lra).
  assert (RP : - (PI / 2) < - atan a < PI / 2) by (pose proof (atan_range a); lra).
  assert (RA : 0 < PI / 4 < PI / 2) by lra.
  pose proof (reduced_spec a 1 (- atan a) ltac:(lra) ltac:(lra) RP) as L1. pose proof (reduced_spec a 1 0 ltac:(lra) ltac:(lra) ltac:(lra)) as L2.
  set (be1 := reduced (flattening a 1) (- atan a)) in *. set (be2 := reduced (flattening a 1) 0) in *.
  assert (E1 : be1 = - (PI / 4)).
  { destruct L1 as (_ & RB & E). rewrite sin_neg, cos_neg in E. assert (CP : 0 < cos (atan a)) by (apply cos_gt_0; lra). assert (SP : sin (atan a) = a * cos (atan a)).
    { rewrite <- (tan_atan a) at 2. unfold tan. field. lra. }
    rewrite SP in E. assert (SB : sin (be1 + PI / 4) = 0).
    { rewrite sin_plus, cos_PI4, sin_PI4. assert (sin be1 + cos be1 = 0); [|nra]. apply (zero_right (a * cos (atan a))); [apply Rmult_lt_0_compat; lra|]. lra. }
    destruct (Rtotal_order (be1 + PI / 4) 0) as [LT|[EQ|GT]]; [|lra|].
    - assert (0 < sin (- (be1 + PI / 4))) by (apply sin_gt_0; lra). rewrite sin_neg in *. lra.
    - assert (0 < sin (be1 + PI / 4)) by (apply sin_gt_0; lra). lra. }
  assert (E2 : be2 = 0).
  { destruct L2 as (_ & RB & E). rewrite sin_0, cos_0 in E. apply sin_same_arc; [lra|lra|]. rewrite sin_0. apply (zero_right a); lra. }
  assert (S4 : 0 < sin (PI / 4)) by (apply sin_gt_0; lra). assert (CL : canonical_latitudes be1 be2).
  { unfold canonical_latitudes. rewrite E1, E2, cos_neg, sin_neg, sin_0, cos_0, Rabs_R0. pose proof (COS_bound (PI / 4)). assert (0 < cos (PI / 4)) by (apply cos_gt_0; lra). repeat split; lra. }
  destruct (canonical_value flat a 1 (- atan a) 0 (PI / 2) ltac:(lra) HA CL) as (v & s1 & s2 & o1 & o2 & al2 & VE & SP & CP & N & T1 & T2 & T3 & O1 & O2 & _ & VB).
  { rewrite sin_PI2. lra. } { fold be1 be2. rewrite E1, E2, sin_neg, sin_0. lra. }
  fold be1 be2 in SP, CP, N, O1, O2, VB. set (S := sin (azimuth0 flat (PI / 2) be1)) in *. set (C := cos (azimuth0 flat (PI / 2) be1)) in *.
  exists v, (o2 - o1 - RInt (lag a 1 S C) s1 s2), (area_below a 1 S C s1 s2). split; [exact VE|]. split.
  { exists S, C, s1, s2, o1, o2, be1, be2, (PI / 2), al2. do 5 (split; [assumption|]). split; [lra|]. split; [exists 0%Z; cbn [IZR]; ring|reflexivity]. }
  destruct O1 as (_ & _ & A3 & A4 & A5). destruct O2 as (_ & _ & B3 & _). rewrite E1 in A3, A4, A5. rewrite E2 in B3. rewrite sin_PI2, Rmult_1_r, cos_neg in A4. rewrite cos_PI2, Rmult_0_r in A5. rewrite sin_0 in B3.
  symmetry in A5, B3. apply zero_right in A5; [|exact CP]. apply zero_right in B3; [|exact CP].
  assert (Z2 : s2 = 0) by (apply sin_same_arc; [exact T2|lra|rewrite sin_0; exact B3]). assert (S2 : S * S = 1 / 2).
  { rewrite <- A4, cos_PI4. assert (0 < sqrt 2) by (apply sqrt_lt_R0; lra). pose proof (sqrt_sqrt 2 ltac:(lra)). transitivity (1 / (sqrt 2 * sqrt 2)); [field; lra|]. rewrite H0. reflexivity. }
  assert (C2 : C * C = 1 / 2) by lra. assert (CS : C = S) by nra.
  rewrite Z2, A5, cos_0 in VB. set (ep := (a ^ 2 - 1 ^ 2) / 1 ^ 2) in *. replace (C ^ 4 * (C * S) * (1 - 0)) with (C * C * (C * C) * (C * S)) in VB by ring. rewrite CS, S2 in VB.
  assert (EP : 0 < ep <= 3 / 100000) by (unfold ep, a; split; lra). assert (P6 : 0 < ep ^ 6) by (apply pow_lt; lra). assert (P7 : ep ^ 7 <= 3 / 100000 * ep ^ 6) by (replace (ep ^ 7) with (ep * ep ^ 6) by ring; apply Rmult_le_compat_r; lra).
  assert (P7' : 0 < ep ^ 7) by (apply pow_lt; lra). assert (SA : Rabs (0 - s1) <= 4) by (rewrite Rabs_right; lra). pose proof (Rabs_pos (0 - s1)).
  assert (B1 : 128 / 3003 * 1 ^ 2 * ep ^ 7 * Rabs (0 - s1) <= 128 / 3003 * 1 ^ 2 * ep ^ 7 * 4) by (apply Rmult_le_compat_l; lra).
  assert (B2 : 128 / 3003 * 1 ^ 2 * ep ^ 7 * PI <= 128 / 3003 * 1 ^ 2 * ep ^ 7 * 4) by (apply Rmult_le_compat_l; lra).
  rewrite Z2, CS.
  set (Ar := area_below a 1 S S s1 0) in *. apply Rabs_le_between in VB. rewrite Rabs_left; lra.
Qed.
