(** Ellipsoids so close to a sphere that the first guess of the azimuth is good enough: cases in
    which [ellipsoidal_inverse] and [ellipsoidal_area] are known to answer. *)
From Coq Require Import List ZArith Reals Lra Lia Bool.
From Coquelicot Require Import Coquelicot.
From Verif Require Brent_Model.
From Verif Require Import GeomR_Model GeomR_Proofs Sphere_Model Sphere_Spec Sphere_Proofs Sphere_Area Geod_Model Geod_Spec Geod_Forward
  Geod_Series Geod_Bounds Geod_Revert Geod_Accurate Geod_Symm Geod_Unwrap Geod_Inverse Geod_Answer Geod_Round Geod_More Geod_Area.
Import List ZArith Reals Lra Lia Bool.
From Coquelicot Require Import Coquelicot.
From Verif Require Import Sphere_Model Sphere_Spec Sphere_Proofs Sphere_Area Geod_Model Geod_Spec Geod_Forward Geod_Series Geod_Bounds
  Geod_Accurate Geod_Unwrap Geod_Symm Geod_Inverse Geod_Answer Geod_Round Geod_More Geod_Area.
Import ListNotations.
Open Scope R_scope.

(** The triangles of the azimuth of a great circle have its longitude. *)
Lemma first_lon : forall flat L p1 p2, 0 < L < PI -> canonical_latitudes p1 p2 ->
  let al1 := atan2 flat (cos p2 * sin L) (cos p1 * sin p2 - sin p1 * cos p2 * cos L) in let al0 := azimuth0 flat al1 p1 in
  exists s1 o1 al2 s2 o2, solve_NEA flat al0 al1 p1 = (s1, o1) /\ solve_NEB flat al0 al1 p1 p2 = Done (al2, s2, o2) /\
    s1 <= s2 <= s1 + PI /\ o2 - o1 = L.
Proof.
  intros flat L p1 p2 HL CL al1 al0. destruct (first_exact flat 1 L p1 p2 ltac:(lra) HL CL) as (now & S & ST & _). fold al1 in ST.
  destruct (triangles flat p1 p2 al1 CL) as (_ & _ & _ & s1 & al2 & s2 & EA & EB & _ & _ & H3 & _). cbv zeta in *. fold al0 in EA, EB.
  do 5 eexists. split; [exact EA|]. split; [exact EB|]. split; [exact H3|].
  specialize (ST 0 ltac:(lra)). unfold newton_step in ST. fold al0 in ST. rewrite EA, EB in ST. cbn [andthen] in ST.
  rewrite !Rmult_0_l, !Rminus_0_r in ST. set (d := _ - _ - L) in ST. destruct (rlt 0 (Rabs d)) eqn:D; rl D.
  - exfalso. match type of ST with context [req ?x 0] => destruct (req x 0); [discriminate|] end.
    match type of ST with context [req ?x 0] => destruct (req x 0); [discriminate|] end.
    injection ST as _ E _. rewrite E, Rabs_R0 in D. lra.
  - injection ST as _ E. unfold d in E. lra.
Qed.

Lemma vincenty_first : forall flat a f lam p1 p2, let b1 := reduced f p1 in let b2 := reduced f p2 in
  let L := lam / sqrt (1 - f * (2 - f) * ((5 / 10 * (cos b1 + cos b2)) * (5 / 10 * (cos b1 + cos b2)))) in
  exists q r, solve_vincenty flat a f lam p1 p2 = (atan2 flat (cos b2 * sin L) (cos b1 * sin b2 - sin b1 * cos b2 * cos L), q, r).
Proof. intros. do 2 eexists. reflexivity. Qed.
Definition nearly_round (a b : R) : Prop := 0 < b <= a /\ flattening a b <= 5 / 100000000000000.
Lemma solve_near : forall flat a b y1 x2 y2, nearly_round a b -> -90 < y1 < 0 -> Rabs y2 <= - y1 -> 0 < x2 ->
  87 / 10000 < Rabs (rad y1 + rad y2) -> rad x2 < PI - 87 / 10000 ->
  exists al s, solve_inverse flat a b y1 x2 y2 tol0 = Done (al, s, false).
Proof.
  intros flat a b y1 x2 y2 (HB & HF) Y1 Y2 X2 HX HL. pose proof PI_RGT_0 as P0. pose proof PI_4 as P4. assert (PA : 0 < a) by lra. assert (PB : 0 < b) by lra.
  destruct (canonical_reduced a b y1 y2 PA PB Y1 Y2) as (L1 & L2 & CL). cbv zeta in *.
  set (f := flattening a b) in *. set (b1 := reduced f (rad y1)) in *. set (b2 := reduced f (rad y2)) in *.
  assert (F0 : 0 <= f).
  { unfold f, flattening. apply Rmult_le_reg_r with a; [exact PA|]. replace ((a - b) / a * a) with (a - b) by (field; lra). lra. }
  assert (HT : Rabs (third a b) <= 1 / 10).
  { unfold third. rewrite Rabs_right; [|apply Rle_ge; unfold Rdiv; apply Rmult_le_pos; [lra|left; apply Rinv_0_lt_compat; lra]].
    apply Rmult_le_reg_r with (a + b); [lra|]. replace ((a - b) / (a + b) * (a + b)) with (a - b) by (field; lra).
    assert (E : f * a = a - b) by (unfold f, flattening; field; lra). assert (f * a <= 5 / 100000000000000 * a) by (apply Rmult_le_compat_r; lra). lra. }
  destruct (vincenty_first flat a f (rad x2) (rad y1) (rad y2)) as (q & r & EV). fold b1 b2 in EV. cbv zeta in EV.
  set (m := 5 / 10 * (cos b1 + cos b2)) in *. set (w := sqrt (1 - f * (2 - f) * (m * m))) in *. set (L := rad x2 / w) in *.
  set (lam := rad x2) in *. assert (LP : 0 < lam) by (unfold lam, rad; nra).
  assert (M01 : 0 <= m <= 1).
  { destruct CL as (C1 & C2 & _). pose proof (COS_bound b1). pose proof (COS_bound b2). unfold m. lra. }
  assert (W : 1 - 2 * f <= w <= 1).
  { assert (MM : 0 <= m * m <= 1) by nra. assert (0 <= f * (2 - f) <= 2 * f) by nra.
    assert (E : 0 <= f * (2 - f) * (m * m) <= 2 * f) by nra. unfold w. split.
    - rewrite <- (sqrt_square (1 - 2 * f)) by lra. apply sqrt_le_1_alt. nra.
    - rewrite <- sqrt_1 at 2. apply sqrt_le_1_alt. lra. }
  assert (LW : L * w = lam) by (unfold L; field; lra).
  assert (LB : lam <= L <= lam + 10 * f).
  { split; [unfold L; apply Rmult_le_reg_r with w; [lra|]; replace (lam / w * w) with lam by (field; lra); nra|].
    assert (L <= 5).
    { apply Rmult_le_reg_r with w; [lra|]. rewrite LW. lra. }
    assert (0 <= L) by (apply Rmult_le_reg_r with w; [lra|]; rewrite LW; lra).
    replace L with (lam + L * (1 - w)) by lra. apply Rplus_le_compat_l. apply Rle_trans with (5 * (2 * f)); [apply Rmult_le_compat; lra|lra]. }
  set (al1 := atan2 flat (cos b2 * sin L) (cos b1 * sin b2 - sin b1 * cos b2 * cos L)) in *.
  destruct (first_lon flat L b1 b2 ltac:(lra) CL) as (s1 & o1 & al2 & s2 & o2 & EA & EB & SR & OL). fold al1 in EA, EB.
  set (al0 := azimuth0 flat al1 b1) in *.
  exists al1, (mkSolved al0 s1 al2 s2). unfold solve_inverse. change (y1 * PI / 180) with (rad y1). change (y2 * PI / 180) with (rad y2).
  fold f. fold b1 b2. rewrite (proj2 (req_f 0 x2)) by lra. replace ((x2 - 0) * PI / 180) with lam by (unfold lam, rad; field).
  rewrite (pymod_unique lam (2 * PI) lam 0) by (cbn [IZR]; lra).
  assert (AL : Rabs (lam - PI) = PI - lam) by (rewrite Rabs_left by lra; ring). rewrite AL.
  rewrite (proj2 (rlt_f _ _)) by lra. rewrite (proj2 (rlt_t (87 / 10000) (PI - lam))) by lra. rewrite (proj2 (rlt_t _ _) HX). cbn [andb].
  rewrite EV. cbn [andthen]. change 100%nat with (Datatypes.S (Datatypes.S 98)). cbn [newton].
  assert (T0 : tol0 = 1 / 1000000000000) by reflexivity.
  rewrite (proj2 (rlt_t tol0 (Rabs (tol0 + 1)))) by (rewrite Rabs_right; lra).
  unfold newton_step at 1. fold al0. rewrite EA, EB. cbn [andthen]. pose proof (third_model a b PA PB) as TM. fold f in TM. rewrite TM.
  set (eps := eps_of (second_eccn2 f * cos al0 ^ 2)).
  match goal with |- context [rlt tol0 (Rabs ?v)] => assert (D : Rabs v <= tol0) end.
  { destruct (epsilon_spec a b (cos al0) PA PB) as (_ & E2 & _); [pose proof (COS_bound al0); nra|]. unfold epsilon in E2. fold f in E2. fold eps in E2.
    pose proof (I3_rate (third a b) eps s1 s2 HT E2 ltac:(lra)) as I. set (dI := I3 (third a b) eps s2 - I3 (third a b) eps s1) in *.
    match goal with |- Rabs ?v <= _ => replace v with (L - lam - f * (sin al0 * dI)) by (unfold dI; rewrite <- OL; ring) end.
    assert (SD : Rabs (sin al0 * dI) <= 5).
    { rewrite Rabs_mult. pose proof (SIN_bound al0). assert (Rabs (sin al0) <= 1) by (apply Rabs_le; lra). pose proof (Rabs_pos dI). pose proof (Rabs_pos (sin al0)). nra. }
    apply Rabs_le_between in SD. apply Rabs_le. rewrite T0. nra. }
  rewrite (proj2 (rlt_f _ _) D). cbn [andthen]. rewrite (proj2 (rlt_f _ _) D). reflexivity.
Qed.
(* ---- areas that are known to be answered *)
Lemma canonical_answers : forall flat a b p1 p2 al, 0 < b < a -> canonical_latitudes (reduced (flattening a b) p1) (reduced (flattening a b) p2) ->
  exists v, area_canonical flat a b p1 p2 al = Done v.
Proof.
  intros flat a b p1 p2 al HB CL. unfold area_canonical. cbv zeta. assert (F : 0 < flattening a b < 1).
  { unfold flattening. split; (apply Rmult_lt_reg_r with a; [lra|]; replace ((a - b) / a * a) with (a - b) by (field; lra); lra). }
  set (f := flattening a b) in *. rewrite (proj2 (rlt_f _ _)) by nra. rewrite (proj2 (req_f (sqrt (f * (2 - f))) 0)) by (apply Rgt_not_eq, sqrt_lt_R0; nra).
  destruct (triangles flat _ _ al CL) as (_ & _ & _ & s1 & al2 & s2 & EA & EB & _). cbv zeta in *. rewrite EA, EB. cbn [andthen]. eexists. reflexivity.
Qed.
Lemma equator_answers : forall flat a b al, 0 < b < a -> cos al = 0 -> exists v, area_canonical flat a b 0 0 al = Done v.
Proof.
  intros flat a b al HB Z. unfold area_canonical. cbv zeta. assert (F : 0 < flattening a b < 1).
  { unfold flattening. split; (apply Rmult_lt_reg_r with a; [lra|]; replace ((a - b) / a * a) with (a - b) by (field; lra); lra). }
  set (f := flattening a b) in *. rewrite (proj2 (rlt_f _ _)) by nra. rewrite (proj2 (req_f (sqrt (f * (2 - f))) 0)) by (apply Rgt_not_eq, sqrt_lt_R0; nra).
  assert (B0 : reduced f 0 = 0) by (unfold reduced; rewrite tan_0, Rmult_0_r; apply atan_0). rewrite B0. unfold solve_NEA, solve_NEB. rewrite Z, cos_0.
  replace (0 ^ 2 * 1 ^ 2 + (1 ^ 2 - 1 ^ 2)) with 0 by ring. rewrite sqrt_0. replace (0 / 1) with 0 by field.
  rewrite (proj2 (rle_t 0 0)), (proj2 (rle_t (-1) 0)), (proj2 (rle_t 0 1)) by lra. cbn [andb andthen]. eexists. reflexivity.
Qed.
Lemma part_equator_answers : forall flat a b x, 0 < b < a -> exists v, part flat a b (0, 0) x = Done v.
Proof.
  intros flat a b x HB. unfold part. cbn [fst snd]. unfold inverse. rewrite (proj2 (req_t 0 0)) by reflexivity. cbn [andb]. unfold inverse_equatorial. cbn [andthen].
  replace (0 * PI / 180) with 0 by field. destruct (rlt _ 0); cbn [andthen]; apply equator_answers; auto using az_right.
Qed.
Lemma ordered_facts : forall y1 y2, -90 < y1 < 90 -> -90 < y2 < 90 -> let '(u, w) := ordered_lats y1 y2 in
  Rabs (rad u + rad w) = Rabs (rad y1 + rad y2) /\ -90 < u.
Proof.
  intros y1 y2 Y1 Y2. unfold ordered_lats. destruct (rlt (Rabs y1) (Rabs y2)).
  - destruct (rlt 0 y2); rewrite ?rad_opp; (split; [|lra]); [rewrite <- Rabs_Ropp; f_equal; lra|f_equal; lra].
  - destruct (rlt 0 y1); rewrite ?rad_opp; (split; [|lra]); [rewrite <- Rabs_Ropp; f_equal; lra|f_equal; lra].
Qed.
Lemma part_answers : forall flat a b y1 y2 x, 0 < b < a -> nearly_round a b -> -90 < y1 < 90 -> -90 < y2 < 90 -> 0 <= x ->
  x = 0 \/ (87 / 10000 < Rabs (rad y1 + rad y2) /\ rad x < PI - 87 / 10000) ->
  exists v, part flat a b (ordered_lats y1 y2) x = Done v.
Proof.
  intros flat a b y1 y2 x HB NR Y1 Y2 X0 HX. pose proof PI_RGT_0 as P0. pose proof (ordered_ok y1 y2) as OK. pose proof (ordered_facts y1 y2 Y1 Y2) as YS.
  destruct (ordered_lats y1 y2) as [u w]. destruct OK as [U W]. destruct YS as (YS & YU). rewrite <- YS in HX. clear YS.
  destruct (Req_dec u 0) as [UZ|UN].
  { subst u. rewrite Rabs_R0 in W. assert (W0 : w = 0) by (destruct (Req_dec w 0) as [E|E]; [exact E|apply Rabs_pos_lt in E; lra]). subst w. apply part_equator_answers. exact HB. }
  assert (UW : Rabs w <= - u) by (rewrite (Rabs_left u) in W; lra).
  unfold part. cbn [fst snd]. unfold inverse.
  assert (Z : (req u w && req w 0)%bool = false).
  { apply andb_false_iff. destruct (Req_dec u w) as [<-|N]; [right; apply req_f; exact UN|left; apply req_f; exact N]. }
  rewrite Z, canonicalf_parts, (proj2 (rlt_f (Rabs u) (Rabs w))), (proj2 (rlt_f 0 u)) by lra.
  assert (OU : ordered_lats u w = (u, w)).
  { unfold ordered_lats. rewrite (proj2 (rlt_f (Rabs u) (Rabs w))), (proj2 (rlt_f 0 u)) by lra. reflexivity. }
  rewrite OU. cbn [fst snd]. replace (x - 0) with x by ring.
  assert (FX : rad x < PI -> folded_lon x = x).
  { intros HL. assert (x < 180) by (unfold rad in HL; nra). unfold folded_lon. rewrite (reduce_degr_unique x x); [|lra|exists 0%Z; cbn [IZR]; ring].
    rewrite (proj2 (rlt_f x 0)), (proj2 (rlt_f 180 x)) by lra. reflexivity. }
  destruct (canonical_reduced a b u w ltac:(lra) ltac:(lra) ltac:(lra) UW) as (_ & _ & CL). cbv zeta in CL.
  assert (SI : exists al s, solve_inverse flat a b u (folded_lon x) w tol0 = Done (al, s, false)).
  { assert (M : x = 0 -> exists al s, solve_inverse flat a b u (folded_lon x) w tol0 = Done (al, s, false)).
    { intros ->. rewrite folded_zero. apply Rabs_le_between in UW as UW'.
      destruct (solve_meridian flat a b u 0 w tol0 ltac:(left; reflexivity) ltac:(lra) ltac:(lra) CL) as (al & s & SV & _). exists al, s. exact SV. }
    destruct (Req_dec x 0) as [E|NE]; [exact (M E)|]. destruct HX as [E|[H1 H2]]; [exact (M E)|]. rewrite FX by lra. apply solve_near; auto; lra. }
  destruct SI as (al & s & ->). cbn [andthen]. destruct (finish _ _ _ _) as [[az baz] d]. cbn [andthen].
  apply canonical_answers; [exact HB|]. exact CL.
Qed.
(** Edges that are along the equator or a meridian, or neither short of mirrored latitudes nor
    long. *)
Lemma edge_answers : forall flat a b x1 y1 x2 y2, 0 < b < a -> nearly_round a b -> -90 < y1 < 90 -> -90 < y2 < 90 -> Rabs (x2 - x1) < 179 ->
  (y1 = 0 /\ y2 = 0) \/ x1 = x2 \/ 1 < Rabs (y1 + y2) -> exists v, area_edge flat a b x1 y1 x2 y2 = Done v.
Proof.
  intros flat a b x1 y1 x2 y2 HB NR Y1 Y2 HX HC. pose proof PI_RGT_0 as P0. pose proof PI_4 as P4. pose proof PI2_3_2 as P3. rewrite area_edge_part.
  assert (FX : folded_lon (x2 - x1) = Rabs (x2 - x1)).
  { unfold folded_lon. apply Rabs_def2 in HX as HX'. rewrite (reduce_degr_unique (x2 - x1) (x2 - x1)); [|lra|exists 0%Z; cbn [IZR]; ring].
    rewrite (proj2 (rlt_f 180 (x2 - x1))) by lra. rewrite orb_false_r. destruct (rlt (x2 - x1) 0) eqn:L; rl L; [rewrite Rabs_left|rewrite Rabs_right]; lra. }
  assert (PD : exists v, part flat a b (ordered_lats y1 y2) (folded_lon (x2 - x1)) = Done v).
  { destruct HC as [[-> ->]|HC].
    - replace (ordered_lats 0 0) with (0, 0); [apply part_equator_answers; exact HB|].
      unfold ordered_lats. rewrite (proj2 (rlt_f (Rabs 0) (Rabs 0))), (proj2 (rlt_f 0 0)) by lra. reflexivity.
    - rewrite FX. apply part_answers; auto using Rabs_pos. destruct HC as [->|HC]; [left; rewrite Rminus_diag_eq, Rabs_R0 by reflexivity; reflexivity|]. right. split.
      + replace (rad y1 + rad y2) with (PI / 180 * (y1 + y2)) by (unfold rad; field). rewrite Rabs_mult, (Rabs_right (PI / 180)) by lra. nra.
      + unfold rad. nra. }
  destruct PD as (v & ->). eexists. reflexivity.
Qed.
Lemma earth_like : 0 < 1 - 1 / 100000000000000 < 1 /\ nearly_round 1 (1 - 1 / 100000000000000).
Proof. unfold nearly_round, flattening. split; [lra|]. split; lra. Qed.
Definition nearly1 : R := 1 - 1 / 100000000000000.
(** A triangle and a rectangle about the equator have an area. *)
Ltac answer flat x1 y1 x2 y2 := let v := fresh "v" in let E := fresh "E" in
  destruct (edge_answers flat 1 nearly1 x1 y1 x2 y2) as (v & E);
  [exact (proj1 earth_like)|exact (proj2 earth_like)|lra|lra|apply Rabs_def1; lra|first [left; lra|right; left; lra|right; right; rewrite Rabs_right by lra; lra|right; right; rewrite Rabs_left by lra; lra]|];
  rewrite E; cbn [andthen].
Lemma triangle_answers : forall flat, exists v, polygon_area flat 1 nearly1 [(0, 0); (60, 0); (20, 40)] = Done v.
Proof.
  intros flat. unfold polygon_area. change (ring_pairs [(0, 0); (60, 0); (20, 40)]) with [((20, 40), (0, 0)); ((0, 0), (60, 0)); ((60, 0), (20, 40))].
  rewrite !edges_cons. cbn [fst snd edges_area]. answer flat 20 40 0 0. answer flat 0 0 60 0. answer flat 60 0 20 40. eexists. reflexivity.
Qed.
Lemma rectangle_answers : forall flat, exists v, polygon_area flat 1 nearly1 [(0, -10); (30, -10); (30, 10); (0, 10)] = Done v.
Proof.
  intros flat. unfold polygon_area. change (ring_pairs [(0, -10); (30, -10); (30, 10); (0, 10)]) with [((0, 10), (0, -10)); ((0, -10), (30, -10)); ((30, -10), (30, 10)); ((30, 10), (0, 10))].
  rewrite !edges_cons. cbn [fst snd edges_area]. answer flat 0 10 0 (-10). answer flat 0 (-10) 30 (-10). answer flat 30 (-10) 30 10. answer flat 30 10 0 10. eexists. reflexivity.
Qed.
Lemma shifted_answers : forall flat, exists v, area_edge flat 1 nearly1 170 20 190 30 = Done v.
Proof. intros flat. answer flat 170 20 190 30. eexists. reflexivity. Qed.
Lemma edges_answer : forall flat, (exists v, area_edge flat 1 nearly1 30 (-10) 30 10 = Done v) /\
  (exists v, area_edge flat 1 nearly1 0 0 60 0 = Done v) /\ (exists v, area_edge flat 1 nearly1 60 0 20 40 = Done v).
Proof.
  intros flat. split; [answer flat 30 (-10) 30 10; eexists; reflexivity|]. split; [answer flat 0 0 60 0; eexists; reflexivity|].
  answer flat 60 0 20 40. eexists; reflexivity.
Qed.
Lemma balanced_example : (forall flat a b w h v, 0 < w -> polygon_area flat a b [(0, - h); (w, - h); (w, h); (0, h)] = Done v -> v = 0) /\
  forall flat, polygon_area flat 1 nearly1 [(0, -10); (30, -10); (30, 10); (0, 10)] = Done 0.
Proof.
  split; [exact balanced_none|]. intros flat. destruct (rectangle_answers flat) as (v & E). rewrite E. f_equal.
  apply (balanced_none flat 1 nearly1 30 10 v); [lra|exact E].
Qed.
Lemma polygon_rev_iff : forall flat a b l v, polygon_area flat a b (rev l) = Done v <-> polygon_area flat a b l = Done v.
Proof. intros. split; intros H; [|apply polygon_rev; exact H]. rewrite <- (rev_involutive l). apply polygon_rev. exact H. Qed.
Lemma polygon_rotate_iff : forall flat a b l m v, polygon_area flat a b (m ++ l) = Done v <-> polygon_area flat a b (l ++ m) = Done v.
Proof. intros. split; apply polygon_rotate. Qed.
Lemma area_back_iff : forall flat a b x1 y1 x2 y2 v, area_edge flat a b x1 y1 x2 y2 = Done v <-> area_edge flat a b x2 y2 x1 y1 = Done (- v).
Proof. intros. split; intros H; apply area_edge_back in H; [exact H|]. rewrite Ropp_involutive in H. exact H. Qed.
