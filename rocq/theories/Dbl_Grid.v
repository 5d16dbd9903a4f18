(** Positions in grids computed in doubles. *)
From Coq Require Import List ZArith QArith Qabs Qpower Qreals Reals Lra Lia Bool.
From Flocq Require Import Core IEEE754.BinarySingleNaN.
From Verif Require Import Dbl_Model Dbl_Spec Dbl_Float Dbl_Contains.
Import ListNotations.
Open Scope R_scope.

Lemma rnd_val (x : double) : rnd (val x) = val x.
Proof. apply round_generic; [typeclasses eauto |]. apply generic_format_B2R. Qed.
Lemma rnd_le a b : a <= b -> rnd a <= rnd b.
Proof. apply round_le; typeclasses eauto. Qed.
Lemma rnd_0 : rnd 0 = 0.
Proof. apply round_0. typeclasses eauto. Qed.
Lemma nought_R (z : double) : nought z -> fin z /\ val z = 0.
Proof. intros [F E]. split; [assumption |]. apply Qeq_eqR in E. rewrite value_R in E. rewrite E. unfold Q2R; cbn; lra. Qed.
Lemma mul_nought (z x : double) : nought z -> fin x -> fin (dmul z x) /\ val (dmul z x) = 0.
Proof.
  intros Hz Hx. apply nought_R in Hz. destruct Hz as [F E]. pose proof (bpow_ge_0 radix2 1000).
  destruct (dmul_ok z x F Hx) as [G V]; [rewrite E, Rmult_0_l, Rabs_R0; assumption |]. split; [assumption |].
  rewrite V, E, Rmult_0_l. apply rnd_0.
Qed.
Lemma mul_nought' (x z : double) : nought z -> fin x -> fin (dmul x z) /\ val (dmul x z) = 0.
Proof.
  intros Hz Hx. apply nought_R in Hz. destruct Hz as [F E]. pose proof (bpow_ge_0 radix2 1000).
  destruct (dmul_ok x z Hx F) as [G V]; [rewrite E, Rmult_0_r, Rabs_R0; assumption |]. split; [assumption |].
  rewrite V, E, Rmult_0_r. apply rnd_0.
Qed.
Lemma add_nought (x z : double) : fin x -> fin z -> val z = 0 -> Rabs (val x) <= pow2 1000 -> fin (dadd x z) /\ val (dadd x z) = val x.
Proof.
  intros Hx Hz E B. destruct (dadd_ok x z Hx Hz) as [F V]; [rewrite E, Rplus_0_r; assumption |].
  split; [assumption |]. rewrite V, E, Rplus_0_r. apply rnd_val.
Qed.
Lemma sub_nought (x z : double) : fin x -> fin z -> val z = 0 -> Rabs (val x) <= pow2 1000 -> fin (dsub x z) /\ val (dsub x z) = val x.
Proof.
  intros Hx Hz E B. destruct (dsub_ok x z Hx Hz) as [F V]; [rewrite E, Rminus_0_r; assumption |].
  split; [assumption |]. rewrite V, E, Rminus_0_r. apply rnd_val.
Qed.
Lemma sized_R (d : double) : sized d -> fin d /\ pow2 (-200) <= Rabs (val d) <= pow2 200.
Proof.
  intros (F & A & B). apply Qle_Rle in A, B. rewrite Q2R_abs, value_R, Q2R_pow2 in A, B. auto.
Qed.
Lemma sized_nz (d : double) : sized d -> val d <> 0.
Proof. intros H E. apply sized_R in H. destruct H as (_ & H & _). rewrite E, Rabs_R0 in H. pose proof (bpow_gt_0 radix2 (-200)). lra. Qed.

(** Rounding errors of a quotient. *)
Lemma eta_u k : (-1000 <= k)%Z -> eta <= u / 1000 * pow2 k.
Proof.
  intros H. unfold eta, u. replace (pow2 (-1075)) with (pow2 (-1000) * pow2 (-53) * pow2 (-22)) by (rewrite <- !bpow_plus; f_equal; lia).
  pose proof (bpow_le radix2 (-1000) k H). pose proof (bpow_gt_0 radix2 (-1000)). pose proof (bpow_gt_0 radix2 (-53)).
  change (pow2 (-22)) with (/ 4194304).
  replace (pow2 (-53) / 1000 * pow2 k) with (pow2 k * pow2 (-53) * / 1000) by (unfold Rdiv; ring).
  apply Rmult_le_compat; [nra | lra | | lra]. apply Rmult_le_compat_r; lra.
Qed.
Lemma eta_small : eta <= u / 1000.
Proof. pose proof (eta_u 0 ltac:(lia)). change (pow2 0) with 1 in H. lra. Qed.
Lemma abs_mul_le a b x y : Rabs a <= x -> Rabs b <= y -> Rabs (a * b) <= x * y.
Proof. intros. rewrite Rabs_mult. apply Rmult_le_compat; try assumption; apply Rabs_pos. Qed.
Ltac tri := eapply Rle_trans; [apply Rabs_triang |].
Lemma factor e3 e5 g : Rabs e3 <= u -> Rabs e5 <= u -> Rabs g <= u + u / 1000 ->
  Rabs ((1 + e3) * (1 + e5) / (1 + g) - 1) <= 31 / 10 * u.
Proof.
  intros H3 H5 Hg. pose proof u_small as [U1 U2]. pose proof (abs_mul_le _ _ _ _ H3 H5) as H35.
  apply Rabs_le_inv in H3, H5, Hg, H35.
  assert (D : 0 < 1 + g) by lra.
  replace ((1 + e3) * (1 + e5) / (1 + g) - 1) with ((e3 + e5 + e3 * e5 - g) / (1 + g)) by (field; lra).
  assert (U : u * u <= u / 1000000) by nra.
  apply Rabs_le. split.
  - apply Rmult_le_reg_r with (1 + g); [assumption |]. unfold Rdiv at 2. rewrite Rmult_assoc, Rinv_l, Rmult_1_r by lra. nra.
  - apply Rmult_le_reg_r with (1 + g); [assumption |]. unfold Rdiv at 1. rewrite Rmult_assoc, Rinv_l, Rmult_1_r by lra. nra.
Qed.
Lemma quotient_err a b e1 e2 k1 k2 e3 e5 g h5 :
  Rabs e1 <= u -> Rabs e2 <= u -> Rabs k1 <= u / 1000 -> Rabs k2 <= u / 1000 -> Rabs e3 <= u -> Rabs e5 <= u -> Rabs g <= u + u / 1000 -> Rabs h5 <= u / 1000 ->
  Rabs ((a * (1 + e1) + k1 - (b * (1 + e2) + k2)) * (1 + e3) / (1 + g) * (1 + e5) + h5 - (a - b))
    <= (Rabs a + Rabs b) * (42 / 10 * u) + u / 100.
Proof.
  intros H1 H2 K1 K2 H3 H5 Hg Hh. pose proof u_small as [U1 U2]. pose proof (factor e3 e5 g H3 H5 Hg) as Hf.
  set (f := (1 + e3) * (1 + e5) / (1 + g) - 1) in *.
  assert (D : 0 < 1 + g) by (apply Rabs_le_inv in Hg; lra).
  replace ((a * (1 + e1) + k1 - (b * (1 + e2) + k2)) * (1 + e3) / (1 + g) * (1 + e5) + h5 - (a - b))
    with ((a - b) * f + ((a * e1 + k1) - (b * e2 + k2)) * (1 + f) + h5) by (unfold f; field; lra).
  assert (F : Rabs (1 + f) <= 1 + 31 / 10 * u) by (tri; rewrite Rabs_R1; lra).
  assert (A1 : Rabs (a - b) <= Rabs a + Rabs b) by (tri; rewrite Rabs_Ropp; lra).
  assert (A2 : Rabs ((a * e1 + k1) - (b * e2 + k2)) <= (Rabs a + Rabs b) * u + u / 500).
  { tri. rewrite Rabs_Ropp. assert (Rabs (a * e1 + k1) <= Rabs a * u + u / 1000) by (tri; pose proof (abs_mul_le a e1 _ _ (Rle_refl _) H1); lra).
    assert (Rabs (b * e2 + k2) <= Rabs b * u + u / 1000) by (tri; pose proof (abs_mul_le b e2 _ _ (Rle_refl _) H2); lra). lra. }
  pose proof (abs_mul_le _ _ _ _ A1 Hf) as B1. pose proof (abs_mul_le _ _ _ _ A2 F) as B2.
  tri. eapply Rle_trans; [apply Rplus_le_compat_r, Rabs_triang |].
  pose proof (Rabs_pos a). pose proof (Rabs_pos b). set (S := Rabs a + Rabs b) in *.
  assert (0 <= S) by (unfold S; lra). assert (u * u <= u / 1000000) by nra.
  assert ((S * u + u / 500) * (1 + 31 / 10 * u) <= S * u + S * u / 100 + u / 400) by nra. nra.
Qed.
Lemma minus_half (p : double) q S : fin p -> 0 <= S -> S <= pow2 900 -> Rabs q <= S -> Rabs (val p - q) <= S * (42 / 10 * u) + u / 100 ->
  fin (dsub p half) /\ Rabs (val (dsub p half) - (q - / 2)) <= 8 * u * (1 + S) /\ val (dsub p half) = rnd (val p - / 2).
Proof.
  intros F HS HS' Hq H. pose proof u_small as [U1 U2]. destruct half_on as [[Fh _] Vh].
  assert (B : Rabs (val p - / 2) <= S * (1 + 42 / 10 * u) + u / 100 + / 2).
  { replace (val p - / 2) with (q + (val p - q) + - / 2) by ring. tri. rewrite Rabs_Ropp, (Rabs_pos_eq (/ 2)) by lra.
    pose proof (Rabs_triang q (val p - q)). lra. }
  assert (BB : Rabs (val p - val half) <= pow2 1000).
  { rewrite Vh. eapply Rle_trans; [exact B |]. apply Rle_trans with (4 * pow2 900).
    - assert (1 <= pow2 900) by (change 1 with (pow2 0); apply bpow_le; lia). nra.
    - change 4 with (pow2 2). rewrite <- bpow_plus. apply bpow_le. lia. }
  destruct (dsub_err p half F Fh BB) as (G & e & He & V). destruct (dsub_ok p half F Fh BB) as [_ V'].
  split; [assumption |]. split; [| rewrite V', Vh; reflexivity]. rewrite V, Vh.
  replace ((val p - / 2) * (1 + e) - (q - / 2)) with ((val p - q) + (val p - / 2) * e) by ring. tri.
  pose proof (abs_mul_le _ _ _ _ B He). assert (u * u <= u / 1000000) by nra.
  assert ((S * (1 + 42 / 10 * u) + u / 100 + / 2) * u <= 11 / 10 * (S * u) + u) by nra. nra.
Qed.

Section Axis.
(** One axis: [a] the coordinate, [o] the origin, [d] the cell size. *)
Lemma ratio_bound (a d : double) : fin a -> Rabs (val a) <= pow2 300 -> sized d -> Rabs (val a / val d) <= pow2 500.
Proof.
  intros F B Hd. apply sized_R in Hd. destruct Hd as (Fd & L & _). pose proof (bpow_gt_0 radix2 (-200)).
  unfold Rdiv. rewrite Rabs_mult, Rabs_inv. replace (pow2 500) with (pow2 300 * / pow2 (-200)).
  - apply Rmult_le_compat; [apply Rabs_pos | | assumption | apply Rinv_le; assumption]. left. apply Rinv_0_lt_compat. lra.
  - rewrite <- bpow_opp, <- bpow_plus. reflexivity.
Qed.
Lemma located_R (a o d p : double) : sized d -> fin p ->
  Rabs (val p - ((val a - val o) / val d - / 2)) <= 8 * u * (1 + (Rabs (val a / val d) + Rabs (val o / val d))) -> located a o d p.
Proof.
  intros Hd F H. split; [assumption |]. apply Rle_Qle.
  assert (N : ~ (value d == 0)%Q). { intros E. apply (sized_nz d Hd). apply Qeq_eqR in E. rewrite value_R in E. rewrite E. unfold Q2R; cbn; lra. }
  assert (N' : ~ (Qabs (value d) == 0)%Q). { intros E. apply N. revert E. apply (Qabs_case (value d) (fun z => (z == 0)%Q -> (value d == 0)%Q)); intros _ E; [assumption |]. rewrite <- (Qopp_involutive (value d)), E. reflexivity. }
  unfold cells. rewrite Q2R_abs, Q2R_minus, Q2R_minus, Q2R_div, Q2R_minus, !value_R, Q2R_mult, Q2R_plus, Q2R_plus, !Q2R_div, !Q2R_abs, !value_R, Q2R_pow2 by assumption.
  replace (Q2R (1 # 2)) with (/ 2) by (unfold Q2R; cbn; lra). replace (Q2R 1) with 1 by (unfold Q2R; cbn; lra).
  replace (pow2 (-50)) with (8 * u). 2:{ change (-50)%Z with (-53 + 3)%Z. rewrite bpow_plus. unfold u. change (pow2 3) with 8. ring. }
  unfold Rdiv in *. rewrite !Rabs_mult, Rabs_inv in H. rewrite Rplus_assoc. exact H.
Qed.
End Axis.

Lemma range1 : (-1022 <= 200 + 300 <= 1000)%Z. Proof. lia. Qed.
Lemma range2 : (-1022 <= 200 + 300 + 1 <= 1000)%Z. Proof. lia. Qed.
Lemma range3 : (-1022 <= 200 + 200 <= 1000)%Z. Proof. lia. Qed.
Lemma range4 : (-1022 <= 300 + 1 <= 1000)%Z. Proof. lia. Qed.
Lemma range5 : (-1022 <= 47 + 200 <= 1000)%Z. Proof. lia. Qed.
Section Positions.
Variables (T : transform) (x y : double).
Hypothesis HT : plain T.
Hypothesis Hx : upto 300 x.
Hypothesis Hy : upto 300 y.

Definition jcol := ddiv (dsub (dadd (dsub (dmul (dy T) x) (dmul (dy T) (x0 T))) (dmul (sx T) (y0 T))) (dmul (sx T) y))
               (dsub (dmul (dx T) (dy T)) (dmul (sx T) (sy T))).
Definition irow := ddiv (dsub (dsub y (y0 T)) (dmul jcol (sy T))) (dy T).

Lemma j_formula : fin jcol /\
  val jcol = rnd (rnd (rnd (val (dy T) * val x) - rnd (val (dy T) * val (x0 T))) / rnd (val (dx T) * val (dy T))) /\
  Rabs (val jcol - (val x / val (dx T) - val (x0 T) / val (dx T))) <= (Rabs (val x / val (dx T)) + Rabs (val (x0 T) / val (dx T))) * (42 / 10 * u) + u / 100.
Proof.
  destruct HT as (Hx0 & Hy0 & Hdx & Hdy & Hsx & Hsy). pose proof (sized_nz _ Hdx) as Nx. pose proof (sized_nz _ Hdy) as Ny.
  pose proof (ratio_bound x (dx T)) as R1. pose proof (ratio_bound (x0 T) (dx T)) as R2.
  apply upto_R in Hx, Hy, Hx0, Hy0. destruct Hx as [Fx Bx], Hy as [Fy By], Hx0 as [Fx0 Bx0], Hy0 as [Fy0 By0].
  specialize (R1 Fx Bx Hdx). specialize (R2 Fx0 Bx0 Hdx).
  pose proof (nought_R _ Hsx) as [Fsx _]. pose proof (nought_R _ Hsy) as [Fsy _].
  apply sized_R in Hdx, Hdy. destruct Hdx as (Fdx & Lx & Ux), Hdy as (Fdy & Ly & Uy).
  destruct (mul_full 200 300 _ _ range1 Fdy Fx Uy Bx) as (F1 & K1 & e1 & h1 & E1 & G1 & V1).
  destruct (mul_full 200 300 _ _ range1 Fdy Fx0 Uy Bx0) as (F2 & K2 & e2 & h2 & E2 & G2 & V2).
  destruct (sub_full (200 + 300) _ _ range2 F1 F2 K1 K2) as (F3 & K3 & e3 & E3 & V3).
  destruct (mul_nought _ _ Hsx Fy0) as [F4 V4]. destruct (mul_nought _ _ Hsx Fy) as [F5 V5].
  assert (B3 : Rabs (val (dsub (dmul (dy T) x) (dmul (dy T) (x0 T)))) <= pow2 1000) by (eapply le_1000; [| exact K3]; zle).
  destruct (add_nought _ _ F3 F4 V4 B3) as [F6 V6].
  destruct (sub_nought _ _ F6 F5 V5) as [F7 V7]; [rewrite V6; assumption |].
  destruct (mul_full 200 200 _ _ range3 Fdx Fdy Ux Uy) as (F8 & K8 & e8 & h8 & E8 & G8 & V8).
  destruct (mul_nought _ _ Hsx Fsy) as [F9 V9].
  destruct (sub_nought _ _ F8 F9 V9) as [F10 V10]; [eapply le_1000; [| exact K8]; zle |].
  assert (M : pow2 (-400) <= Rabs (val (dx T) * val (dy T))).
  { rewrite Rabs_mult. change (-400)%Z with (-200 + -200)%Z. rewrite bpow_plus. apply Rmult_le_compat; try assumption; apply bpow_ge_0. }
  assert (M0 : val (dx T) * val (dy T) <> 0) by (apply Rmult_integral_contrapositive_currified; assumption).
  pose proof (eta_u (-400) ltac:(zle)) as EU. pose proof u_small as [U1 U2].
  assert (KK : forall h, Rabs h <= eta -> Rabs (h / (val (dx T) * val (dy T))) <= u / 1000).
  { intros h Hh. unfold Rdiv. rewrite Rabs_mult, Rabs_inv. pose proof (bpow_gt_0 radix2 (-400)) as P400.
    apply Rmult_le_reg_r with (Rabs (val (dx T) * val (dy T))); [lra |]. rewrite Rmult_assoc, Rinv_l, Rmult_1_r by lra.
    eapply Rle_trans; [exact Hh |]. eapply Rle_trans; [exact EU |]. apply Rmult_le_compat_l; lra. }
  set (g := e8 + h8 / (val (dx T) * val (dy T))).
  assert (Hg : Rabs g <= u + u / 1000) by (unfold g; tri; pose proof (KK h8 G8); lra).
  assert (Gp : 0 < 1 + g) by (apply Rabs_le_inv in Hg; lra).
  assert (VD : val (dsub (dmul (dx T) (dy T)) (dmul (sx T) (sy T))) = val (dx T) * val (dy T) * (1 + g)) by (rewrite V10, V8; unfold g; field; auto).
  set (N := dsub (dadd (dsub (dmul (dy T) x) (dmul (dy T) (x0 T))) (dmul (sx T) (y0 T))) (dmul (sx T) y)) in *.
  set (Dn := dsub (dmul (dx T) (dy T)) (dmul (sx T) (sy T))) in *.
  assert (VN : val N = (val (dy T) * val x * (1 + e1) + h1 - (val (dy T) * val (x0 T) * (1 + e2) + h2)) * (1 + e3)) by (rewrite V7, V6, V3, V1, V2; ring).
  assert (ND : val Dn <> 0) by (rewrite VD; apply Rmult_integral_contrapositive_currified; [assumption | lra]).
  destruct (ddiv_err N Dn F7 ND) as (F11 & e5 & h5 & E5 & G5 & V11).
  { assert (LD : pow2 (-401) <= Rabs (val Dn)).
    { rewrite VD, Rabs_mult, (Rabs_pos_eq (1 + g)) by lra. apply Rabs_le_inv in Hg.
      change (-401)%Z with (-400 + -1)%Z. rewrite bpow_plus. change (pow2 (-1)) with (/ 2). apply Rmult_le_compat; try assumption; try lra. apply bpow_ge_0. }
    assert (LN : Rabs (val N) <= pow2 501) by (rewrite V7, V6; exact K3).
    unfold Rdiv. rewrite Rabs_mult, Rabs_inv. apply Rle_trans with (pow2 501 * / pow2 (-401)).
    - pose proof (bpow_gt_0 radix2 (-401)). apply Rmult_le_compat; [apply Rabs_pos | | assumption | apply Rinv_le; assumption].
      left. apply Rinv_0_lt_compat. lra.
    - rewrite <- bpow_opp, <- bpow_plus. apply bpow_le. zle. }
  split; [exact F11 |]. split.
  - unfold jcol. fold N Dn. assert (LL : Rabs (val N / val Dn) <= pow2 1000).
    { assert (LD : pow2 (-401) <= Rabs (val Dn)).
      { rewrite VD, Rabs_mult, (Rabs_pos_eq (1 + g)) by lra. apply Rabs_le_inv in Hg.
        change (-401)%Z with (-400 + -1)%Z. rewrite bpow_plus. change (pow2 (-1)) with (/ 2). apply Rmult_le_compat; try assumption; try lra. apply bpow_ge_0. }
      assert (LN : Rabs (val N) <= pow2 501) by (rewrite V7, V6; exact K3).
      unfold Rdiv. rewrite Rabs_mult, Rabs_inv. apply Rle_trans with (pow2 501 * / pow2 (-401)).
      - pose proof (bpow_gt_0 radix2 (-401)). apply Rmult_le_compat; [apply Rabs_pos | | assumption | apply Rinv_le; assumption].
        left. apply Rinv_0_lt_compat. lra.
      - rewrite <- bpow_opp, <- bpow_plus. apply bpow_le. zle. }
    destruct (ddiv_ok N Dn F7 ND LL) as [_ ->]. rewrite V7, V6, V10.
    assert (W : forall a b k l, (k + l <= 1000)%Z -> fin a -> fin b -> Rabs (val a) <= pow2 k -> Rabs (val b) <= pow2 l -> val (dmul a b) = rnd (val a * val b)).
    { intros a b k l Hk Fa Fb Ba Bb. apply dmul_ok; try assumption. eapply le_1000; [exact Hk | apply prod_small; assumption]. }
    destruct (dsub_ok _ _ F1 F2) as [_ ->]; [eapply le_1000; [| apply (diff_small 500); assumption]; zle |].
    rewrite (W (dy T) x 200 300)%Z, (W (dy T) (x0 T) 200 300)%Z, (W (dx T) (dy T) 200 200)%Z by (zle || assumption). reflexivity.
  - unfold jcol. fold N Dn. rewrite V11, VN, VD.
    pose proof (quotient_err (val x / val (dx T)) (val (x0 T) / val (dx T)) e1 e2 (h1 / (val (dx T) * val (dy T))) (h2 / (val (dx T) * val (dy T))) e3 e5 g h5 E1 E2 (KK h1 G1) (KK h2 G2) E3 E5 Hg) as Q.
    pose proof eta_small. specialize (Q ltac:(lra)). eapply Rle_trans; [| exact Q]. right. f_equal. field. repeat split; auto. lra.
Qed.
Lemma i_formula : fin irow /\
  val irow = rnd (rnd (val y - val (y0 T)) / val (dy T)) /\
  Rabs (val irow - (val y / val (dy T) - val (y0 T) / val (dy T))) <= (Rabs (val y / val (dy T)) + Rabs (val (y0 T) / val (dy T))) * (42 / 10 * u) + u / 100.
Proof.
  destruct j_formula as (Fj & _). destruct HT as (Hx0 & Hy0 & Hdx & Hdy & Hsx & Hsy). pose proof (sized_nz _ Hdy) as Ny.
  apply upto_R in Hy, Hy0. destruct Hy as [Fy By], Hy0 as [Fy0 By0]. apply sized_R in Hdy. destruct Hdy as (Fdy & Ly & Uy).
  destruct (sub_full 300 _ _ range4 Fy Fy0 By By0) as (F1 & K1 & e1 & E1 & V1).
  destruct (mul_nought' _ _ Hsy Fj) as [F2 V2].
  destruct (sub_nought _ _ F1 F2 V2) as [F3 V3]; [eapply le_1000; [| exact K1]; zle |].
  pose proof eta_small as ES.
  assert (LL : Rabs (val (dsub (dsub y (y0 T)) (dmul jcol (sy T))) / val (dy T)) <= pow2 1000).
  { rewrite V3. unfold Rdiv. rewrite Rabs_mult, Rabs_inv. apply Rle_trans with (pow2 301 * / pow2 (-200)).
    - pose proof (bpow_gt_0 radix2 (-200)). apply Rmult_le_compat; [apply Rabs_pos | | exact K1 | apply Rinv_le; assumption].
      left. apply Rinv_0_lt_compat. lra.
    - rewrite <- bpow_opp, <- bpow_plus. apply bpow_le. zle. }
  destruct (ddiv_err _ _ F3 Ny LL) as (F4 & e5 & h5 & E5 & G5 & V4).
  split; [exact F4 |]. split.
  - unfold irow. destruct (ddiv_ok _ _ F3 Ny LL) as [_ ->]. rewrite V3. destruct (dsub_ok y (y0 T) Fy Fy0) as [_ ->]; [| reflexivity].
    eapply le_1000; [| apply (diff_small 300); assumption]. zle.
  - unfold irow. rewrite V4, V3, V1.
    pose proof u_small as [U1 U2].
    pose proof (quotient_err (val y / val (dy T)) (val (y0 T) / val (dy T)) 0 0 0 0 e1 e5 0 h5) as Q. rewrite Rabs_R0 in Q.
    specialize (Q ltac:(lra) ltac:(lra) ltac:(lra) ltac:(lra) E1 E5 ltac:(lra) ltac:(lra)).
    eapply Rle_trans; [| exact Q]. right. f_equal. field. auto.
Qed.
Lemma pos_R : exists i j, positions T x y = (i, j) /\ fin i /\ fin j /\
  Rabs (val i - ((val y - val (y0 T)) / val (dy T) - / 2)) <= 8 * u * (1 + (Rabs (val y / val (dy T)) + Rabs (val (y0 T) / val (dy T)))) /\
  Rabs (val j - ((val x - val (x0 T)) / val (dx T) - / 2)) <= 8 * u * (1 + (Rabs (val x / val (dx T)) + Rabs (val (x0 T) / val (dx T)))) /\
  val i = rnd (rnd (rnd (val y - val (y0 T)) / val (dy T)) - / 2) /\
  val j = rnd (rnd (rnd (rnd (val (dy T) * val x) - rnd (val (dy T) * val (x0 T))) / rnd (val (dx T) * val (dy T))) - / 2).
Proof.
  destruct j_formula as (Fj & Uj & Ej), i_formula as (Fi & Ui & Ei). exists (dsub irow half), (dsub jcol half). split; [reflexivity |].
  destruct HT as (Hx0 & Hy0 & Hdx & Hdy & Hsx & Hsy). pose proof (sized_nz _ Hdx) as Nx. pose proof (sized_nz _ Hdy) as Ny.
  apply upto_R in Hx, Hy, Hx0, Hy0. destruct Hx as [Fx Bx], Hy as [Fy By], Hx0 as [Fx0 Bx0], Hy0 as [Fy0 By0].
  assert (S : forall a b, Rabs a <= pow2 500 -> Rabs b <= pow2 500 -> 0 <= Rabs a + Rabs b /\ Rabs a + Rabs b <= pow2 900 /\ Rabs (a - b) <= Rabs a + Rabs b).
  { intros a b Ha Hb. pose proof (Rabs_pos a). pose proof (Rabs_pos b). split; [lra |]. split.
    - apply Rle_trans with (pow2 500 * 2); [lra |]. change 2 with (pow2 1). rewrite <- bpow_plus. apply bpow_le. zle.
    - tri. rewrite Rabs_Ropp. lra. }
  destruct (S (val x / val (dx T)) (val (x0 T) / val (dx T))) as (S1 & S2 & S3); [apply ratio_bound; assumption .. |].
  destruct (S (val y / val (dy T)) (val (y0 T) / val (dy T))) as (S4 & S5 & S6); [apply ratio_bound; assumption .. |].
  destruct (minus_half _ _ _ Fj S1 S2 S3 Ej) as (Gj & Lj & Vj). destruct (minus_half _ _ _ Fi S4 S5 S6 Ei) as (Gi & Li & Vi).
  split; [assumption |]. split; [assumption |].
  replace ((val y - val (y0 T)) / val (dy T)) with (val y / val (dy T) - val (y0 T) / val (dy T)) by (field; auto).
  replace ((val x - val (x0 T)) / val (dx T)) with (val x / val (dx T) - val (x0 T) / val (dx T)) by (field; auto).
  rewrite <- Ui, <- Uj. repeat split; assumption.
Qed.
End Positions.

Lemma positions_located T x y : plain T -> upto 300 x -> upto 300 y ->
  located y (y0 T) (dy T) (fst (positions T x y)) /\ located x (x0 T) (dx T) (snd (positions T x y)).
Proof.
  intros HT Hx Hy. destruct (pos_R T x y HT Hx Hy) as (i & j & E & Fi & Fj & Ei & Ej & _). rewrite E; cbn [fst snd].
  destruct HT as (_ & _ & Hdx & Hdy & _). split; apply located_R; assumption.
Qed.

(** Rounding to cells. *)
Lemma to_int32_near (a : double) n : fin a -> int32 n -> Rabs (val a - IZR n) < / 2 -> to_int32 a = Some n.
Proof.
  intros F Hn H. unfold to_int32. destruct (Bnearbyint_correct 53 1024 emax1024 mode_NE a) as (V & G & _).
  rewrite G, F. assert (E : Btrunc (Bnearbyint mode_NE a) = n).
  { apply eq_IZR. rewrite (Btrunc_correct 53 1024 emax1024), V, !round_FIX_IZR. cbn [round_mode].
    rewrite (Znearest_imp _ _ n H), Ztrunc_IZR. reflexivity. }
  rewrite E. unfold int32 in Hn. destruct (andb_true_intro (conj (proj2 (Z.leb_le _ _) (proj1 Hn)) (proj2 (Z.ltb_lt _ _) (proj2 Hn)))) .
  replace ((-2147483648 <=? n)%Z && (n <? 2147483648)%Z) with true by (symmetry; apply andb_true_intro; split; [apply Z.leb_le | apply Z.ltb_lt]; lia).
  reflexivity.
Qed.
Lemma located_value (a o d p : double) n : located a o d p -> well_in a o d n -> fin p /\ Rabs (val p - IZR n) < / 2.
Proof.
  intros [F L] W. split; [assumption |]. unfold well_in in W.
  set (q := ((value a - value o) / value d)%Q) in *. set (err := (Qpower 2 (-50) * (1 + cells a d + cells o d))%Q) in *.
  apply Qle_Rle in L. apply Qlt_Rlt in W. rewrite Q2R_plus in W. rewrite Q2R_abs in L, W.
  rewrite Q2R_minus, value_R, Q2R_minus in L. rewrite Q2R_minus, Q2R_plus, Q2R_Z in W.
  replace (Q2R (1 # 2)) with (/ 2) in * by (unfold Q2R; cbn; lra).
  replace (val p - IZR n) with ((val p - (Q2R q - / 2)) + (Q2R q - (IZR n + / 2))) by ring. eapply Rle_lt_trans; [apply Rabs_triang |]. lra.
Qed.
Lemma indices_well_in T x y i j : plain T -> upto 300 x -> upto 300 y -> int32 i -> int32 j ->
  well_in y (y0 T) (dy T) i -> well_in x (x0 T) (dx T) j -> indices T x y = Some (i, j).
Proof.
  intros HT Hx Hy Hi Hj Wi Wj. destruct (positions_located T x y HT Hx Hy) as [Li Lj]. unfold indices.
  destruct (positions T x y) as [p q]; cbn [fst snd] in *.
  destruct (located_value _ _ _ _ _ Li Wi) as [Fi Ni]. destruct (located_value _ _ _ _ _ Lj Wj) as [Fj Nj].
  rewrite (to_int32_near p i), (to_int32_near q j) by assumption. reflexivity.
Qed.

(** Centres of cells. *)
Lemma centre_factor n : int32 n -> fin (dadd (of_int n) half) /\ val (dadd (of_int n) half) = IZR n + / 2.
Proof.
  intros H. unfold int32 in H. destruct (of_int_on n ltac:(lia)) as [[F _] V]. destruct half_on as [H1 Vh].
  assert (O : on (2 * Z.abs n) (-1) (of_int n)).
  { split; [assumption |]. exists (2 * n)%Z. split; [lia |]. rewrite V, mult_IZR. change (pow2 (-1)) with (/ 2). lra. }
  destruct (on_add _ _ _ _ _ O H1 ltac:(lia) ltac:(lia)) as [[G _] W]. split; [assumption |]. rewrite W, V, Vh. reflexivity.
Qed.
Lemma near_R (o d : double) n : sized d -> near o d n -> Rabs (val o / val d) + Rabs (IZR n) + 1 <= pow2 47.
Proof.
  intros Hd H. unfold near, cells in H. apply Qle_Rle in H.
  assert (N : ~ (value d == 0)%Q). { intros E. apply (sized_nz d Hd). apply Qeq_eqR in E. rewrite value_R in E. rewrite E. unfold Q2R; cbn; lra. }
  assert (N' : ~ (Qabs (value d) == 0)%Q). { intros E. apply N. revert E. apply (Qabs_case (value d) (fun z => (z == 0)%Q -> (value d == 0)%Q)); intros _ E; [assumption |]. rewrite <- (Qopp_involutive (value d)), E. reflexivity. }
  rewrite !Q2R_plus, Q2R_div, !Q2R_abs, !value_R, Q2R_Z, Q2R_pow2 in H by assumption. rewrite <- abs_IZR.
  replace (Q2R 1) with 1 in H by (unfold Q2R; cbn; lra). unfold Rdiv in *. rewrite Rabs_mult, Rabs_inv. exact H.
Qed.
Lemma centre_axis (o d s : double) n m : fin o -> Rabs (val o) <= pow2 300 -> sized d -> nought s -> int32 n -> int32 m -> near o d n ->
  let c := dadd (dadd o (dmul (dadd (of_int n) half) d)) (dmul (dadd (of_int m) half) s) in
  fin c /\ Rabs (val c) <= pow2 300 /\
  Rabs (val c / val d - (val o / val d + (IZR n + / 2))) <= (Rabs (val o / val d) + Rabs (IZR n) + 1) * (22 / 10 * u).
Proof.
  intros Fo Bo Hd Hs Hn Hm HN c. pose proof (sized_nz d Hd) as Nd. pose proof (near_R o d n Hd HN) as M.
  pose proof (proj1 (sized_R d Hd)) as Fd. pose proof (proj2 (sized_R d Hd)) as [Ld Ud].
  destruct (centre_factor n Hn) as [Ft Vt]. destruct (centre_factor m Hm) as [Fm _].
  pose proof u_small as [U1 U2].
  assert (Bt : Rabs (IZR n + / 2) <= Rabs (IZR n) + / 2) by (tri; rewrite (Rabs_pos_eq (/ 2)); lra).
  pose proof (Rabs_pos (val o / val d)) as Pb. pose proof (Rabs_pos (IZR n)) as Pn.
  assert (B32 : Rabs (IZR n + / 2) <= pow2 47) by lra.
  destruct (mul_full 47 200 (dadd (of_int n) half) d range5 Ft Fd) as (F1 & K1 & e1 & h1 & E1 & G1 & V1); [rewrite Vt; assumption | assumption |].
  rewrite Vt in V1.
  assert (Bs : Rabs (val o + val (dmul (dadd (of_int n) half) d)) <= pow2 1000).
  { tri. apply Rle_trans with (pow2 300 * 2).
    - assert (pow2 (47 + 200) <= pow2 300) by (apply bpow_le; zle). lra.
    - change 2 with (pow2 1). rewrite <- bpow_plus. apply bpow_le. zle. }
  destruct (dadd_err o (dmul (dadd (of_int n) half) d) Fo F1 Bs) as (F2 & e2 & E2 & V2).
  destruct (mul_nought' _ _ Hs Fm) as [F3 V3].
  assert (Bs' : Rabs (val (dadd o (dmul (dadd (of_int n) half) d))) <= pow2 1000).
  { destruct (dadd_ok o (dmul (dadd (of_int n) half) d) Fo F1 Bs) as [_ ->]. apply rnd_bound; [zle | assumption]. }
  destruct (add_nought _ _ F2 F3 V3 Bs') as [F4 V4]. fold c in F4, V4.
  assert (KK : Rabs (h1 / val d) <= u / 1000).
  { unfold Rdiv. rewrite Rabs_mult, Rabs_inv. pose proof (bpow_gt_0 radix2 (-200)). pose proof (eta_u (-200) ltac:(zle)) as EU.
    apply Rmult_le_reg_r with (Rabs (val d)); [lra |]. rewrite Rmult_assoc, Rinv_l, Rmult_1_r by lra.
    eapply Rle_trans; [exact G1 |]. eapply Rle_trans; [exact EU |]. apply Rmult_le_compat_l; lra. }
  set (b := val o / val d) in *. set (t := IZR n + / 2) in *. set (k := h1 / val d) in *.
  assert (Vc : val c / val d = (b + t * (1 + e1) + k) * (1 + e2)) by (rewrite V4, V2, V1; unfold b, k; field; assumption).
  set (S := Rabs b + Rabs (IZR n) + 1) in *.
  assert (A1 : Rabs (t * e1 + k) <= S * u).
  { tri. pose proof (abs_mul_le t e1 _ _ Bt E1). unfold S. nra. }
  assert (A2 : Rabs (b + t * (1 + e1) + k) <= S * (1 + u)).
  { replace (b + t * (1 + e1) + k) with (b + t + (t * e1 + k)) by ring. tri. pose proof (Rabs_triang b t). unfold S in *. nra. }
  assert (Err : Rabs (val c / val d - (b + t)) <= S * (22 / 10 * u)).
  { rewrite Vc. replace ((b + t * (1 + e1) + k) * (1 + e2) - (b + t)) with ((t * e1 + k) + (b + t * (1 + e1) + k) * e2) by ring.
    tri. pose proof (abs_mul_le _ _ _ _ A2 E2). assert (S0 : 0 <= S) by (unfold S; lra).
    assert (S1 : 0 <= S * u) by (apply Rmult_le_pos; lra). assert (S * u * u <= S * u * / 10) by (apply Rmult_le_compat_l; lra). lra. }
  split; [assumption |]. split; [| exact Err].
  assert (Rabs (val c / val d) <= pow2 47 * 2).
  { replace (val c / val d) with ((val c / val d - (b + t)) + (b + t)) by ring. tri. pose proof (Rabs_triang b t).
    assert (S0 : 0 <= S) by (unfold S; lra). assert (S * (22 / 10 * u) <= S * 1) by (apply Rmult_le_compat_l; lra).
    assert (Rabs b + Rabs t <= S) by (unfold S; lra). lra. }
  replace (val c) with (val c / val d * val d) by (field; assumption). eapply Rle_trans; [apply (abs_mul_le _ _ _ _ H Ud) |].
  change 2 with (pow2 1). rewrite <- !bpow_plus. apply bpow_le. zle.
Qed.
Lemma centre_reached b n (v : R) (cd : R) : Rabs b + Rabs (IZR n) + 1 <= pow2 47 ->
  Rabs (cd - (b + (IZR n + / 2))) <= (Rabs b + Rabs (IZR n) + 1) * (22 / 10 * u) ->
  Rabs (v - (cd - b - / 2)) <= 8 * u * (1 + (Rabs cd + Rabs b)) -> Rabs (v - IZR n) < / 2.
Proof.
  intros M C H. pose proof u_small as [U1 U2]. set (S := Rabs b + Rabs (IZR n) + 1) in *.
  pose proof (Rabs_pos b). pose proof (Rabs_pos (IZR n)).
  assert (Bt : Rabs (IZR n + / 2) <= Rabs (IZR n) + / 2) by (tri; rewrite (Rabs_pos_eq (/ 2)); lra).
  assert (C' : Rabs cd <= S * (1 + 22 / 10 * u)).
  { replace cd with ((cd - (b + (IZR n + / 2))) + (b + (IZR n + / 2))) by ring. tri. pose proof (Rabs_triang b (IZR n + / 2)). unfold S in *. nra. }
  replace (v - IZR n) with ((v - (cd - b - / 2)) + (cd - (b + (IZR n + / 2)))) by ring.
  eapply Rle_lt_trans; [apply Rabs_triang |].
  assert (Su : S * u <= / 64).
  { replace (/ 64) with (pow2 47 * u). apply Rmult_le_compat_r; lra. unfold u. rewrite <- bpow_plus. change (47 + -53)%Z with (-6)%Z. reflexivity. }
  assert (0 <= S) by (unfold S; lra). assert (u * u <= u / 1000000) by nra.
  assert (Rabs b <= S) by (unfold S; lra). nra.
Qed.
Lemma indices_center T i j : plain T -> int32 i -> int32 j -> near (y0 T) (dy T) i -> near (x0 T) (dx T) j ->
  indices T (fst (center T i j)) (snd (center T i j)) = Some (i, j).
Proof.
  intros HT Hi Hj Ni Nj. pose proof HT as (Hx0 & Hy0 & Hdx & Hdy & Hsx & Hsy).
  pose proof (proj1 (upto_R _ _) Hx0) as [Fx0 Bx0]. pose proof (proj1 (upto_R _ _) Hy0) as [Fy0 By0].
  assert (Cx : fin (fst (center T i j)) /\ Rabs (val (fst (center T i j))) <= pow2 300 /\
    Rabs (val (fst (center T i j)) / val (dx T) - (val (x0 T) / val (dx T) + (IZR j + / 2))) <= (Rabs (val (x0 T) / val (dx T)) + Rabs (IZR j) + 1) * (22 / 10 * u))
    by exact (centre_axis (x0 T) (dx T) (sx T) j i Fx0 Bx0 Hdx Hsx Hj Hi Nj).
  assert (Cy : fin (snd (center T i j)) /\ Rabs (val (snd (center T i j))) <= pow2 300 /\
    Rabs (val (snd (center T i j)) / val (dy T) - (val (y0 T) / val (dy T) + (IZR i + / 2))) <= (Rabs (val (y0 T) / val (dy T)) + Rabs (IZR i) + 1) * (22 / 10 * u))
    by exact (centre_axis (y0 T) (dy T) (sy T) i j Fy0 By0 Hdy Hsy Hi Hj Ni).
  destruct Cx as (Fc & Bc & Ec), Cy as (Fr & Br & Er).
  destruct (pos_R T (fst (center T i j)) (snd (center T i j)) HT) as (p & q & E & Fp & Fq & Lp & Lq & _); [apply upto_R; split; assumption .. |].
  unfold indices. rewrite E. pose proof (sized_nz _ Hdx) as Nx. pose proof (sized_nz _ Hdy) as Ny.
  rewrite (to_int32_near p i), (to_int32_near q j); try assumption; try reflexivity.
  - eapply centre_reached; [apply (near_R _ _ _ Hdx Nj) | exact Ec |].
    replace (val (fst (center T i j)) / val (dx T) - val (x0 T) / val (dx T) - / 2) with ((val (fst (center T i j)) - val (x0 T)) / val (dx T) - / 2) by (field; auto). exact Lq.
  - eapply centre_reached; [apply (near_R _ _ _ Hdy Ni) | exact Er |].
    replace (val (snd (center T i j)) / val (dy T) - val (y0 T) / val (dy T) - / 2) with ((val (snd (center T i j)) - val (y0 T)) / val (dy T) - / 2) by (field; auto). exact Lp.
Qed.

(** Order. *)
Lemma div_mono a b d : (0 < d /\ a <= b) \/ (d < 0 /\ b <= a) -> a / d <= b / d.
Proof.
  intros [[D H] | [D H]]; unfold Rdiv.
  - apply Rmult_le_compat_r; [left; apply Rinv_0_lt_compat; assumption | assumption].
  - assert (/ d < 0) by (apply Rinv_lt_0_compat; assumption). nra.
Qed.
Lemma rnd_sign a : (0 <= a -> 0 <= rnd a) /\ (a <= 0 -> rnd a <= 0).
Proof. split; intros H; apply rnd_le in H; rewrite rnd_0 in H; exact H. Qed.
Lemma div_mono' a b d : (0 <= d /\ a <= b) \/ (d <= 0 /\ b <= a) -> a / d <= b / d.
Proof.
  intros H. destruct (Rtotal_order d 0) as [L | [-> | G]].
  - apply div_mono. right. destruct H as [[H1 H2] | [H1 H2]]; [lra | split; assumption].
  - unfold Rdiv. rewrite Rinv_0, !Rmult_0_r. lra.
  - apply div_mono. left. destruct H as [[H1 H2] | [H1 H2]]; [split; assumption | lra].
Qed.
Lemma col_order T x x' y y' : plain T -> upto 300 x -> upto 300 x' -> upto 300 y -> upto 300 y' ->
  (0 < val (dx T) /\ val x <= val x') \/ (val (dx T) < 0 /\ val x' <= val x) ->
  val (snd (positions T x y)) <= val (snd (positions T x' y')).
Proof.
  intros HT Hx Hx' Hy Hy' O. destruct (pos_R T x y HT Hx Hy) as (i & j & E & _ & _ & _ & _ & _ & V).
  destruct (pos_R T x' y' HT Hx' Hy') as (i' & j' & E' & _ & _ & _ & _ & _ & V'). rewrite E, E'; cbn [snd]. rewrite V, V'.
  destruct HT as (_ & _ & Hdx & Hdy & _). pose proof (sized_nz _ Hdx) as Nx. pose proof (sized_nz _ Hdy) as Ny.
  apply rnd_le. apply Rplus_le_compat_r. apply rnd_le. apply div_mono'.
  destruct (Rtotal_order (val (dy T)) 0) as [L | [Z | G]]; [| contradiction |]; destruct O as [[O1 O2] | [O1 O2]].
  - right. split; [apply (rnd_sign (val (dx T) * val (dy T))); nra |]. apply rnd_le, Rplus_le_compat_r, rnd_le. nra.
  - left. split; [apply (rnd_sign (val (dx T) * val (dy T))); nra |]. apply rnd_le, Rplus_le_compat_r, rnd_le. nra.
  - left. split; [apply (rnd_sign (val (dx T) * val (dy T))); nra |]. apply rnd_le, Rplus_le_compat_r, rnd_le. nra.
  - right. split; [apply (rnd_sign (val (dx T) * val (dy T))); nra |]. apply rnd_le, Rplus_le_compat_r, rnd_le. nra.
Qed.
Lemma row_order T x x' y y' : plain T -> upto 300 x -> upto 300 x' -> upto 300 y -> upto 300 y' ->
  (0 < val (dy T) /\ val y <= val y') \/ (val (dy T) < 0 /\ val y' <= val y) ->
  val (fst (positions T x y)) <= val (fst (positions T x' y')).
Proof.
  intros HT Hx Hx' Hy Hy' O. destruct (pos_R T x y HT Hx Hy) as (i & j & E & _ & _ & _ & _ & V & _).
  destruct (pos_R T x' y' HT Hx' Hy') as (i' & j' & E' & _ & _ & _ & _ & V' & _). rewrite E, E'; cbn [fst]. rewrite V, V'.
  apply rnd_le. apply Rplus_le_compat_r. apply rnd_le. apply div_mono.
  destruct O as [[O1 O2] | [O1 O2]]; [left | right]; (split; [assumption |]); apply rnd_le, Rplus_le_compat_r; assumption.
Qed.
Lemma to_int32_order (a b : double) n m : val a <= val b -> to_int32 a = Some n -> to_int32 b = Some m -> (n <= m)%Z.
Proof.
  unfold to_int32. intros H. destruct (Bnearbyint_correct 53 1024 emax1024 mode_NE a) as (Va & Ga & _).
  destruct (Bnearbyint_correct 53 1024 emax1024 mode_NE b) as (Vb & Gb & _).
  destruct (is_finite (Bnearbyint mode_NE a)); [| discriminate]. destruct (is_finite (Bnearbyint mode_NE b)); [| discriminate].
  destruct (_ && _); [| discriminate]. intros K. injection K as <-. destruct (_ && _); [| discriminate]. intros K. injection K as <-.
  apply le_IZR. rewrite !(Btrunc_correct 53 1024 emax1024), Va, Vb. apply round_le; try typeclasses eauto. apply round_le; try typeclasses eauto. assumption.
Qed.
