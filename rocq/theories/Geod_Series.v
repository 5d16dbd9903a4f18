(** The series of the geodesic problems against the integrals they stand for. *)
From Coq Require Import List ZArith QArith Qreals Reals Lra Lia Bool.
From Coquelicot Require Import Coquelicot.
From Verif Require Import Geod_Model Geod_Spec Geod_Poly Geod_Forward.
Import ListNotations.
Open Scope R_scope.

(* ---- multiples of an angle *)
Fixpoint chebr (k : nat) (t0 t1 c : R) : R := match k with O => t0 | S k' => chebr k' t1 (2 * c * t1 - t0) c end.
Fixpoint chebx (k : nat) (t0 t1 c : ex) : ex :=
  match k with O => t0 | S k' => chebx k' t1 (Sub (Mul (Mul (K 2 1) c) t1) t0) c end.
Lemma xev_cheb : forall k t0 t1 c env, xev (chebx k t0 t1 c) env = chebr k (xev t0 env) (xev t1 env) (xev c env).
Proof.
  induction k as [|k IH]; intros t0 t1 c env; [reflexivity|]. cbn [chebx chebr]. rewrite IH. cbn [xev]. f_equal. field.
Qed.
Lemma cheb_cos : forall k a x, chebr k (cos a) (cos (a + x)) (cos x) = cos (a + INR k * x).
Proof.
  induction k as [|k IH]; intros a x; [cbn [chebr INR]; f_equal; ring|]. cbn [chebr].
  replace (2 * cos x * cos (a + x) - cos a) with (cos (a + x + x)).
  - rewrite IH, S_INR. f_equal. ring.
  - replace a with (a + x - x) at 3 by ring. rewrite cos_plus, cos_minus. ring.
Qed.
Lemma cheb_sin : forall k a x, chebr k (sin a) (sin (a + x)) (cos x) = sin (a + INR k * x).
Proof.
  induction k as [|k IH]; intros a x; [cbn [chebr INR]; f_equal; ring|]. cbn [chebr].
  replace (2 * cos x * sin (a + x) - sin a) with (sin (a + x + x)).
  - rewrite IH, S_INR. f_equal. ring.
  - replace a with (a + x - x) at 3 by ring. rewrite sin_plus, sin_minus. ring.
Qed.
Lemma cheb_scale : forall k m t0 t1 c, chebr k (m * t0) (m * t1) c = m * chebr k t0 t1 c.
Proof.
  induction k as [|k IH]; intros m t0 t1 c; [reflexivity|]. cbn [chebr]. rewrite <- IH. f_equal. ring.
Qed.
Lemma cos_mult : forall k x, cos (INR k * x) = chebr k 1 (cos x) (cos x).
Proof. intros k x. rewrite <- cos_0 at 1. replace (cos x) with (cos (0 + x)) at 1 by (f_equal; ring). rewrite cheb_cos. f_equal. ring. Qed.
Lemma sin_mult : forall k x, sin (INR k * x) = sin x * chebr k 0 1 (cos x).
Proof.
  intros k x. rewrite <- cheb_scale, Rmult_0_r, Rmult_1_r. rewrite <- sin_0 at 1.
  replace (sin x) with (sin (0 + x)) by (f_equal; ring). rewrite cheb_sin. f_equal. ring.
Qed.

(* ---- the derivative of a series *)
Fixpoint dsines (i : nat) (cs : list R) (s : R) : R :=
  match cs with [] => 0 | c :: cs' => c * (2 * (INR i + 1) * cos (2 * (INR i + 1) * s)) + dsines (S i) cs' s end.
Lemma sines_derive : forall cs i s, is_derive (sines i cs) s (dsines i cs s).
Proof.
  induction cs as [|c cs IH]; intros i s.
  - cbn [sines dsines]. apply (is_derive_const (K := R_AbsRing) (V := R_NormedModule)).
  - cbn [sines dsines]. apply (is_derive_plus (K := R_AbsRing) (V := R_NormedModule)); [|apply IH].
    auto_derive; [exact Logic.I|]. ring.
Qed.
(** The same as a polynomial in the coefficients and the cosine of twice the angle. *)
Fixpoint dsumx (i : nat) (cv : ex) (cs : list ex) : ex :=
  match cs with
  | [] => K 0 1
  | e :: cs' => Add (Mul (Mul e (K (2 * (Z.of_nat i + 1)) 1)) (chebx (S i) (K 1 1) cv cv)) (dsumx (S i) cv cs')
  end.
Lemma dsines_poly : forall cs cv env s, xev cv env = cos (2 * s) -> forall i,
  dsines i (map (fun e => xev e env) cs) s = xev (dsumx i cv cs) env.
Proof.
  induction cs as [|e cs IH]; intros cv env s C i; [cbn [map dsines dsumx xev]; field|].
  cbn [map dsines dsumx]. rewrite (IH cv env s C). cbn [xev]. rewrite xev_cheb, C. cbn [xev].
  replace (2 * (INR i + 1) * s) with (INR (S i) * (2 * s)) by (rewrite S_INR; ring). rewrite cos_mult.
  rewrite mult_IZR, plus_IZR, <- INR_IZR_INZ. replace (IZR 1 / IZR 1) with 1 by field. field.
Qed.

(* ---- the third flattening and the parameter of the series *)
Lemma third_model : forall a b, 0 < a -> 0 < b -> flattening a b / (2 - flattening a b) = third a b.
Proof. intros a b PA PB. unfold flattening, third. field. split; lra. Qed.
Lemma second_value : forall a b, 0 < a -> 0 < b -> second_eccn2 (flattening a b) = (a ^ 2 - b ^ 2) / b ^ 2.
Proof.
  intros a b PA PB. unfold second_eccn2, flattening. field. split; [lra|]. split; [lra|].
  replace (a * a - (a - b) * (2 * a - (a - b))) with (b * b) by ring. nra.
Qed.
Definition epsilon (a b C : R) : R := eps_of (second_eccn2 (flattening a b) * C ^ 2).
Lemma epsilon_spec : forall a b C, 0 < a -> 0 < b -> C ^ 2 <= 1 -> let e := epsilon a b C in
  e < 1 /\ Rabs e <= Rabs (third a b) /\ (a ^ 2 - b ^ 2) * C ^ 2 * (1 - e) ^ 2 = b ^ 2 * (4 * e).
Proof.
  intros a b C PA PB HC e. pose proof (pow2_ge_0 C) as HC0. unfold e, epsilon. rewrite second_value by assumption.
  set (k2 := (a ^ 2 - b ^ 2) / b ^ 2 * C ^ 2). set (r := a / b).
  assert (PR : 0 < r) by (apply Rdiv_lt_0_compat; assumption).
  assert (KE : 1 + k2 = 1 + (r * r - 1) * C ^ 2) by (unfold k2, r; field; lra).
  assert (KP : 0 < 1 + k2) by (rewrite KE; nra).
  unfold eps_of. set (w := sqrt (1 + k2)). pose proof (sqrt_lt_R0 _ KP) as WP. fold w in WP.
  assert (WW : w * w = 1 + k2) by (apply sqrt_sqrt; lra).
  assert (TE : third a b = (r - 1) / (r + 1)) by (unfold third, r; field; lra).
  assert (MONO : forall x y, 0 < x -> x <= y -> (x - 1) / (x + 1) <= (y - 1) / (y + 1)).
  { intros x y PX L. assert (E : (y - 1) / (y + 1) - (x - 1) / (x + 1) = 2 * (y - x) / ((x + 1) * (y + 1))) by (field; lra).
    assert (0 < (x + 1) * (y + 1)) by (apply Rmult_lt_0_compat; lra).
    assert (0 <= 2 * (y - x) / ((x + 1) * (y + 1))) by (apply Rmult_le_pos; [lra|apply Rlt_le, Rinv_0_lt_compat; assumption]). lra. }
  split; [|split].
  - apply (Rmult_lt_reg_r (w + 1)); [lra|]. replace ((w - 1) / (w + 1) * (w + 1)) with (w - 1) by (field; lra). lra.
  - rewrite TE. assert (DR : r * r - w * w = (r * r - 1) * (1 - C ^ 2)) by (rewrite WW, KE; ring).
    assert (DW : w * w - 1 = (r * r - 1) * C ^ 2) by (rewrite WW, KE; ring).
    destruct (Rle_lt_dec 1 r) as [R1|R1].
    + assert (R2 : 0 <= r * r - 1) by nra.
      assert (1 <= w). { pose proof (Rmult_le_pos _ _ R2 HC0). apply Rnot_lt_le; intros X. assert (w * w < 1) by nra. lra. }
      assert (w <= r). { pose proof (Rmult_le_pos (r * r - 1) (1 - C ^ 2) R2 ltac:(lra)). apply Rnot_lt_le; intros X. assert (r * r < w * w) by nra. lra. }
      pose proof (MONO w r WP H0). assert (0 <= (w - 1) / (w + 1)) by (apply Rmult_le_pos; [lra|apply Rlt_le, Rinv_0_lt_compat; lra]).
      rewrite !Rabs_right by lra. assumption.
    + assert (R2 : 0 <= 1 - r * r) by nra.
      assert (w <= 1). { pose proof (Rmult_le_pos _ _ R2 HC0). apply Rnot_lt_le; intros X. assert (1 < w * w) by nra. lra. }
      assert (r <= w). { pose proof (Rmult_le_pos (1 - r * r) (1 - C ^ 2) R2 ltac:(lra)). apply Rnot_lt_le; intros X. assert (w * w < r * r) by nra. lra. }
      pose proof (MONO r w PR H0). pose proof (MONO w 1 WP H) as M1. replace ((1 - 1) / (1 + 1)) with 0 in M1 by field.
      rewrite !Rabs_left1 by lra. lra.
  - assert (E1 : 1 - (w - 1) / (w + 1) = 2 / (w + 1)) by (field; lra). rewrite E1.
    assert (KC : (a ^ 2 - b ^ 2) * C ^ 2 = b ^ 2 * k2) by (unfold k2; field; lra). rewrite KC.
    replace k2 with (w * w - 1) by lra. field. lra.
Qed.
(** The speed in terms of the parameter. *)
Definition root (e c : R) : R := sqrt (1 - 2 * e * c + e * e).
Lemma root_pos : forall e c, Rabs e <= 1 / 10 -> Rabs c <= 1 -> 9 / 10 <= root e c /\ root e c * root e c = 1 - 2 * e * c + e * e /\ root e c <= 11 / 10.
Proof.
  intros e c HE HC. unfold root. apply Rabs_le_between in HE. apply Rabs_le_between in HC.
  assert (LU : 81 / 100 <= 1 - 2 * e * c + e * e <= 121 / 100).
  { destruct (Rle_dec 0 e) as [E|E].
    - pose proof (Rmult_le_pos e (1 - c) E ltac:(lra)). pose proof (Rmult_le_pos e (1 + c) E ltac:(lra)). split; nra.
    - pose proof (Rmult_le_pos (- e) (1 - c) ltac:(lra) ltac:(lra)). pose proof (Rmult_le_pos (- e) (1 + c) ltac:(lra) ltac:(lra)). split; nra. }
  destruct LU as [L U].
  split; [|split].
  - replace (9 / 10) with (sqrt (9 / 10 * (9 / 10))) by (apply sqrt_square; lra). apply sqrt_le_1_alt. lra.
  - apply sqrt_sqrt. lra.
  - replace (11 / 10) with (sqrt (11 / 10 * (11 / 10))) by (apply sqrt_square; lra). apply sqrt_le_1_alt. lra.
Qed.
Lemma speed_root : forall a b C s, 0 < a -> 0 < b -> C ^ 2 <= 1 -> let e := epsilon a b C in
  speed a b C s = b * root e (cos (2 * s)) / (1 - e).
Proof.
  intros a b C s PA PB HC e. destruct (epsilon_spec a b C PA PB HC) as (E1 & _ & E2). fold e in E1, E2.
  unfold speed, root.
  assert (Q : b ^ 2 + (a ^ 2 - b ^ 2) * C ^ 2 * sin s ^ 2 = (b / (1 - e)) ^ 2 * (1 - 2 * e * cos (2 * s) + e * e)).
  { rewrite cos_2a_sin. replace ((a ^ 2 - b ^ 2) * C ^ 2) with (b ^ 2 * (4 * e) / (1 - e) ^ 2) by (rewrite <- E2; field; lra). field. lra. }
  rewrite Q, sqrt_mult_alt by apply pow2_ge_0. rewrite sqrt_pow2.
  - field. lra.
  - apply Rmult_le_pos; [lra|apply Rlt_le, Rinv_0_lt_compat; lra].
Qed.
