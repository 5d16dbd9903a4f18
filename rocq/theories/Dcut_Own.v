(** Clipping a grid laid out in whole units to the extent of its centres. *)
From Coq Require Import List ZArith QArith Qabs Qpower Qreals Reals Lra Lia Bool.
From Flocq Require Import Core IEEE754.BinarySingleNaN.
From Verif Require Import Dbl_Model Dbl_Spec Dbl_Float Dbl_Grid Dbl_Proofs Dcut_Model Dcut_Spec Dcut_Proofs Dcut_Clip Dcut_Fit.
Import ListNotations.
Open Scope R_scope.

Lemma on_raster e M a m : (M <= 2 ^ 26)%Z -> fin a -> (Z.abs m <= M)%Z -> val a = IZR m * pow2 e -> raster 26 e a.
Proof.
  intros HM F Hm E. split; [assumption |]. exists m. split; [| lia]. apply eqR_Qeq. rewrite value_R, Q2R_mult, Q2R_Z, Q2R_pow2. assumption.
Qed.
Lemma own_axis e (o d s : double) (n k l m : Z) : (-200 <= e <= 150)%Z -> fin o -> fin d -> nought s ->
  val o = IZR k * pow2 e -> val d = IZR (2 * l) * pow2 e -> (Z.abs k <= 2 ^ 26)%Z -> (1 <= l <= 2 ^ 25)%Z -> (1 <= n)%Z -> (k + n * (2 * l) <= 2 ^ 26)%Z -> (Z.abs m <= 2 ^ 53)%Z ->
  let a := dadd o (dmul half (dadd d s)) in
  let b := dsub (dadd a (dmul d (of_int (n - 1)))) (dmul s (of_int m)) in
  raster 26 e a /\ raster 26 e b /\ val a = val o + / 2 * val d /\ val b = val o + (IZR (n - 1) + / 2) * val d.
Proof.
  intros He Fo Fd Hs Eo Ed Hk Hl Hn Hb Hm a b. change (2 ^ 25)%Z with 33554432%Z in *. change (2 ^ 26)%Z with 67108864%Z in *.
  assert (P53 : (2 ^ 53 = 9007199254740992)%Z) by reflexivity. rewrite P53 in Hm.
  assert (I1 : (0 <= l * (n - 1) <= 67108864)%Z) by (clear - Hk Hl Hn Hb; nia).
  assert (I2 : (n <= 134217729)%Z) by (clear - Hk Hl Hn Hb; nia).
  assert (I3 : (k + n * (2 * l) = k + l + 2 * l * (n - 1) + l)%Z) by (clear; ring).
  assert (I4 : (Z.abs (k + l) <= 67108864)%Z) by (clear - Hk Hl Hn Hb; nia).
  assert (I5 : (Z.abs (k + l + 2 * l * (n - 1)) <= 67108864)%Z) by (clear - Hk Hl Hb I1 I3; lia).
  assert (I6 : (Z.abs (2 * l * (n - 1)) <= 134217728)%Z) by (clear - I1; lia).
  assert (I7 : (2 * l * Z.abs (n - 1) <= 134217728)%Z) by (rewrite Z.abs_eq; clear - I1 Hn; lia).
  destruct (nought_R s Hs) as [Fs Vs].
  assert (Od : on 67108864 e d) by (split; [assumption |]; exists (2 * l)%Z; split; [lia | assumption]).
  assert (Bd : Rabs (val d) <= pow2 1000) by (rewrite Ed; apply (on_small 67108864); lia).
  destruct (add_nought d s Fd Fs Vs Bd) as [F1 V1].
  assert (O1 : on 67108864 e (dadd d s)) by (split; [assumption |]; exists (2 * l)%Z; split; [lia | rewrite V1; assumption]).
  destruct half_on as [Oh Vh]. destruct (on_mul _ _ _ _ _ _ Oh O1) as [[F2 _] V2]; [lia | lia |]. rewrite Vh, V1 in V2.
  assert (E2 : val (dmul half (dadd d s)) = IZR l * pow2 e) by (rewrite V2, Ed, mult_IZR; lra).
  assert (O2 : on 33554432 e (dmul half (dadd d s))) by (split; [assumption |]; exists l; split; [lia | assumption]).
  assert (Oo : on 67108864 e o) by (split; [assumption |]; exists k; split; [lia | assumption]).
  destruct (on_add _ _ _ _ _ Oo O2) as [[Fa _] Va]; [lia | lia |]. fold a in Fa, Va.
  assert (Ea : val a = IZR (k + l) * pow2 e) by (rewrite Va, E2, Eo, plus_IZR; ring).
  destruct (of_int_on (n - 1)) as [On Vn]; [clear - I2 Hn; lia |].
  assert (Od' : on (2 * l) e d) by (split; [assumption |]; exists (2 * l)%Z; split; [lia | assumption]).
  destruct (on_mul _ _ _ _ _ _ Od' On) as [[F3 _] V3]; [clear - I7; lia | clear - He; lia |]. rewrite Vn in V3.
  assert (E3 : val (dmul d (of_int (n - 1))) = IZR (2 * l * (n - 1)) * pow2 e) by (rewrite V3, Ed, !mult_IZR; ring).
  assert (O3 : on 134217728 e (dmul d (of_int (n - 1)))) by (split; [assumption |]; exists (2 * l * (n - 1))%Z; split; [exact I6 | assumption]).
  assert (Oa : on 134217728 e a) by (split; [assumption |]; exists (k + l)%Z; split; [clear - I4; lia | assumption]).
  destruct (on_add _ _ _ _ _ Oa O3) as [[F4 _] V4]; [clear; lia | clear - He; lia |]. rewrite Ea, E3 in V4.
  assert (E4 : val (dadd a (dmul d (of_int (n - 1)))) = IZR (k + l + 2 * l * (n - 1)) * pow2 e) by (rewrite V4, !plus_IZR; ring).
  destruct (of_int_on m) as [[Fm _] _]; [clear - Hm; lia |]. destruct (mul_nought s (of_int m) Hs Fm) as [F5 V5].
  destruct (sub_nought _ _ F4 F5 V5) as [F6 V6].
  { rewrite E4. apply (on_small 134217728); [clear - I5; lia | clear; lia | clear - He; lia]. }
  fold b in F6, V6. rewrite E4 in V6.
  split; [apply (on_raster e 67108864 a (k + l)); [clear; lia | assumption | exact I4 | assumption] |].
  split; [apply (on_raster e 67108864 b (k + l + 2 * l * (n - 1))); [clear; lia | assumption | exact I5 | assumption] |].
  split.
  - rewrite Va, V2. ring.
  - rewrite V6, Eo, Ed, !plus_IZR, !mult_IZR. lra.
Qed.
Lemma same_range (a b n : Z) : (1 <= n)%Z -> (forall k, (a <= k < b)%Z <-> (0 <= k < n)%Z) -> a = 0%Z /\ b = n.
Proof.
  intros Hn H. pose proof (proj2 (H 0%Z)). pose proof (proj2 (H (n - 1)%Z)). pose proof (H (-1)%Z). pose proof (H n). lia.
Qed.
Lemma even_raster e (d : double) : raster 25 (e + 1) d -> (0 < value d)%Q -> exists l, val d = IZR (2 * l) * pow2 e /\ (1 <= l <= 2 ^ 25)%Z.
Proof.
  intros H P. apply raster_R in H as (F & l & Hl & E). exists l. rewrite bpow_plus in E. change (pow2 1) with 2 in E.
  split; [rewrite E, mult_IZR; ring |]. apply pos_R' in P. assert (0 < l)%Z; [| lia]. apply lt_IZR. pose proof (bpow_gt_0 radix2 e). rewrite E in P.
  apply Rmult_lt_reg_r with (pow2 e * 2); [lra |]. lra.
Qed.
Lemma own_extent_exact e T ny nx : metric e T -> raster 25 (e + 1) (dx T) -> raster 25 (e + 1) (dy T) ->
  (0 < value (dx T))%Q -> (0 < value (dy T))%Q -> (1 <= ny <= 2 ^ 25)%Z -> (1 <= nx <= 2 ^ 25)%Z ->
  (value (x0 T) + inject_Z nx * value (dx T) <= Qpower 2 (26 + e))%Q -> (value (y0 T) + inject_Z ny * value (dy T) <= Qpower 2 (26 + e))%Q ->
  (let '(a, b, c, d) := centre_extent T ny nx in clip_window T a b c d) = Some (0, ny, 0, nx)%Z.
Proof.
  intros HT Ex Ey Px Py Hny Hnx Bx By. pose proof HT as (He & Rx0 & Ry0 & Rdx & Rdy & Nx & Ny & Sx & Sy).
  destruct (even_raster _ _ Ex Px) as (l & Edx & Hl). destruct (even_raster _ _ Ey Py) as (m & Edy & Hm).
  apply raster_R in Rx0 as (Fx0 & k & Hk & Ex0), Ry0 as (Fy0 & p & Hp & Ey0), Rdx as (Fdx & _), Rdy as (Fdy & _).
  apply le_QR in Bx, By. rewrite Q2R_plus, Q2R_mult, Q2R_Z, !value_R, Q2R_pow2 in Bx, By.
  change (2 ^ 25)%Z with 33554432%Z in *. pose proof (bpow_gt_0 radix2 e) as Pe.
  assert (Cx : (k + nx * (2 * l) <= 2 ^ 26)%Z).
  { apply le_IZR. rewrite plus_IZR, (mult_IZR nx). apply Rmult_le_reg_r with (pow2 e); [assumption |]. rewrite bpow_plus in Bx. change (IZR (2 ^ 26)) with (pow2 26). rewrite Ex0, Edx in Bx. lra. }
  assert (Cy : (p + ny * (2 * m) <= 2 ^ 26)%Z).
  { apply le_IZR. rewrite plus_IZR, (mult_IZR ny). apply Rmult_le_reg_r with (pow2 e); [assumption |]. rewrite bpow_plus in By. change (IZR (2 ^ 26)) with (pow2 26). rewrite Ey0, Edy in By. lra. }
  unfold centre_extent.
  destruct (own_axis e (x0 T) (dx T) (sx T) nx k l (ny - 1) He Fx0 Fdx Sx Ex0 Edx Hk Hl (proj1 Hnx) Cx) as (Ra & Rb & Va & Vb); [change (2 ^ 53)%Z with 9007199254740992%Z; lia |].
  destruct (own_axis e (y0 T) (dy T) (sy T) ny p m (nx - 1) He Fy0 Fdy Sy Ey0 Edy Hp Hm (proj1 Hny) Cy) as (Rc & Rd & Vc & Vd); [change (2 ^ 53)%Z with 9007199254740992%Z; lia |].
  cbv zeta in *. set (a := dadd (x0 T) (dmul half (dadd (dx T) (sx T)))) in *. set (c := dadd (y0 T) (dmul half (dadd (dy T) (sy T)))) in *.
  set (b := dsub (dadd a (dmul (dx T) (of_int (nx - 1)))) (dmul (sx T) (of_int (ny - 1)))) in *.
  set (d := dsub (dadd c (dmul (dy T) (of_int (ny - 1)))) (dmul (sy T) (of_int (nx - 1)))) in *.
  apply pos_R' in Px, Py.
  assert (N1 : 0 <= IZR (nx - 1)) by (apply IZR_le; lia). assert (N2 : 0 <= IZR (ny - 1)) by (apply IZR_le; lia).
  assert (Oab : (value a <= value b)%Q) by (apply val_le; rewrite Va, Vb; nra). assert (Ocd : (value c <= value d)%Q) by (apply val_le; rewrite Vc, Vd; nra).
  destruct (clip_exact e T a b c d HT Ra Rb Rc Rd Oab Ocd) as (i0 & i1 & j0 & j1 & E & Wi & Wj). rewrite E.
  assert (Axis : forall (o dd lo hi n : R) (q : Z), 0 < dd -> lo = o + / 2 * dd -> hi = o + (n + / 2) * dd -> (lo <= o + (IZR q + / 2) * dd <= hi <-> 0 <= IZR q <= n)).
  { intros o dd lo hi n q P -> ->. split; intros [A B]; split.
    - apply Rmult_le_reg_r with dd; [assumption |]. lra.
    - apply Rmult_le_reg_r with dd; [assumption |]. lra.
    - assert (0 <= IZR q * dd) by (apply Rmult_le_pos; lra). lra.
    - assert (IZR q * dd <= n * dd) by (apply Rmult_le_compat_r; lra). lra. }
  assert (Ri : i0 = 0%Z /\ i1 = ny).
  { apply same_range; [lia |]. intros q. rewrite Wi, !le_QR. unfold row_centre. rewrite centre_R, !value_R, (Axis _ _ _ _ (IZR (ny - 1)) q Py Vc Vd).
    split; intros [A B]; [apply le_IZR in A, B; lia | split; apply IZR_le; lia]. }
  assert (Rj : j0 = 0%Z /\ j1 = nx).
  { apply same_range; [lia |]. intros q. rewrite Wj, !le_QR. unfold col_centre. rewrite centre_R, !value_R, (Axis _ _ _ _ (IZR (nx - 1)) q Px Va Vb).
    split; intros [A B]; [apply le_IZR in A, B; lia | split; apply IZR_le; lia]. }
  destruct Ri as [-> ->], Rj as [-> ->]. reflexivity.
Qed.
