(** Areas of rings computed in doubles. *)
From Coq Require Import List ZArith QArith Qabs Qpower Qreals Reals Lra Lia Bool.
From Flocq Require Import Core IEEE754.BinarySingleNaN.
From Verif Require Geom_Proofs.
From Verif Require Import Geom_Spec Dbl_Model Dbl_Spec Dbl_Float Dbl_Contains Dbl_Grid.
Import ListNotations.
Open Scope R_scope.

(** The exact sums. *)
Definition fM (M : Q) (p q : Q * Q) : Q := (((1 # 2) * (fst q + fst p) - M) * (snd q - snd p))%Q.
Lemma area_any M o v l : (fM M (last (v :: l) v) v + path_sum (fM M) v l == signed_area o (v :: l))%Q.
Proof.
  unfold signed_area. rewrite Geom_Proofs.tri_mod.
  rewrite <- (Geom_Proofs.ring_mod (fM M) Geom_Proofs.half (fun p => (1 # 2) * (fst p * snd p) - M * snd p)%Q 1%Q (v :: l)).
  2: { intros a b. unfold fM, Geom_Proofs.half. ring. }
  cbn [ring_sum]. rewrite Geom_Proofs.path_close. ring.
Qed.
Lemma climb_any v l : (climb (v :: l) == Qabs (snd v - snd (last (v :: l) v)) + path_sum (fun a b => Qabs (snd b - snd a)) v l)%Q.
Proof. unfold climb; cbn [ring_sum]. rewrite Geom_Proofs.path_close. ring. Qed.
Definition sR (m : double) (a b : pnt) : R := (/ 2 * (val (fst b) + val (fst a)) - val m) * (val (snd b) - val (snd a)).
Fixpoint pathR (f : pnt -> pnt -> R) (a : pnt) (l : list pnt) : R :=
  match l with [] => 0 | b :: l' => f a b + pathR f b l' end.
Lemma sR_Q m a b : Q2R (fM (value m) (values a) (values b)) = sR m a b.
Proof.
  unfold fM, values, sR; cbn [fst snd]. rewrite Q2R_mult, !Q2R_minus, Q2R_mult, Q2R_plus, !value_R.
  replace (Q2R (1 # 2)) with (/ 2) by (unfold Q2R; cbn; lra). reflexivity.
Qed.
Lemma pathR_Q (f : Q * Q -> Q * Q -> Q) (g : pnt -> pnt -> R) : (forall a b, Q2R (f (values a) (values b)) = g a b) ->
  forall l a, Q2R (path_sum f (values a) (map values l)) = pathR g a l.
Proof.
  intros H. induction l as [| b l IH]; intros a; cbn [map path_sum pathR]; [unfold Q2R; cbn; lra |]. rewrite Q2R_plus, H, IH. reflexivity.
Qed.
Lemma last_map (v : pnt) : forall l, last (values v :: map values l) (values v) = values (last (v :: l) v).
Proof.
  intros l. change (values v :: map values l) with (map values (v :: l)). generalize (v :: l). intros k.
  induction k as [| a k IH]; [reflexivity |]. destruct k as [| b k]; [reflexivity |]. exact IH.
Qed.
Lemma area_R m o v l : Q2R (signed_area o (map values (v :: l))) = sR m (last (v :: l) v) v + pathR (sR m) v l.
Proof.
  cbn [map]. rewrite <- (Qeq_eqR _ _ (area_any (value m) o (values v) (map values l))), Q2R_plus, last_map, sR_Q.
  rewrite (pathR_Q _ (sR m) (fun a b => sR_Q m a b)). reflexivity.
Qed.
Definition rise (a b : pnt) : R := Rabs (val (snd b) - val (snd a)).
Lemma climb_R v l : Q2R (climb (map values (v :: l))) = rise (last (v :: l) v) v + pathR rise v l.
Proof.
  cbn [map]. rewrite (Qeq_eqR _ _ (climb_any (values v) (map values l))), Q2R_plus, last_map.
  rewrite (pathR_Q _ rise); [| intros a b; unfold values; cbn [fst snd]; rewrite Q2R_abs, Q2R_minus, !value_R; reflexivity].
  unfold values; cbn [fst snd]. rewrite Q2R_abs, Q2R_minus, !value_R. reflexivity.
Qed.

(** The least coordinate is one of them. *)
Lemma dmin_in : forall l a, fold_left dmin l a = a \/ In (fold_left dmin l a) l.
Proof.
  induction l as [| b l IH]; intros a; cbn [fold_left]; [left; reflexivity |].
  destruct (IH (dmin a b)) as [E | I]; [| right; right; assumption].
  rewrite E. unfold dmin. destruct (dle a b); [left; reflexivity | right; left; reflexivity].
Qed.
Lemma min_coord (P : double -> Prop) (v : pnt) (l : list pnt) : P (fst v) -> Forall (fun p : pnt => P (fst p)) l -> P (fold_left dmin (map fst l) (fst v)).
Proof.
  intros Hv Hl. destruct (dmin_in (map fst l) (fst v)) as [-> | I]; [assumption |].
  apply in_map_iff in I. destruct I as (p & E & I). rewrite Forall_forall in Hl. rewrite <- E. apply Hl. assumption.
Qed.

(** Exact areas of coordinates on a raster. *)
Lemma on_finer M e x : on M e x -> on (2 * M) (-1 + e) x.
Proof.
  intros (F & m & H & E). split; [assumption |]. exists (2 * m)%Z. split; [lia |]. rewrite E, bpow_plus, mult_IZR. change (pow2 (-1)) with (/ 2). lra.
Qed.
Section Exact.
Variables (k e : Z).
Hypothesis Hk : (0 <= k <= 24)%Z.
Hypothesis He : (-500 <= e <= 300)%Z.
Lemma pow_k : (1 <= 2 ^ k <= 16777216)%Z.
Proof. split; [apply (Z.pow_le_mono_r 2 0 k); lia | apply (Z.pow_le_mono_r 2 k 24); lia]. Qed.
Lemma strip_on (m : double) (a b : pnt) : on (2 ^ k) e m -> on (2 ^ k) e (fst a) -> on (2 ^ k) e (snd a) -> on (2 ^ k) e (fst b) -> on (2 ^ k) e (snd b) ->
  on (8 * (2 ^ k * 2 ^ k)) (-1 + e + e) (strip m a b) /\ val (strip m a b) = sR m a b.
Proof.
  intros Hm Ax Ay Bx By. pose proof pow_k as K. set (p := (2 ^ k)%Z) in *. destruct half_on as [Hh Vh]. unfold strip, sR.
  assert (P : (p * p <= 16777216 * 16777216)%Z) by (apply Z.mul_le_mono_nonneg; lia).
  destruct (on_add p p e (fst b) (fst a) Bx Ax ltac:(lia) ltac:(lia)) as [K1 V1].
  destruct (on_mul 1 (p + p) (-1) e half _ Hh K1 ltac:(lia) ltac:(lia)) as [K2 V2].
  apply on_finer in Hm.
  destruct (on_sub (1 * (p + p)) (2 * p) (-1 + e) _ m K2 Hm ltac:(lia) ltac:(lia)) as [K3 V3].
  destruct (on_sub p p e (snd b) (snd a) By Ay ltac:(lia) ltac:(lia)) as [K4 V4].
  destruct (on_mul (1 * (p + p) + 2 * p) (p + p) (-1 + e) e _ _ K3 K4 ltac:(lia) ltac:(lia)) as [K5 V5].
  split; [eapply on_le; [exact K5 | lia] |]. rewrite V5, V3, V2, V1, V4, Vh. reflexivity.
Qed.
Lemma strips_on (m : double) : on (2 ^ k) e m -> forall l a acc N, on (2 ^ k) e (fst a) -> on (2 ^ k) e (snd a) ->
  Forall (fun p : pnt => on (2 ^ k) e (fst p) /\ on (2 ^ k) e (snd p)) l -> on N (-1 + e + e) acc ->
  (N + 8 * (2 ^ k * 2 ^ k) * Z.of_nat (length l) <= 2 ^ 53)%Z ->
  on (N + 8 * (2 ^ k * 2 ^ k) * Z.of_nat (length l)) (-1 + e + e) (strips m acc a l) /\ val (strips m acc a l) = val acc + pathR (sR m) a l.
Proof.
  intros Hm. pose proof pow_k as K. assert (P0 : (0 <= 8 * (2 ^ k * 2 ^ k))%Z) by lia.
  induction l as [| b l IH]; intros a acc N Ax Ay Hl Ha B; cbn [strips pathR].
  - split; [eapply on_le; [exact Ha |]; cbn; lia | ring].
  - inversion Hl as [| ? ? [Bx By] Hl']; subst. cbn [length] in B. rewrite Nat2Z.inj_succ in B.
    destruct (strip_on m a b Hm Ax Ay Bx By) as [K1 V1]. pose proof (Nat2Z.is_nonneg (length l)).
    assert (0 <= 8 * (2 ^ k * 2 ^ k) * Z.of_nat (length l))%Z by (apply Z.mul_nonneg_nonneg; lia).
    destruct (on_add N (8 * (2 ^ k * 2 ^ k)) (-1 + e + e) acc _ Ha K1 ltac:(lia) ltac:(lia)) as [K2 V2].
    destruct (IH b (dadd acc (strip m a b)) (N + 8 * (2 ^ k * 2 ^ k))%Z Bx By Hl' K2 ltac:(lia)) as [K3 V3].
    split; [eapply on_le; [exact K3 |]; cbn [length]; lia |]. rewrite V3, V2, V1. ring.
Qed.
Lemma last_In {A} (v : A) l : In (last (v :: l) v) (v :: l).
Proof.
  assert (H : forall (k : list A) d, k <> [] -> In (last k d) k).
  { induction k0 as [| a k0 IH]; intros d N; [congruence |]. destruct k0 as [| b k0]; [left; reflexivity |]. right. apply IH. discriminate. }
  apply H. discriminate.
Qed.
Lemma area_exact l o : l <> [] -> Forall (raster2 k e) l -> (Z.of_nat (length l) * 2 ^ (2 * k + 3) <= 2 ^ 53)%Z ->
  is_finite (ring_area l) = true /\ (value (ring_area l) == signed_area o (map values l))%Q.
Proof.
  intros Nl Hl B. destruct l as [| v l]; [congruence |]. clear Nl.
  assert (E8 : (2 ^ (2 * k + 3) = 8 * (2 ^ k * 2 ^ k))%Z) by (replace (2 * k + 3)%Z with (k + k + 3)%Z by lia; rewrite !Z.pow_add_r by lia; ring).
  rewrite E8 in B.
  assert (Ho : Forall (fun p : pnt => on (2 ^ k) e (fst p) /\ on (2 ^ k) e (snd p)) (v :: l)).
  { eapply Forall_impl; [| exact Hl]. intros p [P1 P2]. split; apply raster_on; assumption. }
  set (m := fold_left dmin (map fst l) (fst v)).
  assert (Hm : on (2 ^ k) e m).
  { apply (min_coord (on (2 ^ k) e)); [inversion Ho; tauto |]. inversion Ho as [| ? ? _ Ho']; subst. eapply Forall_impl; [| exact Ho']. intros p [P _]. exact P. }
  pose proof Ho as Ho2. inversion Ho2 as [| ? ? [Vx Vy] Hl']; subst.
  assert (Hw : on (2 ^ k) e (fst (last (v :: l) v)) /\ on (2 ^ k) e (snd (last (v :: l) v))).
  { rewrite Forall_forall in Ho. apply (Ho _ (last_In v l)). }
  destruct (strip_on m (last (v :: l) v) v Hm (proj1 Hw) (proj2 Hw) Vx Vy) as [K1 V1]. pose proof pow_k as K.
  assert (Z0 : on 0 (-1 + e + e) zero) by (split; [reflexivity |]; exists 0%Z; split; [lia | change (val zero) with 0; ring]).
  cbn [length] in B. rewrite Nat2Z.inj_succ in B. assert (P0 : (0 <= 8 * (2 ^ k * 2 ^ k))%Z) by lia.
  destruct (strips_on m Hm l v zero 0%Z Vx Vy Hl' Z0 ltac:(lia)) as [K2 V2].
  destruct (on_add _ _ (-1 + e + e) _ _ K1 K2 ltac:(lia) ltac:(lia)) as [K3 V3].
  split; [exact (proj1 K3) |]. apply eqR_Qeq. rewrite value_R, (area_R m). unfold ring_area. fold m. rewrite V3, V1, V2.
  change (val zero) with 0. ring.
Qed.
End Exact.

(** A bound of the error in general. *)
Lemma add_full k (x y : double) : (-1022 <= k + 1 <= 1000)%Z -> fin x -> fin y -> Rabs (val x) <= pow2 k -> Rabs (val y) <= pow2 k ->
  fin (dadd x y) /\ Rabs (val (dadd x y)) <= pow2 (k + 1) /\ exists e, Rabs e <= u /\ val (dadd x y) = (val x + val y) * (1 + e).
Proof.
  intros Hk Fx Fy Bx By. assert (B : Rabs (val x + val y) <= pow2 (k + 1)).
  { rewrite bpow_plus. change (pow2 1) with 2. tri. lra. }
  destruct (dadd_err x y Fx Fy (le_1000 (k + 1) _ (proj2 Hk) B)) as [F E]. destruct (dadd_ok x y Fx Fy (le_1000 (k + 1) _ (proj2 Hk) B)) as [_ V].
  split; [assumption |]. split; [rewrite V; apply rnd_bound; [exact (proj1 Hk) | assumption] | assumption].
Qed.
Lemma two_err e f : Rabs e <= u -> Rabs f <= u -> Rabs ((1 + e) * (1 + f) - 1) <= 21 / 10 * u.
Proof.
  intros He Hf. pose proof u_small as [U1 U2]. pose proof (abs_mul_le _ _ _ _ He Hf) as Hef. apply Rabs_le_inv in He, Hf, Hef.
  assert (u * u <= u / 1000000) by nra. apply Rabs_le. lra.
Qed.
Definition th : R := pow2 (-917).
Lemma th_eta : eta * pow2 103 <= u * th.
Proof. unfold eta, u, th. rewrite <- !bpow_plus. apply bpow_le. zle. Qed.
Lemma strip_real X w0 m D e1 e2 h2 e3 e4 e5 h5 : Rabs w0 <= X -> Rabs m <= X -> Rabs D <= pow2 101 ->
  Rabs e1 <= u -> Rabs e2 <= u -> Rabs h2 <= eta -> Rabs e3 <= u -> Rabs e4 <= u -> Rabs e5 <= u -> Rabs h5 <= eta ->
  Rabs ((w0 * (1 + e1) * (1 + e2) + h2 - m) * (1 + e3) * (D * (1 + e4)) * (1 + e5) + h5 - (w0 - m) * D)
   <= 43 / 10 * u * (2 * X * Rabs D + th).
Proof.
  intros Hw Hm HD H1 H2 G2 H3 H4 H5 G5. pose proof u_small as [U1 U2]. pose proof eta_pos as ET.
  pose proof (two_err e1 e2 H1 H2) as F12. pose proof (two_err e4 e5 H4 H5) as F45.
  set (f := (1 + e1) * (1 + e2) - 1) in *. set (g := (1 + e4) * (1 + e5) - 1) in *.
  assert (X0 : 0 <= X) by (pose proof (Rabs_pos w0); lra).
  assert (UX : 0 <= u * X) by (apply Rmult_le_pos; lra).
  set (c2 := w0 * (1 + e1) * (1 + e2) + h2).
  assert (E2 : Rabs (c2 - w0) <= 21 / 10 * u * X + eta).
  { replace (c2 - w0) with (w0 * f + h2) by (unfold c2, f; ring). tri. pose proof (abs_mul_le _ _ _ _ Hw F12). lra. }
  assert (EW : Rabs (w0 - m) <= 2 * X) by (tri; rewrite Rabs_Ropp; lra).
  assert (EC : Rabs (c2 - m) <= 22 / 10 * X + eta).
  { replace (c2 - m) with ((c2 - w0) + (w0 - m)) by ring. tri. nra. }
  assert (E3 : Rabs ((c2 - m) * (1 + e3) - (w0 - m)) <= 43 / 10 * u * X + 11 / 10 * eta).
  { replace ((c2 - m) * (1 + e3) - (w0 - m)) with ((c2 - w0) + (c2 - m) * e3) by ring. tri. pose proof (abs_mul_le _ _ _ _ EC H3). nra. }
  replace ((c2 - m) * (1 + e3) * (D * (1 + e4)) * (1 + e5) + h5 - (w0 - m) * D)
    with (D * (((c2 - m) * (1 + e3) - (w0 - m)) * (1 + g) + (w0 - m) * g) + h5) by (unfold g; ring).
  assert (G1 : Rabs (1 + g) <= 1 + 21 / 10 * u) by (tri; rewrite Rabs_R1; lra).
  assert (IN : Rabs (((c2 - m) * (1 + e3) - (w0 - m)) * (1 + g) + (w0 - m) * g) <= 86 / 10 * u * X + 12 / 10 * eta).
  { tri. pose proof (abs_mul_le _ _ _ _ E3 G1) as A. pose proof (abs_mul_le _ _ _ _ EW F45) as B.
    assert (u * (u * X) <= / 1000 * (u * X)) by (apply Rmult_le_compat_r; lra).
    assert (u * eta <= / 1000 * eta) by (apply Rmult_le_compat_r; lra). lra. }
  tri. pose proof (abs_mul_le D _ _ _ (Rle_refl _) IN) as Z. pose proof (Rabs_pos D) as PD.
  pose proof th_eta as TE. assert (P103 : pow2 103 = 4 * pow2 101) by (change 4 with (pow2 2); rewrite <- bpow_plus; reflexivity).
  assert (1 <= pow2 101) by (change 1 with (pow2 0); apply bpow_le; zle).
  assert (eta * Rabs D <= eta * pow2 101) by (apply Rmult_le_compat_l; lra).
  assert (eta * 1 <= eta * pow2 101) by (apply Rmult_le_compat_l; lra).
  assert (0 <= u * th) by (apply Rmult_le_pos; [lra | apply bpow_ge_0]). rewrite P103 in TE. lra.
Qed.
Definition small (X : R) (p : pnt) : Prop :=
  fin (fst p) /\ fin (snd p) /\ Rabs (val (fst p)) <= X /\ Rabs (val (snd p)) <= pow2 100.
Definition wt (X : R) (a b : pnt) : R := 2 * X * rise a b + th.
Lemma strip_err X (m : double) (a b : pnt) : X <= pow2 100 -> fin m -> Rabs (val m) <= X -> small X a -> small X b ->
  fin (strip m a b) /\ Rabs (val (strip m a b) - sR m a b) <= 43 / 10 * u * wt X a b /\ Rabs (sR m a b) <= wt X a b /\ wt X a b <= pow2 210.
Proof.
  intros HX Fm Xm (Fax & Fay & Xa & Bay) (Fbx & Fby & Xb & Bby).
  assert (Bm : Rabs (val m) <= pow2 100) by lra. assert (Bax : Rabs (val (fst a)) <= pow2 100) by lra. assert (Bbx : Rabs (val (fst b)) <= pow2 100) by lra.
  destruct (add_full 100 (fst b) (fst a) ltac:(zle) Fbx Fax Bbx Bax) as (F1 & K1 & e1 & E1 & V1).
  destruct half_on as [[Fh _] Vh].
  assert (Bh : Rabs (val half) <= pow2 (-1)) by (rewrite Vh, Rabs_pos_eq by lra; change (pow2 (-1)) with (/ 2); lra).
  destruct (mul_full (-1) (100 + 1) _ _ ltac:(zle) Fh F1 Bh K1) as (F2 & K2 & e2 & h2 & E2 & G2 & V2).
  change (-1 + (100 + 1))%Z with 100%Z in K2.
  destruct (sub_full 100 _ _ ltac:(zle) F2 Fm K2 Bm) as (F3 & K3 & e3 & E3 & V3).
  destruct (sub_full 100 _ _ ltac:(zle) Fby Fay Bby Bay) as (F4 & K4 & e4 & E4 & V4).
  destruct (mul_full (100 + 1) (100 + 1) _ _ ltac:(zle) F3 F4 K3 K4) as (F5 & K5 & e5 & h5 & E5 & G5 & V5).
  assert (W : Rabs (/ 2 * (val (fst b) + val (fst a))) <= X).
  { rewrite Rabs_mult, (Rabs_pos_eq (/ 2)) by lra. pose proof (Rabs_triang (val (fst b)) (val (fst a))). lra. }
  assert (X0 : 0 <= X) by (pose proof (Rabs_pos (val m)); lra).
  assert (T0 : 0 < th) by apply bpow_gt_0.
  split; [exact F5 |]. split; [| split].
  - unfold strip. rewrite V5, V3, V2, V1, V4, Vh. unfold wt, rise.
    pose proof (strip_real X (/ 2 * (val (fst b) + val (fst a))) (val m) (val (snd b) - val (snd a)) e1 e2 h2 e3 e4 e5 h5 W Xm (diff_small _ _ _ Bby Bay) E1 E2 G2 E3 E4 E5 G5) as Q.
    eapply Rle_trans; [| exact Q]. right. f_equal. unfold sR. ring.
  - unfold sR, wt, rise. assert (Rabs (/ 2 * (val (fst b) + val (fst a)) - val m) <= 2 * X) by (tri; rewrite Rabs_Ropp; lra).
    pose proof (abs_mul_le _ _ _ _ H (Rle_refl (Rabs (val (snd b) - val (snd a))))). lra.
  - unfold wt, rise. pose proof (diff_small _ _ _ Bby Bay) as D. pose proof (Rabs_pos (val (snd b) - val (snd a))).
    assert (X * Rabs (val (snd b) - val (snd a)) <= pow2 100 * pow2 101) by (apply Rmult_le_compat; assumption).
    rewrite <- bpow_plus in H0. assert (th <= pow2 201) by (apply bpow_le; zle).
    assert (pow2 210 = 512 * pow2 201) by (change 512 with (pow2 9); rewrite <- bpow_plus; reflexivity).
    change (100 + 101)%Z with 201%Z in H0. pose proof (bpow_ge_0 radix2 201). lra.
Qed.
Lemma step_err (x y : double) S W s w c : fin x -> fin y -> 0 <= c <= pow2 40 -> 0 <= W -> 0 <= w -> W + w <= pow2 900 ->
  Rabs (val x - S) <= (43 / 10 + 11 / 10 * c) * u * W -> Rabs S <= W -> Rabs (val y - s) <= 43 / 10 * u * w -> Rabs s <= w ->
  fin (dadd x y) /\ Rabs (val (dadd x y) - (S + s)) <= (43 / 10 + 11 / 10 * (c + 1)) * u * (W + w) /\ Rabs (val x + val y) <= pow2 1000.
Proof.
  intros Fx Fy [C0 C1] W0 w0 B Ex ES Ey Es. pose proof u_small as [U1 U2].
  assert (Cu : c * u <= / 1000).
  { apply Rle_trans with (pow2 40 * u); [apply Rmult_le_compat_r; lra |]. unfold u. rewrite <- bpow_plus. change (40 + -53)%Z with (-13)%Z. change (pow2 (-13)) with (/ 8192). lra. }
  set (z := (43 / 10 + 11 / 10 * c) * u) in *. assert (Z0 : 0 <= z) by (unfold z; apply Rmult_le_pos; lra).
  assert (Z1 : z <= / 100) by (unfold z; lra).
  assert (Zc : 43 / 10 * u <= z) by (unfold z; assert (0 <= c * u) by (apply Rmult_le_pos; lra); lra).
  assert (E : Rabs (val x + val y - (S + s)) <= z * (W + w)).
  { replace (val x + val y - (S + s)) with ((val x - S) + (val y - s)) by ring. tri.
    assert (43 / 10 * u * w <= z * w) by (apply Rmult_le_compat_r; lra). lra. }
  assert (SW : Rabs (S + s) <= W + w) by (tri; lra).
  assert (BB : Rabs (val x + val y) <= (W + w) * (1 + z)).
  { replace (val x + val y) with ((val x + val y - (S + s)) + (S + s)) by ring. tri. lra. }
  assert (P0 : 0 <= W + w) by lra.
  assert (B1000 : Rabs (val x + val y) <= pow2 1000).
  { eapply Rle_trans; [exact BB |]. apply Rle_trans with (pow2 900 * 2).
    - apply Rmult_le_compat; lra.
    - change 2 with (pow2 1). rewrite <- bpow_plus. apply bpow_le. zle. }
  destruct (dadd_err x y Fx Fy B1000) as (F & e & He & V).
  split; [assumption |]. split; [| assumption]. rewrite V. replace ((val x + val y) * (1 + e) - (S + s)) with ((val x + val y - (S + s)) + (val x + val y) * e) by ring.
  tri. pose proof (abs_mul_le _ _ _ _ BB He) as M.
  assert (Q : (W + w) * (1 + z) * u <= 11 / 10 * u * (W + w)).
  { replace ((W + w) * (1 + z) * u) with ((1 + z) * (u * (W + w))) by ring. replace (11 / 10 * u * (W + w)) with (11 / 10 * (u * (W + w))) by ring.
    apply Rmult_le_compat_r; [apply Rmult_le_pos; lra | lra]. }
  unfold z in E. lra.
Qed.
Lemma path_nonneg f : (forall a b, 0 <= f a b) -> forall l a, 0 <= pathR f a l.
Proof. intros H. induction l as [| b l IH]; intros a; cbn [pathR]; [lra |]. pose proof (H a b). pose proof (IH b). lra. Qed.
Lemma wt_nonneg X a b : 0 <= X -> 0 <= wt X a b.
Proof. intros H. unfold wt, rise. pose proof (bpow_ge_0 radix2 (-917)). pose proof (Rabs_pos (val (snd b) - val (snd a))). unfold th. nra. Qed.
Lemma strips_err X (m : double) : 0 <= X -> X <= pow2 100 -> fin m -> Rabs (val m) <= X -> forall l a acc S W c,
  small X a -> Forall (small X) l -> fin acc -> Rabs (val acc - S) <= (43 / 10 + 11 / 10 * c) * u * W -> Rabs S <= W -> 0 <= W -> 0 <= c ->
  c + INR (length l) <= pow2 40 -> W + pathR (wt X) a l <= pow2 900 ->
  fin (strips m acc a l) /\ Rabs (S + pathR (sR m) a l) <= W + pathR (wt X) a l /\
  Rabs (val (strips m acc a l) - (S + pathR (sR m) a l)) <= (43 / 10 + 11 / 10 * (c + INR (length l))) * u * (W + pathR (wt X) a l).
Proof.
  intros HX0 HX Fm Xm. induction l as [| b l IH]; intros a acc S W c Ha Hl Facc E ES W0 C0 C1 B.
  - cbn [strips pathR length INR]. rewrite !Rplus_0_r. auto.
  - inversion Hl as [| ? ? Hb Hl']; subst. cbn [pathR length] in *. rewrite S_INR in *. pose proof (pos_INR (length l)).
    destruct (strip_err X m a b HX Fm Xm Ha Hb) as (Fs & Es & Bs & _).
    pose proof (path_nonneg (wt X) (fun a b => wt_nonneg X a b HX0) l b) as P. pose proof (wt_nonneg X a b HX0) as P'.
    destruct (step_err acc (strip m a b) S W (sR m a b) (wt X a b) c Facc Fs ltac:(lra) W0 P' ltac:(lra) E ES Es Bs) as (F2 & E2 & _).
    cbn [strips]. assert (ES2 : Rabs (S + sR m a b) <= W + wt X a b) by (tri; lra).
    destruct (IH b (dadd acc (strip m a b)) (S + sR m a b) (W + wt X a b) (c + 1) Hb Hl' F2 E2 ES2 ltac:(lra) ltac:(lra) ltac:(lra) ltac:(lra)) as (F3 & E3 & E4).
    split; [assumption |]. rewrite !Rplus_assoc in *. rewrite (Rplus_comm (INR (length l)) 1). split; assumption.
Qed.
Lemma path_wt X : forall l a, pathR (wt X) a l = 2 * X * pathR rise a l + INR (length l) * th.
Proof.
  induction l as [| b l IH]; intros a; cbn [pathR length]; [cbn [INR]; ring |]. rewrite IH, S_INR. unfold wt. ring.
Qed.
Lemma path_wt_bound X (m : double) : X <= pow2 100 -> fin m -> Rabs (val m) <= X -> forall l a, small X a -> Forall (small X) l ->
  pathR (wt X) a l <= INR (length l) * pow2 210.
Proof.
  intros HX Fm Xm. induction l as [| b l IH]; intros a Ha Hl; cbn [pathR length]; [cbn [INR]; lra |].
  inversion Hl as [| ? ? Hb Hl']; subst. rewrite S_INR. destruct (strip_err X m a b HX Fm Xm Ha Hb) as (_ & _ & _ & B). pose proof (IH b Hb Hl'). lra.
Qed.
Lemma area_err_R X v l o : 0 <= X -> X <= pow2 100 -> Forall (small X) (v :: l) -> INR (length (v :: l)) <= pow2 40 ->
  fin (ring_area (v :: l)) /\
  Rabs (val (ring_area (v :: l)) - Q2R (signed_area o (map values (v :: l))))
   <= (43 / 10 + 11 / 10 * INR (length (v :: l))) * u * (2 * X * Q2R (climb (map values (v :: l))) + INR (length (v :: l)) * th).
Proof.
  intros X0 HX Hl Hn. set (m := fold_left dmin (map fst l) (fst v)).
  inversion Hl as [| ? ? Hv Hl']; subst.
  assert (Hm : fin m /\ Rabs (val m) <= X).
  { apply (min_coord (fun d => fin d /\ Rabs (val d) <= X)); [destruct Hv as (A & _ & B & _); split; assumption |].
    eapply Forall_impl; [| exact Hl']. intros p (A & _ & B & _). split; assumption. }
  destruct Hm as [Fm Xm].
  assert (Hw : small X (last (v :: l) v)). { rewrite Forall_forall in Hl. apply Hl, last_In. }
  destruct (strip_err X m (last (v :: l) v) v HX Fm Xm Hw Hv) as (F1 & E1 & B1 & T1).
  pose proof (path_wt_bound X m HX Fm Xm l v Hv Hl') as PB. pose proof (path_nonneg (wt X) (fun a b => wt_nonneg X a b X0) l v) as P.
  cbn [length] in *. rewrite S_INR in *. pose proof (pos_INR (length l)) as PI.
  assert (BIG : INR (length l) * pow2 210 + pow2 210 <= pow2 900).
  { pose proof (bpow_ge_0 radix2 210) as P210. apply Rle_trans with (pow2 40 * pow2 210).
    - replace (INR (length l) * pow2 210 + pow2 210) with ((INR (length l) + 1) * pow2 210) by ring. apply Rmult_le_compat_r; assumption.
    - rewrite <- bpow_plus. apply bpow_le. zle. }
  assert (Z0 : Rabs (val zero - 0) <= (43 / 10 + 11 / 10 * 0) * u * 0) by (change (val zero) with 0; rewrite Rminus_0_r, Rabs_R0; lra).
  pose proof (bpow_ge_0 radix2 210).
  destruct (strips_err X m X0 HX Fm Xm l v zero 0 0 0 Hv Hl' eq_refl Z0 ltac:(rewrite Rabs_R0; lra) ltac:(lra) ltac:(lra) ltac:(lra) ltac:(lra)) as (F2 & E2 & E3).
  rewrite !Rplus_0_l in *.
  pose proof (wt_nonneg X (last (v :: l) v) v X0) as P'.
  destruct (step_err (strips m zero v l) (strip m (last (v :: l) v) v) _ _ _ _ (INR (length l)) F2 F1 ltac:(lra) P P' ltac:(lra) E3 E2 E1 B1) as (F3 & E4 & E5).
  assert (COMM : val (dadd (strip m (last (v :: l) v) v) (strips m zero v l)) = val (dadd (strips m zero v l) (strip m (last (v :: l) v) v)) /\ fin (dadd (strip m (last (v :: l) v) v) (strips m zero v l))).
  { assert (BS : Rabs (val (strip m (last (v :: l) v) v) + val (strips m zero v l)) <= pow2 1000).
    { rewrite Rplus_comm. exact E5. }
    destruct (dadd_ok _ _ F1 F2 BS) as [Fa Va]. rewrite Rplus_comm in BS. destruct (dadd_ok _ _ F2 F1 BS) as [Fb Vb].
    split; [rewrite Va, Vb, Rplus_comm; reflexivity | assumption]. }
  destruct COMM as [CV CF]. unfold ring_area. fold m. split; [exact CF |]. rewrite CV, (area_R m), climb_R.
  eapply Rle_trans; [| eapply Rle_trans; [exact E4 |]]; right.
  - f_equal. ring.
  - rewrite path_wt. unfold wt. ring.
Qed.

Lemma area_err l X o : l <> [] -> (0 <= X)%Q -> (X <= Qpower 2 100)%Q -> (Z.of_nat (length l) <= 2 ^ 40)%Z ->
  Forall (fun p : pnt => is_finite (fst p) = true /\ (Qabs (value (fst p)) <= X)%Q /\ upto 100 (snd p)) l ->
  is_finite (ring_area l) = true /\
  (Qabs (value (ring_area l) - signed_area o (map values l)) <=
    inject_Z (Z.of_nat (length l) + 4) * Qpower 2 (-51) * (X * climb (map values l) + inject_Z (Z.of_nat (length l)) * Qpower 2 (-918)))%Q.
Proof.
  intros Nl X0 X1 Hn Hl. destruct l as [| v l]; [congruence |].
  assert (HS : Forall (small (Q2R X)) (v :: l)).
  { eapply Forall_impl; [| exact Hl]. intros p (F & B & U). apply upto_R in U. destruct U as [F' B']. apply Qle_Rle in B. rewrite Q2R_abs, value_R in B. repeat split; assumption. }
  apply Qle_Rle in X0, X1. replace (Q2R 0) with 0 in X0 by (unfold Q2R; cbn; lra). rewrite Q2R_pow2 in X1.
  assert (HN : INR (length (v :: l)) <= pow2 40) by (rewrite INR_IZR_INZ; apply IZR_le in Hn; exact Hn).
  destruct (area_err_R (Q2R X) v l o X0 X1 HS HN) as [F E]. split; [assumption |]. apply Rle_Qle.
  rewrite Q2R_abs, Q2R_minus, value_R. eapply Rle_trans; [exact E |].
  rewrite !Q2R_mult, Q2R_plus, !Q2R_mult, !Q2R_Z, !Q2R_pow2, plus_IZR, <- INR_IZR_INZ.
  set (n := INR (length (v :: l))). set (H := Q2R (climb (map values (v :: l)))).
  assert (H0 : 0 <= H).
  { unfold H. rewrite climb_R. pose proof (path_nonneg rise (fun a b => Rabs_pos _) l v). pose proof (Rabs_pos (val (snd v) - val (snd (last (v :: l) v)))). unfold rise at 1. lra. }
  assert (n0 : 1 <= n) by (unfold n; cbn [length]; rewrite S_INR; pose proof (pos_INR (length l)); lra).
  replace (pow2 (-51)) with (4 * u). 2:{ change (-51)%Z with (-53 + 2)%Z. rewrite bpow_plus. unfold u. change (pow2 2) with 4. ring. }
  replace th with (2 * pow2 (-918)). 2:{ unfold th. change (-917)%Z with (-918 + 1)%Z. rewrite bpow_plus. change (pow2 1) with 2. ring. }
  set (t := pow2 (-918)). assert (t0 : 0 <= t) by apply bpow_ge_0.
  pose proof u_small as [U1 U2].
  replace (2 * Q2R X * H + n * (2 * t)) with (2 * (Q2R X * H + n * t)) by ring. set (Y := Q2R X * H + n * t).
  assert (Y0 : 0 <= Y) by (unfold Y; assert (0 <= Q2R X * H) by (apply Rmult_le_pos; assumption); assert (0 <= n * t) by (apply Rmult_le_pos; lra); lra).
  replace ((43 / 10 + 11 / 10 * n) * u * (2 * Y)) with ((86 / 10 + 22 / 10 * n) * (u * Y)) by field.
  replace ((n + 4) * (4 * u) * Y) with ((4 * n + 16) * (u * Y)) by ring.
  apply Rmult_le_compat_r; [apply Rmult_le_pos; lra | lra].
Qed.
