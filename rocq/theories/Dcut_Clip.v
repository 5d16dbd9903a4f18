(** What clipping takes, in doubles. *)
From Coq Require Import List ZArith QArith Qabs Qpower Qreals Reals Lra Lia Bool.
From Flocq Require Import Core IEEE754.BinarySingleNaN.
From Verif Require Import Dbl_Model Dbl_Spec Dbl_Float Dbl_Grid Dbl_Proofs Dcut_Model Dcut_Spec Dcut_Proofs.
Import ListNotations.
Open Scope R_scope.

Lemma raster_R k e a : raster k e a -> fin a /\ exists n, (Z.abs n <= 2 ^ k)%Z /\ val a = IZR n * pow2 e.
Proof. apply raster_on. Qed.
Lemma raster_upto e a : (-200 <= e <= 150)%Z -> raster 26 e a -> upto 300 a.
Proof.
  intros He H. apply raster_R in H as (F & n & Hn & E). apply upto_R. split; [assumption |]. rewrite E, Rabs_mult, <- abs_IZR, (Rabs_pos_eq (pow2 e)) by apply bpow_ge_0.
  apply Rle_trans with (IZR (2 ^ 26) * pow2 150).
  - apply Rmult_le_compat; [apply IZR_le; lia | apply bpow_ge_0 | apply IZR_le; assumption | apply bpow_le; lia].
  - change (IZR (2 ^ 26)) with (pow2 26). rewrite <- bpow_plus. apply bpow_le. lia.
Qed.
Lemma value_nz (a : double) : ~ (value a == 0)%Q -> val a <> 0.
Proof. intros H E. apply H. apply eqR_Qeq. rewrite value_R, E. unfold Q2R; cbn; lra. Qed.
Lemma raster_sized e a : (-200 <= e <= 150)%Z -> raster 26 e a -> ~ (value a == 0)%Q -> sized a.
Proof.
  intros He H N. apply value_nz in N. apply raster_R in H as (F & n & Hn & E). unfold sized. split; [assumption |].
  assert (Hn1 : (1 <= Z.abs n)%Z) by (assert (n <> 0%Z) by (intros ->; apply N; rewrite E; ring); lia).
  assert (A : Rabs (val a) = IZR (Z.abs n) * pow2 e) by (rewrite E, Rabs_mult, <- abs_IZR, (Rabs_pos_eq (pow2 e)) by apply bpow_ge_0; reflexivity).
  split; apply Rle_Qle; rewrite Q2R_abs, value_R, Q2R_pow2, A.
  - apply Rle_trans with (1 * pow2 e); [rewrite Rmult_1_l; apply bpow_le; lia |]. apply Rmult_le_compat_r; [apply bpow_ge_0 | apply IZR_le; assumption].
  - apply Rle_trans with (IZR (2 ^ 26) * pow2 150).
    + apply Rmult_le_compat; [apply IZR_le; lia | apply bpow_ge_0 | apply IZR_le; assumption | apply bpow_le; lia].
    + change (IZR (2 ^ 26)) with (pow2 26). rewrite <- bpow_plus. apply bpow_le. lia.
Qed.
Lemma metric_plain e T : metric e T -> plain T.
Proof.
  intros (He & Hx0 & Hy0 & Hdx & Hdy & Nx & Ny & Sx & Sy).
  split; [eapply raster_upto; eassumption |]. split; [eapply raster_upto; eassumption |].
  split; [eapply raster_sized; eassumption |]. split; [eapply raster_sized; eassumption |]. split; assumption.
Qed.

(** Along one axis. *)
Lemma quot_ints e (a o d : double) : (-200 <= e <= 150)%Z -> raster 26 e a -> raster 26 e o -> raster 26 e d -> ~ (value d == 0)%Q ->
  exists p q, (Z.abs p <= 2 ^ 27)%Z /\ (1 <= Z.abs q <= 2 ^ 26)%Z /\ (val a - val o) / val d = IZR p / IZR q.
Proof.
  intros He Ha Ho Hd N. apply value_nz in N. apply raster_R in Ha as (Fa & m & Hm & Ea), Ho as (Fo & n & Hn & Eo), Hd as (Fd & l & Hl & Ed).
  exists (m - n)%Z, l. change (2 ^ 26)%Z with 67108864%Z in *. change (2 ^ 27)%Z with 134217728%Z.
  assert (l <> 0%Z) by (intros ->; apply N; rewrite Ed; ring). split; [lia |]. split; [lia |].
  rewrite Ea, Eo, Ed, minus_IZR. pose proof (bpow_gt_0 radix2 e). field. split; [apply IZR_neq; assumption | lra].
Qed.
Lemma exact_sub e (a o : double) : (-200 <= e <= 150)%Z -> raster 26 e a -> raster 26 e o -> rnd (val a - val o) = val a - val o.
Proof.
  intros He Ha Ho. apply raster_R in Ha as (Fa & m & Hm & Ea), Ho as (Fo & n & Hn & Eo). rewrite Ea, Eo.
  replace (IZR m * pow2 e - IZR n * pow2 e) with (IZR (m - n) * pow2 e) by (rewrite minus_IZR; ring).
  apply rnd_exact; [| lia]. change (2 ^ 26)%Z with 67108864%Z in *. change (2 ^ 53)%Z with 9007199254740992%Z. lia.
Qed.
Lemma exact_mul e (a b : double) : (-200 <= e <= 150)%Z -> raster 26 e a -> raster 26 e b -> rnd (val a * val b) = val a * val b.
Proof.
  intros He Ha Ho. apply raster_R in Ha as (Fa & m & Hm & Ea), Ho as (Fo & n & Hn & Eo). rewrite Ea, Eo.
  replace (IZR m * pow2 e * (IZR n * pow2 e)) with (IZR (m * n) * pow2 (e + e)) by (rewrite mult_IZR, bpow_plus; ring).
  apply rnd_exact; [| lia]. rewrite Z.abs_mul. apply Z.le_trans with (2 ^ 26 * 2 ^ 26)%Z; [apply Z.mul_le_mono_nonneg; lia |]. apply Z.leb_le. reflexivity.
Qed.
Lemma exact_diff e (a b c : double) : (-200 <= e <= 150)%Z -> raster 26 e a -> raster 26 e b -> raster 26 e c -> rnd (val a * val b - val a * val c) = val a * val b - val a * val c.
Proof.
  intros He Ha Hb Hc. apply raster_R in Ha as (Fa & m & Hm & Ea), Hb as (Fb & n & Hn & Eb), Hc as (Fc & l & Hl & Ec). rewrite Ea, Eb, Ec.
  replace (IZR m * pow2 e * (IZR n * pow2 e) - IZR m * pow2 e * (IZR l * pow2 e)) with (IZR (m * (n - l)) * pow2 (e + e)) by (rewrite mult_IZR, minus_IZR, bpow_plus; ring).
  apply rnd_exact; [| lia]. rewrite Z.abs_mul. apply Z.le_trans with (2 ^ 26 * 2 ^ 27)%Z; [apply Z.mul_le_mono_nonneg; lia |]. apply Z.leb_le. reflexivity.
Qed.

Lemma row_val e T x y : metric e T -> raster 26 e x -> raster 26 e y ->
  val (fst (positions T x y)) = rnd (rnd ((val y - val (y0 T)) / val (dy T)) - / 2) /\
  val (snd (positions T x y)) = rnd (rnd ((val x - val (x0 T)) / val (dx T)) - / 2).
Proof.
  intros HT Hx Hy. pose proof (metric_plain e T HT) as P. destruct HT as (He & Hx0 & Hy0 & Hdx & Hdy & Nx & Ny & _).
  destruct (pos_R T x y P (raster_upto e x He Hx) (raster_upto e y He Hy)) as (i & j & E & _ & _ & _ & _ & Vi & Vj).
  rewrite E. cbn [fst snd]. rewrite Vi, Vj. split.
  - rewrite (exact_sub e y (y0 T)) by assumption. reflexivity.
  - rewrite (exact_mul e (dy T) x), (exact_mul e (dy T) (x0 T)), (exact_mul e (dx T) (dy T)), (exact_diff e (dy T) x (x0 T)) by assumption.
    apply value_nz in Nx, Ny. do 2 f_equal. f_equal. field. split; assumption.
Qed.

(** Values of exact coordinates. *)
Lemma centre_R o d n : Q2R (value o + (inject_Z n + (1 # 2)) * value d) = val o + (IZR n + / 2) * val d.
Proof. rewrite Q2R_plus, Q2R_mult, Q2R_plus, Q2R_Z, !value_R. replace (Q2R (1 # 2)) with (/ 2) by (unfold Q2R; cbn; lra). reflexivity. Qed.
Lemma le_QR p q : (p <= q)%Q <-> Q2R p <= Q2R q.
Proof. split; [apply Qle_Rle | apply Rle_Qle]. Qed.

Lemma clip_exact e T (xmin xmax ymin ymax : double) : metric e T ->
  raster 26 e xmin -> raster 26 e xmax -> raster 26 e ymin -> raster 26 e ymax ->
  (value xmin <= value xmax)%Q -> (value ymin <= value ymax)%Q ->
  exists i0 i1 j0 j1, clip_window T xmin xmax ymin ymax = Some (i0, i1, j0, j1) /\
    (forall n, (i0 <= n < i1)%Z <-> (value ymin <= row_centre T n /\ row_centre T n <= value ymax)%Q) /\
    (forall n, (j0 <= n < j1)%Z <-> (value xmin <= col_centre T n /\ col_centre T n <= value xmax)%Q).
Proof.
  intros HT Ha Hb Hc Hd Lx Ly. pose proof (metric_plain e T HT) as P. pose proof HT as (He & Hx0 & Hy0 & Hdx & Hdy & Nx & Ny & _).
  destruct (window_R T xmin xmax ymin ymax P (raster_upto e _ He Ha) (raster_upto e _ He Hb) (raster_upto e _ He Hc) (raster_upto e _ He Hd))
    as (i0 & i1 & j0 & j1 & E & vc & vd & va & vb & Wi & Wj & Evc & Evd & Eva & Evb).
  exists i0, i1, j0, j1. split; [assumption |].
  destruct (row_val e T xmin ymin HT Ha Hc) as [V1 V2]. destruct (row_val e T xmin ymax HT Ha Hd) as [V3 _]. destruct (row_val e T xmax ymin HT Hb Hc) as [_ V4].
  rewrite V1 in Evc. rewrite V3 in Evd. rewrite V2 in Eva. rewrite V4 in Evb.
  apply le_QR in Lx, Ly. rewrite !value_R in Lx, Ly.
  destruct (quot_ints e ymin (y0 T) (dy T) He Hc Hy0 Hdy Ny) as (p1 & q1 & A1 & B1 & G1).
  destruct (quot_ints e ymax (y0 T) (dy T) He Hd Hy0 Hdy Ny) as (p2 & q2 & A2 & B2 & G2).
  destruct (quot_ints e xmin (x0 T) (dx T) He Ha Hx0 Hdx Nx) as (p3 & q3 & A3 & B3 & G3).
  destruct (quot_ints e xmax (x0 T) (dx T) He Hb Hx0 Hdx Nx) as (p4 & q4 & A4 & B4 & G4).
  apply value_nz in Nx, Ny. split; intros n.
  - rewrite Wi, !le_QR. unfold row_centre. rewrite centre_R, !value_R.
    rewrite <- (between_ends (val (y0 T)) (val (dy T)) (val ymin) (val ymax) (IZR n + / 2) Ny Ly).
    destruct (place p1 q1 n A1 B1) as [L1 M1]. destruct (place p2 q2 n A2 B2) as [L2 M2]. rewrite <- G1 in L1, M1. rewrite <- G2 in L2, M2.
    rewrite <- Evc in L1, M1. rewrite <- Evd in L2, M2. rewrite L1, M1, L2, M2. reflexivity.
  - rewrite Wj, !le_QR. unfold col_centre. rewrite centre_R, !value_R.
    rewrite <- (between_ends (val (x0 T)) (val (dx T)) (val xmin) (val xmax) (IZR n + / 2) Nx Lx).
    destruct (place p3 q3 n A3 B3) as [L1 M1]. destruct (place p4 q4 n A4 B4) as [L2 M2]. rewrite <- G3 in L1, M1. rewrite <- G4 in L2, M2.
    rewrite <- Eva in L1, M1. rewrite <- Evb in L2, M2. rewrite L1, M1, L2, M2. reflexivity.
Qed.

(** With rounding. *)
Lemma margin_R a o d : Q2R (margin (value a) (value o) (value d)) = 8 * u * (Rabs (val d) + Rabs (val a) + Rabs (val o)).
Proof.
  unfold margin. rewrite Q2R_mult, !Q2R_plus, !Q2R_abs, !value_R, Q2R_pow2. f_equal. unfold u.
  change (-50)%Z with (3 + -53)%Z. rewrite bpow_plus. reflexivity.
Qed.
Lemma scaled_err v q c a o d : d <> 0 -> c = o + (IZR q + / 2) * d -> Rabs (v - ((a - o) / d - / 2)) <= 8 * u * (1 + (Rabs (a / d) + Rabs (o / d))) ->
  Rabs ((v - IZR q) * d - (a - c)) <= 8 * u * (Rabs d + Rabs a + Rabs o).
Proof.
  intros Hd -> H. replace ((v - IZR q) * d - (a - (o + (IZR q + / 2) * d))) with ((v - ((a - o) / d - / 2)) * d) by (field; assumption).
  rewrite Rabs_mult. pose proof (Rabs_pos_lt d Hd) as P.
  replace (8 * u * (Rabs d + Rabs a + Rabs o)) with (8 * u * (1 + (Rabs (a / d) + Rabs (o / d))) * Rabs d)
    by (unfold Rdiv; rewrite !Rabs_mult, !Rabs_inv; field; lra).
  apply Rmult_le_compat_r; [lra | assumption].
Qed.
(** The sign of an index error, whichever way the axis runs. *)
Lemma kept_axis v w n d a b c m m' : d <> 0 ->
  Rabs ((v - IZR n) * d - (a - c)) <= m -> Rabs ((w - IZR n) * d - (b - c)) <= m' -> a + m <= c -> c <= b - m' ->
  (v <= IZR n \/ w <= IZR n) /\ (IZR n <= v \/ IZR n <= w).
Proof.
  intros Hd H1 H2 L1 L2. apply Rabs_le_inv in H1, H2. assert (A : (v - IZR n) * d <= 0) by lra. assert (B : 0 <= (w - IZR n) * d) by lra.
  destruct (Rtotal_order d 0) as [N | [Z0 | P]]; [| contradiction |].
  - assert (0 <= v - IZR n) by (destruct (Rle_lt_dec 0 (v - IZR n)); [assumption | nra]). assert (w - IZR n <= 0) by (destruct (Rle_lt_dec (w - IZR n) 0); [assumption | nra]). lra.
  - assert (v - IZR n <= 0) by (destruct (Rle_lt_dec (v - IZR n) 0); [assumption | nra]). assert (0 <= w - IZR n) by (destruct (Rle_lt_dec 0 (w - IZR n)); [assumption | nra]). lra.
Qed.
Lemma dropped_axis v w n d a b c m m' : d <> 0 -> a <= b ->
  Rabs ((v - IZR n) * d - (a - c)) <= m -> Rabs ((w - IZR n) * d - (b - c)) <= m' -> (c < a - m /\ c < b - m') \/ (b + m' < c /\ a + m < c) ->
  ~ ((v <= IZR n \/ w <= IZR n) /\ (IZR n <= v \/ IZR n <= w)).
Proof.
  intros Hd Hab H1 H2 O [C1 C2]. apply Rabs_le_inv in H1, H2.
  destruct O as [[O1 O2] | [O1 O2]].
  - assert (A : 0 < (v - IZR n) * d) by lra. assert (B : 0 < (w - IZR n) * d) by lra.
    destruct (Rtotal_order d 0) as [N | [Z0 | P]]; [| contradiction |].
    + assert (v - IZR n < 0) by (destruct (Rle_lt_dec 0 (v - IZR n)); [nra | assumption]). assert (w - IZR n < 0) by (destruct (Rle_lt_dec 0 (w - IZR n)); [nra | assumption]). lra.
    + assert (0 < v - IZR n) by (destruct (Rle_lt_dec (v - IZR n) 0); [nra | assumption]). assert (0 < w - IZR n) by (destruct (Rle_lt_dec (w - IZR n) 0); [nra | assumption]). lra.
  - assert (A : (v - IZR n) * d < 0) by lra. assert (B : (w - IZR n) * d < 0) by lra.
    destruct (Rtotal_order d 0) as [N | [Z0 | P]]; [| contradiction |].
    + assert (0 < v - IZR n) by (destruct (Rle_lt_dec (v - IZR n) 0); [nra | assumption]). assert (0 < w - IZR n) by (destruct (Rle_lt_dec (w - IZR n) 0); [nra | assumption]). lra.
    + assert (v - IZR n < 0) by (destruct (Rle_lt_dec 0 (v - IZR n)); [nra | assumption]). assert (w - IZR n < 0) by (destruct (Rle_lt_dec 0 (w - IZR n)); [nra | assumption]). lra.
Qed.
Lemma clip_near T (xmin xmax ymin ymax : double) : plain T ->
  upto 300 xmin -> upto 300 xmax -> upto 300 ymin -> upto 300 ymax ->
  exists i0 i1 j0 j1, clip_window T xmin xmax ymin ymax = Some (i0, i1, j0, j1) /\
    (forall n, (value ymin + margin (value ymin) (value (y0 T)) (value (dy T)) <= row_centre T n)%Q ->
       (row_centre T n <= value ymax - margin (value ymax) (value (y0 T)) (value (dy T)))%Q -> (i0 <= n < i1)%Z) /\
    (forall n, (value xmin + margin (value xmin) (value (x0 T)) (value (dx T)) <= col_centre T n)%Q ->
       (col_centre T n <= value xmax - margin (value xmax) (value (x0 T)) (value (dx T)))%Q -> (j0 <= n < j1)%Z) /\
    (forall n, (i0 <= n < i1)%Z -> (value ymin <= value ymax)%Q ->
       (value ymin - (margin (value ymin) (value (y0 T)) (value (dy T)) + margin (value ymax) (value (y0 T)) (value (dy T))) <= row_centre T n /\
        row_centre T n <= value ymax + (margin (value ymin) (value (y0 T)) (value (dy T)) + margin (value ymax) (value (y0 T)) (value (dy T))))%Q) /\
    (forall n, (j0 <= n < j1)%Z -> (value xmin <= value xmax)%Q ->
       (value xmin - (margin (value xmin) (value (x0 T)) (value (dx T)) + margin (value xmax) (value (x0 T)) (value (dx T))) <= col_centre T n /\
        col_centre T n <= value xmax + (margin (value xmin) (value (x0 T)) (value (dx T)) + margin (value xmax) (value (x0 T)) (value (dx T))))%Q).
Proof.
  intros HT Ha Hb Hc Hd.
  destruct (window_R T xmin xmax ymin ymax HT Ha Hb Hc Hd) as (i0 & i1 & j0 & j1 & E & vc & vd & va & vb & Wi & Wj & Evc & Evd & Eva & Evb).
  exists i0, i1, j0, j1. split; [assumption |].
  destruct (pos_R T xmin ymin HT Ha Hc) as (p1 & q1 & P1 & _ & _ & I1 & J1 & _). rewrite P1 in Evc, Eva. cbn [fst snd] in Evc, Eva. rewrite <- Evc in I1. rewrite <- Eva in J1.
  destruct (pos_R T xmin ymax HT Ha Hd) as (p2 & q2 & P2 & _ & _ & I2 & _). rewrite P2 in Evd. cbn [fst] in Evd. rewrite <- Evd in I2.
  destruct (pos_R T xmax ymin HT Hb Hc) as (p3 & q3 & P3 & _ & _ & _ & J3 & _). rewrite P3 in Evb. cbn [snd] in Evb. rewrite <- Evb in J3.
  destruct HT as (_ & _ & Hdx & Hdy & _). pose proof (sized_nz _ Hdx) as Nx. pose proof (sized_nz _ Hdy) as Ny.
  assert (U : 0 < u) by (rewrite u_val; lra).
  assert (M0 : forall a o d, 0 <= 8 * u * (Rabs d + Rabs a + Rabs o)).
  { intros a o d. pose proof (Rabs_pos d). pose proof (Rabs_pos a). pose proof (Rabs_pos o). apply Rmult_le_pos; lra. }
  repeat (apply conj); intros n; unfold row_centre, col_centre; rewrite !le_QR, centre_R, ?Q2R_minus, ?Q2R_plus, ?margin_R, ?value_R.
  - intros L1 L2. apply Wi.
    eapply kept_axis; [exact Ny | apply (scaled_err vc n _ (val ymin) (val (y0 T)) (val (dy T)) Ny eq_refl I1) | apply (scaled_err vd n _ (val ymax) (val (y0 T)) (val (dy T)) Ny eq_refl I2) | exact L1 | exact L2].
  - intros L1 L2. apply Wj.
    eapply kept_axis; [exact Nx | apply (scaled_err va n _ (val xmin) (val (x0 T)) (val (dx T)) Nx eq_refl J1) | apply (scaled_err vb n _ (val xmax) (val (x0 T)) (val (dx T)) Nx eq_refl J3) | exact L1 | exact L2].
  - intros K Ord. rewrite Wi in K.
    pose proof (scaled_err vc n _ (val ymin) (val (y0 T)) (val (dy T)) Ny eq_refl I1) as S1.
    pose proof (scaled_err vd n _ (val ymax) (val (y0 T)) (val (dy T)) Ny eq_refl I2) as S2.
    pose proof (M0 (val ymin) (val (y0 T)) (val (dy T))) as G1. pose proof (M0 (val ymax) (val (y0 T)) (val (dy T))) as G2.
    set (m := 8 * u * (Rabs (val (dy T)) + Rabs (val ymin) + Rabs (val (y0 T)))) in *. set (m' := 8 * u * (Rabs (val (dy T)) + Rabs (val ymax) + Rabs (val (y0 T)))) in *.
    set (c := val (y0 T) + (IZR n + / 2) * val (dy T)) in *.
    pose proof (dropped_axis vc vd n (val (dy T)) (val ymin) (val ymax) c m m' Ny Ord S1 S2) as O.
    split; apply Rnot_lt_le; intros L; apply O; try assumption; [left | right]; split; lra.
  - intros K Ord. rewrite Wj in K.
    pose proof (scaled_err va n _ (val xmin) (val (x0 T)) (val (dx T)) Nx eq_refl J1) as S1.
    pose proof (scaled_err vb n _ (val xmax) (val (x0 T)) (val (dx T)) Nx eq_refl J3) as S2.
    pose proof (M0 (val xmin) (val (x0 T)) (val (dx T))) as G1. pose proof (M0 (val xmax) (val (x0 T)) (val (dx T))) as G2.
    set (m := 8 * u * (Rabs (val (dx T)) + Rabs (val xmin) + Rabs (val (x0 T)))) in *. set (m' := 8 * u * (Rabs (val (dx T)) + Rabs (val xmax) + Rabs (val (x0 T)))) in *.
    set (c := val (x0 T) + (IZR n + / 2) * val (dx T)) in *.
    pose proof (dropped_axis va vb n (val (dx T)) (val xmin) (val xmax) c m m' Nx Ord S1 S2) as O.
    split; apply Rnot_lt_le; intros L; apply O; try assumption; [left | right]; split; lra.
Qed.
