(** Pieces of a grid, and whether grids fit together, in doubles. *)
From Coq Require Import List ZArith QArith Qabs Qpower Qreals Reals Lra Lia Bool.
From Flocq Require Import Core IEEE754.BinarySingleNaN.
From Verif Require Import Dbl_Model Dbl_Spec Dbl_Float Dbl_Grid Dbl_Proofs Dcut_Model Dcut_Spec Dcut_Proofs Dcut_Clip.
Import ListNotations.
Open Scope R_scope.

Lemma metric_on e T : metric e T -> on (2 ^ 26) e (x0 T) /\ on (2 ^ 26) e (y0 T) /\ on (2 ^ 26) e (dx T) /\ on (2 ^ 26) e (dy T).
Proof. intros (He & Hx0 & Hy0 & Hdx & Hdy & _). split; [| split; [| split]]; apply raster_on; assumption. Qed.

Lemma piece_axis e (o d s : double) i j : (-200 <= e <= 150)%Z -> on (2 ^ 26) e o -> on (2 ^ 26) e d -> nought s ->
  (Z.abs i <= 2 ^ 25)%Z -> (Z.abs j <= 2 ^ 25)%Z ->
  on (2 ^ 52) e (dadd (dadd o (dmul (of_int j) d)) (dmul (of_int i) s)) /\
  val (dadd (dadd o (dmul (of_int j) d)) (dmul (of_int i) s)) = val o + IZR j * val d.
Proof.
  intros He Ho Hd Hs Hi Hj. change (2 ^ 25)%Z with 33554432%Z in *. change (2 ^ 26)%Z with 67108864%Z in *. change (2 ^ 52)%Z with 4503599627370496%Z.
  destruct (of_int_on j) as [Oj Vj]; [change (2 ^ 53)%Z with 9007199254740992%Z; lia |]. destruct (of_int_on i) as [Oi Vi]; [change (2 ^ 53)%Z with 9007199254740992%Z; lia |].
  apply (on_le _ 33554432) in Oj; [| assumption].
  destruct (on_mul _ _ _ _ _ _ Oj Hd) as [Om Vm]; [change (2 ^ 53)%Z with 9007199254740992%Z; lia | lia |]. change (0 + e)%Z with e in Om.
  destruct (on_add _ _ _ _ _ Ho Om) as [Oa Va]; [change (2 ^ 53)%Z with 9007199254740992%Z; lia | lia |].
  apply (on_le _ 4503599627370496) in Oa; [| lia].
  destruct (mul_nought' (of_int i) s Hs (proj1 Oi)) as [Fz Vz].
  pose proof Oa as (Fa & m & Hm & Ea).
  assert (B : Rabs (val (dadd o (dmul (of_int j) d))) <= pow2 1000).
  { rewrite Ea. apply (on_small 4503599627370496); [assumption | change (2 ^ 53)%Z with 9007199254740992%Z; lia | lia]. }
  destruct (add_nought _ _ Fa Fz Vz B) as [Fr Vr].
  split; [| rewrite Vr, Va, Vm, Vj; reflexivity].
  split; [assumption |]. exists m. split; [assumption |]. rewrite Vr. assumption.
Qed.
Lemma piece_R e T i j : metric e T -> (Z.abs i <= 2 ^ 25)%Z -> (Z.abs j <= 2 ^ 25)%Z ->
  on (2 ^ 52) e (x0 (piece T i j)) /\ val (x0 (piece T i j)) = val (x0 T) + IZR j * val (dx T) /\
  on (2 ^ 52) e (y0 (piece T i j)) /\ val (y0 (piece T i j)) = val (y0 T) + IZR i * val (dy T).
Proof.
  intros HT Hi Hj. destruct (metric_on e T HT) as (O1 & O2 & O3 & O4). destruct HT as (He & _ & _ & _ & _ & _ & _ & Sx & Sy).
  unfold piece; cbn [x0 y0].
  destruct (piece_axis e (x0 T) (dx T) (sx T) i j He O1 O3 Sx Hi Hj) as [A B]. destruct (piece_axis e (y0 T) (dy T) (sy T) j i He O2 O4 Sy Hj Hi) as [C D].
  split; [| split; [| split]]; assumption.
Qed.
Lemma value_plus_mul (a o d : double) n : val a = val o + IZR n * val d -> (value a == value o + inject_Z n * value d)%Q.
Proof. intros H. apply eqR_Qeq. rewrite Q2R_plus, Q2R_mult, Q2R_Z, !value_R. assumption. Qed.
Lemma piece_exact e T i j : metric e T -> (Z.abs i <= 2 ^ 25)%Z -> (Z.abs j <= 2 ^ 25)%Z ->
  (value (x0 (piece T i j)) == value (x0 T) + inject_Z j * value (dx T))%Q /\
  (value (y0 (piece T i j)) == value (y0 T) + inject_Z i * value (dy T))%Q.
Proof.
  intros HT Hi Hj. destruct (piece_R e T i j HT Hi Hj) as (_ & A & _ & B). split; apply value_plus_mul; assumption.
Qed.

Lemma tol_R : val tolerance = 5070602400912918 * pow2 (-102).
Proof.
  unfold tolerance. pose proof (binary_normalize_correct 53 1024 prec53 emax1024 mode_NE 5070602400912918 (-102) false) as P.
  cbv zeta in P. change (F2R (Float radix2 5070602400912918 (-102))) with (IZR 5070602400912918 * pow2 (-102)) in P.
  change (round radix2 (SpecFloat.fexp 53 1024) (round_mode mode_NE) (IZR 5070602400912918 * pow2 (-102))) with (rnd (IZR 5070602400912918 * pow2 (-102))) in P.
  rewrite rnd_exact in P; [| apply Z.leb_le; reflexivity | lia].
  rewrite Rlt_bool_true in P; [apply P |]. rewrite Rabs_mult, <- abs_IZR, (Rabs_pos_eq (pow2 (-102))) by apply bpow_ge_0.
  apply Rle_lt_trans with (pow2 53 * pow2 (-102)); [| rewrite <- bpow_plus; apply bpow_lt; lia].
  apply Rmult_le_compat_r; [apply bpow_ge_0 |]. change (pow2 53) with (IZR 9007199254740992). apply IZR_le. lia.
Qed.
Lemma tol_fin : fin tolerance.
Proof. vm_compute. reflexivity. Qed.
Lemma tol_pos : 0 < val tolerance.
Proof. rewrite tol_R. apply Rmult_lt_0_compat; [lra | apply bpow_gt_0]. Qed.

Lemma trunc_int (a : double) n : val a = IZR n -> Btrunc a = n.
Proof. intros E. apply eq_IZR. rewrite (Btrunc_correct 53 1024 emax1024), E, round_FIX_IZR, Ztrunc_IZR. reflexivity. Qed.
Lemma mod1_int (a : double) n : fin a -> val a = IZR n -> (Z.abs n <= 2 ^ 52)%Z -> dlt tolerance (mod1 a) = false.
Proof.
  intros F E Hn. change (2 ^ 52)%Z with 4503599627370496%Z in Hn. unfold mod1. rewrite (trunc_int a n E).
  destruct (of_int_on n) as [[Fn _] Vn]; [change (2 ^ 53)%Z with 9007199254740992%Z; lia |].
  destruct (dsub_ok a (of_int n) F Fn) as [Fr Vr]; [rewrite E, Vn, Rminus_diag_eq, Rabs_R0 by reflexivity; apply bpow_ge_0 |].
  rewrite E, Vn, Rminus_diag_eq, rnd_0 in Vr by reflexivity. cbv zeta.
  destruct (dlt (dsub a (of_int n)) zero) eqn:C.
  - apply dlt_R in C; [| assumption | reflexivity]. rewrite Vr in C. change (val zero) with 0 in C. lra.
  - destruct (dlt tolerance (dsub a (of_int n))) eqn:C2; [| reflexivity]. apply dlt_R in C2; [| exact tol_fin | assumption]. rewrite Vr in C2. pose proof tol_pos. lra.
Qed.
Lemma fit_axis e (a b d : double) n : (-200 <= e <= 150)%Z -> on (2 ^ 52) e a -> on (2 ^ 52) e b -> val d <> 0 -> val b - val a = IZR n * val d -> (Z.abs n <= 2 ^ 52)%Z ->
  dlt tolerance (mod1 (ddiv (dsub b a) d)) = false.
Proof.
  intros He Ha Hb Nd E Hn.
  assert (two : (2 ^ 52 + 2 ^ 52 <= 2 ^ 53)%Z) by (apply Z.leb_le; reflexivity).
  destruct (on_sub _ _ _ _ _ Hb Ha two) as [Os Vs]; [lia |]. rewrite E in Vs.
  assert (Q : val (dsub b a) / val d = IZR n) by (rewrite Vs; field; assumption).
  assert (Big : Rabs (IZR n) <= pow2 1000).
  { rewrite <- abs_IZR. apply Rle_trans with (IZR (2 ^ 52)); [apply IZR_le; assumption |]. change (IZR (2 ^ 52)) with (pow2 52). apply bpow_le. lia. }
  destruct (ddiv_ok (dsub b a) d (proj1 Os) Nd) as [Fq Vq]; [rewrite Q; assumption |].
  apply (mod1_int _ n Fq); [| assumption]. rewrite Vq, Q. apply rnd_int. change (2 ^ 52)%Z with 4503599627370496%Z in Hn. change (2 ^ 53)%Z with 9007199254740992%Z. lia.
Qed.
Lemma pieces_fit e T i j k l : metric e T -> (Z.abs i <= 2 ^ 25)%Z -> (Z.abs j <= 2 ^ 25)%Z -> (Z.abs k <= 2 ^ 25)%Z -> (Z.abs l <= 2 ^ 25)%Z ->
  misplaced (piece T i j) (piece T k l) = false.
Proof.
  intros HT Hi Hj Hk Hl. destruct (piece_R e T i j HT Hi Hj) as (A1 & A2 & A3 & A4). destruct (piece_R e T k l HT Hk Hl) as (B1 & B2 & B3 & B4).
  destruct HT as (He & _ & _ & _ & _ & Nx & Ny & _). apply value_nz in Nx, Ny. unfold misplaced.
  change (dx (piece T i j)) with (dx T). change (dy (piece T i j)) with (dy T).
  change (2 ^ 25)%Z with 33554432%Z in *.
  rewrite (fit_axis e (x0 (piece T i j)) (x0 (piece T k l)) (dx T) (l - j) He A1 B1 Nx), (fit_axis e (y0 (piece T i j)) (y0 (piece T k l)) (dy T) (k - i) He A3 B3 Ny).
  - reflexivity.
  - rewrite A4, B4, minus_IZR. ring.
  - change (2 ^ 52)%Z with 4503599627370496%Z. lia.
  - rewrite A2, B2, minus_IZR. ring.
  - change (2 ^ 52)%Z with 4503599627370496%Z. lia.
Qed.

(** What is accepted. *)
Lemma mod1_near (a : double) : fin a -> Rabs (val a) <= 2251799813685248 -> dlt tolerance (mod1 a) = false ->
  exists n, Rabs (val a - IZR n) <= 16 * u.
Proof.
  intros F Ha. unfold mod1. cbv zeta.
  assert (T0 : Btrunc a = Ztrunc (val a)).
  { apply eq_IZR. rewrite (Btrunc_correct 53 1024 emax1024), round_FIX_IZR. reflexivity. }
  set (t := Btrunc a) in *.
  assert (Ht : Rabs (val a - IZR t) <= 1 /\ (Z.abs t <= 2251799813685248)%Z).
  { rewrite T0. split.
    - unfold Ztrunc. destruct (Rlt_bool_spec (val a) 0).
      + pose proof (Zceil_ub (val a)). pose proof (Zceil_lb (val a)). apply Rabs_le. lra.
      + pose proof (Zfloor_lb (val a)). pose proof (Zfloor_ub (val a)). apply Rabs_le. lra.
    - apply le_IZR. rewrite abs_IZR. eapply Rle_trans; [| exact Ha]. rewrite <- abs_IZR, <- Ztrunc_abs, Ztrunc_floor by apply Rabs_pos. apply Zfloor_lb. }
  destruct Ht as [Ht Hb]. destruct (of_int_on t) as [[Fn _] Vn]; [change (2 ^ 53)%Z with 9007199254740992%Z; lia |].
  assert (one_big : 1 <= pow2 1000) by (change 1 with (pow2 0); apply bpow_le; lia).
  destruct (dsub_err a (of_int t) F Fn) as (Fr & e1 & E1 & Vr); [rewrite Vn; lra |]. rewrite Vn in Vr.
  set (r := dsub a (of_int t)) in *. set (f := val a - IZR t) in *. apply Rabs_le_inv in Ht, E1.
  assert (TB : val tolerance <= 10 * u).
  { rewrite tol_R, u_val. change (pow2 (-102)) with (/ 5070602400912917605986812821504). lra. }
  pose proof u_val as UV. destruct (dlt r zero) eqn:C.
  - apply dlt_R in C; [| assumption | reflexivity]. change (val zero) with 0 in C.
    destruct (of_int_on 1) as [[F1 _] V1]; [apply Z.leb_le; reflexivity |].
    assert (Br : Rabs (val r + 1) <= 2) by (apply Rabs_le; rewrite Vr in *; rewrite UV in *; nra).
    destruct (dadd_err r (of_int 1) Fr F1) as (F2 & e2 & E2 & V2); [rewrite V1; apply Rle_trans with 2; [assumption |]; change 2 with (pow2 1); apply bpow_le; lia |].
    rewrite V1 in V2. intros K.
    assert (K' : val (dadd r (of_int 1)) <= val tolerance).
    { destruct (Rle_lt_dec (val (dadd r (of_int 1))) (val tolerance)) as [L | L]; [assumption |]. apply dlt_R in L; [congruence | exact tol_fin | assumption]. }
    exists (t - 1)%Z. rewrite minus_IZR. replace (val a - (IZR t - 1)) with (f + 1) by (unfold f; ring).
    apply Rabs_le_inv in E2. rewrite V2 in K'. rewrite Vr in *.
    set (w := f * (1 + e1) + 1) in *. assert (W : w <= 11 * u).
    { destruct (Rle_lt_dec w 0); [rewrite UV; lra |]. assert (w * (1 - u) <= w * (1 + e2)) by (apply Rmult_le_compat_l; lra). rewrite UV in *. lra. }
    assert (FE : Rabs (f * e1) <= u).
    { rewrite Rabs_mult. replace u with (1 * u) by ring. apply Rmult_le_compat; try apply Rabs_pos; apply Rabs_le; lra. }
    apply Rabs_le_inv in FE. apply Rabs_le. unfold w in W. rewrite UV in *. split; lra.
  - assert (C' : 0 <= val r).
    { destruct (Rle_lt_dec 0 (val r)) as [L | L]; [assumption |]. assert (dlt r zero = true); [apply dlt_R; [assumption | reflexivity | exact L] | congruence]. }
    intros K.
    assert (K' : val r <= val tolerance).
    { destruct (Rle_lt_dec (val r) (val tolerance)) as [L | L]; [assumption |]. apply dlt_R in L; [congruence | exact tol_fin | assumption]. }
    exists t. fold f.
    assert (FE : Rabs (f * e1) <= u).
    { rewrite Rabs_mult. replace u with (1 * u) by ring. apply Rmult_le_compat; try apply Rabs_pos; apply Rabs_le; lra. }
    apply Rabs_le_inv in FE. apply Rabs_le. rewrite Vr in *. rewrite UV in *. split; lra.
Qed.
Lemma near_axis (a b d : double) : upto 300 a -> upto 300 b -> sized d -> Rabs (val b - val a) <= pow2 50 * Rabs (val d) ->
  dlt tolerance (mod1 (ddiv (dsub b a) d)) = false ->
  exists n, Rabs (val b - val a - IZR n * val d) <= 32 * u * Rabs (val d) + 4 * u * Rabs (val b - val a).
Proof.
  intros Ha Hb Hd HB C. apply upto_R in Ha as [Fa Ba], Hb as [Fb Bb]. pose proof (sized_nz d Hd) as Nd. apply sized_R in Hd as (Fd & Ld & Ud).
  pose proof (Rabs_pos_lt _ Nd) as Pd. pose proof u_val as UV.
  assert (BS : Rabs (val b - val a) <= pow2 1000).
  { apply Rle_trans with (pow2 300 * 2).
    - unfold Rminus. eapply Rle_trans; [apply Rabs_triang |]. rewrite Rabs_Ropp. lra.
    - change 2 with (pow2 1). rewrite <- bpow_plus. apply bpow_le. lia. }
  destruct (dsub_err b a Fb Fa BS) as (Fs & e1 & E1 & Vs).
  set (D := val b - val a) in *. set (q := D / val d).
  assert (Hq : Rabs q <= pow2 50).
  { unfold q, Rdiv. rewrite Rabs_mult, Rabs_inv. apply Rmult_le_reg_r with (Rabs (val d)); [assumption |]. rewrite Rmult_assoc, Rinv_l by lra. lra. }
  assert (Q1 : val (dsub b a) / val d = q * (1 + e1)) by (rewrite Vs; unfold q; field; assumption).
  change (pow2 50) with 1125899906842624 in *.
  assert (QE1 : Rabs (q * (1 + e1)) <= 1125899906842624 * (1 + u)).
  { rewrite Rabs_mult. apply Rmult_le_compat; try apply Rabs_pos; [assumption |]. apply Rabs_le_inv in E1. apply Rabs_le. rewrite UV in *. lra. }
  assert (B2 : Rabs (val (dsub b a) / val d) <= pow2 1000).
  { rewrite Q1. eapply Rle_trans; [exact QE1 |]. apply Rle_trans with (pow2 51); [change (pow2 51) with 2251799813685248; rewrite UV; lra | apply bpow_le; lia]. }
  destruct (ddiv_err (dsub b a) d Fs Nd B2) as (Fq & e2 & h & E2 & Hh & Vq). rewrite Q1 in Vq.
  set (v := val (ddiv (dsub b a) d)) in *. pose proof eta_small as ES. pose proof eta_pos as EP.
  assert (VE : Rabs (v - q) <= 3 * u * Rabs q + u / 1000).
  { rewrite Vq. replace (q * (1 + e1) * (1 + e2) + h - q) with (q * (e1 + e2 + e1 * e2) + h) by ring.
    eapply Rle_trans; [apply Rabs_triang |]. rewrite Rabs_mult.
    assert (X : Rabs (e1 + e2 + e1 * e2) <= 3 * u).
    { assert (P : Rabs (e1 * e2) <= u * u) by (rewrite Rabs_mult; apply Rmult_le_compat; try apply Rabs_pos; assumption).
      apply Rabs_le_inv in E1, E2, P. apply Rabs_le. assert (u * u <= u / 2) by (rewrite UV; lra). split; lra. }
    pose proof (Rabs_pos q). assert (Rabs q * Rabs (e1 + e2 + e1 * e2) <= Rabs q * (3 * u)) by (apply Rmult_le_compat_l; assumption). lra. }
  assert (BV : Rabs v <= 2251799813685248).
  { replace v with (q + (v - q)) by ring. eapply Rle_trans; [apply Rabs_triang |]. pose proof (Rabs_pos q). rewrite UV in *. nra. }
  destruct (mod1_near _ Fq BV C) as (n & Hn). fold v in Hn. exists n.
  replace (D - IZR n * val d) with (((q - v) + (v - IZR n)) * val d) by (unfold q; field; assumption).
  replace (Rabs D) with (Rabs q * Rabs (val d)) by (rewrite <- Rabs_mult; f_equal; unfold q; field; assumption).
  rewrite Rabs_mult. replace (32 * u * Rabs (val d) + 4 * u * (Rabs q * Rabs (val d))) with ((32 * u + 4 * u * Rabs q) * Rabs (val d)) by ring.
  apply Rmult_le_compat_r; [lra |]. eapply Rle_trans; [apply Rabs_triang |]. rewrite Rabs_minus_sym in VE. pose proof (Rabs_pos q).
  assert (0 <= u * Rabs q) by (apply Rmult_le_pos; [rewrite UV; lra | assumption]). rewrite UV in *. lra.
Qed.
Lemma accepted_near T S : plain T -> upto 300 (x0 S) -> upto 300 (y0 S) ->
  (Qabs (value (x0 S) - value (x0 T)) <= Qpower 2 50 * Qabs (value (dx T)))%Q ->
  (Qabs (value (y0 S) - value (y0 T)) <= Qpower 2 50 * Qabs (value (dy T)))%Q -> misplaced T S = false ->
  exists i j,
  (Qabs (value (x0 S) - value (x0 T) - inject_Z j * value (dx T)) <= Qpower 2 (-48) * Qabs (value (dx T)) + Qpower 2 (-51) * Qabs (value (x0 S) - value (x0 T)))%Q /\
  (Qabs (value (y0 S) - value (y0 T) - inject_Z i * value (dy T)) <= Qpower 2 (-48) * Qabs (value (dy T)) + Qpower 2 (-51) * Qabs (value (y0 S) - value (y0 T)))%Q.
Proof.
  intros (Hx & Hy & Hdx & Hdy & _) Gx Gy Bx By M. unfold misplaced in M. apply orb_false_iff in M as [Mx My].
  apply le_QR in Bx, By. rewrite Q2R_mult, !Q2R_abs, Q2R_minus, !value_R, Q2R_pow2 in Bx, By.
  destruct (near_axis _ _ _ Hx Gx Hdx Bx Mx) as (j & Ej). destruct (near_axis _ _ _ Hy Gy Hdy By My) as (i & Ei).
  assert (P48 : Q2R (Qpower 2 (-48)) = 32 * u) by (rewrite Q2R_pow2; unfold u; change (-48)%Z with (5 + -53)%Z; rewrite bpow_plus; reflexivity).
  assert (P51 : Q2R (Qpower 2 (-51)) = 4 * u) by (rewrite Q2R_pow2; unfold u; change (-51)%Z with (2 + -53)%Z; rewrite bpow_plus; reflexivity).
  exists i, j. split; apply le_QR; rewrite Q2R_plus, !Q2R_mult, !Q2R_abs, P48, P51, !Q2R_minus, Q2R_mult, Q2R_Z, !value_R; assumption.
Qed.

(** The origin of a piece, rounded. *)
Lemma piece_err_axis (o d s : double) i j : upto 300 o -> sized d -> nought s -> int32 i -> int32 j ->
  Rabs (val (dadd (dadd o (dmul (of_int j) d)) (dmul (of_int i) s)) - (val o + IZR j * val d)) <= 8 * u * (Rabs (val d) + Rabs (IZR j * val d) + Rabs (val o)).
Proof.
  intros Ho Hd Hs Hi Hj. apply upto_R in Ho as [Fo Bo]. apply sized_R in Hd as (Fd & Ld & Ud). unfold int32 in *.
  destruct (of_int_on j) as [[Fj _] Vj]; [change (2 ^ 53)%Z with 9007199254740992%Z; lia |]. destruct (of_int_on i) as [[Fi _] Vi]; [change (2 ^ 53)%Z with 9007199254740992%Z; lia |].
  pose proof u_val as UV. pose proof (eta_u (-200) ltac:(lia)) as EU. pose proof (bpow_gt_0 radix2 (-200)) as P200.
  assert (BJ : Rabs (IZR j) <= pow2 31) by (rewrite <- abs_IZR; change (pow2 31) with (IZR 2147483648); apply IZR_le; lia).
  assert (Bm : Rabs (IZR j * val d) <= pow2 231).
  { rewrite Rabs_mult. change 231%Z with (31 + 200)%Z. rewrite bpow_plus. apply Rmult_le_compat; try apply Rabs_pos; assumption. }
  assert (G : pow2 231 <= pow2 300 /\ pow2 300 * 4 <= pow2 1000).
  { split; [apply bpow_le; lia |]. change 4 with (pow2 2). rewrite <- bpow_plus. apply bpow_le. lia. }
  destruct (dmul_err (of_int j) d Fj Fd) as (Fm & e1 & h1 & E1 & H1 & Vm); [rewrite Vj; pose proof (bpow_gt_0 radix2 300); lra |]. rewrite Vj in Vm.
  set (p := IZR j * val d) in *.
  assert (Mp : Rabs (val (dmul (of_int j) d) - p) <= u * Rabs p + u / 1000 * Rabs (val d)).
  { rewrite Vm. replace (p * (1 + e1) + h1 - p) with (p * e1 + h1) by ring. eapply Rle_trans; [apply Rabs_triang |]. rewrite Rabs_mult.
    pose proof (Rabs_pos p). assert (Rabs p * Rabs e1 <= Rabs p * u) by (apply Rmult_le_compat_l; assumption).
    assert (u / 1000 * pow2 (-200) <= u / 1000 * Rabs (val d)) by (apply Rmult_le_compat_l; [rewrite UV; lra | assumption]). lra. }
  assert (UB : 0 < u < / 1000) by (rewrite UV; lra).
  assert (Bm' : Rabs (val (dmul (of_int j) d)) <= 2 * Rabs p + Rabs (val d)).
  { replace (val (dmul (of_int j) d)) with (p + (val (dmul (of_int j) d) - p)) by ring. eapply Rle_trans; [apply Rabs_triang |]. pose proof (Rabs_pos p). pose proof (Rabs_pos (val d)). nra. }
  assert (D300 : Rabs (val d) <= pow2 300) by (eapply Rle_trans; [exact Ud | apply bpow_le; lia]).
  set (m := dmul (of_int j) d) in *.
  assert (Bs : Rabs (val o + val m) <= pow2 1000) by (eapply Rle_trans; [apply Rabs_triang |]; lra).
  destruct (dadd_err o m Fo Fm Bs) as (Fa & e2 & E2 & Va).
  destruct (mul_nought' (of_int i) s Hs Fi) as [Fz Vz].
  assert (Ba : Rabs (val (dadd o m)) <= pow2 1000).
  { destruct (dadd_ok o m Fo Fm Bs) as [_ ->]. apply rnd_bound; [lia | assumption]. }
  destruct (add_nought _ _ Fa Fz Vz Ba) as [_ ->]. rewrite Va.
  replace ((val o + val m) * (1 + e2) - (val o + p)) with ((val m - p) + (val o + val m) * e2) by ring.
  eapply Rle_trans; [apply Rabs_triang |]. rewrite Rabs_mult.
  assert (Rabs (val o + val m) * Rabs e2 <= (Rabs (val o) + (2 * Rabs p + Rabs (val d))) * u).
  { apply Rmult_le_compat; try apply Rabs_pos; [| assumption]. eapply Rle_trans; [apply Rabs_triang |]. lra. }
  pose proof (Rabs_pos p). pose proof (Rabs_pos (val d)). pose proof (Rabs_pos (val o)).
  assert (0 <= u * Rabs p) by (apply Rmult_le_pos; lra). assert (0 <= u * Rabs (val d)) by (apply Rmult_le_pos; lra). assert (0 <= u * Rabs (val o)) by (apply Rmult_le_pos; lra).
  lra.
Qed.
Lemma piece_near T i j : plain T -> int32 i -> int32 j ->
  (Qabs (value (x0 (piece T i j)) - (value (x0 T) + inject_Z j * value (dx T))) <= margin (inject_Z j * value (dx T)) (value (x0 T)) (value (dx T)))%Q /\
  (Qabs (value (y0 (piece T i j)) - (value (y0 T) + inject_Z i * value (dy T))) <= margin (inject_Z i * value (dy T)) (value (y0 T)) (value (dy T)))%Q.
Proof.
  intros (Hx & Hy & Hdx & Hdy & Sx & Sy) Hi Hj.
  assert (P50 : Q2R (Qpower 2 (-50)) = 8 * u) by (rewrite Q2R_pow2; unfold u; change (-50)%Z with (3 + -53)%Z; rewrite bpow_plus; reflexivity).
  split; apply le_QR; unfold margin; rewrite Q2R_mult, P50, !Q2R_plus, !Q2R_abs, Q2R_minus, Q2R_plus, !Q2R_mult, Q2R_Z, !value_R; unfold piece; cbn [x0 y0].
  - apply piece_err_axis; assumption.
  - apply piece_err_axis; assumption.
Qed.
