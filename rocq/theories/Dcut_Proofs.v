(** Proofs about pieces of grids in doubles. *)
From Coq Require Import List ZArith QArith Qabs Qpower Qreals Reals Lra Lia Bool.
From Flocq Require Import Core IEEE754.BinarySingleNaN.
From Verif Require Import Dbl_Model Dbl_Spec Dbl_Float Dbl_Grid Dbl_Proofs Dcut_Model Dcut_Spec.
Import ListNotations.
Open Scope R_scope.

Lemma ceil_R (a : double) : fin a -> exists n, ceil a = Some n /\ forall k, (n <= k)%Z <-> val a <= IZR k.
Proof.
  intros F. unfold ceil. destruct (Bnearbyint_correct 53 1024 emax1024 mode_UP a) as (V & G & _). rewrite G, F.
  eexists. split; [reflexivity |]. intros k.
  assert (E : Btrunc (Bnearbyint mode_UP a) = Zceil (val a)).
  { apply eq_IZR. rewrite (Btrunc_correct 53 1024 emax1024), V, !round_FIX_IZR. cbn [round_mode]. rewrite Ztrunc_IZR. reflexivity. }
  rewrite E. split; intros H.
  - eapply Rle_trans; [apply Zceil_ub | apply IZR_le; exact H].
  - apply Zceil_glb. exact H.
Qed.
Lemma floor_R (a : double) : fin a -> exists n, floor a = Some n /\ forall k, (k <= n)%Z <-> IZR k <= val a.
Proof.
  intros F. unfold floor. destruct (Bnearbyint_correct 53 1024 emax1024 mode_DN a) as (V & G & _). rewrite G, F.
  eexists. split; [reflexivity |]. intros k.
  assert (E : Btrunc (Bnearbyint mode_DN a) = Zfloor (val a)).
  { apply eq_IZR. rewrite (Btrunc_correct 53 1024 emax1024), V, !round_FIX_IZR. cbn [round_mode]. rewrite Ztrunc_IZR. reflexivity. }
  rewrite E. split; intros H.
  - eapply Rle_trans; [apply IZR_le; exact H | apply Zfloor_lb].
  - apply Zfloor_lub. exact H.
Qed.
Lemma pmin_R (a b : double) : fin a -> fin b -> fin (pmin a b) /\ val (pmin a b) = Rmin (val a) (val b).
Proof.
  intros Fa Fb. unfold pmin. pose proof (dlt_R b a Fb Fa) as C. destruct (dlt b a).
  - assert (val b < val a) by (apply C; reflexivity). rewrite Rmin_right by lra. auto.
  - assert (~ val b < val a) by (intros X; apply C in X; discriminate). rewrite Rmin_left by lra. auto.
Qed.
Lemma pmax_R (a b : double) : fin a -> fin b -> fin (pmax a b) /\ val (pmax a b) = Rmax (val a) (val b).
Proof.
  intros Fa Fb. unfold pmax. pose proof (dlt_R a b Fa Fb) as C. destruct (dlt a b).
  - assert (val a < val b) by (apply C; reflexivity). rewrite Rmax_right by lra. auto.
  - assert (~ val a < val b) by (intros X; apply C in X; discriminate). rewrite Rmax_left by lra. auto.
Qed.
Lemma pmin4_R (a b c d : double) : fin a -> fin b -> fin c -> fin d ->
  fin (pmin4 a b c d) /\ forall r, val (pmin4 a b c d) <= r <-> val a <= r \/ val b <= r \/ val c <= r \/ val d <= r.
Proof.
  intros Fa Fb Fc Fd. unfold pmin4. destruct (pmin_R a b Fa Fb) as [F1 V1]. destruct (pmin_R _ c F1 Fc) as [F2 V2].
  destruct (pmin_R _ d F2 Fd) as [F3 V3]. split; [assumption |]. intros r. rewrite V3, V2, V1.
  unfold Rmin. repeat destruct Rle_dec; split; intros; lra.
Qed.
Lemma pmax4_R (a b c d : double) : fin a -> fin b -> fin c -> fin d ->
  fin (pmax4 a b c d) /\ forall r, r <= val (pmax4 a b c d) <-> r <= val a \/ r <= val b \/ r <= val c \/ r <= val d.
Proof.
  intros Fa Fb Fc Fd. unfold pmax4. destruct (pmax_R a b Fa Fb) as [F1 V1]. destruct (pmax_R _ c F1 Fc) as [F2 V2].
  destruct (pmax_R _ d F2 Fd) as [F3 V3]. split; [assumption |]. intros r. rewrite V3, V2, V1.
  unfold Rmax. repeat destruct Rle_dec; split; intros; lra.
Qed.

(** The window in terms of the values of the positions. *)
Lemma window_R T (a b c d : double) : plain T -> upto 300 a -> upto 300 b -> upto 300 c -> upto 300 d ->
  exists i0 i1 j0 j1, clip_window T a b c d = Some (i0, i1, j0, j1) /\
  exists vc vd va vb : R,
    (forall n, (i0 <= n < i1)%Z <-> (vc <= IZR n \/ vd <= IZR n) /\ (IZR n <= vc \/ IZR n <= vd)) /\
    (forall n, (j0 <= n < j1)%Z <-> (va <= IZR n \/ vb <= IZR n) /\ (IZR n <= va \/ IZR n <= vb)) /\
    vc = val (fst (positions T a c)) /\ vd = val (fst (positions T a d)) /\
    va = val (snd (positions T a c)) /\ vb = val (snd (positions T b c)).
Proof.
  intros HT Ha Hb Hc Hd. unfold clip_window.
  destruct (pos_R T a c HT Ha Hc) as (i1 & j1 & E1 & Fi1 & Fj1 & _ & _ & Vi1 & Vj1).
  destruct (pos_R T b c HT Hb Hc) as (i2 & j2 & E2 & Fi2 & Fj2 & _ & _ & Vi2 & Vj2).
  destruct (pos_R T a d HT Ha Hd) as (i3 & j3 & E3 & Fi3 & Fj3 & _ & _ & Vi3 & Vj3).
  destruct (pos_R T b d HT Hb Hd) as (i4 & j4 & E4 & Fi4 & Fj4 & _ & _ & Vi4 & Vj4).
  rewrite E1, E2, E3, E4. cbn [fst snd].
  destruct (pmin4_R i1 i2 i3 i4 Fi1 Fi2 Fi3 Fi4) as [M1 M2]. destruct (pmax4_R i1 i2 i3 i4 Fi1 Fi2 Fi3 Fi4) as [N1 N2].
  destruct (pmin4_R j1 j2 j3 j4 Fj1 Fj2 Fj3 Fj4) as [P1 P2]. destruct (pmax4_R j1 j2 j3 j4 Fj1 Fj2 Fj3 Fj4) as [Q1 Q2].
  destruct (ceil_R _ M1) as (k1 & C1 & D1). destruct (floor_R _ N1) as (k2 & C2 & D2).
  destruct (ceil_R _ P1) as (k3 & C3 & D3). destruct (floor_R _ Q1) as (k4 & C4 & D4).
  rewrite C1, C2, C3, C4. exists k1, (k2 + 1)%Z, k3, (k4 + 1)%Z. split; [reflexivity |].
  exists (val i1), (val i3), (val j1), (val j2).
  assert (Ei2 : val i2 = val i1) by (rewrite Vi1, Vi2; reflexivity). assert (Ei4 : val i4 = val i3) by (rewrite Vi3, Vi4; reflexivity).
  assert (Ej3 : val j3 = val j1) by (rewrite Vj1, Vj3; reflexivity). assert (Ej4 : val j4 = val j2) by (rewrite Vj2, Vj4; reflexivity).
  repeat (apply conj); try reflexivity; intros n.
  - assert (L : (n < k2 + 1)%Z <-> (n <= k2)%Z) by (clear; lia). rewrite L, D1, D2, M2, N2, Ei2, Ei4. tauto.
  - assert (L : (n < k4 + 1)%Z <-> (n <= k4)%Z) by (clear; lia). rewrite L, D3, D4, P2, Q2, Ej3, Ej4. tauto.
Qed.

(** Between the two ends, whichever comes first. *)
Lemma between_ends (o d a b h : R) : d <> 0 -> a <= b ->
  ((a - o) / d <= h \/ (b - o) / d <= h) /\ (h <= (a - o) / d \/ h <= (b - o) / d) <-> a <= o + h * d <= b.
Proof.
  intros Hd Hab. set (p := (a - o) / d). set (q := (b - o) / d).
  assert (Ea : a = o + p * d) by (unfold p; field; assumption). assert (Eb : b = o + q * d) by (unfold q; field; assumption).
  rewrite Ea, Eb in *. clearbody p q. clear Ea Eb. destruct (Rtotal_order d 0) as [N | [Z0 | P]]; [| contradiction |].
  - assert (q <= p) by (apply Rmult_le_reg_r with (- d); lra).
    split; intros H1.
    + assert (q <= h <= p) by lra. split; apply Rplus_le_compat_l; nra.
    + assert (q <= h) by (apply Rmult_le_reg_r with (- d); lra). assert (h <= p) by (apply Rmult_le_reg_r with (- d); lra). lra.
  - assert (p <= q) by (apply Rmult_le_reg_r with d; lra).
    split; intros H1.
    + assert (p <= h <= q) by lra. split; apply Rplus_le_compat_l; nra.
    + assert (p <= h) by (apply Rmult_le_reg_r with d; lra). assert (h <= q) by (apply Rmult_le_reg_r with d; lra). lra.
Qed.

(** The position of a quotient of small integers is on the right side of every centre. *)
Lemma rnd_half n : (Z.abs n <= 2 ^ 51)%Z -> rnd (IZR n + / 2) = IZR n + / 2.
Proof.
  intros H. replace (IZR n + / 2) with (IZR (2 * n + 1) * pow2 (-1)) by (rewrite plus_IZR, mult_IZR; change (pow2 (-1)) with (/ 2); lra).
  apply rnd_exact; [| lia]. change (2 ^ 51)%Z with 2251799813685248%Z in H. change (2 ^ 53)%Z with 9007199254740992%Z. lia.
Qed.
Lemma rnd_int n : (Z.abs n <= 2 ^ 53)%Z -> rnd (IZR n) = IZR n.
Proof. intros H. replace (IZR n) with (IZR n * pow2 0) by (change (pow2 0) with 1; ring). apply rnd_exact; [assumption | lia]. Qed.
Lemma rnd_abs_err r : Rabs (rnd r - r) <= u * Rabs r + eta.
Proof.
  destruct (rnd_err r) as (e & h & He & Hh & E). rewrite E. replace (r * (1 + e) + h - r) with (r * e + h) by ring.
  eapply Rle_trans; [apply Rabs_triang |]. rewrite Rabs_mult. pose proof (Rabs_pos r). nra.
Qed.
Lemma place_err q B : 0 < B -> Rabs q <= 134217728 * B -> 1 <= 67108864 * B ->
  Rabs (rnd (rnd q - / 2) - (q - / 2)) <= B / 8.
Proof.
  intros HB Hq H1. pose proof (rnd_abs_err q) as E1. pose proof (rnd_abs_err (rnd q - / 2)) as E2.
  pose proof eta_small as ES. pose proof u_val as UV. pose proof eta_pos as EP.
  assert (K : Rabs (rnd q - / 2) <= Rabs q + (u * Rabs q + eta) + / 2).
  { replace (rnd q - / 2) with ((q + (rnd q - q)) + - / 2) by ring. eapply Rle_trans; [apply Rabs_triang |].
    rewrite Rabs_Ropp, (Rabs_pos_eq (/ 2)) by lra. apply Rplus_le_compat_r. eapply Rle_trans; [apply Rabs_triang |]. lra. }
  replace (rnd (rnd q - / 2) - (q - / 2)) with ((rnd (rnd q - / 2) - (rnd q - / 2)) + (rnd q - q)) by ring.
  eapply Rle_trans; [apply Rabs_triang |]. rewrite UV in *. clear UV. set (k := Rabs q) in *. set (k2 := Rabs (rnd q - / 2)) in *. lra.
Qed.
Lemma place (a b n : Z) : (Z.abs a <= 2 ^ 27)%Z -> (1 <= Z.abs b <= 2 ^ 26)%Z ->
  let q := IZR a / IZR b in let v := rnd (rnd q - / 2) in
  (v <= IZR n <-> q <= IZR n + / 2) /\ (IZR n <= v <-> IZR n + / 2 <= q).
Proof.
  intros Ha Hb q v. change (2 ^ 27)%Z with 134217728%Z in Ha. change (2 ^ 26)%Z with 67108864%Z in Hb.
  assert (Nb : IZR b <> 0) by (apply IZR_neq; lia).
  set (B := / Rabs (IZR b)). assert (Pb : 0 < Rabs (IZR b)) by (apply Rabs_pos_lt; assumption).
  assert (HB : 0 < B) by (apply Rinv_0_lt_compat; assumption).
  assert (Hq : Rabs q <= 134217728 * B).
  { unfold q, Rdiv. rewrite Rabs_mult, Rabs_inv. fold B. apply Rmult_le_compat_r; [lra |]. rewrite <- abs_IZR. apply IZR_le. lia. }
  assert (H1 : 1 <= 67108864 * B).
  { apply Rmult_le_reg_r with (Rabs (IZR b)); [assumption |]. unfold B. rewrite Rmult_assoc, Rinv_l by lra.
    rewrite <- abs_IZR. rewrite Rmult_1_l, Rmult_1_r. apply IZR_le. lia. }
  pose proof (place_err q B HB Hq H1) as E. fold v in E. apply Rabs_le_inv in E.
  assert (G : q = IZR n + / 2 \/ B / 2 <= Rabs (q - (IZR n + / 2))).
  { destruct (Z.eq_dec (2 * a) ((2 * n + 1) * b)) as [Z0 | Z0].
    - left. apply (f_equal IZR) in Z0. rewrite !mult_IZR, plus_IZR, mult_IZR in Z0. unfold q.
      apply Rmult_eq_reg_r with (IZR b); [| assumption]. unfold Rdiv. rewrite Rmult_assoc, Rinv_l, Rmult_1_r by assumption. lra.
    - right. replace (q - (IZR n + / 2)) with (IZR (2 * a - (2 * n + 1) * b) * / IZR b * / 2)
        by (unfold q; rewrite minus_IZR, !mult_IZR, plus_IZR, mult_IZR; field; assumption).
      rewrite !Rabs_mult, Rabs_inv, <- abs_IZR, (Rabs_pos_eq (/ 2)) by lra. fold B.
      assert (1 <= IZR (Z.abs (2 * a - (2 * n + 1) * b))) by (apply IZR_le; lia). nra. }
  destruct G as [G | G].
  - assert (V : v = IZR n).
    { unfold v. rewrite G, rnd_half.
      - replace (IZR n + / 2 - / 2) with (IZR n) by ring. apply rnd_int.
        assert (Rabs (IZR n) <= 134217729).
        { assert (B <= 1). { unfold B. rewrite <- Rinv_1. apply Rinv_le; [lra |]. rewrite <- abs_IZR. apply IZR_le. lia. }
          rewrite G in Hq. apply Rabs_le_inv in Hq. apply Rabs_le. lra. }
        rewrite <- abs_IZR in H. apply le_IZR in H. change (2 ^ 53)%Z with 9007199254740992%Z. lia.
      - assert (Rabs (IZR n) <= 134217729).
        { assert (B <= 1). { unfold B. rewrite <- Rinv_1. apply Rinv_le; [lra |]. rewrite <- abs_IZR. apply IZR_le. lia. }
          rewrite G in Hq. apply Rabs_le_inv in Hq. apply Rabs_le. lra. }
        rewrite <- abs_IZR in H. apply le_IZR in H. change (2 ^ 51)%Z with 2251799813685248%Z. lia. }
    rewrite V, G. split; split; intros; lra.
  - unfold Rabs in G. destruct (Rcase_abs _); split; split; intros; lra.
Qed.
