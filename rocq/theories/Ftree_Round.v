(** Rounding doubles to floats keeps their order, but may make them equal. *)
From Coq Require Import List ZArith QArith Qabs Qreals Reals Lra Lia Bool.
From Flocq Require Import Core IEEE754.BinarySingleNaN.
From Flocq Require Import Relative.
From Verif Require Import Dbl_Model Dbl_Spec Dbl_Float Ftree_Model Ftree_Spec.
Import ListNotations.
Open Scope R_scope.

(** Infinities as the first power of two that is too large. *)
Section Ext.
Variables (prec emax : Z).
Definition ext (a : binary_float prec emax) : R :=
  match a with
  | B754_infinity s => if s then - bpow radix2 emax else bpow radix2 emax
  | _ => B2R a
  end.
Lemma ext_fin a : is_finite a = true -> ext a = B2R a.
Proof. destruct a; try discriminate; reflexivity. Qed.
Lemma ext_range a : Rabs (ext a) <= bpow radix2 emax.
Proof.
  pose proof (bpow_gt_0 radix2 emax) as P.
  destruct a as [s | s | | s m e H].
  - cbn. rewrite Rabs_R0. lra.
  - cbn. destruct s; [rewrite Rabs_Ropp |]; rewrite Rabs_pos_eq; lra.
  - cbn. rewrite Rabs_R0. lra.
  - apply Rlt_le, (abs_B2R_lt_emax prec emax (B754_finite s m e H)).
Qed.
Lemma fin_range (a : binary_float prec emax) : - bpow radix2 emax < B2R a < bpow radix2 emax.
Proof. pose proof (Rabs_def2 _ _ (abs_B2R_lt_emax prec emax a)). lra. Qed.
Lemma fin_inf (a b : binary_float prec emax) : is_nan a = false -> is_finite a = false -> exists s, a = B754_infinity s.
Proof. destruct a; try discriminate; eauto. Qed.
Lemma ext_lt a b : is_nan a = false -> is_nan b = false -> (Bltb a b = true <-> ext a < ext b).
Proof.
  intros Na Nb. pose proof (bpow_gt_0 radix2 emax) as P. pose proof (fin_range a) as Ra. pose proof (fin_range b) as Rb.
  destruct (is_finite a) eqn:Fa, (is_finite b) eqn:Fb.
  - rewrite Bltb_correct, !ext_fin by assumption. split; intros H.
    + destruct (Rlt_bool_spec (B2R a) (B2R b)); [assumption | discriminate].
    + apply Rlt_bool_true; assumption.
  - rewrite (ext_fin a) by assumption. destruct b as [s | s | | s m e H]; try discriminate.
    cbn [ext]. destruct s; split; intros H; try lra.
    + destruct a; discriminate.
    + destruct a; try discriminate; reflexivity.
  - rewrite (ext_fin b) by assumption. destruct a as [s | s | | s m e H]; try discriminate.
    cbn [ext]. destruct s; split; intros H; try lra.
    + destruct b; try discriminate; reflexivity.
    + destruct b; discriminate.
  - destruct a as [s | s | | s m e H]; try discriminate. destruct b as [s' | s' | | s' m' e' H']; try discriminate.
    cbn [ext]. destruct s, s'; split; intros H; try lra; try discriminate; reflexivity.
Qed.
Lemma ext_le a b : is_nan a = false -> is_nan b = false -> (Bleb a b = true <-> ext a <= ext b).
Proof.
  intros Na Nb. pose proof (bpow_gt_0 radix2 emax) as P. pose proof (fin_range a) as Ra. pose proof (fin_range b) as Rb.
  destruct (is_finite a) eqn:Fa, (is_finite b) eqn:Fb.
  - rewrite Bleb_correct, !ext_fin by assumption. split; intros H.
    + destruct (Rle_bool_spec (B2R a) (B2R b)); [assumption | discriminate].
    + apply Rle_bool_true; assumption.
  - rewrite (ext_fin a) by assumption. destruct b as [s | s | | s m e H]; try discriminate.
    cbn [ext]. destruct s; split; intros H; try lra.
    + destruct a; discriminate.
    + destruct a; try discriminate; reflexivity.
  - rewrite (ext_fin b) by assumption. destruct a as [s | s | | s m e H]; try discriminate.
    cbn [ext]. destruct s; split; intros H; try lra.
    + destruct b; try discriminate; reflexivity.
    + destruct b; discriminate.
  - destruct a as [s | s | | s m e H]; try discriminate. destruct b as [s' | s' | | s' m' e' H']; try discriminate.
    cbn [ext]. destruct s, s'; split; intros H; try lra; try discriminate; reflexivity.
Qed.
End Ext.
Arguments ext {prec emax} a.
Arguments ext_fin {prec emax}. Arguments ext_lt {prec emax}. Arguments ext_le {prec emax}.

Notation top := (bpow radix2 128).
Definition rnd32 (r : R) : R := round radix2 (SpecFloat.fexp 24 128) (round_mode mode_NE) r.
Definition clamp (r : R) : R := Rmax (- top) (Rmin top r).
Lemma rnd32_le a b : a <= b -> rnd32 a <= rnd32 b.
Proof. intros H. unfold rnd32. apply round_le; try typeclasses eauto. exact H. Qed.
Lemma clamp_le a b : a <= b -> clamp a <= clamp b.
Proof. intros H. unfold clamp. apply Rle_max_compat_l, Rle_min_compat_l. exact H. Qed.
Lemma clamp_in r : Rabs r < top -> clamp r = r.
Proof. intros H. apply Rabs_def2 in H. unfold clamp. rewrite Rmin_right, Rmax_right; lra. Qed.
Lemma top_pos : 0 < top. Proof. apply bpow_gt_0. Qed.
Lemma clamp_hi r : top <= r -> clamp r = top.
Proof. intros H. pose proof top_pos. unfold clamp. rewrite Rmin_left, Rmax_right; lra. Qed.
Lemma clamp_lo r : r <= - top -> clamp r = - top.
Proof. intros H. pose proof top_pos. unfold clamp. rewrite Rmin_right, Rmax_left; lra. Qed.
Lemma rnd32_bpow e : (-149 <= e)%Z -> rnd32 (pow2 e) = pow2 e.
Proof.
  intros H. apply round_generic; [typeclasses eauto |]. apply generic_format_bpow.
  unfold SpecFloat.fexp, SpecFloat.emin. lia.
Qed.
Lemma rnd32_opp r : rnd32 (- r) = - rnd32 r.
Proof. apply round_NE_opp. Qed.
Lemma rnd32_0 : rnd32 0 = 0.
Proof. apply round_0. typeclasses eauto. Qed.

Lemma val_finite s m e H : B2R (B754_finite s m e H : double) = F2R (Float radix2 (if s then Z.neg m else Z.pos m) e).
Proof. cbn. destruct s; reflexivity. Qed.
Lemma to_single_fin (a : double) : is_finite a = true -> Rabs (rnd32 (val a)) < top ->
  is_finite (to_single a) = true /\ B2R (to_single a) = rnd32 (val a).
Proof.
  intros F H. destruct a as [s | s | | s m e Hb]; try discriminate.
  - cbn. rewrite rnd32_0. auto.
  - cbn [to_single]. rewrite val_finite in *.
    pose proof (binary_normalize_correct 24 128 prec24 emax128 mode_NE (if s then Z.neg m else Z.pos m) e s) as C.
    cbv zeta in C. fold (rnd32 (F2R (Float radix2 (if s then Z.neg m else Z.pos m) e))) in C.
    rewrite Rlt_bool_true in C by assumption. destruct C as (C1 & C2 & _). auto.
Qed.
Lemma to_single_ext (a : double) : is_nan a = false ->
  is_nan (to_single a) = false /\ ext (to_single a) = clamp (rnd32 (ext a)).
Proof.
  intros N. destruct (is_finite a) eqn:F.
  - rewrite (ext_fin a F). destruct (Rlt_le_dec (Rabs (rnd32 (val a))) top) as [H | H].
    + destruct (to_single_fin a F H) as [F' E]. rewrite ext_fin, E, clamp_in by assumption.
      split; [| reflexivity]. destruct (to_single a); try discriminate; reflexivity.
    + destruct a as [s | s | | s m e Hb]; try discriminate.
      * exfalso. cbn in H. rewrite rnd32_0, Rabs_R0 in H. pose proof top_pos; lra.
      * cbn [to_single]. rewrite val_finite in *.
        pose proof (binary_normalize_correct 24 128 prec24 emax128 mode_NE (if s then Z.neg m else Z.pos m) e s) as C.
        cbv zeta in C. set (x := F2R _) in *. fold (rnd32 x) in C.
        rewrite Rlt_bool_false in C by assumption.
        assert (Sx : Rlt_bool x 0 = s).
        { unfold x. destruct s.
          - apply Rlt_bool_true. apply F2R_lt_0. reflexivity.
          - apply Rlt_bool_false. apply F2R_ge_0. cbn. lia. }
        rewrite Sx in C. set (z := binary_normalize _ _ _ _ _ _ _ _) in *.
        cbn in C. destruct z as [? | s' | | ? ? ? ?]; try discriminate. cbn in C. injection C as ->.
        split; [reflexivity |]. cbn [ext]. destruct s.
        -- destruct (Rlt_bool_spec x 0) as [Sx' | Sx']; [| discriminate].
           symmetry. apply clamp_lo. assert (rnd32 x <= 0) by (rewrite <- rnd32_0; apply rnd32_le; lra).
           rewrite Rabs_left1 in H by assumption. lra.
        -- destruct (Rlt_bool_spec x 0) as [Sx' | Sx']; [discriminate |].
           symmetry. apply clamp_hi. assert (0 <= rnd32 x) by (rewrite <- rnd32_0; apply rnd32_le; lra).
           rewrite Rabs_pos_eq in H by assumption. lra.
  - destruct a as [s | s | | s m e Hb]; try discriminate. cbn [to_single ext is_nan]. split; [reflexivity |].
    assert (T : top <= rnd32 (bpow radix2 1024)).
    { rewrite rnd32_bpow by lia. apply bpow_le. lia. }
    destruct s; symmetry.
    + apply clamp_lo. rewrite rnd32_opp. lra.
    + apply clamp_hi. assumption.
Qed.

(** The order of two doubles from that of the floats, and the other way round. *)
Lemma single_lt (a b : double) : number a -> number b -> Bltb (to_single a) (to_single b) = true -> lt a b.
Proof.
  intros Na Nb H. destruct (to_single_ext a Na) as [Na' Ea], (to_single_ext b Nb) as [Nb' Eb].
  apply ext_lt in H; [| assumption ..]. rewrite Ea, Eb in H. apply ext_lt; [assumption .. |].
  destruct (Rlt_le_dec (ext a) (ext b)) as [L | L]; [assumption |]. exfalso.
  apply rnd32_le, clamp_le in L. lra.
Qed.
Lemma le_single (a b : double) : number a -> number b -> le a b -> Bleb (to_single a) (to_single b) = true.
Proof.
  intros Na Nb H. destruct (to_single_ext a Na) as [Na' Ea], (to_single_ext b Nb) as [Nb' Eb].
  apply ext_le in H; [| assumption ..]. apply ext_le; [assumption .. |]. rewrite Ea, Eb. apply clamp_le, rnd32_le, H.
Qed.

(** How far rounding moves a number. *)
Lemma rnd32_err r : Rabs (rnd32 r - r) <= Rabs r * pow2 (-24) + pow2 (-150).
Proof.
  destruct (relative_error_N_FLT'_ex radix2 (-149) 24 prec24 (fun x => negb (Z.even x)) r) as (e & h & H1 & H2 & _ & H3).
  change (rnd32 r) with (round radix2 (FLT_exp (-149) 24) (Znearest (fun x => negb (Z.even x))) r). rewrite H3.
  replace (r * (1 + e) + h - r) with (r * e + h) by ring.
  eapply Rle_trans; [apply Rabs_triang |]. rewrite Rabs_mult. apply Rplus_le_compat.
  - apply Rmult_le_compat_l; [apply Rabs_pos |]. eapply Rle_trans; [exact H1 |].
    assert (U : u_ro radix2 24 = pow2 (-24)) by (unfold u_ro; rewrite half_bpow; reflexivity). rewrite U.
    pose proof (bpow_gt_0 radix2 (-24)) as P. apply Rle_trans with (pow2 (-24) / 1); [| lra].
    unfold Rdiv. apply Rmult_le_compat_l; [lra |]. apply Rinv_le; lra.
  - eapply Rle_trans; [exact H2 |]. rewrite half_bpow. apply Rle_refl.
Qed.
Lemma rnd32_bound r k : (-149 <= k)%Z -> Rabs r <= pow2 k -> Rabs (rnd32 r) <= pow2 k.
Proof.
  intros Hk H. unfold rnd32. apply abs_round_le_generic; try typeclasses eauto; [| assumption].
  apply generic_format_bpow. unfold SpecFloat.fexp, SpecFloat.emin. lia.
Qed.
Lemma upto_single k (a : double) : (-149 <= k < 128)%Z -> upto k a ->
  is_finite (to_single a) = true /\ B2R (to_single a) = rnd32 (val a) /\ Rabs (B2R (to_single a)) <= pow2 k.
Proof.
  intros Hk H. apply upto_R in H as [F B]. pose proof (rnd32_bound (val a) k ltac:(lia) B) as R.
  destruct (to_single_fin a F) as [F' E].
  - eapply Rle_lt_trans; [exact R |]. apply bpow_lt. lia.
  - rewrite E. auto.
Qed.
Lemma blur_R a b : Q2R (blur a b) = (Rabs (val a) + Rabs (val b)) * pow2 (-24) + pow2 (-149).
Proof. unfold blur. rewrite Q2R_plus, Q2R_mult, Q2R_plus, !Q2R_abs, !value_R, !Q2R_pow2. reflexivity. Qed.
Lemma double_149 : pow2 (-150) + pow2 (-150) = pow2 (-149).
Proof. pose proof (half_bpow (-149)) as H. change (-149 - 1)%Z with (-150)%Z in H. lra. Qed.
Lemma rnd32_pair (a b : double) :
  val b - val a - Q2R (blur a b) <= rnd32 (val b) - rnd32 (val a) <= val b - val a + Q2R (blur a b).
Proof.
  pose proof (rnd32_err (val a)) as A. pose proof (rnd32_err (val b)) as B. rewrite blur_R. pose proof double_149.
  apply Rabs_le_inv in A. apply Rabs_le_inv in B. lra.
Qed.
Lemma single_le (a b : double) : upto 127 a -> upto 127 b -> Bleb (to_single b) (to_single a) = true -> barely_above a b.
Proof.
  intros Ua Ub H. destruct (upto_single 127 a) as (Fa & Ea & _); [lia | assumption |].
  destruct (upto_single 127 b) as (Fb & Eb & _); [lia | assumption |].
  rewrite Bleb_correct in H by assumption. destruct (Rle_bool_spec (B2R (to_single b)) (B2R (to_single a))) as [L | L]; [| discriminate].
  rewrite Ea, Eb in L. pose proof (rnd32_pair a b). apply Rle_Qle. rewrite Q2R_plus, !value_R. lra.
Qed.
Lemma lt_single (a b : double) : upto 127 a -> upto 127 b -> well_above a b -> Bltb (to_single a) (to_single b) = true.
Proof.
  intros Ua Ub H. destruct (upto_single 127 a) as (Fa & Ea & _); [lia | assumption |].
  destruct (upto_single 127 b) as (Fb & Eb & _); [lia | assumption |].
  rewrite Bltb_correct by assumption. apply Rlt_bool_true. rewrite Ea, Eb.
  apply Qlt_Rlt in H. rewrite Q2R_plus, !value_R in H. pose proof (rnd32_pair a b). lra.
Qed.

(** The test for an overlap. *)
Lemma fmul_pos (a b : single) : Bltb fzero (fmul a b) = true -> Bleb fzero a = true -> Bleb fzero b = true ->
  Bltb fzero a = true /\ Bltb fzero b = true.
Proof.
  intros H Ha Hb. destruct a as [s | s | | s m e P], b as [s' | s' | | s' m' e' P']; try discriminate;
    try (destruct s; discriminate); try (destruct s'; discriminate); try (destruct s, s'; discriminate);
    try (destruct s; try discriminate); try (destruct s'; try discriminate); split; reflexivity.
Qed.
Lemma finite_number {p m} (a : binary_float p m) : is_finite a = true -> is_nan a = false.
Proof. destruct a; try discriminate; reflexivity. Qed.
Lemma fsub_pos (a b : single) : Bltb fzero (fsub a b) = true -> is_nan a = false /\ is_nan b = false /\ Bltb b a = true.
Proof.
  intros H. destruct (is_finite a) eqn:Fa, (is_finite b) eqn:Fb.
  - split; [apply finite_number; assumption |]. split; [apply finite_number; assumption |].
    rewrite Bltb_correct by assumption. apply Rlt_bool_true.
    destruct (Rlt_le_dec (B2R b) (B2R a)) as [L | L]; [assumption | exfalso].
    pose proof (Bminus_correct 24 128 prec24 emax128 mode_NE a b Fa Fb) as C. cbv zeta in C.
    fold (rnd32 (B2R a - B2R b)) in C. fold (fsub a b) in C.
    assert (N : rnd32 (B2R a - B2R b) <= 0) by (rewrite <- rnd32_0; apply rnd32_le; lra).
    destruct (Rlt_bool_spec (Rabs (rnd32 (B2R a - B2R b))) top) as [T | T].
    + destruct C as (C1 & C2 & _). rewrite Bltb_correct in H by (assumption || reflexivity).
      rewrite C1 in H. cbn in H. rewrite Rlt_bool_false in H by assumption. discriminate.
    + destruct C as (C1 & C2). destruct (Bsign a) eqn:Sa.
      * cbn in C1. destruct (fsub a b) as [? | s | | ? ? ? ?]; try discriminate. cbn in C1. injection C1 as ->. discriminate.
      * assert (Sb : Bsign b = true) by (destruct (Bsign b); [reflexivity | discriminate]).
        assert (A0 : 0 <= B2R a).
        { destruct a as [s | s | | s m e P]; try discriminate; [cbn; lra |]. cbn in Sa. subst s. apply F2R_ge_0. cbn. lia. }
        assert (B0 : B2R b <= 0).
        { destruct b as [s | s | | s m e P]; try discriminate; [cbn; lra |]. cbn in Sb. subst s. apply F2R_le_0. cbn. lia. }
        assert (E : 0 <= rnd32 (B2R a - B2R b)) by (rewrite <- rnd32_0; apply rnd32_le; lra).
        pose proof top_pos. rewrite Rabs_left1 in T by assumption. lra.
  - destruct b as [s | s | | s m e P]; try discriminate; destruct a as [s' | s' | | s' m' e' P']; try discriminate;
      destruct s; try discriminate; repeat split; reflexivity.
  - destruct a as [s | s | | s m e P]; try discriminate; destruct b as [s' | s' | | s' m' e' P']; try discriminate;
      destruct s; try discriminate; repeat split; reflexivity.
  - destruct b as [s | s | | s m e P]; try discriminate; destruct a as [s' | s' | | s' m' e' P']; try discriminate;
      destruct s, s'; try discriminate; repeat split; reflexivity.
Qed.
Lemma maxf0_pos (a : single) : Bleb fzero (maxf a fzero) = true.
Proof. unfold maxf. destruct (Bleb fzero a) eqn:E; [assumption | reflexivity]. Qed.
Lemma maxf0_lt (a : single) : Bltb fzero (maxf a fzero) = true -> Bltb fzero a = true.
Proof. unfold maxf. destruct (Bleb fzero a) eqn:E; [auto | discriminate]. Qed.
Lemma minf_ext a b : is_nan a = false -> is_nan b = false ->
  is_nan (minf a b) = false /\ ext (minf a b) = Rmin (ext a) (ext b).
Proof.
  intros Na Nb. unfold minf. destruct (Bleb b a) eqn:E.
  - apply ext_le in E; [| assumption ..]. rewrite Rmin_right by assumption. auto.
  - split; [assumption |]. rewrite Rmin_left; [reflexivity |].
    destruct (Rle_lt_dec (ext a) (ext b)) as [L | L]; [assumption |]. apply Rlt_le, ext_le in L; [congruence | assumption ..].
Qed.
Lemma maxf_ext a b : is_nan a = false -> is_nan b = false ->
  is_nan (maxf a b) = false /\ ext (maxf a b) = Rmax (ext a) (ext b).
Proof.
  intros Na Nb. unfold maxf. destruct (Bleb b a) eqn:E.
  - apply ext_le in E; [| assumption ..]. rewrite Rmax_left by assumption. auto.
  - split; [assumption |]. rewrite Rmax_right; [reflexivity |].
    destruct (Rle_lt_dec (ext a) (ext b)) as [L | L]; [assumption |]. apply Rlt_le, ext_le in L; [congruence | assumption ..].
Qed.
Lemma axis_sound (a0 a1 b0 b1 : double) : number a0 -> number a1 -> number b0 -> number b1 ->
  Bltb fzero (maxf (fsub (minf (to_single a1) (to_single b1)) (maxf (to_single a0) (to_single b0))) fzero) = true ->
  lt a0 a1 /\ lt b0 b1 /\ lt a0 b1 /\ lt b0 a1.
Proof.
  intros N1 N2 N3 N4 H. apply maxf0_lt, fsub_pos in H as (_ & _ & H).
  destruct (to_single_ext a0 N1) as [M1 _], (to_single_ext a1 N2) as [M2 _],
    (to_single_ext b0 N3) as [M3 _], (to_single_ext b1 N4) as [M4 _].
  destruct (minf_ext _ _ M2 M4) as [M5 E5], (maxf_ext _ _ M1 M3) as [M6 E6].
  apply ext_lt in H; [| assumption ..]. rewrite E5, E6 in H.
  set (u1 := ext (to_single a1)) in *. set (u2 := ext (to_single b1)) in *.
  set (l1 := ext (to_single a0)) in *. set (l2 := ext (to_single b0)) in *.
  pose proof (Rmin_l u1 u2). pose proof (Rmin_r u1 u2). pose proof (Rmax_l l1 l2). pose proof (Rmax_r l1 l2).
  repeat split; apply single_lt; try assumption; (apply ext_lt; [assumption .. |]); unfold u1, u2, l1, l2 in *; lra.
Qed.
Lemma overlap_sound q b : each number q -> each number b -> is_overlapping (load q) (load b) = true -> overlap q b.
Proof.
  intros (Q1 & Q2 & Q3 & Q4) (B1 & B2 & B3 & B4) H. unfold is_overlapping, ltf, intersection_area in H.
  apply fmul_pos in H; [| apply maxf0_pos ..]. destruct H as [Hx Hy].
  split; [exact (axis_sound _ _ _ _ Q1 Q3 B1 B3 Hx) | exact (axis_sound _ _ _ _ Q2 Q4 B2 B4 Hy)].
Qed.

(** An overlap wide enough is seen. *)
Lemma minf_fin a b : is_finite a = true -> is_finite b = true ->
  is_finite (minf a b) = true /\ (minf a b = a \/ minf a b = b).
Proof. intros Fa Fb. unfold minf. destruct (Bleb b a); auto. Qed.
Lemma maxf_fin a b : is_finite a = true -> is_finite b = true ->
  is_finite (maxf a b) = true /\ (maxf a b = a \/ maxf a b = b).
Proof. intros Fa Fb. unfold maxf. destruct (Bleb b a); auto. Qed.
Definition sized32 (a : single) : Prop := is_finite a = true /\ Rabs (B2R a) <= pow2 60.
Lemma axis_seen k (a0 a1 b0 b1 : single) : (-74 <= k)%Z -> sized32 a0 -> sized32 a1 -> sized32 b0 -> sized32 b1 ->
  pow2 k <= B2R a1 - B2R a0 -> pow2 k <= B2R b1 - B2R b0 -> pow2 k <= B2R b1 - B2R a0 -> pow2 k <= B2R a1 - B2R b0 ->
  let d := maxf (fsub (minf a1 b1) (maxf a0 b0)) fzero in
  is_finite d = true /\ pow2 k <= B2R d <= pow2 61.
Proof.
  intros Hk [F1 S1] [F2 S2] [F3 S3] [F4 S4] G1 G2 G3 G4 d.
  destruct (minf_fin a1 b1 F2 F4) as [Fm Em], (maxf_fin a0 b0 F1 F3) as [Fx Ex].
  set (hi := minf a1 b1) in *. set (lo := maxf a0 b0) in *.
  assert (G : pow2 k <= B2R hi - B2R lo) by (destruct Em as [-> | ->], Ex as [-> | ->]; assumption).
  assert (Shi : Rabs (B2R hi) <= pow2 60) by (destruct Em as [-> | ->]; assumption).
  assert (Slo : Rabs (B2R lo) <= pow2 60) by (destruct Ex as [-> | ->]; assumption).
  clearbody hi lo. pose proof (bpow_gt_0 radix2 k) as Pk.
  assert (P61 : pow2 61 = pow2 60 + pow2 60) by (pose proof (half_bpow 61) as H; change (61 - 1)%Z with 60%Z in H; lra).
  apply Rabs_le_inv in Shi. apply Rabs_le_inv in Slo.
  assert (B : Rabs (B2R hi - B2R lo) <= pow2 61) by (apply Rabs_le; lra).
  pose proof (rnd32_bound _ 61 ltac:(lia) B) as R.
  pose proof (Bminus_correct 24 128 prec24 emax128 mode_NE hi lo Fm Fx) as C. cbv zeta in C.
  fold (rnd32 (B2R hi - B2R lo)) in C. fold (fsub hi lo) in C.
  rewrite Rlt_bool_true in C by (eapply Rle_lt_trans; [exact R | apply bpow_lt; lia]).
  destruct C as (C1 & C2 & _).
  assert (L : pow2 k <= B2R (fsub hi lo)).
  { rewrite C1, <- (rnd32_bpow k) by lia. apply rnd32_le. assumption. }
  assert (E : d = fsub hi lo).
  { unfold d, maxf. rewrite Bleb_correct by (assumption || reflexivity). rewrite Rle_bool_true; [reflexivity |]. cbn. lra. }
  rewrite E. split; [assumption |]. split; [assumption |]. rewrite C1. apply Rabs_le_inv in R. lra.
Qed.
Lemma seen k (q b : bb) : (-74 <= k)%Z ->
  sized32 (xmin q) -> sized32 (xmax q) -> sized32 (ymin q) -> sized32 (ymax q) ->
  sized32 (xmin b) -> sized32 (xmax b) -> sized32 (ymin b) -> sized32 (ymax b) ->
  pow2 k <= B2R (xmax q) - B2R (xmin q) -> pow2 k <= B2R (xmax b) - B2R (xmin b) ->
  pow2 k <= B2R (xmax b) - B2R (xmin q) -> pow2 k <= B2R (xmax q) - B2R (xmin b) ->
  pow2 k <= B2R (ymax q) - B2R (ymin q) -> pow2 k <= B2R (ymax b) - B2R (ymin b) ->
  pow2 k <= B2R (ymax b) - B2R (ymin q) -> pow2 k <= B2R (ymax q) - B2R (ymin b) ->
  is_overlapping q b = true.
Proof.
  intros Hk Q1 Q2 Q3 Q4 B1 B2 B3 B4 X1 X2 X3 X4 Y1 Y2 Y3 Y4.
  destruct (axis_seen k _ _ _ _ Hk Q1 Q2 B1 B2 X1 X2 X3 X4) as [Fx [Lx Ux]].
  destruct (axis_seen k _ _ _ _ Hk Q3 Q4 B3 B4 Y1 Y2 Y3 Y4) as [Fy [Ly Uy]].
  unfold is_overlapping, intersection_area, ltf. cbv zeta.
  set (dx := maxf (fsub (minf (xmax q) (xmax b)) (maxf (xmin q) (xmin b))) fzero) in *.
  set (dy := maxf (fsub (minf (ymax q) (ymax b)) (maxf (ymin q) (ymin b))) fzero) in *.
  clearbody dx dy. pose proof (bpow_gt_0 radix2 k) as Pk.
  pose proof (Bmult_correct 24 128 prec24 emax128 mode_NE dx dy) as C. cbv zeta in C.
  fold (rnd32 (B2R dx * B2R dy)) in C. fold (fmul dx dy) in C.
  assert (L : pow2 (k + k) <= B2R dx * B2R dy) by (rewrite bpow_plus; apply Rmult_le_compat; lra).
  assert (U : B2R dx * B2R dy <= pow2 (61 + 61)) by (rewrite bpow_plus; apply Rmult_le_compat; lra).
  pose proof (bpow_gt_0 radix2 (k + k)) as Pkk.
  assert (R : Rabs (rnd32 (B2R dx * B2R dy)) <= pow2 122).
  { apply rnd32_bound; [lia |]. apply Rabs_le. change (61 + 61)%Z with 122%Z in U. lra. }
  rewrite Rlt_bool_true in C by (eapply Rle_lt_trans; [exact R | apply bpow_lt; lia]).
  destruct C as (C1 & C2 & _). rewrite Fx, Fy in C2. cbn in C2.
  rewrite Bltb_correct by (assumption || reflexivity). apply Rlt_bool_true. cbn [B2R fzero].
  rewrite C1. eapply Rlt_le_trans; [exact Pkk |]. rewrite <- (rnd32_bpow (k + k)) by lia. apply rnd32_le. assumption.
Qed.
Lemma far_gap (a b : double) : upto 60 a -> upto 60 b -> far_above a b ->
  pow2 (-69) <= B2R (to_single b) - B2R (to_single a).
Proof.
  intros Ua Ub H. destruct (upto_single 60 a) as (Fa & Ea & _); [lia | assumption |].
  destruct (upto_single 60 b) as (Fb & Eb & _); [lia | assumption |].
  apply Qlt_Rlt in H. rewrite !Q2R_plus, !value_R, Q2R_pow2 in H. rewrite Ea, Eb. pose proof (rnd32_pair a b). lra.
Qed.
Lemma upto_sized a : upto 60 a -> sized32 (to_single a).
Proof. intros H. destruct (upto_single 60 a) as (F & _ & S); [lia | assumption |]. split; assumption. Qed.
Lemma overlap_seen q b : each (upto 60) q -> each (upto 60) b -> overlap_well q b -> is_overlapping (load q) (load b) = true.
Proof.
  intros (Q1 & Q2 & Q3 & Q4) (B1 & B2 & B3 & B4) ((X1 & X2 & X3 & X4) & Y1 & Y2 & Y3 & Y4).
  apply (seen (-69)); cbn [load xmin xmax ymin ymax]; first [lia | apply upto_sized; assumption | apply far_gap; assumption].
Qed.

(** Numbers that floats can hold. *)
Lemma rnd32_exact m e : (Z.abs m <= 2 ^ 24)%Z -> (-149 <= e)%Z -> rnd32 (IZR m * pow2 e) = IZR m * pow2 e.
Proof.
  intros Hm He. change (rnd32 (IZR m * pow2 e)) with (round radix2 (FLT_exp (-149) 24) (round_mode mode_NE) (IZR m * pow2 e)).
  apply round_generic; [typeclasses eauto |]. apply generic_format_FLT.
  destruct (Z.eq_dec (Z.abs m) (2 ^ 24)) as [E | N].
  - assert (D : (m = 2 ^ 24 \/ m = - 2 ^ 24)%Z) by lia.
    destruct D as [-> | ->].
    + exists (Float radix2 1 (24 + e)); cbn [Fnum Fexp]; [| reflexivity | lia]. unfold F2R; cbn [Fnum Fexp].
      rewrite bpow_plus. change (pow2 24) with (IZR (2 ^ 24)). ring.
    + exists (Float radix2 (-1) (24 + e)); cbn [Fnum Fexp]; [| reflexivity | lia]. unfold F2R; cbn [Fnum Fexp].
      rewrite bpow_plus, opp_IZR. change (pow2 24) with (IZR (2 ^ 24)). ring.
  - exists (Float radix2 m e); cbn [Fnum Fexp]; [reflexivity | | assumption]. change (Zaux.radix_val radix2 ^ 24)%Z with (2 ^ 24)%Z. lia.
Qed.
Lemma raster_single e (a : double) : (-70 <= e <= 30)%Z -> raster 24 e a ->
  is_finite a = true /\ is_finite (to_single a) = true /\ B2R (to_single a) = val a /\ Rabs (val a) <= pow2 60 /\
  exists n, val a = IZR n * pow2 e.
Proof.
  intros He H. apply raster_on in H as (F & n & Hn & E).
  assert (B : Rabs (val a) <= pow2 60).
  { rewrite E, Rabs_mult, <- abs_IZR, (Rabs_pos_eq (pow2 e)) by apply bpow_ge_0.
    apply Rle_trans with (IZR (2 ^ 24) * pow2 30).
    - apply Rmult_le_compat; [apply IZR_le; lia | apply bpow_ge_0 | apply IZR_le; lia | apply bpow_le; lia].
    - change (IZR (2 ^ 24)) with (pow2 24). rewrite <- bpow_plus. apply bpow_le. lia. }
  destruct (to_single_fin a F) as [F' E'].
  { rewrite E, rnd32_exact by lia. rewrite <- E. eapply Rle_lt_trans; [exact B |]. apply bpow_lt. lia. }
  rewrite E' , E, rnd32_exact by lia. rewrite <- E. repeat split; auto. exists n; assumption.
Qed.
Lemma raster_lt e a b : (-70 <= e <= 30)%Z -> raster 24 e a -> raster 24 e b ->
  Bltb (to_single a) (to_single b) = dlt a b /\ Bleb (to_single a) (to_single b) = dle a b.
Proof.
  intros He Ha Hb. destruct (raster_single e a He Ha) as (F1 & F2 & E1 & _), (raster_single e b He Hb) as (F3 & F4 & E2 & _).
  unfold dlt, dle. rewrite !Bltb_correct, !Bleb_correct by assumption. rewrite E1, E2. split; reflexivity.
Qed.
Lemma raster_gap e a b : (-70 <= e <= 30)%Z -> raster 24 e a -> raster 24 e b -> lt a b ->
  pow2 e <= B2R (to_single b) - B2R (to_single a).
Proof.
  intros He Ha Hb H. destruct (raster_single e a He Ha) as (F1 & F2 & E1 & _ & n & En), (raster_single e b He Hb) as (F3 & F4 & E2 & _ & m & Em).
  unfold lt, dlt in H. rewrite Bltb_correct in H by assumption.
  destruct (Rlt_bool_spec (val a) (val b)) as [L | L]; [| discriminate]. rewrite E1, E2. rewrite En, Em in *.
  pose proof (bpow_gt_0 radix2 e) as P. apply Rmult_lt_reg_r in L; [| assumption]. apply lt_IZR in L.
  rewrite <- Rmult_minus_distr_r, <- minus_IZR. apply Rle_trans with (1 * pow2 e); [lra |].
  apply Rmult_le_compat_r; [lra |]. apply IZR_le. lia.
Qed.
Lemma raster_sized e a : (-70 <= e <= 30)%Z -> raster 24 e a -> sized32 (to_single a) /\ number a.
Proof.
  intros He H. destruct (raster_single e a He H) as (F1 & F2 & E1 & B & _). split; [split; [assumption | rewrite E1; assumption] |].
  apply finite_number; assumption.
Qed.
Lemma raster_overlap e q b : (-70 <= e <= 30)%Z -> each (raster 24 e) q -> each (raster 24 e) b ->
  (is_overlapping (load q) (load b) = true <-> overlap q b).
Proof.
  intros He Q B. split.
  - destruct Q as (Q1 & Q2 & Q3 & Q4), B as (B1 & B2 & B3 & B4).
    apply overlap_sound; repeat split; eapply raster_sized; eassumption.
  - destruct Q as (Q1 & Q2 & Q3 & Q4), B as (B1 & B2 & B3 & B4). intros ((X1 & X2 & X3 & X4) & Y1 & Y2 & Y3 & Y4).
    apply (seen e); cbn [load xmin xmax ymin ymax];
      first [lia | apply (raster_sized e); assumption | apply raster_gap; assumption].
Qed.
