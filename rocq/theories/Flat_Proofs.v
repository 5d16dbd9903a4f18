(** The aspect of flat ground. *)
From Coq Require Import ZArith Reals Bool Lra Lia.
From Flocq Require Import Core IEEE754.BinarySingleNaN.
From Verif Require Import Dbl_Model Ftree_Model TerrainR_Model Flat_Model.
Open Scope Z_scope.

Lemma fsub_self (x : single) : is_finite x = true -> fsub x x = B754_zero false.
Proof.
  intros F. unfold fsub. pose proof (Bminus_correct 24 128 _ _ mode_NE x x F F) as H.
  replace (B2R x - B2R x)%R with 0%R in H by ring.
  rewrite round_0 in H by auto with typeclass_instances. rewrite Rabs_R0, Rlt_bool_true in H by apply bpow_gt_0.
  destruct H as (H1 & H2 & H3). rewrite Rcompare_Eq in H3 by reflexivity.
  rewrite andb_negb_r in H3.
  destruct (Bminus mode_NE x x) as [s | s | | s m e B]; cbn in H2, H3; try discriminate; [subst; reflexivity |].
  subst s. cbn in H1. apply eq_0_F2R in H1. discriminate.
Qed.
Lemma fdiv_zero s (d : single) : is_finite_strict d = true -> fdiv (B754_zero s) d = B754_zero (xorb s (Bsign d)).
Proof. destruct d; try discriminate. reflexivity. Qed.
(** Sums of four times a height. *)
Definition fourfold (v : single) : single := fadd (fadd (fmul ftwo v) v) v.
Lemma flat_cell inf D rx ry i j v :
  (forall a b, Z.abs (a - i) <= 1 -> Z.abs (b - j) <= 1 -> (a, b) <> (i, j) -> D a b = v) ->
  is_finite (fourfold v) = true -> is_finite_strict (spacing rx) = true -> is_finite_strict (spacing ry) = true ->
  Bsign (spacing rx) = false ->
  cell_aspect inf D rx ry i j = Some (if Bsign (spacing ry) then - PI else PI)%R.
Proof.
  intros H F X Y S. unfold cell_aspect, cell_dx, cell_dy.
  rewrite !H by (lia || (intros E; injection E; lia)). fold (fourfold v).
  rewrite (fsub_self _ F), (fdiv_zero _ _ X), (fdiv_zero _ _ Y), S. cbn [xorb Bopp negb].
  destruct (Bsign (spacing ry)); reflexivity.
Qed.
Lemma west_slope inf D rx ry i j : let w := cell_dx D rx i j in
  is_finite_strict w = true -> Bsign w = false -> cell_dy D ry i j = B754_zero false ->
  cell_aspect inf D rx ry i j = Some PI.
Proof.
  intros w F S Y. unfold cell_aspect. rewrite Y. fold w. destruct w as [s | s | | s m e B]; try discriminate.
  cbn in S. subst s. cbn [Bopp arctan2 negb]. f_equal.
  assert (P : (B2R (B754_finite true m e B : single) < 0)%R) by (cbn; apply F2R_lt_0; reflexivity).
  change (B2R (B754_zero false : single)) with 0%R. set (x := B2R _) in *. unfold TerrainR_Model.atan2.
  destruct (Rlt_dec 0 x); [lra |]. destruct (Rlt_dec x 0); [| lra]. destruct (Rle_dec 0 0); [| lra].
  unfold Rdiv. rewrite Rmult_0_l, atan_0. lra.
Qed.
