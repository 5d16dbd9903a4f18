(** The sign of the spacing of cells. *)
From Coq Require Import ZArith Reals Bool Lra Lia.
From Flocq Require Import Core IEEE754.BinarySingleNaN.
From Verif Require Import Dbl_Model Ftree_Model TerrainR_Model Flat_Model Flat_Proofs.
Open Scope Z_scope.

Lemma to_single_sign (a : double) : is_finite_strict (to_single a) = true -> is_finite a = true /\ Bsign (to_single a) = Bsign a.
Proof.
  destruct a as [s | s | | s m e B]; try discriminate. intros F. split; [reflexivity |]. cbn [to_single Bsign] in *.
  match type of F with is_finite_strict (binary_normalize _ _ ?p ?q _ ?z _ _) = _ =>
    pose proof (binary_normalize_correct 24 128 p q mode_NE z e s) as H end.
  cbv zeta in H. destruct (Rlt_bool _ _).
  - destruct H as (_ & _ & H). rewrite H. destruct s; [rewrite Rcompare_Lt | rewrite Rcompare_Gt]; try reflexivity.
    + apply F2R_lt_0. reflexivity.
    + apply F2R_gt_0. reflexivity.
  - exfalso. revert F H. destruct (binary_normalize _ _ _ _ _ _ _ _); cbn; discriminate.
Qed.
Lemma spacing_sign (r : double) : is_finite_strict (spacing r) = true -> Bsign (spacing r) = Bsign r.
Proof.
  unfold spacing. intros F. destruct (to_single_sign _ F) as [G ->].
  match type of G with is_finite (@Bmult _ _ ?p ?q _ ?x _) = _ => pose proof (Bmult_correct 53 1024 p q mode_NE x r) as H end.
  destruct (Rlt_bool _ _).
  - destruct H as (_ & _ & H). rewrite H; [| destruct (Bmult _ _ _); try reflexivity; discriminate].
    match goal with |- xorb ?b _ = _ => replace b with false by (vm_compute; reflexivity) end. apply xorb_false_l.
  - exfalso. revert G H. destruct (Bmult _ _ _); cbn; discriminate.
Qed.
Lemma flat_signs inf D rx ry i j v :
  (forall a b, Z.abs (a - i) <= 1 -> Z.abs (b - j) <= 1 -> (a, b) <> (i, j) -> D a b = v) ->
  is_finite (fourfold v) = true -> is_finite_strict (spacing rx) = true -> is_finite_strict (spacing ry) = true ->
  Bsign rx = false -> cell_aspect inf D rx ry i j = Some (if Bsign ry then - PI else PI)%R.
Proof.
  intros H V X Y S. rewrite <- (spacing_sign ry Y). apply (flat_cell inf D rx ry i j v H V X Y). rewrite (spacing_sign rx X). exact S.
Qed.
