(** The angles of [Hull_Model] and those of the code (proofs). *)
From Coq Require Import List Bool QArith Qreals Reals Lra.
From Verif Require Import GeomR_Model Sphere_Model Sphere_Proofs Sphere_Area Hull_Model Hull_Spec.
From Verif Require Hull_Scan.
Open Scope R_scope.

(** convexhull.pyx:46 [M_PI_2 - azimuth(p, q)], vectorgeo.pyx:165-167. *)
Definition real_angle (p q : Q * Q) : R := PI / 2 - atan2 0 (Q2R (fst q) - Q2R (fst p)) (Q2R (snd q) - Q2R (snd p)).

Definition angle_value (a : angle) : R := match a with Down => - (PI / 2) | Slope t => atan (Q2R t) | Up => PI / 2 end.
Lemma q2r_lt : forall a b, qlt a b = true <-> Q2R a < Q2R b.
Proof. intros. rewrite Hull_Scan.qlt_iff. split; [apply Qlt_Rlt | apply Rlt_Qlt]. Qed.
Lemma value_lt : forall a b, angle_lt a b = true <-> angle_value a < angle_value b.
Proof.
  pose proof PI_RGT_0. intros [| s |] [| t |]; cbn [angle_lt angle_value]; try (split; [discriminate | lra]); try (split; [lra | reflexivity]).
  - pose proof (atan_bound (Q2R t)). split; [lra | reflexivity].
  - pose proof (atan_bound (Q2R s)). split; [discriminate | lra].
  - rewrite q2r_lt. split; [apply atan_increasing |]. intros L. destruct (Rlt_le_dec (Q2R s) (Q2R t)) as [? | [X | X]]; [assumption | apply atan_increasing in X; lra | rewrite X in L; lra].
  - pose proof (atan_bound (Q2R s)). split; [lra | reflexivity].
  - pose proof (atan_bound (Q2R t)). split; [discriminate | lra].
Qed.
Lemma value_eq : forall a b, angle_eq a b = true <-> angle_value a = angle_value b.
Proof.
  pose proof PI_RGT_0. intros [| s |] [| t |]; cbn [angle_eq angle_value]; try (split; [discriminate | lra]); try (split; reflexivity).
  - pose proof (atan_bound (Q2R t)). split; [discriminate | lra].
  - pose proof (atan_bound (Q2R s)). split; [discriminate | lra].
  - rewrite Qeq_bool_iff. split; [intros E; apply Qeq_eqR in E; rewrite E; reflexivity |]. intros E. apply eqR_Qeq.
    destruct (Rtotal_order (Q2R s) (Q2R t)) as [X | [X | X]]; [apply atan_increasing in X; lra | exact X | apply atan_increasing in X; lra].
  - pose proof (atan_bound (Q2R s)). split; [discriminate | lra].
  - pose proof (atan_bound (Q2R t)). split; [discriminate | lra].
Qed.
Lemma value_angle : forall p q, (fst p < fst q)%Q \/ ((fst p == fst q)%Q /\ (snd q <= snd p)%Q) -> real_angle p q = angle_value (angle_of p q).
Proof.
  intros p q H. pose proof PI_RGT_0. unfold real_angle, angle_of. cbn zeta.
  assert (Q2R (fst q - fst p) = Q2R (fst q) - Q2R (fst p)) as EX by apply Q2R_minus.
  assert (Q2R (snd q - snd p) = Q2R (snd q) - Q2R (snd p)) as EY by apply Q2R_minus.
  rewrite <- EX, <- EY. destruct H as [H | [H H']].
  - assert (0 < Q2R (fst q - fst p)) as X by (rewrite EX; apply Qlt_Rlt in H; lra).
    replace (qlt 0 (fst q - fst p)) with true by (symmetry; apply q2r_lt; unfold Q2R at 1; cbn; lra). cbn [angle_value].
    rewrite atan2_upper by exact X. rewrite Q2R_div; [lra |]. intros Z. apply Qeq_eqR in Z. rewrite Z in X. unfold Q2R in X. cbn in X. lra.
  - assert (Q2R (fst q - fst p) = 0) as X by (rewrite EX; apply Qeq_eqR in H; lra).
    assert (Q2R (snd q - snd p) <= 0) as Y by (rewrite EY; apply Qle_Rle in H'; lra).
    assert (Q2R 0 = 0) as Z0 by (unfold Q2R; cbn; lra).
    destruct (qlt 0 (fst q - fst p)) eqn:QX; [apply q2r_lt in QX; lra |]. rewrite X.
    unfold atan2, TerrainR_Model.atan2. destruct (Rlt_dec 0 (Q2R (snd q - snd p))); [lra |].
    destruct (qlt (snd q - snd p) 0) eqn:QY.
    + apply q2r_lt in QY. destruct (Rlt_dec (Q2R (snd q - snd p)) 0); [| lra]. destruct (Rle_dec 0 0); [| lra].
      unfold Rdiv at 2. rewrite Rmult_0_l, atan_0. cbn. lra.
    + destruct (Rlt_dec (Q2R (snd q - snd p)) 0) as [L | L]; [exfalso; assert (qlt (snd q - snd p) 0 = true) by (apply q2r_lt; lra); congruence |].
      destruct (Rlt_dec 0 0); [lra |]. cbn. lra.
Qed.
Theorem azimuth_order : forall vs p a b, leftmost_of vs p -> In a vs -> In b vs ->
  (angle_lt (angle_of p a) (angle_of p b) = true <-> real_angle p a < real_angle p b) /\
  (angle_eq (angle_of p a) (angle_of p b) = true <-> real_angle p a = real_angle p b).
Proof.
  intros vs p a b [_ L] A B. rewrite (value_angle p a (L a A)), (value_angle p b (L b B)). split; [apply value_lt | apply value_eq].
Qed.
