(** Symmetries of geodesics: turning, mirroring and going back. *)
From Coq Require Import List ZArith Reals Lra Lia Bool.
From Coquelicot Require Import Coquelicot.
From Verif Require Import Sphere_Spec Sphere_Proofs Geod_Model Geod_Spec Geod_Forward Geod_Series Geod_Bounds Geod_Revert Geod_Accurate.
Import ListNotations.
Open Scope R_scope.

Lemma RInt_even : forall (f : R -> R) s1 s2, (forall s, continuous f s) -> (forall s, f (- s) = f s) -> RInt f (- s2) (- s1) = RInt f s1 s2.
Proof.
  intros f s1 s2 HC E.
  assert (EX : forall x y, ex_RInt f x y) by (intros x y; apply (ex_RInt_continuous (V := R_CompleteNormedModule)); intros; apply HC).
  replace (- s2) with (-1 * s2 + 0) by ring. replace (- s1) with (-1 * s1 + 0) by ring.
  rewrite <- (RInt_comp_lin f (-1) 0 s2 s1) by apply EX.
  rewrite (RInt_ext _ (fun y => opp (f y))).
  - rewrite (RInt_opp (V := R_CompleteNormedModule) f) by apply EX. apply (opp_RInt_swap (V := R_CompleteNormedModule) f). apply EX.
  - intros x _. replace (-1 * x + 0) with (- x) by ring. rewrite E. change (-1 * f x = - f x). ring.
Qed.
Lemma speed_neg : forall a b C s, speed a b (- C) s = speed a b C s.
Proof. intros. unfold speed. replace ((- C) ^ 2) with (C ^ 2) by ring. reflexivity. Qed.
Lemma speed_even : forall a b C s, speed a b C (- s) = speed a b C s.
Proof. intros. unfold speed. rewrite sin_neg. replace ((- sin s) ^ 2) with (sin s ^ 2) by ring. reflexivity. Qed.
Lemma lag_neg : forall a b S C s, lag a b S (- C) s = lag a b S C s.
Proof. intros. unfold lag. rewrite speed_neg. reflexivity. Qed.
Lemma lag_opp : forall a b S C s, lag a b (- S) C s = - lag a b S C s.
Proof. intros. unfold lag, Rdiv. ring. Qed.
Lemma lag_even : forall a b S C s, lag a b S C (- s) = lag a b S C s.
Proof. intros. unfold lag. rewrite speed_even. reflexivity. Qed.
Lemma RInt_lag_opp : forall a b S C s1 s2, 0 < a -> 0 < b -> C ^ 2 <= 1 -> RInt (lag a b (- S) C) s1 s2 = - RInt (lag a b S C) s1 s2.
Proof.
  intros a b S C s1 s2 PA PB HC. rewrite (RInt_ext _ (fun s => opp (lag a b S C s))) by (intros; apply lag_opp).
  apply (RInt_opp (V := R_CompleteNormedModule) (lag a b S C)).
  apply (ex_RInt_continuous (V := R_CompleteNormedModule)); intros; apply lag_continuous; assumption.
Qed.
Lemma one_bound : forall S C, S ^ 2 + C ^ 2 = 1 -> C ^ 2 <= 1.
Proof. intros. pose proof (pow2_ge_0 S). lra. Qed.

Lemma geodesic_turn : forall a b t l1 p1 a1 l2 p2 a2 d, geodesic a b l1 p1 a1 l2 p2 a2 d -> geodesic a b (l1 + t) p1 a1 (l2 + t) p2 a2 d.
Proof.
  intros a b t l1 p1 a1 l2 p2 a2 d (S & C & s1 & s2 & o1 & o2 & b1 & b2 & N & R1 & R2 & O1 & O2 & D & L).
  exists S, C, s1, s2, o1, o2, b1, b2. do 6 (split; [assumption|]). replace (l2 + t - (l1 + t)) with (l2 - l1) by ring. exact L.
Qed.
Lemma geodesic_congr : forall a b l1 p1 a1 l2 p2 a2 d a1' l2' a2', congr a1 a1' -> congr l2 l2' -> congr a2 a2' ->
  geodesic a b l1 p1 a1 l2 p2 a2 d -> geodesic a b l1 p1 a1' l2' p2 a2' d.
Proof.
  intros a b l1 p1 a1 l2 p2 a2 d a1' l2' a2' H1 H2 H3 (S & C & s1 & s2 & o1 & o2 & b1 & b2 & N & R1 & R2 & O1 & O2 & D & L).
  exists S, C, s1, s2, o1, o2, b1, b2. do 3 (split; [assumption|]).
  split; [exact (on_circle_congr _ _ _ _ _ _ _ H1 O1)|]. split; [exact (on_circle_congr _ _ _ _ _ _ _ H3 O2)|]. split; [exact D|].
  destruct L as [k K]. destruct H2 as [m M]. exists (k - m)%Z. rewrite minus_IZR. lra.
Qed.
Lemma reduced_neg : forall a b p be, reduced_latitude a b p be -> reduced_latitude a b (- p) (- be).
Proof. intros a b p be (A & B & E). unfold reduced_latitude. rewrite !sin_neg, !cos_neg. split; [lra|]. split; [lra|]. lra. Qed.
Lemma geodesic_east : forall a b l1 p1 a1 l2 p2 a2 d, 0 < a -> 0 < b -> geodesic a b l1 p1 a1 l2 p2 a2 d ->
  geodesic a b (- l1) p1 (- a1) (- l2) p2 (- a2) d.
Proof.
  intros a b l1 p1 a1 l2 p2 a2 d PA PB (S & C & s1 & s2 & o1 & o2 & b1 & b2 & N & R1 & R2 & O1 & O2 & D & L).
  exists (- S), C, s1, s2, (- o1), (- o2), b1, b2. split; [lra|]. split; [assumption|]. split; [assumption|].
  assert (K : forall s o be al, on_circle S C s o be al -> on_circle (- S) C s (- o) be (- al)).
  { intros s o be al (A & B & E & F & G). unfold on_circle. rewrite !sin_neg, !cos_neg. repeat split; lra. }
  split; [apply K; assumption|]. split; [apply K; assumption|]. split; [exact D|].
  rewrite RInt_lag_opp by (try assumption; eapply one_bound; eassumption). destruct L as [k E]. exists (- k)%Z. rewrite opp_IZR. lra.
Qed.
Lemma geodesic_north : forall a b l1 p1 a1 l2 p2 a2 d, geodesic a b l1 p1 a1 l2 p2 a2 d ->
  geodesic a b l1 (- p1) (PI - a1) l2 (- p2) (PI - a2) d.
Proof.
  intros a b l1 p1 a1 l2 p2 a2 d (S & C & s1 & s2 & o1 & o2 & b1 & b2 & N & R1 & R2 & O1 & O2 & D & L).
  exists S, (- C), s1, s2, o1, o2, (- b1), (- b2). split; [lra|]. split; [apply reduced_neg; assumption|]. split; [apply reduced_neg; assumption|].
  assert (K : forall s o be al, on_circle S C s o be al -> on_circle S (- C) s o (- be) (PI - al)).
  { intros s o be al (A & B & E & F & G). unfold on_circle. rewrite sin_neg, cos_neg, sin_minus, cos_minus, sin_PI, cos_PI. repeat split; lra. }
  split; [apply K; assumption|]. split; [apply K; assumption|]. split.
  - rewrite D. unfold geodesic_length. apply RInt_ext. intros. symmetry. apply speed_neg.
  - rewrite (RInt_ext _ (lag a b S C)) by (intros; apply lag_neg). exact L.
Qed.
Lemma geodesic_back : forall a b l1 p1 a1 l2 p2 a2 d, 0 < a -> 0 < b -> geodesic a b l1 p1 a1 l2 p2 a2 d ->
  geodesic a b l2 p2 (a2 + PI) l1 p1 (a1 + PI) d.
Proof.
  intros a b l1 p1 a1 l2 p2 a2 d PA PB (S & C & s1 & s2 & o1 & o2 & b1 & b2 & N & R1 & R2 & O1 & O2 & D & L).
  assert (HC : C ^ 2 <= 1) by (eapply one_bound; eassumption).
  exists (- S), (- C), (- s2), (- s1), o2, o1, b2, b1. split; [lra|]. split; [assumption|]. split; [assumption|].
  assert (K : forall s o be al, on_circle S C s o be al -> on_circle (- S) (- C) (- s) o be (al + PI)).
  { intros s o be al (A & B & E & F & G). unfold on_circle. rewrite sin_neg, cos_neg, sin_plus, cos_plus, sin_PI, cos_PI. repeat split; lra. }
  split; [apply K; assumption|]. split; [apply K; assumption|]. split.
  - rewrite D. unfold geodesic_length. rewrite (RInt_ext (speed a b (- C)) (speed a b C)) by (intros; apply speed_neg).
    symmetry. apply RInt_even; [intros; apply speed_continuous; assumption|intros; apply speed_even].
  - rewrite (RInt_ext _ (lag a b (- S) C)) by (intros; apply lag_neg). rewrite RInt_lag_opp by assumption.
    rewrite (RInt_even (lag a b S C)); [|intros; apply lag_continuous; assumption|intros; apply lag_even].
    destruct L as [k E]. exists (- k)%Z. rewrite opp_IZR. lra.
Qed.
(** Exchanging the latitudes. *)
Lemma geodesic_swap : forall a b l p1 a1 p2 a2 d, 0 < a -> 0 < b -> geodesic a b 0 p1 a1 l p2 a2 d ->
  geodesic a b 0 p2 (PI - a2) l p1 (PI - a1) d.
Proof.
  intros a b l p1 a1 p2 a2 d PA PB H. apply geodesic_back in H; [|assumption|assumption]. apply geodesic_east in H; [|assumption|assumption].
  apply (geodesic_turn _ _ l) in H. replace (- l + l) with 0 in H by ring. replace (- 0 + l) with l in H by ring.
  eapply geodesic_congr; [| | |exact H]; [exists (-1)%Z; cbn [IZR]; ring|exists 0%Z; ring|exists (-1)%Z; cbn [IZR]; ring].
Qed.
