(** The longitude on the auxiliary sphere as a differentiable function of the arc. *)
From Coq Require Import List ZArith Reals Lra Lia Bool.
From Coquelicot Require Import Coquelicot.
From Verif Require Import GeomR_Model GeomR_Proofs Sphere_Model Sphere_Spec Sphere_Proofs Geod_Model Geod_Spec Geod_Forward.
Import ListNotations.
Open Scope R_scope.

Definition unwrap (s t : R) : R := t + atan ((s - 1) * (sin t * cos t) / (cos t * cos t + s * (sin t * sin t))).
Lemma den_pos : forall s t, 0 < s -> 0 < cos t * cos t + s * (sin t * sin t).
Proof.
  intros s t P. pose proof (sc t) as H. pose proof (Rle_0_sqr (sin t)) as A. pose proof (Rle_0_sqr (cos t)) as B. unfold Rsqr in *.
  destruct (Req_dec (sin t * sin t) 0) as [Z|Z]; [rewrite Z in *; lra|]. assert (0 < s * (sin t * sin t)) by (apply Rmult_lt_0_compat; lra). lra.
Qed.
Lemma unwrap_derive : forall s t, 0 < s -> is_derive (unwrap s) t (s / (cos t * cos t + s * s * (sin t * sin t))).
Proof.
  intros s t P. pose proof (den_pos s t P) as D. pose proof (den_pos (s * s) t ltac:(nra)) as D2. unfold unwrap. auto_derive; [lra|].
  pose proof (sc t) as H. set (u := sin t) in *. set (v := cos t) in *.
  assert (E : u * u + v * v = 1) by lra. clear H.
  assert (N : (v * v + s * (u * u)) ^ 2 + ((s - 1) * (u * v)) ^ 2 = v * v + s * s * (u * u)).
  { replace (v * v + s * s * (u * u)) with ((v * v + s * s * (u * u)) * (u * u + v * v)) by (rewrite E; ring). ring. }
  assert (V : v * v = 1 - u * u) by lra.
  replace (1 + ((s - 1) * (u * v) * / (v * v + s * (u * u))) ^ 2) with ((v * v + s * s * (u * u)) / (v * v + s * (u * u)) ^ 2)
    by (rewrite <- N; field; lra).
  field_simplify_eq; [|split; lra]. 
  assert (V2 : v ^ 2 = 1 - u ^ 2) by (rewrite !sq2; lra).
  ring [V2].
Qed.
Lemma unwrap_circle : forall s t, 0 < s -> let r := sqrt (cos t * cos t + s * s * (sin t * sin t)) in
  0 < r /\ r * cos (unwrap s t) = cos t /\ r * sin (unwrap s t) = s * sin t.
Proof.
  intros s t P r. pose proof (den_pos s t P) as D. pose proof (den_pos (s * s) t ltac:(nra)) as D2.
  assert (RP : 0 < r) by (apply sqrt_lt_R0; exact D2).
  assert (RR : r * r = cos t * cos t + s * s * (sin t * sin t)) by (apply sqrt_sqrt; lra).
  set (g := cos t * cos t + s * (sin t * sin t)) in *. set (q := (s - 1) * (sin t * cos t) / g).
  assert (Q : q * g = (s - 1) * (sin t * cos t)) by (unfold q; field; lra).
  assert (E : 1 = cos t * cos t + sin t * sin t) by (pose proof (sc t); lra).
  assert (N : g * g * (1 + q * q) = r * r).
  { replace (g * g * (1 + q * q)) with (g * g + (q * g) * (q * g)) by ring. rewrite Q, RR. unfold g.
    replace (cos t * cos t + s * s * (sin t * sin t)) with ((cos t * cos t + s * s * (sin t * sin t)) * (cos t * cos t + sin t * sin t)) by (rewrite <- E; ring). ring. }
  assert (H1 : 0 < 1 + q * q) by nra.
  assert (SR : r = g * sqrt (1 + q * q)).
  { apply Rsqr_inj; [lra|apply Rmult_le_pos; [lra|apply sqrt_pos]|]. unfold Rsqr. rewrite <- N.
    replace (g * sqrt (1 + q * q) * (g * sqrt (1 + q * q))) with (g * g * (sqrt (1 + q * q) * sqrt (1 + q * q))) by ring. rewrite sqrt_sqrt by lra. ring. }
  assert (SQ : sqrt (1 + q * q) <> 0) by (intros Z; rewrite Z in SR; lra).
  assert (CA : r * cos (atan q) = g). { rewrite cos_atan. unfold Rsqr. rewrite SR. field. exact SQ. }
  assert (SA : r * sin (atan q) = q * g). { rewrite sin_atan. unfold Rsqr. rewrite SR. field. exact SQ. }
  split; [exact RP|]. unfold unwrap. fold g. fold q. rewrite cos_plus, sin_plus. split.
  - replace (r * (cos t * cos (atan q) - sin t * sin (atan q))) with (cos t * (r * cos (atan q)) - sin t * (r * sin (atan q))) by ring.
    rewrite CA, SA, Q. unfold g. transitivity (cos t * (cos t * cos t + sin t * sin t)); [ring|rewrite <- E; ring].
  - replace (r * (sin t * cos (atan q) + cos t * sin (atan q))) with (sin t * (r * cos (atan q)) + cos t * (r * sin (atan q))) by ring.
    rewrite CA, SA, Q. unfold g. transitivity (s * sin t * (cos t * cos t + sin t * sin t)); [ring|rewrite <- E; ring].
Qed.
Lemma unwrap_at : forall s, unwrap s 0 = 0 /\ unwrap s PI = PI /\ unwrap s (- PI) = - PI.
Proof.
  intros s. assert (K : forall t, sin t = 0 -> unwrap s t = t).
  { intros t Z. unfold unwrap. rewrite Z. unfold Rdiv. rewrite Rmult_0_l, Rmult_0_r, Rmult_0_l, atan_0. ring. }
  split; [apply K, sin_0|]. split; [apply K, sin_PI|]. apply K. rewrite sin_neg, sin_PI. ring.
Qed.
Lemma unwrap_rate : forall s t1 t2, 0 < s <= 1 -> t1 <= t2 -> s * (t2 - t1) <= unwrap s t2 - unwrap s t1.
Proof.
  intros s t1 t2 P L. destruct (Req_dec t1 t2) as [->|NE]; [lra|].
  destruct (MVT_gen (unwrap s) t1 t2 (fun t => s / (cos t * cos t + s * s * (sin t * sin t)))) as (t & _ & E).
  - intros x _. apply unwrap_derive. lra.
  - intros x _. apply continuity_pt_filterlim, (ex_derive_continuous (K := R_AbsRing) (V := R_NormedModule)). eexists. apply unwrap_derive. lra.
  - rewrite E. pose proof (den_pos (s * s) t ltac:(nra)) as D. set (q := cos t * cos t + s * s * (sin t * sin t)) in *.
    assert (q <= 1). { unfold q. pose proof (sc t). pose proof (Rle_0_sqr (sin t)). unfold Rsqr in *.
      assert (0 <= sin t * sin t * (1 - s * s)) by (apply Rmult_le_pos; nra). lra. }
    assert (s <= s / q). { apply Rmult_le_reg_r with q; [exact D|]. replace (s / q * q) with s by (field; lra). nra. }
    apply Rmult_le_compat_r; lra.
Qed.
Lemma unwrap_atan2 : forall flat s t, 0 < s <= 1 -> - PI < t <= PI -> atan2 flat (s * sin t) (cos t) = unwrap s t.
Proof.
  intros flat s t P T. destruct (unwrap_circle s t) as (R0 & R1 & R2); [lra|]. cbv zeta in *. set (r := sqrt _) in *.
  rewrite <- R1, <- R2. apply atan2_unique; [exact R0|]. destruct (unwrap_at s) as (U0 & U1 & U2).
  pose proof (unwrap_rate s (- PI) t P ltac:(lra)). pose proof (unwrap_rate s t PI P ltac:(lra)).
  assert (0 < s * (t - - PI)) by (apply Rmult_lt_0_compat; lra). assert (0 <= s * (PI - t)) by (apply Rmult_le_pos; lra). lra.
Qed.
