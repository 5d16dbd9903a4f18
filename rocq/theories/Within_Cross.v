(** The count of crossings changes by one where a segment crosses one edge of the ring. *)
From Coq Require Import List ZArith QArith Qabs Qfield Lqa Bool Arith Lia.
From Verif Require Import Geom_Model Geom_Spec Geom_Proofs Inter_Model Inter_Spec Inter_Proofs Contains_Model Contains_Spec Contains_Proofs
  Contains_Winding Mask_Proofs Lon_Proofs Within_Winding Within_Spec Within_Proofs.
Import ListNotations.
Open Scope Q_scope.

(** The segments [pq] and [uv] meet, and only inside both. *)
Definition cross_at (p q u v : pt) : Prop :=
  exists t, 0 <= t <= 1 /\ on_seg (p, q) (along u v t) /\
  forall z, on_seg (u, v) z -> on_seg (p, q) z -> ~ end_of (p, q) z /\ ~ end_of (u, v) z.

Lemma cross_sym : forall p q u v, cross_at p q u v -> cross_at q p u v.
Proof.
  intros p q u v (t & Ht & O & H). exists t. split; [exact Ht|]. split; [apply seg_sym, O|]. intros z A B.
  destruct (H z A (seg_sym _ _ _ B)) as [X Y]. split; [|exact Y]. intros [E|E]; apply X; [right|left]; exact E.
Qed.
Lemma cross_rev : forall p q u v, cross_at p q u v -> cross_at p q v u.
Proof.
  intros p q u v (t & Ht & O & H). exists (1 - t). split; [lra|]. split.
  - destruct O as (s & Hs & Sx & Sy). exists s. split; [exact Hs|]. unfold same, along in *. cbn [fst snd] in *.
    split; [rewrite <- Sx|rewrite <- Sy]; ring.
  - intros z A B. destruct (H z (seg_sym _ _ _ A) B) as [X Y]. split; [exact X|]. intros [E|E]; apply Y; [right|left]; exact E.
Qed.

Section Strip.
Variables p q : pt.
Hypothesis PQ : snd p < snd q.
(** A point of the strip on the line through [p] and [q] is on the segment. *)
Lemma strip_on : forall z, snd p <= snd z -> snd z <= snd q -> tri p q z == 0 -> on_seg (p, q) z.
Proof.
  intros z A B E. exists ((snd z - snd p) / (snd q - snd p)).
  split; [split; [apply Qle_shift_div_l; lra|apply Qle_shift_div_r; lra]|].
  unfold same, along. cbn [fst snd]. split; [|field; lra].
  unfold tri in E. assert (E' : (fst z - fst p) * (snd q - snd p) == (fst q - fst p) * (snd z - snd p)) by lra.
  assert (X : fst z - fst p == (fst q - fst p) * (snd z - snd p) / (snd q - snd p)).
  { rewrite <- E'. field. lra. }
  setoid_replace (fst z) with (fst p + (fst z - fst p)) by ring. rewrite X. field. lra.
Qed.
Lemma on_strip : forall z, on_seg (p, q) z -> snd p <= snd z <= snd q /\ tri p q z == 0.
Proof.
  intros z (t & Ht & Sx & Sy). unfold along in *. cbn [fst snd] in *. split.
  - assert (0 <= t * (snd q - snd p)) by (apply Qmult_le_0_compat; lra).
    assert (t * (snd q - snd p) <= 1 * (snd q - snd p)) by (apply Qmult_le_compat_r; lra). lra.
  - unfold tri. rewrite Sx, Sy. ring.
Qed.
Lemma strip_in : forall z, on_seg (p, q) z -> ~ end_of (p, q) z -> snd p < snd z /\ snd z < snd q.
Proof.
  intros z O N. destruct (on_strip z O) as [[A B] T]. destruct O as (t & Ht & Sx & Sy). unfold along in *. cbn [fst snd] in *. split.
  - destruct (Qlt_le_dec (snd p) (snd z)) as [L|L]; [exact L|]. exfalso. apply N. left. cbn [fst snd].
    assert (T0 : t * (snd q - snd p) == 0) by lra. assert (t == 0).
    { destruct (Qmult_integral _ _ T0); lra. }
    split; [rewrite Sx|rewrite Sy]; rewrite H; ring.
  - destruct (Qlt_le_dec (snd z) (snd q)) as [L|L]; [exact L|]. exfalso. apply N. right. cbn [fst snd].
    assert (T0 : (1 - t) * (snd q - snd p) == 0) by lra. assert (t == 1).
    { destruct (Qmult_integral _ _ T0); lra. }
    split; [rewrite Sx|rewrite Sy]; rewrite H; ring.
Qed.

Section Edge.
Variables u v : pt.
Variable c : Q.
Hypothesis Hc : 0 <= c <= 1.
Hypothesis Oc : on_seg (p, q) (along u v c).
Hypothesis Only : forall z, on_seg (u, v) z -> on_seg (p, q) z -> ~ end_of (p, q) z /\ ~ end_of (u, v) z.
Lemma c_strip : snd p < snd (along u v c) /\ snd (along u v c) < snd q.
Proof. apply strip_in; [exact Oc|]. apply (Only _ (along_on u v c Hc) Oc). Qed.
Lemma c_zero : (1 - c) * tri p q u + c * tri p q v == 0.
Proof. rewrite <- tri_affine. apply on_strip, Oc. Qed.
Lemma c_in : 0 < c /\ c < 1.
Proof.
  pose proof (proj2 (Only _ (along_on u v c Hc) Oc)) as N. split.
  - destruct (Qlt_le_dec 0 c) as [L|L]; [exact L|]. exfalso. apply N. left. assert (E : c == 0) by lra.
    unfold same, along. cbn [fst snd]. rewrite E. split; ring.
  - destruct (Qlt_le_dec c 1) as [L|L]; [exact L|]. exfalso. apply N. right. assert (E : c == 1) by lra.
    unfold same, along. cbn [fst snd]. rewrite E. split; ring.
Qed.
(** A point of the edge in the strip, off the ends of the segment and the edge or not, is
    on the line through [p] and [q] only at [c]. *)
Lemma only_c : forall t, 0 <= t <= 1 -> snd p <= snd (along u v t) <= snd q -> tri p q (along u v t) == 0 ->
  (t == 0 \/ t == 1 \/ snd (along u v t) == snd p \/ snd (along u v t) == snd q) -> False.
Proof.
  intros t Ht St T E. pose proof (strip_on _ (proj1 St) (proj2 St) T) as O.
  destruct (Only _ (along_on u v t Ht) O) as [N1 N2]. destruct (strip_in _ O N1) as [A B].
  destruct E as [E|[E|[E|E]]]; try lra; apply N2; [left|right]; unfold same, along; cbn [fst snd]; rewrite E; split; ring.
Qed.
(** Ends of the part of the edge in the strip. *)
Definition stop (t : Q) : Prop := 0 <= t <= 1 /\ snd p <= snd (along u v t) <= snd q /\
  (t == 0 \/ t == 1 \/ snd (along u v t) == snd p \/ snd (along u v t) == snd q).
Lemma rt_differ : forall t1 t2, stop t1 -> stop t2 -> t1 <= c -> c <= t2 ->
  (rt p q (along u v t1) - rt p q (along u v t2) = 1 \/ rt p q (along u v t1) - rt p q (along u v t2) = -1)%Z.
Proof.
  intros t1 t2 (H1 & S1 & E1) (H2 & S2 & E2) L1 L2.
  pose proof (fun T => only_c t1 H1 S1 T E1) as N1. pose proof (fun T => only_c t2 H2 S2 T E2) as N2.
  pose proof (tri_affine p q u v t1) as A1. pose proof (tri_affine p q u v t2) as A2. pose proof c_zero as Z0.
  set (a := tri p q u) in *. set (b := tri p q v) in *.
  assert (D1 : tri p q (along u v t1) == - ((c - t1) * (b - a))) by (rewrite A1; setoid_replace ((1 - t1) * a + t1 * b) with (((1 - c) * a + c * b) - (c - t1) * (b - a)) by ring; rewrite Z0; ring).
  assert (D2 : tri p q (along u v t2) == (t2 - c) * (b - a)) by (rewrite A2; setoid_replace ((1 - t2) * a + t2 * b) with (((1 - c) * a + c * b) + (t2 - c) * (b - a)) by ring; rewrite Z0; ring).
  assert (Lt1 : t1 < c). { destruct (Qlt_le_dec t1 c) as [L|L]; [exact L|]. exfalso. apply N1. rewrite D1. setoid_replace (c - t1) with 0 by lra. ring. }
  assert (Lt2 : c < t2). { destruct (Qlt_le_dec c t2) as [L|L]; [exact L|]. exfalso. apply N2. rewrite D2. setoid_replace (t2 - c) with 0 by lra. ring. }
  unfold rt. destruct (Qlt_le_dec 0 (b - a)) as [Pb|Nb].
  - assert (0 < (c - t1) * (b - a)) by (apply Qmult_lt_0_compat; lra). assert (0 < (t2 - c) * (b - a)) by (apply Qmult_lt_0_compat; lra).
    destruct (qlt (tri p q (along u v t1)) 0) eqn:Q1; [apply qlt_t in Q1|apply qlt_f in Q1]; [|lra].
    destruct (qlt (tri p q (along u v t2)) 0) eqn:Q2; [apply qlt_t in Q2|apply qlt_f in Q2]; [lra|]. left; reflexivity.
  - destruct (Qlt_le_dec (b - a) 0) as [Nb'|Zb].
    + assert (0 < (c - t1) * (a - b)) by (apply Qmult_lt_0_compat; lra). assert (0 < (t2 - c) * (a - b)) by (apply Qmult_lt_0_compat; lra).
      setoid_replace (- ((c - t1) * (b - a))) with ((c - t1) * (a - b)) in D1 by ring. setoid_replace ((t2 - c) * (b - a)) with (- ((t2 - c) * (a - b))) in D2 by ring.
      destruct (qlt (tri p q (along u v t1)) 0) eqn:Q1; [apply qlt_t in Q1|apply qlt_f in Q1]; [lra|].
      destruct (qlt (tri p q (along u v t2)) 0) eqn:Q2; [apply qlt_t in Q2|apply qlt_f in Q2]; [|lra]. right; reflexivity.
    + exfalso. apply N1. rewrite D1. setoid_replace (b - a) with 0 by lra. ring.
Qed.
Lemma ec_p' : hi p u = 0%Z -> hi p v = 1%Z -> snd p <= snd q -> stop (level p u v) /\ edge_count p u v = rt p q (along u v (level p u v)).
Proof.
  intros A B Lq. destruct (ec_up p u v A B) as [K1 K2]. apply hi_0 in A. apply hi_1 in B.
  destruct (level_ok p u v A B) as [Ht Ey].
  split; [split; [exact Ht|]; split; [lra|]; right; right; left; exact Ey|].
  pose proof (tri_level p u v _ _ eq_refl Ey) as T. set (z := along u v (level p u v)) in *.
  assert (T' : tri p q z == - (1 # 2) * ((fst z - fst p) * (snd q - snd p))) by (unfold tri; rewrite Ey; ring).
  pose proof (pos_prod (fst z - fst p) (snd v - snd u) ltac:(lra)) as P1. pose proof (pos_prod (fst z - fst p) (snd q - snd p) ltac:(lra)) as P2.
  unfold rt. destruct (qlt (tri p q z) 0) eqn:E; [apply qlt_t in E|apply qlt_f in E].
  - apply K1. rewrite T. assert (0 < (fst z - fst p) * (snd v - snd u)) by (apply P1, P2; lra). lra.
  - apply K2. rewrite T. destruct (Qlt_le_dec 0 ((fst z - fst p) * (snd v - snd u))) as [L|L]; [|lra]. apply P1, P2 in L. lra.
Qed.
Lemma ec_q' : hi q u = 0%Z -> hi q v = 1%Z -> snd p <= snd q -> stop (level q u v) /\ edge_count q u v = rt p q (along u v (level q u v)).
Proof.
  intros A B Lq. destruct (ec_up q u v A B) as [K1 K2]. apply hi_0 in A. apply hi_1 in B.
  destruct (level_ok q u v A B) as [Ht Ey].
  split; [split; [exact Ht|]; split; [lra|]; right; right; right; exact Ey|].
  pose proof (tri_level q u v _ _ eq_refl Ey) as T. set (z := along u v (level q u v)) in *.
  assert (T' : tri p q z == - (1 # 2) * ((fst z - fst q) * (snd q - snd p))) by (unfold tri; rewrite Ey; ring).
  pose proof (pos_prod (fst z - fst q) (snd v - snd u) ltac:(lra)) as P1. pose proof (pos_prod (fst z - fst q) (snd q - snd p) ltac:(lra)) as P2.
  unfold rt. destruct (qlt (tri p q z) 0) eqn:E; [apply qlt_t in E|apply qlt_f in E].
  - apply K1. rewrite T. assert (0 < (fst z - fst q) * (snd v - snd u)) by (apply P1, P2; lra). lra.
  - apply K2. rewrite T. destruct (Qlt_le_dec 0 ((fst z - fst q) * (snd v - snd u))) as [L|L]; [|lra]. apply P1, P2 in L. lra.
Qed.
(** An upward edge: heights along it grow. *)
Lemma rise : snd u <= snd v -> forall t t', snd (along u v t) < snd (along u v t') -> t <= t'.
Proof.
  intros L t t' H. unfold along in H. cbn [snd] in H. destruct (Qlt_le_dec t' t) as [X|X]; [|exact X]. exfalso.
  assert (0 <= (t - t') * (snd v - snd u)) by (apply Qmult_le_0_compat; lra). lra.
Qed.
Lemma cross_up : snd u <= snd v ->
  (edge_count p u v - edge_count q u v - (psi p q v - psi p q u) = 1 \/ edge_count p u v - edge_count q u v - (psi p q v - psi p q u) = -1)%Z.
Proof.
  intros L. pose proof c_strip as [C1 C2]. pose proof c_in as [C3 C4]. pose proof (along_0 u v) as A0. pose proof (along_1 u v) as A1.
  pose proof (rise L) as R. pose proof Hc as Hc'.
  assert (HU : snd u <= snd (along u v c) /\ snd (along u v c) <= snd v).
  { unfold along. cbn [snd]. assert (0 <= c * (snd v - snd u)) by (apply Qmult_le_0_compat; lra).
    assert (c * (snd v - snd u) <= 1 * (snd v - snd u)) by (apply Qmult_le_compat_r; lra). lra. }
  assert (St0 : snd p <= snd u -> stop 0) by (intros X; split; [lra|]; split; [rewrite A0; lra|left; reflexivity]).
  assert (St1 : snd v <= snd q -> stop 1) by (intros X; split; [lra|]; split; [rewrite A1; lra|right; left; reflexivity]).
  unfold psi.
  destruct (hi_cases p u) as [Pu|Pu], (hi_cases q u) as [Qu|Qu], (hi_cases p v) as [Pv|Pv], (hi_cases q v) as [Qv|Qv];
    pose proof Pu as Pu'; pose proof Qu as Qu'; pose proof Pv as Pv'; pose proof Qv as Qv';
    first [apply hi_0 in Pu'|apply hi_1 in Pu']; first [apply hi_0 in Qu'|apply hi_1 in Qu'];
    first [apply hi_0 in Pv'|apply hi_1 in Pv']; first [apply hi_0 in Qv'|apply hi_1 in Qv']; try (exfalso; lra).
  - (* below, strip *) destruct (ec_p' Pu Pv ltac:(lra)) as [Sp ->]. rewrite (ec_none q u v) by congruence. rewrite Pu, Qu, Pv, Qv.
    pose proof (proj2 (level_ok p u v Pu' Pv')) as Ey.
    destruct (rt_differ (level p u v) 1 Sp (St1 ltac:(lra)) ltac:(apply R; lra) ltac:(lra)) as [K|K]; rewrite rt_v in K; [left|right]; lia.
  - (* below, above *) destruct (ec_p' Pu Pv ltac:(lra)) as [Sp ->]. destruct (ec_q' Qu Qv ltac:(lra)) as [Sq ->]. rewrite Pu, Qu, Pv, Qv.
    pose proof (proj2 (level_ok p u v Pu' Pv')) as Ey. pose proof (proj2 (level_ok q u v Qu' Qv')) as Ey'.
    destruct (rt_differ (level p u v) (level q u v) Sp Sq ltac:(apply R; lra) ltac:(apply R; lra)) as [K|K]; [left|right]; lia.
  - (* strip, strip *) rewrite (ec_none p u v), (ec_none q u v) by congruence. rewrite Pu, Qu, Pv, Qv.
    destruct (rt_differ 0 1 (St0 ltac:(lra)) (St1 ltac:(lra)) ltac:(lra) ltac:(lra)) as [K|K]; rewrite rt_u, rt_v in K; [left|right]; lia.
  - (* strip, above *) rewrite (ec_none p u v) by congruence. destruct (ec_q' Qu Qv ltac:(lra)) as [Sq ->]. rewrite Pu, Qu, Pv, Qv.
    pose proof (proj2 (level_ok q u v Qu' Qv')) as Ey'.
    destruct (rt_differ 0 (level q u v) (St0 ltac:(lra)) Sq ltac:(lra) ltac:(apply R; lra)) as [K|K]; rewrite rt_u in K; [left|right]; lia.
Qed.
End Edge.
Lemma cross_edge : forall u v, cross_at p q u v ->
  (edge_count p u v - edge_count q u v - (psi p q v - psi p q u) = 1 \/ edge_count p u v - edge_count q u v - (psi p q v - psi p q u) = -1)%Z.
Proof.
  intros u v H. destruct (Qlt_le_dec (snd v) (snd u)) as [L|L].
  - destruct (cross_rev _ _ _ _ H) as (c & Hc & Oc & Only).
    pose proof (cross_up v u c Hc Oc Only ltac:(lra)) as K. rewrite (edge_count_anti p v u), (edge_count_anti q v u) in *. lia.
  - destruct H as (c & Hc & Oc & Only). apply (cross_up u v c Hc Oc Only L).
Qed.
End Strip.

(** Level segments. *)
Lemma level_on : forall p q z, snd p == snd z -> snd q == snd z -> fst p <= fst z <= fst q \/ fst q <= fst z <= fst p -> on_seg (p, q) z.
Proof.
  assert (K : forall p q z, snd p == snd z -> snd q == snd z -> fst p <= fst z <= fst q -> on_seg (p, q) z).
  { intros p q z A B H. destruct (Qlt_le_dec (fst p) (fst q)) as [L|L].
    - exists ((fst z - fst p) / (fst q - fst p)). split; [split; [apply Qle_shift_div_l; lra|apply Qle_shift_div_r; lra]|].
      unfold same, along. cbn [fst snd]. split; [field; lra|rewrite A, B; ring].
    - exists 0. split; [lra|]. unfold same, along. cbn [fst snd]. split; lra. }
  intros p q z A B [H|H]; [apply K; assumption|apply seg_sym, K; assumption].
Qed.
Lemma seg_range : forall a b x y z, 0 <= z <= 1 -> x == a + z * (b - a) -> y == x -> (a <= y <= b \/ b <= y <= a).
Proof.
  intros a b x y z H X Y. destruct (Qlt_le_dec b a) as [L|L].
  - right. assert (0 <= z * (a - b)) by (apply Qmult_le_0_compat; lra). assert (z * (a - b) <= 1 * (a - b)) by (apply Qmult_le_compat_r; lra). lra.
  - left. assert (0 <= z * (b - a)) by (apply Qmult_le_0_compat; lra). assert (z * (b - a) <= 1 * (b - a)) by (apply Qmult_le_compat_r; lra). lra.
Qed.
Lemma not_level : forall p q u v, snd p == snd q -> cross_at p q u v -> ~ snd u == snd v.
Proof.
  intros p q u v E (t & Ht & O & H) F. pose proof (H _ (along_on u v t Ht) O) as [N1 N2].
  assert (Yc : snd (along u v t) == snd u) by (unfold along; cbn [snd]; rewrite F; ring).
  pose proof (seg_range (fst u) (fst v) (fst (along u v t)) _ t Ht (Qeq_refl _) (Qeq_refl _)) as R1.
  destruct O as (s & Hs & Sx & Sy).
  assert (Yp : snd (along u v t) == snd p) by (rewrite Sy; unfold along; cbn [fst snd]; rewrite E; ring).
  pose proof (seg_range (fst p) (fst q) _ _ s Hs Sx (Qeq_refl _)) as R2.
  assert (K : forall z, (same z u \/ same z v \/ same z p \/ same z q) -> on_seg (u, v) z -> on_seg (p, q) z -> False).
  { intros z Ez A B. destruct (H z A B) as [M1 M2]. destruct Ez as [X|[X|[X|X]]];
      [apply M2; left|apply M2; right|apply M1; left|apply M1; right]; exact X. }
  set (c := along u v t) in *.
  assert (Sm : forall z : pt, same z z) by (intros; split; reflexivity).
  destruct (Qlt_le_dec (fst u) (fst v)) as [L1|L1]; destruct (Qlt_le_dec (fst p) (fst q)) as [L2|L2].
  - destruct (Qlt_le_dec (fst u) (fst p)) as [L3|L3].
    + apply (K p); [auto|apply level_on; lra|apply level_on; lra].
    + apply (K u); [auto|apply level_on; lra|apply level_on; lra].
  - destruct (Qlt_le_dec (fst u) (fst q)) as [L3|L3].
    + apply (K q); [auto|apply level_on; lra|apply level_on; lra].
    + apply (K u); [auto|apply level_on; lra|apply level_on; lra].
  - destruct (Qlt_le_dec (fst v) (fst p)) as [L3|L3].
    + apply (K p); [auto|apply level_on; lra|apply level_on; lra].
    + apply (K v); [auto|apply level_on; lra|apply level_on; lra].
  - destruct (Qlt_le_dec (fst v) (fst q)) as [L3|L3].
    + apply (K q); [auto|apply level_on; lra|apply level_on; lra].
    + apply (K v); [auto|apply level_on; lra|apply level_on; lra].
Qed.
Lemma cross_level_up : forall p q u v, snd p == snd q -> snd u <= snd v -> cross_at p q u v ->
  (edge_count p u v - edge_count q u v = 1 \/ edge_count p u v - edge_count q u v = -1)%Z.
Proof.
  intros p q u v E L X. pose proof (not_level p q u v E X) as NL. assert (L' : snd u < snd v) by lra. destruct X as (t & Ht & O & H).
  pose proof (H _ (along_on u v t Ht) O) as [N1 N2]. set (c := along u v t) in *.
  destruct O as (s & Hs & Sx & Sy).
  assert (Yp : snd c == snd p) by (rewrite Sy; unfold along; cbn [fst snd]; rewrite E; ring).
  assert (Yq : snd c == snd q) by lra.
  pose proof (seg_range (fst p) (fst q) _ _ s Hs Sx (Qeq_refl _)) as R2.
  assert (NP : ~ fst c == fst p) by (intros F; apply N1; left; split; assumption).
  assert (NQ : ~ fst c == fst q) by (intros F; apply N1; right; split; assumption).
  assert (T0 : 0 < t /\ t < 1).
  { split; [destruct (Qlt_le_dec 0 t) as [G|G]; [exact G|]|destruct (Qlt_le_dec t 1) as [G|G]; [exact G|]]; exfalso; apply N2; [left|right];
      unfold c, same, along; cbn [fst snd]; [assert (Z0 : t == 0) by lra|assert (Z0 : t == 1) by lra]; rewrite Z0; split; ring. }
  assert (Hh : snd u < snd c /\ snd c < snd v).
  { unfold c, along. cbn [snd]. assert (0 < t * (snd v - snd u)) by (apply Qmult_lt_0_compat; lra).
    assert (0 < (1 - t) * (snd v - snd u)) by (apply Qmult_lt_0_compat; lra). lra. }
  assert (A : hi p u = 0%Z /\ hi p v = 1%Z) by (split; [apply hi_0|apply hi_1]; lra).
  assert (B : hi q u = 0%Z /\ hi q v = 1%Z) by (split; [apply hi_0|apply hi_1]; lra).
  destruct (ec_up p u v (proj1 A) (proj2 A)) as [K1 K2]. destruct (ec_up q u v (proj1 B) (proj2 B)) as [M1 M2].
  pose proof (tri_level p u v c t eq_refl Yp) as T1. pose proof (tri_level q u v c t eq_refl Yq) as T2.
  pose proof (pos_prod (fst c - fst p) (snd v - snd u) ltac:(lra)) as P1. pose proof (pos_prod (fst c - fst q) (snd v - snd u) ltac:(lra)) as P2.
  assert (Neg : forall x, x < 0 -> x * (snd v - snd u) <= 0).
  { intros x Hx. assert (x * (snd v - snd u) <= 0 * (snd v - snd u)) by (apply Qmult_le_compat_r; lra). lra. }
  destruct R2 as [R2|R2].
  - left. rewrite K1, M2; [reflexivity| |].
    + rewrite T2. pose proof (Neg (fst c - fst q) ltac:(lra)). lra.
    + rewrite T1. assert (0 < (fst c - fst p) * (snd v - snd u)) by (apply P1; lra). lra.
  - right. rewrite K2, M1; [reflexivity| |].
    + rewrite T2. assert (0 < (fst c - fst q) * (snd v - snd u)) by (apply P2; lra). lra.
    + rewrite T1. pose proof (Neg (fst c - fst p) ltac:(lra)). lra.
Qed.
Lemma cross_level : forall p q u v, snd p == snd q -> cross_at p q u v ->
  (edge_count p u v - edge_count q u v = 1 \/ edge_count p u v - edge_count q u v = -1)%Z.
Proof.
  intros p q u v E H. destruct (Qlt_le_dec (snd v) (snd u)) as [L|L].
  - pose proof (cross_level_up p q v u E ltac:(lra) (cross_rev _ _ _ _ H)) as K. rewrite (edge_count_anti p v u), (edge_count_anti q v u) in *. lia.
  - apply cross_level_up; assumption.
Qed.

(** Round the ring: one edge crossed, the others apart. *)
Inductive once (p q : pt) : pt -> list pt -> Prop :=
| once_here a b l : cross_at p q a b -> path_all (apart p q) b l -> once p q a (b :: l)
| once_later a b l : apart p q a b -> once p q b l -> once p q a (b :: l).
Lemma once_strip : forall p q, snd p < snd q -> forall a l, once p q a l ->
  (count_loop p a l 0 - count_loop q a l 0 - (psi p q (last l a) - psi p q a) = 1 \/
   count_loop p a l 0 - count_loop q a l 0 - (psi p q (last l a) - psi p q a) = -1)%Z.
Proof.
  intros p q L a l H. induction H as [a b l X R|a b l X R IH]; cbn [count_loop]; rewrite (loop_shift p), (loop_shift q), last_cons.
  - pose proof (cross_edge p q L a b X). pose proof (loop_strip p q l b L R). lia.
  - pose proof (strip_edge p q L a b X). lia.
Qed.
Lemma once_level : forall p q, snd p == snd q -> forall a l, once p q a l ->
  (count_loop p a l 0 - count_loop q a l 0 = 1 \/ count_loop p a l 0 - count_loop q a l 0 = -1)%Z.
Proof.
  intros p q L a l H. induction H as [a b l X R|a b l X R IH]; cbn [count_loop]; rewrite (loop_shift p), (loop_shift q).
  - pose proof (cross_level p q a b L X). pose proof (loop_level p q l b L R). lia.
  - pose proof (level_edge p q a b L X). lia.
Qed.
Lemma once_sym : forall p q a l, once p q a l -> once q p a l.
Proof.
  intros p q a l H. induction H as [a b l X R|a b l X R IH]; [apply once_here|apply once_later].
  - apply cross_sym, X.
  - revert b X R. induction l as [|c l IH]; intros b X R; cbn [path_all] in *; [exact Logic.I|]. destruct R as [R1 R2]. split; [apply apart_sym, R1|].
    clear - R2. revert c R2. induction l as [|d l IH]; intros c R; cbn [path_all] in *; [exact Logic.I|]. destruct R as [R1 R2]. split; [apply apart_sym, R1|apply IH, R2].
  - apply apart_sym, X.
  - exact IH.
Qed.
Lemma once_loop : forall p q v l, once p q v (l ++ [v]) ->
  (count_loop p v (l ++ [v]) 0 - count_loop q v (l ++ [v]) 0 = 1 \/ count_loop p v (l ++ [v]) 0 - count_loop q v (l ++ [v]) 0 = -1)%Z.
Proof.
  intros p q v l H. destruct (Q_dec (snd p) (snd q)) as [[L|L]|L].
  - pose proof (once_strip p q L _ _ H) as K. rewrite last_last in K. lia.
  - pose proof (once_strip q p L _ _ (once_sym _ _ _ _ H)) as K. rewrite last_last in K. lia.
  - exact (once_level p q L _ _ H).
Qed.
(** From the edges by number. *)
Lemma once_nth : forall p q l a k, (forall i u v, path_edge (a :: l) i u v -> i <> k -> apart p q u v) ->
  (exists u v, path_edge (a :: l) k u v /\ cross_at p q u v) -> once p q a l.
Proof.
  intros p q. induction l as [|b l IH]; intros a k H (u & v & [A B] & X).
  - exfalso. destruct k; discriminate.
  - destruct k as [|k].
    + cbn in A, B. injection A as ->. injection B as ->. apply once_here; [exact X|]. apply path_all_nth. intros i x y [A B].
      apply (H (S i)); [split; assumption|lia].
    + apply once_later; [apply (H 0%nat); [split; reflexivity|lia]|]. apply (IH b k).
      * intros i x y [A' B'] N. apply (H (S i)); [split; assumption|lia].
      * exists u, v. split; [split; assumption|exact X].
Qed.
Lemma count_crossed : forall p q l k e, edge_at l true k e -> cross_at p q (fst e) (snd e) ->
  (forall i f, edge_at l true i f -> i <> k -> apart p q (fst f) (snd f)) ->
  (count p l - count q l = 1 \/ count p l - count q l = -1)%Z.
Proof.
  intros p q l k [a b] E X H. destruct l as [|v l]; [exfalso; destruct E as [[A _]|(_ & _ & A & _)]; destruct k; discriminate|].
  unfold count. apply once_loop.
  assert (Re : forall i x y, path_edge (v :: l ++ [v]) i x y <-> edge_at (v :: l) true i (x, y)).
  { intros i x y. rewrite <- ring_edge_at. apply Lon_Proofs.ring_path. }
  apply (once_nth p q (l ++ [v]) v k).
  - intros i x y Pe N. exact (H i (x, y) (proj1 (Re i x y) Pe) N).
  - exists a, b. split; [apply Re, E|exact X].
Qed.

(** Winding numbers on the two sides of an edge. *)
Lemma cross_off : forall p q l k e, edge_at l true k e -> cross_at p q (fst e) (snd e) ->
  (forall i f, edge_at l true i f -> i <> k -> apart p q (fst f) (snd f)) -> off p l /\ off q l.
Proof.
  intros p q l k e E X H. split; intros f (i & Hf) O.
  - destruct (Nat.eq_dec i k) as [->|N].
    + assert (f = e) as ->. { apply edges_nth in E, Hf. congruence. }
      destruct X as (t & Ht & _ & Only). destruct e as [a b]. destruct (Only p O (first_on p q)) as [NE _]. apply NE. left. split; reflexivity.
    + destruct f as [a b]. exact (H i (a, b) Hf N p O (first_on p q)).
  - destruct (Nat.eq_dec i k) as [->|N].
    + assert (f = e) as ->. { apply edges_nth in E, Hf. congruence. }
      destruct X as (t & Ht & _ & Only). destruct e as [a b]. destruct (Only q O (second_on p q)) as [NE _]. apply NE. right. split; reflexivity.
    + destruct f as [a b]. exact (H i (a, b) Hf N q O (second_on p q)).
Qed.
Lemma contains_crossed : forall (P D C : Type) (g : geom P D C) p q k e, rings P D C g -> gsubs P D C g = [] ->
  edge_at (xys (gverts P D C g)) true k e -> cross_at p q (fst e) (snd e) ->
  (forall i f, edge_at (xys (gverts P D C g)) true i f -> i <> k -> apart p q (fst f) (snd f)) ->
  contains P D C g p = Ok true \/ contains P D C g q = Ok true.
Proof.
  intros P D C [kd v r s pr d c] p q k e R Sg E X H. cbn in Sg. subst s. cbn in R. destruct R as [-> _]. cbn [gverts] in *.
  rewrite !contains_eq. destruct (count_crossed p q (xys v) k e E X H) as [K|K]; destruct (Z.eqb_spec (count p (xys v)) 0) as [A|A]; destruct (Z.eqb_spec (count q (xys v)) 0) as [B|B];
    try (exfalso; lia); cbn [bind negb]; auto.
Qed.
Lemma winding_crossed : forall p q l k e, edge_at l true k e -> cross_at p q (fst e) (snd e) ->
  (forall i f, edge_at l true i f -> i <> k -> apart p q (fst f) (snd f)) ->
  forall w w', winding p l w -> winding q l w' -> (w - w' = 1 \/ w - w' = -1)%Z.
Proof.
  intros p q l k e E X H w w' W W'. destruct (cross_off p q l k e E X H) as [O1 O2].
  rewrite (winding_unique p l w (count p l) O1 W (count_winding p l O1)), (winding_unique q l w' (count q l) O2 W' (count_winding q l O2)).
  apply (count_crossed p q l k e E X H).
Qed.
