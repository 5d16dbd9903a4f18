(** The count of crossings does not change along a segment that does not meet the ring. *)
From Coq Require Import List ZArith QArith Qabs Qfield Lqa Bool Arith Lia.
From Verif Require Import Geom_Model Geom_Spec Geom_Proofs Inter_Model Inter_Spec Inter_Proofs Contains_Model Contains_Spec Contains_Proofs Contains_Winding Mask_Proofs.
Import ListNotations.
Open Scope Q_scope.

Definition apart (p q u v : pt) : Prop := forall z, on_seg (u, v) z -> ~ on_seg (p, q) z.
Lemma seg_sym : forall a b q, on_seg (a, b) q -> on_seg (b, a) q.
Proof.
  intros a b q (t & Ht & Sx & Sy). exists (1 - t). split; [lra|]. unfold same, along in *. cbn [fst snd] in *.
  split; [rewrite Sx|rewrite Sy]; ring.
Qed.
Lemma apart_sym : forall p q u v, apart p q u v -> apart q p u v.
Proof. intros p q u v H z O X. apply (H z O), seg_sym, X. Qed.
Lemma apart_rev : forall p q u v, apart p q u v -> apart p q v u.
Proof. intros p q u v H z O X. apply (H z); [apply seg_sym, O|exact X]. Qed.
Lemma along_on : forall u v t, 0 <= t <= 1 -> on_seg (u, v) (along u v t).
Proof. intros u v t H. exists t. split; [exact H|split; reflexivity]. Qed.

Definition hi (s z : pt) : Z := if qlt (snd s) (snd z) then 1%Z else 0%Z.
Lemma hi_1 : forall s z, hi s z = 1%Z <-> snd s < snd z.
Proof. intros s z. unfold hi. destruct (qlt (snd s) (snd z)) eqn:E; [apply qlt_t in E|apply qlt_f in E]; split; intros H; try lra; try reflexivity; discriminate. Qed.
Lemma hi_0 : forall s z, hi s z = 0%Z <-> snd z <= snd s.
Proof. intros s z. unfold hi. destruct (qlt (snd s) (snd z)) eqn:E; [apply qlt_t in E|apply qlt_f in E]; split; intros H; try lra; try reflexivity; discriminate. Qed.
Lemma hi_cases : forall s z, hi s z = 0%Z \/ hi s z = 1%Z.
Proof. intros s z. unfold hi. destruct (qlt (snd s) (snd z)); auto. Qed.
Lemma ec_none : forall s u v, hi s u = hi s v -> edge_count s u v = 0%Z.
Proof.
  intros s u v E. destruct (hi_cases s u) as [H|H]; rewrite H in E; symmetry in E; pose proof H as H'; pose proof E as E'.
  - apply hi_0 in H'. apply hi_0 in E'. destruct (edge_count_cases s u v) as [(A & B & _)|[(A & B & _)|[(A & B & _)|[(A & B & _)|[(_ & _ & K)|(_ & _ & K)]]]]]; try exact K; lra.
  - apply hi_1 in H'. apply hi_1 in E'. destruct (edge_count_cases s u v) as [(A & B & _)|[(A & B & _)|[(A & B & _)|[(A & B & _)|[(_ & _ & K)|(_ & _ & K)]]]]]; try exact K; lra.
Qed.
Lemma ec_up : forall s u v, hi s u = 0%Z -> hi s v = 1%Z ->
  (0 < tri s u v -> edge_count s u v = 1%Z) /\ (tri s u v <= 0 -> edge_count s u v = 0%Z).
Proof.
  intros s u v A B. apply hi_0 in A. apply hi_1 in B.
  destruct (edge_count_cases s u v) as [(_ & _ & C & K)|[(_ & _ & C & K)|[(X & _)|[(X & _)|[(_ & X & _)|(X & _)]]]]]; try lra; split; intros; try exact K; lra.
Qed.

(** The point of an edge going up at the height of [s]. *)
Definition level (s u v : pt) : Q := (snd s - snd u) / (snd v - snd u).
Lemma level_ok : forall s u v, snd u <= snd s -> snd s < snd v -> 0 <= level s u v <= 1 /\ snd (along u v (level s u v)) == snd s.
Proof.
  intros s u v A B. unfold level. split; [split; [apply Qle_shift_div_l; lra|apply Qle_shift_div_r; lra]|].
  unfold along. cbn [snd]. field. lra.
Qed.
Lemma tri_level : forall s u v z t, z = along u v t -> snd z == snd s ->
  tri s u v == (1 # 2) * ((fst z - fst s) * (snd v - snd u)).
Proof.
  intros s u v z t -> E. unfold tri. unfold along in *. cbn [fst snd] in *. rewrite <- E. ring.
Qed.
Lemma pos_prod : forall a b, 0 < b -> (0 < a * b <-> 0 < a).
Proof.
  intros a b B. split; intros H.
  - destruct (Qlt_le_dec 0 a) as [L|L]; [exact L|]. assert (a * b <= 0 * b) by (apply Qmult_le_compat_r; lra). lra.
  - apply Qmult_lt_0_compat; assumption.
Qed.

Section Strip.
Variables p q : pt.
Hypothesis PQ : snd p < snd q.
Definition rt (z : pt) : Z := if qlt (tri p q z) 0 then 1%Z else 0%Z.
Definition psi (z : pt) : Z := ((hi p z - hi q z) * rt z)%Z.

Lemma in_strip : forall u v t, apart p q u v -> 0 <= t <= 1 -> snd p <= snd (along u v t) -> snd (along u v t) <= snd q ->
  ~ tri p q (along u v t) == 0.
Proof.
  intros u v t H Ht A B E. apply (H (along u v t) (along_on u v t Ht)).
  set (z := along u v t) in *. exists ((snd z - snd p) / (snd q - snd p)).
  split; [split; [apply Qle_shift_div_l; lra|apply Qle_shift_div_r; lra]|].
  unfold same, along. cbn [fst snd]. split; [|field; lra].
  unfold tri in E. assert (E' : (fst z - fst p) * (snd q - snd p) == (fst q - fst p) * (snd z - snd p)) by lra.
  assert (X : fst z - fst p == (fst q - fst p) * (snd z - snd p) / (snd q - snd p)).
  { rewrite <- E'. field. lra. }
  setoid_replace (fst z) with (fst p + (fst z - fst p)) by ring. rewrite X. field. lra.
Qed.
Lemma tri_affine : forall u v t, tri p q (along u v t) == (1 - t) * tri p q u + t * tri p q v.
Proof. intros u v t. unfold tri, along. cbn [fst snd]. ring. Qed.
Lemma no_change : forall u v t1 t2, apart p q u v -> 0 <= t1 <= 1 -> 0 <= t2 <= 1 ->
  snd p <= snd (along u v t1) <= snd q -> snd p <= snd (along u v t2) <= snd q ->
  tri p q (along u v t1) < 0 -> 0 < tri p q (along u v t2) -> False.
Proof.
  intros u v t1 t2 H H1 H2 S1 S2 N Po.
  set (a := tri p q (along u v t1)) in *. set (b := tri p q (along u v t2)) in *.
  set (w := - a / (b - a)).
  assert (W : 0 <= w <= 1) by (unfold w; split; [apply Qle_shift_div_l; lra|apply Qle_shift_div_r; lra]).
  set (t := t1 + w * (t2 - t1)).
  assert (Ht : 0 <= t <= 1).
  { unfold t. setoid_replace (t1 + w * (t2 - t1)) with (t1 * (1 - w) + t2 * w) by ring.
    assert (0 <= t1 * (1 - w)) by (apply Qmult_le_0_compat; lra). assert (0 <= t2 * w) by (apply Qmult_le_0_compat; lra).
    assert (t1 * (1 - w) <= 1 * (1 - w)) by (apply Qmult_le_compat_r; lra). assert (t2 * w <= 1 * w) by (apply Qmult_le_compat_r; lra). lra. }
  assert (Ey : snd (along u v t) == snd (along u v t1) * (1 - w) + snd (along u v t2) * w) by (unfold t, along; cbn [snd]; ring).
  assert (Et : tri p q (along u v t) == a * (1 - w) + b * w).
  { unfold a, b. rewrite !tri_affine. unfold t. ring. }
  assert (Z0 : tri p q (along u v t) == 0) by (rewrite Et; unfold w; field; lra).
  apply (in_strip u v t H Ht); [| |exact Z0]; rewrite Ey.
  - assert (snd p * (1 - w) <= snd (along u v t1) * (1 - w)) by (apply Qmult_le_compat_r; lra).
    assert (snd p * w <= snd (along u v t2) * w) by (apply Qmult_le_compat_r; lra). lra.
  - assert (snd (along u v t1) * (1 - w) <= snd q * (1 - w)) by (apply Qmult_le_compat_r; lra).
    assert (snd (along u v t2) * w <= snd q * w) by (apply Qmult_le_compat_r; lra). lra.
Qed.
Lemma rt_same : forall u v t1 t2, apart p q u v -> 0 <= t1 <= 1 -> 0 <= t2 <= 1 ->
  snd p <= snd (along u v t1) <= snd q -> snd p <= snd (along u v t2) <= snd q -> rt (along u v t1) = rt (along u v t2).
Proof.
  intros u v t1 t2 H H1 H2 S1 S2. unfold rt.
  pose proof (in_strip u v t1 H H1 (proj1 S1) (proj2 S1)) as N1. pose proof (in_strip u v t2 H H2 (proj1 S2) (proj2 S2)) as N2.
  destruct (qlt (tri p q (along u v t1)) 0) eqn:E1, (qlt (tri p q (along u v t2)) 0) eqn:E2; try reflexivity; exfalso.
  - apply qlt_t in E1. apply qlt_f in E2. apply (no_change u v t1 t2); try assumption. lra.
  - apply qlt_f in E1. apply qlt_t in E2. apply (no_change u v t2 t1); try assumption. lra.
Qed.
Lemma rt_ext : forall z z', same z z' -> rt z = rt z'.
Proof.
  intros z z' [X Y]. unfold rt. assert (E : tri p q z == tri p q z') by (unfold tri; rewrite X, Y; reflexivity).
  destruct (qlt (tri p q z) 0) eqn:E1, (qlt (tri p q z') 0) eqn:E2; try reflexivity; [apply qlt_t in E1; apply qlt_f in E2|apply qlt_f in E1; apply qlt_t in E2]; lra.
Qed.
Lemma rt_u : forall u v, rt (along u v 0) = rt u.
Proof. intros. apply rt_ext. unfold same, along. cbn [fst snd]. split; ring. Qed.
Lemma rt_v : forall u v, rt (along u v 1) = rt v.
Proof. intros. apply rt_ext. unfold same, along. cbn [fst snd]. split; ring. Qed.

Lemma ec_p : forall u v, apart p q u v -> hi p u = 0%Z -> hi p v = 1%Z -> edge_count p u v = rt (along u v (level p u v)).
Proof.
  intros u v H A B. destruct (ec_up p u v A B) as [K1 K2]. apply hi_0 in A. apply hi_1 in B.
  destruct (level_ok p u v A B) as [Ht Ey]. pose proof (in_strip u v _ H Ht ltac:(lra) ltac:(lra)) as NZ.
  pose proof (tri_level p u v _ _ eq_refl Ey) as T. set (z := along u v (level p u v)) in *.
  assert (T' : tri p q z == - (1 # 2) * ((fst z - fst p) * (snd q - snd p))) by (unfold tri; rewrite Ey; ring).
  pose proof (pos_prod (fst z - fst p) (snd v - snd u) ltac:(lra)) as P1. pose proof (pos_prod (fst z - fst p) (snd q - snd p) ltac:(lra)) as P2.
  unfold rt. destruct (qlt (tri p q z) 0) eqn:E; [apply qlt_t in E|apply qlt_f in E].
  - apply K1. rewrite T. assert (0 < (fst z - fst p) * (snd v - snd u)) by (apply P1, P2; lra). lra.
  - apply K2. rewrite T. destruct (Qlt_le_dec 0 ((fst z - fst p) * (snd v - snd u))) as [L|L]; [|lra]. apply P1, P2 in L. lra.
Qed.
Lemma ec_q : forall u v, apart p q u v -> hi q u = 0%Z -> hi q v = 1%Z -> edge_count q u v = rt (along u v (level q u v)).
Proof.
  intros u v H A B. destruct (ec_up q u v A B) as [K1 K2]. apply hi_0 in A. apply hi_1 in B.
  destruct (level_ok q u v A B) as [Ht Ey]. pose proof (in_strip u v _ H Ht ltac:(lra) ltac:(lra)) as NZ.
  pose proof (tri_level q u v _ _ eq_refl Ey) as T. set (z := along u v (level q u v)) in *.
  assert (T' : tri p q z == - (1 # 2) * ((fst z - fst q) * (snd q - snd p))) by (unfold tri; rewrite Ey; ring).
  pose proof (pos_prod (fst z - fst q) (snd v - snd u) ltac:(lra)) as P1. pose proof (pos_prod (fst z - fst q) (snd q - snd p) ltac:(lra)) as P2.
  unfold rt. destruct (qlt (tri p q z) 0) eqn:E; [apply qlt_t in E|apply qlt_f in E].
  - apply K1. rewrite T. assert (0 < (fst z - fst q) * (snd v - snd u)) by (apply P1, P2; lra). lra.
  - apply K2. rewrite T. destruct (Qlt_le_dec 0 ((fst z - fst q) * (snd v - snd u))) as [L|L]; [|lra]. apply P1, P2 in L. lra.
Qed.

Lemma along_0 : forall u v, snd (along u v 0) == snd u.
Proof. intros. unfold along. cbn [snd]. ring. Qed.
Lemma along_1 : forall u v, snd (along u v 1) == snd v.
Proof. intros. unfold along. cbn [snd]. ring. Qed.
(** Edges going up, or on one side. *)
Lemma strip_up : forall u v, apart p q u v -> (hi p u <= hi p v)%Z -> (hi q u <= hi q v)%Z ->
  (edge_count p u v - edge_count q u v = psi v - psi u)%Z.
Proof.
  intros u v H Lp Lq. pose proof (along_0 u v) as A0. pose proof (along_1 u v) as A1.
  assert (Mono : forall z, (hi q z <= hi p z)%Z).
  { intros z. destruct (hi_cases q z) as [E|E], (hi_cases p z) as [F|F]; try lia. apply hi_1 in E. apply hi_0 in F. lra. }
  pose proof (Mono u) as Mu. pose proof (Mono v) as Mv. unfold psi.
  destruct (hi_cases p u) as [Pu|Pu], (hi_cases q u) as [Qu|Qu], (hi_cases p v) as [Pv|Pv], (hi_cases q v) as [Qv|Qv]; try lia.
  - (* below, below *) rewrite (ec_none p u v), (ec_none q u v) by congruence. rewrite Pu, Qu, Pv, Qv. lia.
  - (* below, strip *) rewrite (ec_p u v H Pu Pv), (ec_none q u v) by congruence. rewrite Pu, Qu, Pv, Qv.
    apply hi_0 in Pu. apply hi_1 in Pv. apply hi_0 in Qv. destruct (level_ok p u v Pu Pv) as [Ht Ey].
    rewrite (rt_same u v (level p u v) 1 H Ht ltac:(lra) ltac:(lra) ltac:(lra)), rt_v. lia.
  - (* below, above *) rewrite (ec_p u v H Pu Pv), (ec_q u v H Qu Qv). rewrite Pu, Qu, Pv, Qv.
    apply hi_0 in Pu. apply hi_1 in Pv. apply hi_0 in Qu. apply hi_1 in Qv.
    destruct (level_ok p u v Pu Pv) as [Ht Ey]. destruct (level_ok q u v Qu Qv) as [Ht' Ey'].
    rewrite (rt_same u v (level p u v) (level q u v) H Ht Ht' ltac:(lra) ltac:(lra)). lia.
  - (* strip, strip *) rewrite (ec_none p u v), (ec_none q u v) by congruence. rewrite Pu, Qu, Pv, Qv.
    apply hi_1 in Pu. apply hi_1 in Pv. apply hi_0 in Qu. apply hi_0 in Qv.
    assert (rt u = rt v); [|lia]. rewrite <- (rt_u u v), <- (rt_v u v). apply rt_same; try assumption; lra.
  - (* strip, above *) rewrite (ec_none p u v), (ec_q u v H Qu Qv) by congruence. rewrite Pu, Qu, Pv, Qv.
    apply hi_1 in Pu. apply hi_1 in Pv. apply hi_0 in Qu. apply hi_1 in Qv. destruct (level_ok q u v Qu Qv) as [Ht Ey].
    assert (rt u = rt (along u v (level q u v))); [|lia]. rewrite <- (rt_u u v). apply rt_same; try assumption; lra.
  - (* above, above *) rewrite (ec_none p u v), (ec_none q u v) by congruence. rewrite Pu, Qu, Pv, Qv. lia.
Qed.
Lemma strip_edge : forall u v, apart p q u v -> (edge_count p u v - edge_count q u v = psi v - psi u)%Z.
Proof.
  intros u v H. destruct (Qlt_le_dec (snd v) (snd u)) as [L|L].
  - pose proof (strip_up v u (apart_rev _ _ _ _ H)) as K. rewrite (edge_count_anti p v u), (edge_count_anti q v u) in *.
    assert ((hi p v <= hi p u)%Z /\ (hi q v <= hi q u)%Z) as [X Y]; [|specialize (K X Y); lia].
    split; [destruct (hi_cases p v) as [E|E], (hi_cases p u) as [F|F]; try lia; apply hi_1 in E; apply hi_0 in F; lra|].
    destruct (hi_cases q v) as [E|E], (hi_cases q u) as [F|F]; try lia; apply hi_1 in E; apply hi_0 in F; lra.
  - apply strip_up; [exact H| |].
    + destruct (hi_cases p u) as [E|E], (hi_cases p v) as [F|F]; try lia; apply hi_1 in E; apply hi_0 in F; lra.
    + destruct (hi_cases q u) as [E|E], (hi_cases q v) as [F|F]; try lia; apply hi_1 in E; apply hi_0 in F; lra.
Qed.
End Strip.

(** Level segments. *)
Lemma level_edge_up : forall p q u v, snd p == snd q -> apart p q u v -> snd u <= snd v -> edge_count p u v = edge_count q u v.
Proof.
  intros p q u v E H L.
  assert (Hh : forall z, hi p z = hi q z).
  { intros z. destruct (hi_cases p z) as [A|A], (hi_cases q z) as [B|B]; try congruence; exfalso;
      [apply hi_0 in A; apply hi_1 in B|apply hi_1 in A; apply hi_0 in B]; lra. }
  destruct (hi_cases p u) as [Pu|Pu], (hi_cases p v) as [Pv|Pv].
  - rewrite (ec_none p), (ec_none q) by (rewrite <- ?Hh; congruence). reflexivity.
  - pose proof Pu as Qu. pose proof Pv as Qv. rewrite Hh in Qu, Qv.
    destruct (ec_up p u v Pu Pv) as [K1 K2]. destruct (ec_up q u v Qu Qv) as [M1 M2].
    apply hi_0 in Pu. apply hi_1 in Pv. destruct (level_ok p u v Pu Pv) as [Ht Ey].
    pose proof (tri_level p u v _ _ eq_refl Ey) as T1. pose proof (tri_level q u v _ _ eq_refl ltac:(rewrite Ey; exact E)) as T2.
    set (z := along u v (level p u v)) in *.
    assert (Oz : on_seg (u, v) z) by (apply along_on, Ht).
    pose proof (pos_prod (fst z - fst p) (snd v - snd u) ltac:(lra)) as P1. pose proof (pos_prod (fst z - fst q) (snd v - snd u) ltac:(lra)) as P2.
    assert (Sd : (fst p < fst z /\ fst q < fst z) \/ (fst z < fst p /\ fst z < fst q)).
    { destruct (Q_dec (fst p) (fst z)) as [[A|A]|A]; destruct (Q_dec (fst q) (fst z)) as [[B|B]|B]; try (left; split; lra); try (right; split; lra); exfalso; apply (H z Oz).
      - exists ((fst z - fst p) / (fst q - fst p)). split; [split; [apply Qle_shift_div_l; lra|apply Qle_shift_div_r; lra]|].
        unfold same, along; cbn [fst snd]. split; [field; lra|rewrite <- E; rewrite Ey; ring].
      - exists 1. split; [lra|]. unfold same, along; cbn [fst snd]. split; [lra|lra].
      - exists ((fst p - fst z) / (fst p - fst q)). split; [split; [apply Qle_shift_div_l; lra|apply Qle_shift_div_r; lra]|].
        unfold same, along; cbn [fst snd]. split; [field; lra|rewrite <- E; rewrite Ey; ring].
      - exists 1. split; [lra|]. unfold same, along; cbn [fst snd]. split; [lra|lra].
      - exists 0. split; [lra|]. unfold same, along; cbn [fst snd]. split; [lra|lra].
      - exists 0. split; [lra|]. unfold same, along; cbn [fst snd]. split; [lra|lra].
      - exists 0. split; [lra|]. unfold same, along; cbn [fst snd]. split; [lra|lra]. }
    destruct Sd as [[A B]|[A B]].
    + rewrite K1, M1; [reflexivity| |]; [rewrite T2; assert (0 < (fst z - fst q) * (snd v - snd u)) by (apply P2; lra)|rewrite T1; assert (0 < (fst z - fst p) * (snd v - snd u)) by (apply P1; lra)]; lra.
    + rewrite K2, M2; [reflexivity| |].
      * rewrite T2. destruct (Qlt_le_dec 0 ((fst z - fst q) * (snd v - snd u))) as [X|X]; [apply P2 in X; lra|lra].
      * rewrite T1. destruct (Qlt_le_dec 0 ((fst z - fst p) * (snd v - snd u))) as [X|X]; [apply P1 in X; lra|lra].
  - apply hi_1 in Pu. apply hi_0 in Pv. lra.
  - rewrite (ec_none p), (ec_none q) by (rewrite <- ?Hh; congruence). reflexivity.
Qed.
Lemma level_edge : forall p q u v, snd p == snd q -> apart p q u v -> edge_count p u v = edge_count q u v.
Proof.
  intros p q u v E H. destruct (Qlt_le_dec (snd v) (snd u)) as [L|L]; [|apply level_edge_up; assumption].
  rewrite (edge_count_anti p v u), (edge_count_anti q v u). f_equal. apply level_edge_up; [exact E|apply apart_rev, H|lra].
Qed.

(** Over a ring. *)
Lemma loop_shift : forall p l a k, (count_loop p a l k = k + count_loop p a l 0)%Z.
Proof.
  intros p. induction l as [|b l IH]; intros a k; cbn [count_loop]; [lia|].
  rewrite (IH b (k + _)%Z), (IH b (0 + _)%Z). lia.
Qed.
Lemma last_cons : forall (l : list pt) a b, last (b :: l) a = last l b.
Proof.
  induction l as [|x l IH]; intros a b; [reflexivity|]. change (last (b :: x :: l) a) with (last (x :: l) a).
  rewrite (IH a x), (IH b x). reflexivity.
Qed.
Lemma loop_strip : forall p q l a, snd p < snd q -> path_all (apart p q) a l ->
  (count_loop p a l 0 - count_loop q a l 0 = psi p q (last l a) - psi p q a)%Z.
Proof.
  intros p q l. induction l as [|b l IH]; intros a L H; cbn [count_loop]; [cbn [last]; lia|].
  destruct H as [H1 H2]. specialize (IH b L H2). pose proof (strip_edge p q L a b H1) as K.
  rewrite (loop_shift p), (loop_shift q), last_cons. lia.
Qed.
Lemma loop_level : forall p q l a, snd p == snd q -> path_all (apart p q) a l -> count_loop p a l 0 = count_loop q a l 0.
Proof.
  intros p q l. induction l as [|b l IH]; intros a L H; cbn [count_loop]; [reflexivity|].
  destruct H as [H1 H2]. specialize (IH b L H2). pose proof (level_edge p q a b L H1) as K.
  rewrite (loop_shift p), (loop_shift q). lia.
Qed.
Lemma count_le : forall p q l, (forall e, edge_of l true e -> apart p q (fst e) (snd e)) -> snd p <= snd q -> count p l = count q l.
Proof.
  intros p q l H L. apply ring_all_edges in H. destruct l as [|v l]; [reflexivity|]. cbn [ring_all] in H. unfold count.
  destruct (Qlt_le_dec (snd p) (snd q)) as [L'|L'].
  - pose proof (loop_strip p q _ _ L' H) as K. rewrite last_last in K. lia.
  - apply loop_level; [lra|exact H].
Qed.
Lemma count_apart : forall p q l, (forall e, edge_of l true e -> apart p q (fst e) (snd e)) -> count p l = count q l.
Proof.
  intros p q l H. destruct (Qlt_le_dec (snd q) (snd p)) as [L|L]; [|apply count_le; assumption].
  symmetry. apply count_le; [|lra]. intros e E. apply apart_sym, H, E.
Qed.
