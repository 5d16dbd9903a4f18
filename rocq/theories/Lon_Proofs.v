(** Proofs for longitudes and angles. *)
From Coq Require Import List ZArith QArith Qround Qabs Bool Arith Lia Lqa.
From Verif Require Import Geom_Model Geom_Spec Geom_Proofs Inter_Model Inter_Spec Inter_Proofs Lon_Model Lon_Spec.
Import ListNotations.
Open Scope Q_scope.

Lemma qlt_t : forall a b, Lon_Model.qlt a b = true -> a < b.
Proof. intros a b H. apply ltq_t, H. Qed.
Lemma qlt_f : forall a b, Lon_Model.qlt a b = false -> b <= a.
Proof. intros a b H. apply ltq_f, H. Qed.
Lemma qlt_i : forall a b, a < b -> qlt a b = true.
Proof. intros a b H. apply ltq_i, H. Qed.
Lemma qlt_n : forall a b, b <= a -> qlt a b = false.
Proof. intros a b H. destruct (qlt a b) eqn:E; [|reflexivity]. apply qlt_t in E. lra. Qed.
Lemma qlt_iff : forall a b, qlt a b = true <-> a < b.
Proof. intros. split; [apply qlt_t|apply qlt_i]. Qed.

(* ---- modulo *)
Lemma qmod_spec : forall x, 0 <= qmod x 360 /\ qmod x 360 < 360 /\ cong x (qmod x 360).
Proof.
  intros x. unfold qmod, cong. set (k := Qfloor (x / 360)).
  assert (A : inject_Z k <= x / 360) by apply Qfloor_le.
  assert (B : x / 360 < inject_Z k + 1).
  { pose proof (Qlt_floor (x / 360)) as H. fold k in H. rewrite inject_Z_plus in H. exact H. }
  assert (E : x == 360 * (x / 360)) by field.
  split; [lra|]. split; [lra|]. exists k. ring.
Qed.
Lemma cong_refl : forall x, cong x x. Proof. intros x. exists 0%Z. change (inject_Z 0) with 0. ring. Qed.
Lemma cong_eq : forall x y, x == y -> cong x y. Proof. intros x y H. exists 0%Z. change (inject_Z 0) with 0. rewrite H. ring. Qed.
Lemma cong_sym : forall x y, cong x y -> cong y x.
Proof. intros x y (k & H). exists (- k)%Z. rewrite inject_Z_opp, H. ring. Qed.
Lemma cong_trans : forall x y z, cong x y -> cong y z -> cong x z.
Proof. intros x y z (k & H) (j & J). exists (k + j)%Z. rewrite inject_Z_plus, H, J. ring. Qed.
Lemma cong_plus : forall x y a b, cong x y -> cong a b -> cong (x + a) (y + b).
Proof. intros x y a b (k & H) (j & J). exists (k + j)%Z. rewrite inject_Z_plus, H, J. ring. Qed.
Lemma cong_opp : forall x y, cong x y -> cong (- x) (- y).
Proof. intros x y (k & H). exists (- k)%Z. rewrite inject_Z_opp, H. ring. Qed.
Lemma cong_minus : forall x y a b, cong x y -> cong a b -> cong (x - a) (y - b).
Proof. intros. unfold Qminus. apply cong_plus; [assumption|]. apply cong_opp. assumption. Qed.
Lemma cong_close : forall x y, cong x y -> - (360) < x - y -> x - y < 360 -> x == y.
Proof.
  intros x y (k & H) A B. assert (K : k = 0%Z).
  { assert (E : 360 * inject_Z k == x - y) by (rewrite H; ring).
    assert (C : - (1) < inject_Z k) by lra. assert (D : inject_Z k < 1) by lra.
    change (- (1)) with (inject_Z (-1)) in C. change 1 with (inject_Z 1) in D. rewrite <- Zlt_Qlt in C, D. lia. }
  subst k. change (inject_Z 0) with 0 in H. lra.
Qed.
Lemma unroll_spec : forall x, 0 <= unroll_deg x /\ unroll_deg x < 360 /\ cong x (unroll_deg x).
Proof. apply qmod_spec. Qed.
Lemma reduce_spec : forall x, - (180) <= reduce_deg x /\ reduce_deg x < 180 /\ cong x (reduce_deg x).
Proof.
  intros x. unfold reduce_deg. destruct (qmod_spec (x + 180)) as (A & B & C).
  split; [lra|]. split; [lra|]. destruct C as (k & H). exists k.
  transitivity (qmod (x + 180) 360 + 360 * inject_Z k - 180); [rewrite <- H; ring|ring].
Qed.
Lemma unroll_unique : forall x y, 0 <= y -> y < 360 -> cong x y -> unroll_deg x == y.
Proof.
  intros x y A B C. destruct (unroll_spec x) as (D & E & F). apply cong_close; [|lra|lra].
  eapply cong_trans; [apply cong_sym, F|exact C].
Qed.
Lemma reduce_unique : forall x y, - (180) <= y -> y < 180 -> cong x y -> reduce_deg x == y.
Proof.
  intros x y A B C. destruct (reduce_spec x) as (D & E & F). apply cong_close; [|lra|lra].
  eapply cong_trans; [apply cong_sym, F|exact C].
Qed.
Lemma unroll_congruent : forall x y, cong x y -> unroll_deg x == unroll_deg y.
Proof. intros x y H. destruct (unroll_spec y) as (A & B & C). apply unroll_unique; try assumption. eapply cong_trans; eassumption. Qed.
Lemma reduce_congruent : forall x y, cong x y -> reduce_deg x == reduce_deg y.
Proof. intros x y H. destruct (reduce_spec y) as (A & B & C). apply reduce_unique; try assumption. eapply cong_trans; eassumption. Qed.

(* ---- between on a circle *)
Lemma short_way_unique : forall x0 x1 d e, short_way x0 x1 d -> short_way x0 x1 e -> d == e.
Proof.
  intros x0 x1 d e (A & B & C) (D & E & F). apply cong_close; [|lra|lra].
  assert (cong (x0 + d) (x0 + e)) as H by (eapply cong_trans; [apply cong_sym; exact A|exact D]).
  destruct H as (k & H). exists k. lra.
Qed.
Lemma on_arc_fwd : forall x x0 x1 d, short_way x0 x1 d -> 0 <= d ->
  (on_arc x x0 x1 <-> 0 <= reduce_deg (x - x0) /\ reduce_deg (x - x0) <= d).
Proof.
  intros x x0 x1 d S P. split.
  - intros (e & t & SE & T & X). assert (E : e == d) by (eapply short_way_unique; eassumption).
    destruct S as (_ & _ & U). assert (B : 0 <= t * e /\ t * e <= d) by nra.
    assert (R : reduce_deg (x - x0) == t * e).
    { apply reduce_unique; [lra|lra|]. destruct X as (k & X). exists k. rewrite X. ring. }
    lra.
  - intros [A B]. destruct (reduce_spec (x - x0)) as (_ & _ & R). set (r := reduce_deg (x - x0)) in *.
    destruct (Qlt_le_dec 0 d) as [D|D].
    + exists d, (r / d). split; [exact S|]. split.
      { split; [apply Qle_shift_div_l; lra|apply Qle_shift_div_r; lra]. }
      destruct R as (k & R). exists k. assert (E : r / d * d == r) by (field; lra). lra.
    + exists d, 0. split; [exact S|]. split; [lra|]. destruct R as (k & R). exists k. lra.
Qed.
Lemma on_arc_sym : forall x x0 x1, on_arc x x0 x1 -> on_arc x x1 x0.
Proof.
  intros x x0 x1 (d & t & (A & B & C) & T & X). exists (- d), (1 - t). split; [|split; [lra|]].
  - split; [|lra]. apply cong_sym in A. destruct A as (k & A). exists k. lra.
  - destruct A as (k & A). destruct X as (j & X). exists (j - k)%Z. unfold Z.sub. rewrite inject_Z_plus, inject_Z_opp, X, A. ring.
Qed.
Lemma isbetween_spec : forall x x0 x1, ~ cong x1 (x0 + 180) -> (isbetween_circular x x0 x1 = true <-> on_arc x x0 x1).
Proof.
  intros x x0 x1 N. unfold isbetween_circular. destruct (unroll_spec (x1 - x0)) as (A & B & C).
  destruct (qlt 180 (unroll_deg (x1 - x0))) eqn:E.
  - apply qlt_t in E. set (u := unroll_deg (x1 - x0)) in *.
    assert (S : short_way x1 x0 (360 - u)).
    { split; [|lra]. destruct C as (k & C). exists (- k - 1)%Z. unfold Z.sub. rewrite !inject_Z_plus, !inject_Z_opp.
      change (inject_Z 1) with 1. lra. }
    assert (R : reduce_deg (x0 - x1) == 360 - u).
    { apply reduce_unique; [lra|lra|]. destruct S as ((k & S) & _). exists k. lra. }
    rewrite andb_true_iff, !Qle_bool_iff, R. rewrite <- (on_arc_fwd x x1 x0 _ S ltac:(lra)).
    split; apply on_arc_sym.
  - apply qlt_f in E. set (u := unroll_deg (x1 - x0)) in *.
    assert (U : u < 180).
    { destruct (Qlt_le_dec u 180) as [L|L]; [exact L|]. exfalso. apply N. destruct C as (k & C). exists k. lra. }
    assert (S : short_way x0 x1 u).
    { split; [|lra]. destruct C as (k & C). exists k. lra. }
    assert (R : reduce_deg (x1 - x0) == u) by (apply reduce_unique; [lra|lra|exact C]).
    rewrite andb_true_iff, !Qle_bool_iff, R. rewrite <- (on_arc_fwd x x0 x1 _ S A). reflexivity.
Qed.
Lemma isbetween_sym : forall x x0 x1, isbetween_circular x x0 x1 = isbetween_circular x x1 x0.
Proof.
  intros x x0 x1.
  assert (F : forall a b, cong b (a + 180) -> isbetween_circular x a b = false).
  { intros a b H. unfold isbetween_circular.
    assert (U : unroll_deg (b - a) == 180).
    { apply unroll_unique; [lra|lra|]. destruct H as (k & H). exists k. lra. }
    rewrite qlt_n by lra.
    assert (R : reduce_deg (b - a) == - (180)).
    { apply reduce_unique; [lra|lra|]. destruct H as (k & H). exists (k + 1)%Z. rewrite inject_Z_plus. change (inject_Z 1) with 1. lra. }
    destruct (Qle_bool 0 (reduce_deg (x - a))) eqn:E1; [|reflexivity]. cbn [andb].
    destruct (Qle_bool (reduce_deg (x - a)) (reduce_deg (b - a))) eqn:E2; [|reflexivity].
    apply Qleb_t in E1. apply Qleb_t in E2. lra. }
  assert (D : {cong x1 (x0 + 180)} + {~ cong x1 (x0 + 180)}).
  { destruct (Qeq_dec (unroll_deg (x1 - x0)) 180) as [E|E].
    - left. destruct (unroll_spec (x1 - x0)) as (_ & _ & (k & K)). exists k. lra.
    - right. intros (k & K). apply E. apply unroll_unique; [lra|lra|]. exists k. lra. }
  destruct D as [D|D].
  - rewrite F by exact D. rewrite F; [reflexivity|].
    destruct D as (k & D). exists (- k - 1)%Z. unfold Z.sub. rewrite inject_Z_plus, !inject_Z_opp. change (inject_Z 1) with 1. lra.
  - assert (D' : ~ cong x0 (x1 + 180)).
    { intros (k & K). apply D. exists (- k - 1)%Z. unfold Z.sub. rewrite inject_Z_plus, !inject_Z_opp. change (inject_Z 1) with 1. lra. }
    pose proof (isbetween_spec x x0 x1 D) as P. pose proof (isbetween_spec x x1 x0 D') as Q.
    destruct (isbetween_circular x x0 x1); destruct (isbetween_circular x x1 x0); try reflexivity.
    + symmetry. apply Q, on_arc_sym, P. reflexivity.
    + apply P, on_arc_sym, Q. reflexivity.
Qed.
Lemma antipodal_end : exists x0 x1, isbetween_circular x0 x0 x1 = false /\ cong x1 (x0 + 180).
Proof. exists 0, 180. split; [reflexivity|]. apply cong_eq. ring. Qed.

(* ---- canonical configuration *)
Lemma canonical_spec : forall x1 y1 x2 y2, exists t a b c d, canonical x1 y1 x2 y2 = (t, a, b, c, d) /\
  a == 0 /\ b <= 0 /\ b <= d /\ d <= - b /\ 0 <= c - a /\ c - a <= 180 /\
  (* the flips undone *)
  cong (if xflip t then - (c - a) else c - a) (x2 - x1) /\
  (let '(b, d) := if ysignswap t then (- b, - d) else (b, d) in
   let '(b, d) := if yflip t then (d, b) else (b, d) in b == y1 /\ d == y2).
Proof.
  intros x1 y1 x2 y2. unfold canonical.
  set (yf := qlt (Qabs y1) (Qabs y2)).
  destruct (if yf then (y2, y1) else (y1, y2)) as [u v] eqn:UV.
  assert (AB : Qabs v <= Qabs u).
  { destruct yf eqn:E; injection UV as <- <-; subst yf; [apply qlt_t in E; lra|apply qlt_f in E; exact E]. }
  assert (BA : let '(b, d) := if yf then (v, u) else (u, v) in b == y1 /\ d == y2).
  { destruct yf; injection UV as <- <-; split; reflexivity. }
  set (ys := qlt 0 u).
  destruct (if ys then (- u, - v) else (u, v)) as [b d] eqn:BD.
  set (r := reduce_deg (x2 - x1)). destruct (reduce_spec (x2 - x1)) as (R1 & R2 & R3). fold r in R1, R2, R3.
  assert (YY : b <= 0 /\ Qabs d <= - b).
  { destruct ys eqn:E; injection BD as <- <-; subst ys.
    - apply qlt_t in E. rewrite Qabs_opp. rewrite (Qabs_pos u) in AB by lra. split; lra.
    - apply qlt_f in E. rewrite (Qabs_neg u) in AB by lra. split; lra. }
  apply proj1 in YY as Y1. apply proj2 in YY as Y2. apply Qabs_Qle_condition in Y2.
  do 5 eexists. split; [reflexivity|]. cbn [xflip yflip ysignswap].
  split; [reflexivity|]. split; [exact Y1|]. split; [lra|]. split; [lra|].
  assert (UN : let '(b0, d0) := if ys then (- b, - d) else (b, d) in b0 == u /\ d0 == v).
  { destruct ys; injection BD as <- <-; split; ring. }
  destruct (qlt r 0 || qlt 180 r) eqn:XF.
  - assert (r < 0).
    { apply orb_prop in XF. destruct XF as [X|X]; apply qlt_t in X; lra. }
    split; [lra|]. split; [lra|]. split; [destruct R3 as (k & R3); exists (- k)%Z; rewrite inject_Z_opp; lra|].
    destruct ys; destruct yf; destruct BA, UN; split; lra.
  - apply orb_false_iff in XF. destruct XF as [X1 X2]. apply qlt_f in X1. apply qlt_f in X2.
    split; [lra|]. split; [lra|]. split; [destruct R3 as (k & R3); exists (- k)%Z; rewrite inject_Z_opp; lra|].
    destruct ys; destruct yf; destruct BA, UN; split; lra.
Qed.

(* ---- the equator *)
Lemma equator_spec : forall x1 x2 d, short_way x1 x2 d ->
  exists az baz s, inverse_equatorial x1 x2 = (az, baz, s) /\
  (0 <= d -> az == 90 /\ baz == - (90)) /\ (d < 0 -> az == - (90) /\ baz == 90) /\
  (x2 == x1 + d -> s == Qabs d / 360).
Proof.
  intros x1 x2 d (S & A & B). unfold inverse_equatorial.
  assert (R : qmod (x2 - x1 + 180) 360 - 180 == d).
  { change (reduce_deg (x2 - x1) == d). apply reduce_unique; [lra|lra|]. destruct S as (k & S). exists k. lra. }
  destruct (qlt (qmod (x2 - x1 + 180) 360 - 180) 0) eqn:E.
  - apply qlt_t in E. do 3 eexists. split; [reflexivity|]. split; [intros; lra|]. split; [intros; split; reflexivity|].
    intros X. rewrite X. setoid_replace (x1 - (x1 + d)) with (- d) by ring. rewrite Qabs_opp. reflexivity.
  - apply qlt_f in E. do 3 eexists. split; [reflexivity|]. split; [intros; split; reflexivity|]. split; [intros; lra|].
    intros X. rewrite X. setoid_replace (x1 - (x1 + d)) with (- d) by ring. rewrite Qabs_opp. reflexivity.
Qed.
(** From 179 east to 179 west, two degrees apart: 358 degrees of arc. *)
Lemma equator_long : exists x1 x2 d az baz s, short_way x1 x2 d /\ lon_ok x1 /\ lon_ok x2 /\
  inverse_equatorial x1 x2 = (az, baz, s) /\ d == 2 /\ s == 358 / 360.
Proof.
  exists 179, (- (179)), 2. do 3 eexists. split; [|split; [|split; [|split; [reflexivity|]]]].
  - split; [|split; lra]. exists (-1)%Z. reflexivity.
  - split; lra.
  - split; lra.
  - split; reflexivity.
Qed.

(* ---- the dateline *)
Lemma sides : forall x0 x1, lon_ok x0 -> lon_ok x1 -> 180 < Qabs (x0 - x1) -> fsign x0 <> fsign x1.
Proof.
  intros x0 x1 [A B] [C D] H. unfold fsign.
  assert (F : forall x, (if Qeq_bool x 0 then 1%Z else if qlt 0 x then 1%Z else (-1)%Z) = if qlt x 0 then (-1)%Z else 1%Z).
  { intros x. destruct (Qeq_bool x 0) eqn:E1.
    - apply Qeq_bool_iff in E1. rewrite qlt_n by lra. reflexivity.
    - apply Qeq_bool_neq in E1. destruct (qlt 0 x) eqn:E2.
      + apply qlt_t in E2. rewrite qlt_n by lra. reflexivity.
      + apply qlt_f in E2. rewrite qlt_i; [reflexivity|]. destruct (Q_dec x 0) as [[|]|]; [assumption|lra|contradiction]. }
  rewrite !F. clear F. revert H. apply Qabs_case; intros S H;
  destruct (qlt x0 0) eqn:E; destruct (qlt x1 0) eqn:E'; try discriminate;
  (apply qlt_t in E || apply qlt_f in E); (apply qlt_t in E' || apply qlt_f in E'); lra.
Qed.
Lemma abs_big : forall d, 180 < Qabs d <-> 180 < d \/ 180 < - d.
Proof. intros d. apply Qabs_case; intros; split; [intros; left; lra|intros [?|?]; lra|intros; right; lra|intros [?|?]; lra]. Qed.
Lemma crosses_spec : forall x0 x1, lon_ok x0 -> lon_ok x1 ->
  (180 < x1 - x0 /\ crosses_dateline x0 x1 = 1%Z) \/ (180 < x0 - x1 /\ crosses_dateline x0 x1 = (-1)%Z) \/
  (~ passes_180 x0 x1 /\ crosses_dateline x0 x1 = 0%Z).
Proof.
  intros x0 x1 A B. unfold crosses_dateline. pose proof (sides x0 x1 A B) as S. pose proof (abs_big (x0 - x1)) as G.
  destruct (qlt 180 (Qabs (x0 - x1))) eqn:E.
  - apply qlt_t in E. specialize (S E). apply Z.eqb_neq in S. rewrite S. cbn [negb andb].
    destruct (qlt 180 (x1 - x0)) eqn:E2.
    + apply qlt_t in E2. left. split; [exact E2|reflexivity].
    + apply qlt_f in E2. right; left. split; [|reflexivity]. apply G in E. lra.
  - apply qlt_f in E. rewrite andb_false_r. right; right. split; [|reflexivity].
    intros [P|P]; assert (180 < Qabs (x0 - x1)); try (apply G; lra); lra.
Qed.
Lemma crosses_anti : forall x0 x1, crosses_dateline x1 x0 = (- crosses_dateline x0 x1)%Z.
Proof.
  intros x0 x1. unfold crosses_dateline. rewrite (Z.eqb_sym (fsign x1)).
  assert (Q : qlt 180 (Qabs (x1 - x0)) = qlt 180 (Qabs (x0 - x1))).
  { unfold qlt. f_equal. assert (E : Qabs (x1 - x0) == Qabs (x0 - x1)).
    { setoid_replace (x1 - x0) with (- (x0 - x1)) by ring. apply Qabs_opp. }
    rewrite E. reflexivity. }
  rewrite Q. destruct (negb (fsign x0 =? fsign x1)%Z && qlt 180 (Qabs (x0 - x1))) eqn:E; [|reflexivity].
  apply andb_prop in E. destruct E as [_ E]. apply qlt_t, abs_big in E.
  destruct (qlt 180 (x0 - x1)) eqn:E1; destruct (qlt 180 (x1 - x0)) eqn:E2; try reflexivity;
  (apply qlt_t in E1 || apply qlt_f in E1); (apply qlt_t in E2 || apply qlt_f in E2); exfalso; lra.
Qed.
Lemma geom_crosses : forall ss, (forall s, In s ss -> lon_ok (fst s) /\ lon_ok (snd s)) ->
  (geom_crosses_dateline ss = true <-> exists s, In s ss /\ passes_180 (fst s) (snd s)).
Proof.
  intros ss H. unfold geom_crosses_dateline. rewrite existsb_exists. split.
  - intros (s & I & E). exists s. split; [exact I|]. apply andb_prop in E. destruct E as [_ E].
    apply qlt_t, abs_big in E. unfold passes_180. lra.
  - intros (s & I & E). exists s. split; [exact I|]. destruct (H s I) as [A B].
    assert (L : 180 < Qabs (fst s - snd s)) by (apply abs_big; unfold passes_180 in E; lra).
    apply andb_true_intro. split; [|apply qlt_i, L]. apply negb_true_iff, Z.eqb_neq, sides; assumption.
Qed.

(* ---- polar polygons *)
Lemma chain_sum_app : forall {A} (f : A -> A -> Z) l a b m, chain_sum f a (l ++ b :: m) = (chain_sum f a (l ++ [b]) + chain_sum f b m)%Z.
Proof. intros A f l. induction l as [|c l IH]; intros a b m; cbn [app chain_sum]; [lia|]. rewrite IH. lia. Qed.
Definition passing (x0 x1 : Q) : Z := if Qlt_le_dec 180 (x0 - x1) then 1%Z else if Qlt_le_dec 180 (x1 - x0) then 1%Z else 0%Z.
Lemma passing_iff : forall a b, passing a b = 1%Z /\ passes_180 a b \/ passing a b = 0%Z /\ ~ passes_180 a b.
Proof.
  intros a b. unfold passing, passes_180. destruct (Qlt_le_dec 180 (a - b)); [left; split; [reflexivity|right; assumption]|].
  destruct (Qlt_le_dec 180 (b - a)); [left; split; [reflexivity|left; assumption]|right; split; [reflexivity|]].
  intros [|]; lra.
Qed.
Lemma chain_nonneg : forall {A} (f : A -> A -> Z) l a, (forall x y, (0 <= f x y)%Z) -> (0 <= chain_sum f a l)%Z.
Proof. intros A f l. induction l as [|b l IH]; intros a H; cbn [chain_sum]; [lia|]. specialize (IH b H). specialize (H a b). lia. Qed.
Lemma passing_mor : forall a b c d, a == b -> c == d -> passing a c = passing b d.
Proof.
  intros a b c d E F. unfold passing.
  destruct (Qlt_le_dec 180 (a - c)); destruct (Qlt_le_dec 180 (b - d)); destruct (Qlt_le_dec 180 (c - a)); destruct (Qlt_le_dec 180 (d - b)); try reflexivity; exfalso; lra.
Qed.
Lemma crosses_pass : forall a b, lon_ok a -> lon_ok b -> (negb (Z.eqb (crosses_dateline a b) 0) = true <-> passes_180 a b).
Proof.
  intros a b A B. destruct (crosses_spec a b A B) as [(P & ->)|[(P & ->)|(P & ->)]]; cbn; split; intros H;
  try reflexivity; try discriminate; try contradiction; [left|right]; exact P.
Qed.
Lemma angle_sum_spec : forall l m a s, Forall2 (fun x y => cong x y /\ lon_ok y) l m -> lon_ok a ->
  angle_sum a l s == s + (last m a - a) + 360 * inject_Z (chain_sum passing a m).
Proof.
  induction l as [|x l IH]; intros m a s F A; inversion F as [|? y ? m' [X Y] F']; subst.
  - cbn [angle_sum last chain_sum]. change (inject_Z 0) with 0. ring.
  - cbn [angle_sum chain_sum].
    assert (E : reduce_deg x == y) by (apply reduce_unique; [apply Y|apply Y|exact X]).
    assert (O : lon_ok (reduce_deg x)) by (unfold lon_ok in *; lra).
    assert (L : last (y :: m') a == last m' (reduce_deg x)).
    { destruct m' as [|z m']; [cbn; symmetry; exact E|]. cbn [last]. clear. revert z. induction m' as [|w m' IH]; intros z; [reflexivity|]. apply (IH w). }
    assert (P : passing a (reduce_deg x) = passing a y) by (apply passing_mor; [reflexivity|exact E]).
    assert (C : chain_sum passing (reduce_deg x) m' = chain_sum passing y m').
    { destruct m'; [reflexivity|]. cbn [chain_sum]. rewrite (passing_mor _ _ _ _ E (Qeq_refl q)). reflexivity. }
    rewrite (IH m' _ _ F' O), L, C, inject_Z_plus, <- P.
    pose proof (crosses_pass a (reduce_deg x) A O) as K.
    destruct (negb (crosses_dateline a (reduce_deg x) =? 0)%Z) eqn:CR.
    + assert (passing a (reduce_deg x) = 1%Z) as ->.
      { destruct (passing_iff a (reduce_deg x)) as [[Z _]|[_ Z]]; [exact Z|]. exfalso. apply Z, K. reflexivity. }
      change (inject_Z 1) with 1. ring.
    + assert (passing a (reduce_deg x) = 0%Z) as ->.
      { destruct (passing_iff a (reduce_deg x)) as [[_ Z]|[Z _]]; [|exact Z]. apply K in Z. discriminate. }
      change (inject_Z 0) with 0. ring.
Qed.
Lemma last_indep : forall (l : list Q) a b c, last (c :: l) a = last (c :: l) b.
Proof. intros l a b. induction l as [|d l IH]; intros c; [reflexivity|]. apply (IH d). Qed.
Lemma Forall2_last : forall (R : Q -> Q -> Prop) l m, Forall2 R l m -> forall a b, R a b -> R (last l a) (last m b).
Proof.
  intros R l m F. induction F as [|x y l m H F IH]; intros a b Hab; [exact Hab|].
  destruct F as [|x' y' l m H' F]; [exact H|]. apply (IH a b Hab).
Qed.
Lemma ring_total_last : forall (f : Q -> Q -> Z) l a, chain_sum f (last (a :: l) a) (a :: l) = ring_total f (a :: l).
Proof.
  intros f l a. unfold ring_total. destruct (exists_last (l := a :: l) ltac:(discriminate)) as (k & z & E).
  destruct k as [|b k].
  - injection E as -> ->. reflexivity.
  - injection E as <- E. rewrite E. change (a :: k ++ [z]) with ((a :: k) ++ [z]). rewrite last_last.
    cbn [app chain_sum]. rewrite <- app_assoc. cbn [app]. rewrite (chain_sum_app f k a z [a]). cbn [chain_sum]. lia.
Qed.
Lemma ispolar_total : forall l m, l <> [] -> Forall2 (fun x y => cong x y /\ lon_ok y) l m ->
  ispolar l = Ok (negb (Z.eqb (ring_total passing m) 0)).
Proof.
  intros l m N F. destruct l as [|x l]; [congruence|]. inversion F as [|? y ? m' XY F']; subst.
  unfold ispolar. f_equal.
  assert (L : cong (last (x :: l) x) (last (y :: m') y) /\ lon_ok (last (y :: m') y)).
  { apply (Forall2_last (fun x y => cong x y /\ lon_ok y)); assumption. }
  destruct L as [L1 L2].
  assert (E : reduce_deg (last (x :: l) x) == last (y :: m') y) by (apply reduce_unique; [apply L2|apply L2|exact L1]).
  set (a := reduce_deg (last (x :: l) x)) in *.
  assert (A : lon_ok a) by (unfold lon_ok in *; lra).
  assert (S : angle_sum a (x :: l) 0 == 360 * inject_Z (ring_total passing (y :: m'))).
  { rewrite (angle_sum_spec (x :: l) (y :: m') a 0 F A).
    rewrite (last_indep m' a y). rewrite <- E.
    rewrite <- ring_total_last. rewrite <- E || idtac.
    assert (C : chain_sum passing a (y :: m') = chain_sum passing (last (y :: m') y) (y :: m')).
    { cbn [chain_sum]. f_equal. apply passing_mor; [exact E|reflexivity]. }
    rewrite C. ring. }
  assert (NN : (0 <= ring_total passing (y :: m'))%Z).
  { apply chain_nonneg. intros u v. destruct (passing_iff u v) as [[-> _]|[-> _]]; lia. }
  set (n := ring_total passing (y :: m')) in *.
  destruct (Z.eqb_spec n 0) as [Z|Z].
  - cbn [negb]. apply qlt_n. rewrite S, Z. vm_compute. discriminate.
  - cbn [negb]. apply qlt_i. rewrite S.
    assert (1 <= inject_Z n) by (change 1 with (inject_Z 1); rewrite <- Zle_Qle; lia).
    rewrite Qabs_pos by lra. lra.
Qed.
(** Edges of a ring and sums over them. *)
Lemma chain_zero : forall {A} (f : A -> A -> Z) l a, (forall x y, (0 <= f x y)%Z) ->
  (chain_sum f a l = 0%Z <-> forall i x y, path_edge (a :: l) i x y -> f x y = 0%Z).
Proof.
  intros A f l. induction l as [|b l IH]; intros a H; cbn [chain_sum].
  - split; [|reflexivity]. intros _ i x y [_ E]. destruct i; discriminate.
  - pose proof (chain_nonneg f l b H) as P. pose proof (H a b) as Q. specialize (IH b H). split.
    + intros E i x y [X Y]. destruct i as [|i].
      * cbn in X, Y. injection X as <-. injection Y as <-. lia.
      * apply (proj1 IH ltac:(lia) i). split; assumption.
    + intros E. rewrite (proj2 IH).
      * rewrite (E 0%nat a b); [reflexivity|split; reflexivity].
      * intros i x y [X Y]. apply (E (S i)). split; assumption.
Qed.
Lemma ring_path : forall {A} (l : list A) v i x y, path_edge (v :: l ++ [v]) i x y <-> ring_edge (v :: l) i x y.
Proof.
  intros A l v i x y. unfold path_edge, ring_edge. cbn [length]. change (v :: l ++ [v]) with ((v :: l) ++ [v]). split.
  - intros [X Y]. assert (I : (S i < length ((v :: l) ++ [v]))%nat) by (apply nth_error_Some; congruence).
    rewrite app_length in I. cbn [length] in I. rewrite nth_error_app1 in X by (cbn [length]; lia). split; [exact X|].
    destruct (Nat.eqb_spec (S i) (S (length l))) as [E|E].
    + rewrite nth_error_app2 in Y by (cbn [length]; lia). rewrite E in Y. cbn [length] in Y. rewrite Nat.sub_diag in Y. exact Y.
    + rewrite nth_error_app1 in Y by (cbn [length]; lia). exact Y.
  - intros [X Y]. assert (I : (i < length (v :: l))%nat) by (apply nth_error_Some; congruence). cbn [length] in I.
    rewrite nth_error_app1 by (cbn [length]; lia). split; [exact X|].
    destruct (Nat.eqb_spec (S i) (S (length l))) as [E|E].
    + rewrite nth_error_app2 by (cbn [length]; lia). rewrite E. cbn [length]. rewrite Nat.sub_diag. exact Y.
    + rewrite nth_error_app1 by (cbn [length]; lia). exact Y.
Qed.
Lemma ring_total_zero : forall {A} (f : A -> A -> Z) l, (forall x y, (0 <= f x y)%Z) ->
  (ring_total f l = 0%Z <-> forall i x y, ring_edge l i x y -> f x y = 0%Z).
Proof.
  intros A f [|v l] H.
  - split; [|reflexivity]. intros _ i x y [X _]. destruct i; discriminate.
  - unfold ring_total. rewrite (chain_zero f _ v H). split; intros E i x y P; apply (E i), ring_path, P.
Qed.
Lemma ring_total_some : forall {A} (f : A -> A -> Z) l, (forall x y, (0 <= f x y)%Z) -> ring_total f l <> 0%Z ->
  exists i x y, ring_edge l i x y /\ f x y <> 0%Z.
Proof.
  intros A f [|v l] H N; [contradiction|]. unfold ring_total in N.
  assert (F : forall m a, chain_sum f a m <> 0%Z -> exists i x y, path_edge (a :: m) i x y /\ f x y <> 0%Z).
  { induction m as [|b m IH]; intros a K; cbn [chain_sum] in K; [lia|].
    destruct (Z.eq_dec (f a b) 0) as [E|E].
    - destruct (IH b ltac:(lia)) as (i & x & y & [X Y] & Z). exists (S i), x, y. split; [split; assumption|exact Z].
    - exists 0%nat, a, b. split; [split; reflexivity|exact E]. }
  destruct (F _ _ N) as (i & x & y & P & Z). exists i, x, y. split; [apply ring_path, P|exact Z].
Qed.
Lemma ispolar_spec : forall l m, l <> [] -> Forall2 (fun x y => cong x y /\ lon_ok y) l m ->
  exists b, ispolar l = Ok b /\ (b = true <-> exists i x y, ring_edge m i x y /\ passes_180 x y).
Proof.
  intros l m N F. eexists. split; [apply (ispolar_total l m N F)|].
  assert (P : forall x y, (0 <= passing x y)%Z) by (intros u v; destruct (passing_iff u v) as [[-> _]|[-> _]]; lia).
  rewrite negb_true_iff, Z.eqb_neq. split.
  - intros K. destruct (ring_total_some passing m P K) as (i & x & y & E & Z). exists i, x, y. split; [exact E|].
    destruct (passing_iff x y) as [[_ Q]|[Q _]]; [exact Q|contradiction].
  - intros (i & x & y & E & Q) K. pose proof (proj1 (ring_total_zero passing m P) K i x y E) as Z.
    destruct (passing_iff x y) as [[Q' _]|[_ Q']]; [congruence|contradiction].
Qed.
(** With edges passing in one direction only the answer is right. *)
Lemma chain_ext : forall {A} (f g : A -> A -> Z) l a, (forall i x y, path_edge (a :: l) i x y -> f x y = g x y) -> chain_sum f a l = chain_sum g a l.
Proof.
  intros A f g l. induction l as [|b l IH]; intros a H; cbn [chain_sum]; [reflexivity|].
  rewrite (H 0%nat a b) by (split; reflexivity). rewrite (IH b); [reflexivity|]. intros i x y [X Y]. apply (H (S i)). split; assumption.
Qed.
Lemma chain_opp : forall {A} (f : A -> A -> Z) l a, chain_sum (fun x y => - f x y)%Z a l = (- chain_sum f a l)%Z.
Proof. intros A f l. induction l as [|b l IH]; intros a; cbn [chain_sum]; [reflexivity|]. rewrite IH. lia. Qed.
Lemma ispolar_one_way : forall l m, l <> [] -> Forall2 (fun x y => cong x y /\ lon_ok y) l m ->
  (forall i x y, ring_edge m i x y -> (0 <= crossing x y)%Z) \/ (forall i x y, ring_edge m i x y -> (crossing x y <= 0)%Z) ->
  exists b, ispolar l = Ok b /\ (b = true <-> ring_total crossing m <> 0%Z).
Proof.
  intros l m N F H. eexists. split; [apply (ispolar_total l m N F)|]. rewrite negb_true_iff, Z.eqb_neq.
  assert (K : ring_total passing m = ring_total crossing m \/ ring_total passing m = (- ring_total crossing m)%Z).
  { destruct m as [|v m]; [left; reflexivity|]. unfold ring_total.
    destruct H as [H|H]; [left|right; rewrite <- chain_opp]; apply chain_ext; intros i x y P; apply ring_path in P; specialize (H i x y P);
    unfold passing, crossing in *; destruct (Qlt_le_dec 180 (x - y)); destruct (Qlt_le_dec 180 (y - x)); try reflexivity; lia. }
  destruct K as [-> | ->]; lia.
Qed.
(** A small polygon across the 180th meridian counts as polar. *)
Lemma ispolar_small : exists l, Forall lon_ok l /\ ispolar l = Ok true /\ ring_total crossing l = 0%Z.
Proof.
  exists [179; - (179); - (179); 179]. split; [repeat constructor; unfold lon_ok; lra|]. split; vm_compute; reflexivity.
Qed.

(* ---- contains_proj *)
Definition north (a0 a1 : Q) : Z := if Qlt_le_dec 180 (a0 - a1) then 1%Z else 0%Z.
Lemma az_sum_spec : forall az next v0 s,
  az_sum az (az360 az v0) next s == s + (az360 az (last next v0) - az360 az v0) +
  360 * inject_Z (chain_sum (fun v w => north (az360 az v) (az360 az w)) v0 next).
Proof.
  intros az next. induction next as [|v next IH]; intros v0 s.
  - cbn [az_sum last chain_sum]. change (inject_Z 0) with 0. ring.
  - cbn [az_sum chain_sum]. rewrite IH, inject_Z_plus.
    assert (L : last (v :: next) v0 = last next v).
    { destruct next as [|w next]; [reflexivity|]. cbn [last]. clear. revert w. induction next as [|u next IH]; intros w; [reflexivity|]. apply (IH u). }
    rewrite L. set (a0 := az360 az v0). set (a1 := az360 az v). unfold north at 2.
    destruct (Qlt_le_dec 180 (a0 - a1)) as [K|K].
    + rewrite qlt_i by lra. change (inject_Z 1) with 1. ring.
    + rewrite qlt_n by lra. rewrite qlt_n by lra. change (inject_Z 0) with 0. ring.
Qed.
Lemma contains_proj_spec : forall az l, l <> [] ->
  exists b, contains_proj az l true = Ok b /\
  (b = true <-> forall i v w, ring_edge l i v w -> az360 az v - az360 az w <= 180).
Proof.
  intros az l N. destruct l as [|v l]; [congruence|]. unfold contains_proj. eexists. split; [reflexivity|].
  set (f := fun v w => north (az360 az v) (az360 az w)).
  assert (P : forall x y, (0 <= f x y)%Z) by (intros x y; unfold f, north; destruct (Qlt_le_dec 180 (az360 az x - az360 az y)); lia).
  assert (S : az_sum az (az360 az v) (l ++ [v]) 0 == 360 * inject_Z (ring_total f (v :: l))).
  { rewrite az_sum_spec, last_last. unfold ring_total, f. ring. }
  pose proof (ring_total_zero f (v :: l) P) as Z.
  assert (NN : (0 <= ring_total f (v :: l))%Z) by (apply chain_nonneg, P).
  set (n := ring_total f (v :: l)) in *.
  assert (Q : negb (qlt (1 # 10000) (Qabs (az_sum az (az360 az v) (l ++ [v]) 0))) = true <-> n = 0%Z).
  { split.
    - intros H. destruct (Z.eq_dec n 0) as [E|E]; [exact E|]. exfalso.
      assert (1 <= inject_Z n) by (change 1 with (inject_Z 1); rewrite <- Zle_Qle; lia).
      rewrite qlt_i in H; [discriminate|]. rewrite S, Qabs_pos by lra. lra.
    - intros E. rewrite qlt_n; [reflexivity|]. rewrite S, E. vm_compute. discriminate. }
  rewrite Q, Z. split; intros H i x y E; specialize (H i x y E); unfold f, north in *;
  destruct (Qlt_le_dec 180 (az360 az x - az360 az y)) as [K|K]; try exact K; try reflexivity; try discriminate; lra.
Qed.
Lemma az360_id : forall az v, 0 <= az v -> az v < 360 -> az360 az v == az v.
Proof.
  intros az v A B. unfold az360. change (unroll_deg (az v + 360) == az v). apply unroll_unique; [exact A|exact B|].
  exists 1%Z. change (inject_Z 1) with 1. ring.
Qed.
