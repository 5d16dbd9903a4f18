(** The bisection finds the bottom of a valley. *)
From Coq Require Import List Reals Bool Arith Lra Lia.
From Verif Require Geom_Model.
From Verif Require Import GeomR_Model Arc_Model Arc_Spec.
Import ListNotations.
Open Scope R_scope.

Section Valley.
Context (D : R -> R) (L d : R).
Hypothesis HL : 0 <= L.
Hypothesis Hd : d = / 10000000 * L.
Let grad f := (D (f + d) - D f) / d.

Lemma grad_pos : forall f, 0 < grad f <-> D f < D (f + d).
Proof.
  intros f. unfold grad. destruct (Req_dec d 0) as [Z|Z].
  - rewrite Z, Rplus_0_r. split; intros H; [|lra]. unfold Rdiv in H. replace (D f - D f) with 0 in H by ring. lra.
  - assert (P : 0 < d) by lra. split; intros H.
    + apply Rnot_le_lt. intros N. assert (Q : (D (f + d) - D f) / d <= 0); [|lra].
      unfold Rdiv. rewrite <- (Rmult_0_l (/ d)). apply Rmult_le_compat_r; [left; apply Rinv_0_lt_compat; exact P | lra].
    + apply Rdiv_lt_0_compat; lra.
Qed.
Lemma grad_neg : forall f, grad f < 0 <-> D (f + d) < D f.
Proof.
  intros f. unfold grad. destruct (Req_dec d 0) as [Z|Z].
  - rewrite Z, Rplus_0_r. split; intros H; [|lra]. unfold Rdiv in H. replace (D f - D f) with 0 in H by ring. lra.
  - assert (P : 0 < d) by lra. split; intros H.
    + apply Rnot_le_lt. intros N. assert (Q : 0 <= (D (f + d) - D f) / d); [|lra].
      unfold Rdiv. apply Rmult_le_pos; [lra | left; apply Rinv_0_lt_compat; exact P].
    + replace ((D (f + d) - D f) / d) with (- ((D f - D (f + d)) / d)) by (field; exact Z).
      assert (0 < (D f - D (f + d)) / d) by (apply Rdiv_lt_0_compat; lra). lra.
Qed.

Lemma bisect_total : forall n g tol x0 x1 xm dx, 0 < tol -> x0 <= x1 -> (x1 - x0) * L <= tol * 2 ^ n -> (dx <= (x1 - x0) * L \/ (0 < n)%nat) ->
  exists y, bisect g L tol n x0 x1 xm dx = Some y.
Proof.
  intros n. induction n as [|n IH]; intros g tol x0 x1 xm dx T X W E; cbn [bisect].
  - cbn [pow] in W. destruct (Rlt_dec tol dx) as [C|C]; [|eexists; reflexivity]. destruct E as [E|E]; [lra | lia].
  - destruct (Rlt_dec tol dx) as [C|C]; [|eexists; reflexivity]. cbn zeta. cbn [pow] in W.
    assert (W2 : (x1 - x0) / 2 * L <= tol * 2 ^ n) by lra.
    destruct (Rlt_dec 0 (g (5 / 10 * (x0 + x1) * L))) as [G|G].
    + rewrite Rabs_pos_eq by lra. apply IH; [exact T | lra | replace (5 / 10 * (x0 + x1) - x0) with ((x1 - x0) / 2) by field; exact W2 |].
      left. right. f_equal. field.
    + rewrite Rabs_left1 by lra. apply IH; [exact T | lra | replace (x1 - 5 / 10 * (x0 + x1)) with ((x1 - x0) / 2) by field; exact W2 |].
      left. right. f_equal. field.
Qed.

Lemma bisect_range : forall n g tol x0 x1 xm dx y, 0 <= x0 <= 1 -> 0 <= x1 <= 1 -> 0 <= xm <= 1 ->
  bisect g L tol n x0 x1 xm dx = Some y -> 0 <= y <= 1.
Proof.
  intros n. induction n as [|n IH]; intros g tol x0 x1 xm dx y X0 X1 Xm E; cbn [bisect] in E;
    (destruct (Rlt_dec tol dx) as [C|C]; [|injection E as <-; exact Xm]).
  - discriminate.
  - cbn zeta in E. destruct (Rlt_dec 0 (g (5 / 10 * (x0 + x1) * L))) as [G|G]; apply IH in E; lra.
Qed.

Context (m : R).
Hypothesis Mr : 0 <= m <= L + d.
Hypothesis Down : forall s t, 0 <= s -> s <= t -> t <= m -> D t <= D s.
Hypothesis Up : forall s t, m <= s -> s < t -> t <= L + d -> D s < D t.

Lemma rising : forall f, 0 <= f <= L -> D f < D (f + d) -> m <= f + d.
Proof. intros f F H. apply Rnot_lt_le. intros N. pose proof (Down f (f + d) ltac:(lra) ltac:(lra) ltac:(lra)). lra. Qed.
Lemma falling : forall f, 0 <= f <= L -> D (f + d) <= D f -> f <= m.
Proof.
  intros f F H. apply Rnot_lt_le. intros N. destruct (Req_dec d 0) as [Z|Z]; [lra|].
  pose proof (Up f (f + d) ltac:(lra) ltac:(lra) ltac:(lra)). lra.
Qed.
Lemma bisect_valley : forall n tol x0 x1 xm dx y, 0 <= x0 -> x0 <= x1 -> x1 <= 1 -> x0 * L <= m -> m <= x1 * L + d ->
  (dx <= tol -> (xm = x0 \/ xm = x1) /\ (x1 - x0) * L <= dx) ->
  bisect grad L tol n x0 x1 xm dx = Some y -> 0 <= y <= 1 /\ Rabs (y * L - m) <= tol + d.
Proof.
  intros n. induction n as [|n IH]; intros tol x0 x1 xm dx y X0 X X1 M0 M1 I E; cbn [bisect] in E.
  - destruct (Rlt_dec tol dx) as [C|C]; [discriminate|]. injection E as <-. assert (0 <= d) by lra. assert (x0 * L <= x1 * L) by (apply Rmult_le_compat_r; lra). destruct (I ltac:(lra)) as [[-> | ->] W]; (split; [lra|]); apply Rabs_le; lra.
  - destruct (Rlt_dec tol dx) as [C|C].
    + cbn zeta in E. set (k := 5 / 10 * (x0 + x1)) in *.
      assert (K : k * L = (x0 * L + x1 * L) / 2) by (unfold k; field).
      assert (0 <= x0 * L) by (apply Rmult_le_pos; lra).
      assert (x0 * L <= x1 * L) by (apply Rmult_le_compat_r; lra).
      assert (x1 * L <= L) by (rewrite <- (Rmult_1_l L) at 2; apply Rmult_le_compat_r; lra).
      destruct (Rlt_dec 0 (grad (k * L))) as [G|G].
      * apply grad_pos in G. apply (IH tol x0 k k (Rabs (x1 - k) * L) y); try (unfold k; lra); [apply rising; [lra | exact G] | | exact E].
        intros _. split; [right; reflexivity|]. rewrite Rabs_pos_eq by (unfold k; lra). right. f_equal. unfold k. field.
      * assert (G' : D (k * L + d) <= D (k * L)) by (apply Rnot_lt_le; intros N; apply G; apply grad_pos; exact N).
        apply (IH tol k x1 k (Rabs (x0 - k) * L) y); try (unfold k; lra); [apply falling; [lra | exact G'] | | exact E].
        intros _. split; [left; reflexivity|]. rewrite Rabs_left1 by (unfold k; lra). right. f_equal. unfold k. field.
    + injection E as <-. assert (0 <= d) by lra. assert (x0 * L <= x1 * L) by (apply Rmult_le_compat_r; lra). destruct (I ltac:(lra)) as [[-> | ->] W]; (split; [lra|]); apply Rabs_le; lra.
Qed.
End Valley.

Section Near.
Context (fwd inv : R -> R -> R -> R -> R * R * R).
Lemma along_eq : forall pt e0 az f, along_distance fwd inv (fst e0) (snd e0) (fst pt) (snd pt) az f = distance_along fwd inv pt e0 az f.
Proof.
  intros pt e0 az f. unfold along_distance, distance_along. destruct (fwd (fst e0) (snd e0) az f) as [[tx ty] b]. cbn [fst snd].
  destruct (inv tx ty (fst pt) (snd pt)) as [[a b'] d]. reflexivity.
Qed.
Definition reached (q : rpt) (e0 e1 : rpt) (az L f : R) : Prop :=
  q = e0 /\ f = 0 \/ q = e1 /\ f = L \/ q = fst (fwd (fst e0) (snd e0) az f).

Lemma unfold_near : forall pt e0 e1 tol n az baz L, inv (fst e0) (snd e0) (fst e1) (snd e1) = (az, baz, L) ->
  let D := distance_along fwd inv pt e0 az in
  let g := fun f => (D (f + / 10000000 * L) - D f) / (/ 10000000 * L) in
  pt_nearest_proj fwd inv pt e0 e1 tol n =
    if Rlt_dec 0 (g 0) then Found e0 (D 0) else if Rlt_dec (g L) 0 then Found e1 (D L)
    else match bisect g L tol n 0 1 0 (tol + 1) with
         | None => ConvergenceError
         | Some xm => Found (fst (fwd (fst e0) (snd e0) az (xm * L))) (D (xm * L))
         end.
Proof.
  intros pt e0 e1 tol n az baz L E D g. unfold pt_nearest_proj. rewrite E.
  assert (G : forall f, along_gradient fwd inv (fst e0) (snd e0) (fst pt) (snd pt) az f (/ 10000000 * L) = g f).
  { intros f. unfold along_gradient, g, D. rewrite !along_eq. reflexivity. }
  rewrite !G. destruct (Rlt_dec 0 (g 0)); [rewrite along_eq; reflexivity|]. destruct (Rlt_dec (g L) 0); [rewrite along_eq; reflexivity|].
  assert (B : forall k x0 x1 xm dx,
    bisect (fun f => along_gradient fwd inv (fst e0) (snd e0) (fst pt) (snd pt) az f (/ 10000000 * L)) L tol k x0 x1 xm dx = bisect g L tol k x0 x1 xm dx).
  { intros k. induction k as [|k IH]; intros x0 x1 xm dx; cbn [bisect]; [reflexivity|]. destruct (Rlt_dec tol dx); [|reflexivity]. cbn zeta. rewrite G.
    destruct (Rlt_dec 0 (g (5 / 10 * (x0 + x1) * L))); apply IH. }
  rewrite B. destruct (bisect g L tol n 0 1 0 (tol + 1)) as [xm|]; [|reflexivity].
  destruct (fwd (fst e0) (snd e0) az (xm * L)) as [[xn yn] b]. rewrite along_eq. reflexivity.
Qed.

Lemma near_total : forall pt e0 e1 tol n az baz L, inv (fst e0) (snd e0) (fst e1) (snd e1) = (az, baz, L) ->
  0 <= L -> 0 < tol -> (0 < n)%nat -> L <= tol * 2 ^ n ->
  exists q d f, pt_nearest_proj fwd inv pt e0 e1 tol n = Found q d /\ 0 <= f <= L /\ d = distance_along fwd inv pt e0 az f /\ reached q e0 e1 az L f.
Proof.
  intros pt e0 e1 tol n az baz L E HL T N W. rewrite (unfold_near _ _ _ _ _ _ _ _ E). cbn zeta.
  set (D := distance_along fwd inv pt e0 az).
  match goal with |- context [Rlt_dec 0 ?x] => destruct (Rlt_dec 0 x) as [A|A] end.
  { exists e0, (D 0), 0. split; [reflexivity|]. split; [lra|]. split; [reflexivity|]. left. split; reflexivity. }
  match goal with |- context [Rlt_dec ?x 0] => destruct (Rlt_dec x 0) as [B|B] end.
  { exists e1, (D L), L. split; [reflexivity|]. split; [lra|]. split; [reflexivity|]. right. left. split; reflexivity. }
  match goal with |- context [bisect ?g L tol n 0 1 0 (tol + 1)] => destruct (bisect_total L n g tol 0 1 0 (tol + 1) T ltac:(lra) ltac:(lra) (or_intror N)) as [y Y] end.
  rewrite Y. apply bisect_range in Y; try lra.
  assert (0 <= y * L) by (apply Rmult_le_pos; lra).
  assert (y * L <= L) by (rewrite <- (Rmult_1_l L) at 2; apply Rmult_le_compat_r; lra).
  exists (fst (fwd (fst e0) (snd e0) az (y * L))), (D (y * L)), (y * L). split; [reflexivity|]. split; [lra|]. split; [reflexivity|]. right. right. reflexivity.
Qed.

Lemma near_ok : forall pt e0 e1 tol n az baz L, inv (fst e0) (snd e0) (fst e1) (snd e1) = (az, baz, L) ->
  0 <= L -> 0 < tol -> (0 < n)%nat -> L <= tol * 2 ^ n ->
  let D := distance_along fwd inv pt e0 az in
  one_valley D (L + / 10000000 * L) -> lipschitz D (L + / 10000000 * L) ->
  exists q d f, pt_nearest_proj fwd inv pt e0 e1 tol n = Found q d /\ 0 <= f <= L /\ d = D f /\ reached q e0 e1 az L f /\
    forall s, 0 <= s <= L -> d <= D s + (tol + / 10000000 * L).
Proof.
  intros pt e0 e1 tol n az baz L E HL T N W D [m [Mr [Down Up]]] Lip.
  rewrite (unfold_near _ _ _ _ _ _ _ _ E). cbn zeta. fold D. set (d := / 10000000 * L) in *.
  assert (Hd : 0 <= d) by (unfold d; lra).
  assert (Low : forall s, 0 <= s <= L -> D m <= D s).
  { intros s S. destruct (Rle_dec s m) as [M|M]; [apply Down; lra | left; apply Up; lra]. }
  assert (Close : forall f s, 0 <= f <= L -> 0 <= s <= L -> Rabs (f - m) <= tol + d -> D f <= D s + (tol + d)).
  { intros f s F S A. pose proof (Low s S). assert (Rabs (D f - D m) <= Rabs (f - m)).
    { destruct (Rle_dec f m) as [M|M].
      - pose proof (Lip f m ltac:(lra) M ltac:(lra)). rewrite (Rabs_minus_sym (D f)), (Rabs_minus_sym f m), (Rabs_pos_eq (m - f)) by lra. exact H0.
      - pose proof (Lip m f ltac:(lra) ltac:(lra) ltac:(lra)). rewrite (Rabs_pos_eq (f - m)) by lra. exact H0. }
    pose proof (Rle_abs (D f - D m)). lra. }
  destruct (Rlt_dec 0 ((D (0 + d) - D 0) / d)) as [A|A].
  { apply (grad_pos D L d HL eq_refl) in A. pose proof (rising D L d HL eq_refl m Down 0 ltac:(lra) A).
    exists e0, (D 0), 0. split; [reflexivity|]. split; [lra|]. split; [reflexivity|]. split; [left; split; reflexivity|].
    intros s S. apply Close; [lra | exact S | apply Rabs_le; lra]. }
  destruct (Rlt_dec ((D (L + d) - D L) / d) 0) as [B|B].
  { apply (grad_neg D L d HL eq_refl) in B. pose proof (falling D L d eq_refl m Mr Up L ltac:(lra) ltac:(lra)).
    exists e1, (D L), L. split; [reflexivity|]. split; [lra|]. split; [reflexivity|]. split; [right; left; split; reflexivity|].
    intros s S. apply Close; [lra | exact S | apply Rabs_le; lra]. }
  match goal with |- context [bisect ?g L tol n 0 1 0 (tol + 1)] => destruct (bisect_total L n g tol 0 1 0 (tol + 1) T ltac:(lra) ltac:(lra) (or_intror N)) as [y Y] end.
  rewrite Y. apply (bisect_valley D L d HL eq_refl m Mr Down Up) in Y; try lra. destruct Y as [Yr Ya].
  assert (0 <= y * L) by (apply Rmult_le_pos; lra).
  assert (y * L <= L) by (rewrite <- (Rmult_1_l L) at 2; apply Rmult_le_compat_r; lra).
  exists (fst (fwd (fst e0) (snd e0) az (y * L))), (D (y * L)), (y * L). split; [reflexivity|]. split; [lra|]. split; [reflexivity|]. split; [right; right; reflexivity|].
  intros s S. apply Close; [lra | exact S | exact Ya].
Qed.
End Near.
