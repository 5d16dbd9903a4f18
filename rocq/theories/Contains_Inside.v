(** A point that a ring winds round and that is on no edge is strictly inside the bounding box. *)
From Coq Require Import List ZArith QArith Bool Lia Lqa.
From Verif Require Import Geom_Model Geom_Spec Inter_Model Inter_Spec Inter_Proofs Contains_Model Contains_Spec Contains_Proofs Contains_Winding.
Import ListNotations.
Open Scope Q_scope.

Lemma loop_telescope p (g : pt -> Z) next : forall a cnt,
  (forall x y, In (x, y) (consecutive (a :: next)) -> edge_count p x y = (g y - g x)%Z) ->
  count_loop p a next cnt = (cnt + g (last next a) - g a)%Z.
Proof.
  induction next as [| b next IH]; intros a cnt H; [cbn; lia |].
  change (consecutive (a :: b :: next)) with ((a, b) :: consecutive (b :: next)) in H. cbn [count_loop].
  rewrite IH by (intros x y I; apply H; right; exact I). rewrite (H a b (or_introl eq_refl)).
  replace (last (b :: next) a) with (last next b); [lia |].
  destruct next as [| c l]; [reflexivity |]. change (last (c :: l) b = last (c :: l) a).
  clear. revert c. induction l as [| d l IH]; intros c; [reflexivity |]. apply (IH d).
Qed.
Lemma ring_telescope p (g : pt -> Z) l :
  (forall a b, edge_of l true (a, b) -> edge_count p a b = (g b - g a)%Z) -> count p l = 0%Z.
Proof.
  intros H. destruct l as [| v l]; [reflexivity |]. unfold count.
  rewrite (loop_telescope p g); [rewrite last_last; lia |]. intros x y I. apply H, edges_spec. exact I.
Qed.
Lemma edge_ends (l : list pt) a b : edge_of l true (a, b) -> In a l /\ In b l.
Proof.
  intros (i & [[A B] | (_ & _ & A & B)]); cbn [fst snd] in *; split; eapply nth_error_In; eassumption.
Qed.
Lemma qlt_iff a b : qlt a b = true <-> a < b.
Proof.
  unfold qlt. rewrite negb_true_iff. split.
  - intros H. apply Qnot_le_lt. intros K. apply Qle_bool_iff in K. congruence.
  - intros H. destruct (Qle_bool b a) eqn:E; [| reflexivity]. apply Qle_bool_iff in E. lra.
Qed.
Lemma qlt_false a b : qlt a b = false <-> b <= a.
Proof. unfold qlt. rewrite negb_false_iff. apply Qle_bool_iff. Qed.
(** The place where an edge crosses the level of the point. *)
Lemma crossing_at px py ax ay bx b_y : ~ ay == b_y -> (ay <= py <= b_y \/ b_y <= py <= ay) ->
  (bx - ax) * (py - ay) - (px - ax) * (b_y - ay) == 0 -> on_seg ((ax, ay), (bx, b_y)) (px, py).
Proof.
  intros N R E. assert (NZ : ~ b_y - ay == 0) by lra. exists ((py - ay) / (b_y - ay)). split.
  - destruct R as [R | R].
    + split; [apply Qle_shift_div_l; lra | apply Qle_shift_div_r; lra].
    + assert (X : (py - ay) / (b_y - ay) == (ay - py) / (ay - b_y)) by (field; split; lra). rewrite X.
      split; [apply Qle_shift_div_l; lra | apply Qle_shift_div_r; lra].
  - cbn [fst snd along]. split.
    + unfold along. cbn [fst snd]. apply (Qmult_inj_r _ _ (b_y - ay) NZ).
      transitivity (ax * (b_y - ay) + (py - ay) * (bx - ax)); [lra | field; exact NZ].
    + unfold along. cbn [fst snd]. field. exact NZ.
Qed.
(** Whether a vertex is above the level of the point (proof device, contains.pyx:32-39). *)
Definition above (p q : pt) : Z := if qlt (snd p) (snd q) then 1%Z else 0%Z.
Lemma left_side p l : off p l -> (forall q, In q l -> fst p <= fst q) -> count p l = 0%Z.
Proof.
  intros O L. apply (ring_telescope p (above p)). intros a b E. pose proof (O _ E) as N. apply edge_ends in E as [A B].
  apply L in A. apply L in B. destruct p as [px py], a as [ax ay], b as [bx b_y]. unfold edge_count, above, isleft. cbn [fst snd] in *.
  destruct (qlt py ay) eqn:UA, (qlt py b_y) eqn:UB;
    (apply qlt_iff in UA || apply qlt_false in UA); (apply qlt_iff in UB || apply qlt_false in UB).
  - replace (Qle_bool ay py) with false by (symmetry; apply not_true_iff_false; rewrite Qle_bool_iff; lra).
    replace (Qle_bool b_y py) with false by (symmetry; apply not_true_iff_false; rewrite Qle_bool_iff; lra). reflexivity.
  - replace (Qle_bool ay py) with false by (symmetry; apply not_true_iff_false; rewrite Qle_bool_iff; lra).
    replace (Qle_bool b_y py) with true by (symmetry; apply Qle_bool_iff; lra). cbn [andb].
    destruct (qlt _ 0) eqn:K; [reflexivity |]. apply qlt_false in K. destruct N. apply crossing_at; [lra | lra |].
    assert (0 <= (ax - px) * (py - b_y)) by (apply Qmult_le_0_compat; lra).
    assert (0 <= (bx - px) * (ay - py)) by (apply Qmult_le_0_compat; lra). lra.
  - replace (Qle_bool ay py) with true by (symmetry; apply Qle_bool_iff; lra). cbn [andb].
    destruct (qlt 0 _) eqn:K; [reflexivity |]. apply qlt_false in K. destruct N. apply crossing_at; [lra | lra |].
    assert (0 <= (ax - px) * (b_y - py)) by (apply Qmult_le_0_compat; lra).
    assert (0 <= (bx - px) * (py - ay)) by (apply Qmult_le_0_compat; lra). lra.
  - replace (Qle_bool ay py) with true by (symmetry; apply Qle_bool_iff; lra). reflexivity.
Qed.
(** Whether a vertex is at the level of the point and right of it (proof device, contains.pyx:32-39). *)
Definition right_on (p q : pt) : Z := if qlt (snd p) (snd q) then 0%Z else if qlt (fst p) (fst q) then (-1)%Z else 0%Z.
Lemma level_off px py ax ay bx b_y : ay == py -> b_y == py -> ax <= px <= bx \/ bx <= px <= ax ->
  on_seg ((ax, ay), (bx, b_y)) (px, py).
Proof.
  intros EA EB R. destruct (Qeq_dec ax bx) as [X | X].
  - exists 0. split; [lra |]. split; unfold along; cbn [fst snd]; lra.
  - assert (NZ : ~ bx - ax == 0) by lra. exists ((px - ax) / (bx - ax)). split.
    + destruct R as [R | R].
      * split; [apply Qle_shift_div_l; lra | apply Qle_shift_div_r; lra].
      * assert (Y : (px - ax) / (bx - ax) == (ax - px) / (ax - bx)) by (field; split; lra). rewrite Y.
        split; [apply Qle_shift_div_l; lra | apply Qle_shift_div_r; lra].
    + split; unfold along; cbn [fst snd]; [field; exact NZ |]. rewrite EA, EB. ring.
Qed.
Lemma lower_side p l : off p l -> (forall q, In q l -> snd p <= snd q) -> count p l = 0%Z.
Proof.
  intros O L. apply (ring_telescope p (right_on p)). intros a b E. pose proof (O _ E) as N. apply edge_ends in E as [A B].
  apply L in A. apply L in B. destruct p as [px py], a as [ax ay], b as [bx b_y]. unfold edge_count, right_on, isleft. cbn [fst snd] in *.
  destruct (qlt py ay) eqn:UA, (qlt py b_y) eqn:UB;
    (apply qlt_iff in UA || apply qlt_false in UA); (apply qlt_iff in UB || apply qlt_false in UB).
  - replace (Qle_bool ay py) with false by (symmetry; apply not_true_iff_false; rewrite Qle_bool_iff; lra).
    replace (Qle_bool b_y py) with false by (symmetry; apply not_true_iff_false; rewrite Qle_bool_iff; lra). reflexivity.
  - replace (Qle_bool ay py) with false by (symmetry; apply not_true_iff_false; rewrite Qle_bool_iff; lra).
    replace (Qle_bool b_y py) with true by (symmetry; apply Qle_bool_iff; lra). cbn [andb].
    assert (EB : b_y == py) by lra. replace (qlt _ 0) with (qlt px bx); [destruct (qlt px bx); reflexivity |].
    apply eq_iff_eq_true. rewrite !qlt_iff. rewrite EB. split; nra.
  - replace (Qle_bool ay py) with true by (symmetry; apply Qle_bool_iff; lra). cbn [andb].
    assert (EA : ay == py) by lra. replace (qlt 0 _) with (qlt px ax); [destruct (qlt px ax); reflexivity |].
    apply eq_iff_eq_true. rewrite !qlt_iff. rewrite EA. split; nra.
  - replace (Qle_bool ay py) with true by (symmetry; apply Qle_bool_iff; lra). cbn [andb].
    destruct (qlt px ax) eqn:XA, (qlt px bx) eqn:XB; try reflexivity; destruct N;
      (apply qlt_iff in XA || apply qlt_false in XA); (apply qlt_iff in XB || apply qlt_false in XB); apply level_off; lra.
Qed.
(** All vertices on one side of a line through the point. *)
Lemma half_plane al be p l : off p l -> ~ (al == 0 /\ be == 0) ->
  (forall q, In q l -> al * fst p + be * snd p <= al * fst q + be * snd q) -> count p l = 0%Z.
Proof.
  intros O N L. destruct (Q_dec al 0) as [[AL | AL] | AL].
  - apply (ring_telescope p (fun _ => 0%Z)). intros a b E. apply edge_ends in E as [A B]. apply L in A. apply L in B.
    destruct p as [px py], a as [ax ay], b as [bx b_y]. unfold edge_count, isleft. cbn [fst snd] in *.
    destruct (Qle_bool ay py && qlt py b_y) eqn:U.
    + apply andb_true_iff in U as [U1 U2]. apply Qle_bool_iff in U1. apply qlt_iff in U2.
      destruct (qlt 0 _) eqn:K; [exfalso | reflexivity]. apply qlt_iff in K.
      assert (0 <= (b_y - py) * (al * ax + be * ay - (al * px + be * py))) by (apply Qmult_le_0_compat; lra).
      assert (0 <= (py - ay) * (al * bx + be * b_y - (al * px + be * py))) by (apply Qmult_le_0_compat; lra).
      assert (0 < (0 - al) * ((bx - ax) * (py - ay) - (px - ax) * (b_y - ay))) by (apply Qmult_lt_0_compat; lra). lra.
    + destruct (qlt py ay && Qle_bool b_y py) eqn:V; [| reflexivity]. apply andb_true_iff in V as [V1 V2]. apply qlt_iff in V1. apply Qle_bool_iff in V2.
      destruct (qlt _ 0) eqn:K; [exfalso | reflexivity]. apply qlt_iff in K.
      assert (0 <= (py - b_y) * (al * ax + be * ay - (al * px + be * py))) by (apply Qmult_le_0_compat; lra).
      assert (0 <= (ay - py) * (al * bx + be * b_y - (al * px + be * py))) by (apply Qmult_le_0_compat; lra).
      assert (0 < (0 - al) * (0 - ((bx - ax) * (py - ay) - (px - ax) * (b_y - ay)))) by (apply Qmult_lt_0_compat; lra). lra.
  - apply (ring_telescope p (above p)). intros a b E. pose proof (O _ E) as NO. apply edge_ends in E as [A B].
    apply L in A. apply L in B. destruct p as [px py], a as [ax ay], b as [bx b_y]. unfold edge_count, above, isleft. cbn [fst snd] in *.
    destruct (qlt py ay) eqn:UA, (qlt py b_y) eqn:UB;
      (apply qlt_iff in UA || apply qlt_false in UA); (apply qlt_iff in UB || apply qlt_false in UB).
    + replace (Qle_bool ay py) with false by (symmetry; apply not_true_iff_false; rewrite Qle_bool_iff; lra).
      replace (Qle_bool b_y py) with false by (symmetry; apply not_true_iff_false; rewrite Qle_bool_iff; lra). reflexivity.
    + replace (Qle_bool ay py) with false by (symmetry; apply not_true_iff_false; rewrite Qle_bool_iff; lra).
      replace (Qle_bool b_y py) with true by (symmetry; apply Qle_bool_iff; lra). cbn [andb].
      destruct (qlt _ 0) eqn:K; [reflexivity |]. apply qlt_false in K. destruct NO. apply crossing_at; [lra | lra |].
      assert (0 <= (py - b_y) * (al * ax + be * ay - (al * px + be * py))) by (apply Qmult_le_0_compat; lra).
      assert (0 <= (ay - py) * (al * bx + be * b_y - (al * px + be * py))) by (apply Qmult_le_0_compat; lra).
      destruct (Q_dec ((bx - ax) * (py - ay) - (px - ax) * (b_y - ay)) 0) as [[Z | Z] | Z]; [exfalso; lra | exfalso | exact Z].
      assert (0 < al * ((bx - ax) * (py - ay) - (px - ax) * (b_y - ay))) by (apply Qmult_lt_0_compat; lra). lra.
    + replace (Qle_bool ay py) with true by (symmetry; apply Qle_bool_iff; lra). cbn [andb].
      destruct (qlt 0 _) eqn:K; [reflexivity |]. apply qlt_false in K. destruct NO. apply crossing_at; [lra | lra |].
      assert (0 <= (b_y - py) * (al * ax + be * ay - (al * px + be * py))) by (apply Qmult_le_0_compat; lra).
      assert (0 <= (py - ay) * (al * bx + be * b_y - (al * px + be * py))) by (apply Qmult_le_0_compat; lra).
      destruct (Q_dec ((bx - ax) * (py - ay) - (px - ax) * (b_y - ay)) 0) as [[Z | Z] | Z]; [exfalso | exfalso; lra | exact Z].
      assert (0 < al * (0 - ((bx - ax) * (py - ay) - (px - ax) * (b_y - ay)))) by (apply Qmult_lt_0_compat; lra). lra.
    + replace (Qle_bool ay py) with true by (symmetry; apply Qle_bool_iff; lra). reflexivity.
  - destruct (Q_dec be 0) as [[BE | BE] | BE]; [| | destruct N; split; assumption].
    + apply count_outside. left. intros q I. apply L in I. rewrite AL in I. destruct (Qlt_le_dec (snd p) (snd q)); [| assumption].
      assert (0 < (0 - be) * (snd q - snd p)) by (apply Qmult_lt_0_compat; lra). lra.
    + apply lower_side; [exact O |]. intros q I. apply L in I. rewrite AL in I. destruct (Qlt_le_dec (snd q) (snd p)); [| assumption].
      assert (0 < be * (snd p - snd q)) by (apply Qmult_lt_0_compat; lra). lra.
Qed.
Lemma count_inside p l x0 y0 x1 y1 : off p l -> tight_box x0 y0 x1 y1 l -> count p l <> 0%Z -> x0 < fst p < x1 /\ y0 < snd p < y1.
Proof.
  intros O (T & _) H.
  destruct (Qlt_le_dec x0 (fst p)) as [K1 | K1]; [| destruct H; apply left_side; [exact O |]; intros q I; destruct (T q I); lra].
  destruct (Qlt_le_dec y0 (snd p)) as [K2 | K2]; [| destruct H; apply lower_side; [exact O |]; intros q I; destruct (T q I); lra].
  destruct (Qlt_le_dec (snd p) y1) as [K3 | K3]; [| destruct H; apply count_outside; left; intros q I; destruct (T q I); lra].
  destruct (Qlt_le_dec (fst p) x1) as [K4 | K4]; [| destruct H; apply count_outside; right; right; left; intros q I; destruct (T q I); lra].
  split; split; assumption.
Qed.
Lemma contains_inside (P D C : Type) (g : geom P D C) p x0 y0 x1 y1 : off_edges P D C p g ->
  tight_box x0 y0 x1 y1 (xys (gverts P D C g)) -> contains P D C g p = Ok true -> x0 < fst p < x1 /\ y0 < snd p < y1.
Proof.
  intros O T H. apply contains_true_outer in H. eapply count_inside; [| exact T | exact H].
  destruct g as [k v r subs pr d c]. exact (proj1 O).
Qed.
Lemma contains_both_sides (P D C : Type) (g : geom P D C) p al be : off_edges P D C p g -> ~ (al == 0 /\ be == 0) ->
  contains P D C g p = Ok true -> exists q, In q (xys (gverts P D C g)) /\ al * fst q + be * snd q < al * fst p + be * snd p.
Proof.
  intros O N H. apply contains_true_outer in H.
  assert (O' : off p (xys (gverts P D C g))) by (destruct g as [k v r subs pr d c]; exact (proj1 O)).
  destruct (Exists_dec (fun q => al * fst q + be * snd q < al * fst p + be * snd p) (xys (gverts P D C g))) as [X | X].
  - intros q. destruct (Qlt_le_dec (al * fst q + be * snd q) (al * fst p + be * snd p)) as [K | K]; [left; exact K | right; lra].
  - apply Exists_exists in X. exact X.
  - destruct H. apply (half_plane al be); [exact O' | exact N |]. intros q I. apply Qnot_lt_le. intros K. apply X, Exists_exists. exists q. auto.
Qed.
(** Polygons as the constructor makes them. *)
Lemma made_contains (P D C : Type) (v : verts) (subs : list (geom P D C)) pr c p :
  Forall (rings P D C) subs -> off p (xys v) -> Forall (off_edges P D C p) subs ->
  exists b, contains P D C (make_polygon P D C v subs pr c) p = Ok b /\
  (b = true <-> (exists w, winding p (xys v) w /\ w <> 0%Z) /\ forall s, In s subs -> ~ region P D C p s).
Proof.
  intros R O S. destruct (contains_spec P D C (make_polygon P D C v subs pr c) p) as (b & E & H).
  - split; [reflexivity |]. induction R; [exact Logic.I | split; [assumption |]]. apply IHR. inversion S; assumption.
  - split; [exact O |]. clear R. induction S; [exact Logic.I | split; assumption].
  - exists b. split; [exact E |]. rewrite H. cbn [make_polygon region]. clear.
    assert (X : (fix none l := match l with [] => True | s :: l' => ~ region P D C p s /\ none l' end) subs <-> forall s, In s subs -> ~ region P D C p s).
    { induction subs as [| s subs IH]; [cbn; tauto |]. rewrite IH. cbn [In]. split.
      - intros [A B] u [<- | U]; [exact A | apply B, U].
      - intros A. split; [apply A; left; reflexivity | intros u U; apply A; right; exact U]. }
    rewrite <- X. reflexivity.
Qed.
