(** Lines of several edges, and edges of the equator as examples. *)
From Coq Require Import List Reals Bool Arith Lra Lia Psatz.
From Verif Require Import Sphere_Spec GeomR_Model Arc_Model Arc_Spec Arc_Proofs Arc_Sphere.
From Verif Require GeomR_More.
Import ListNotations.
Open Scope R_scope.

Lemma loop_from : forall ds i q d, (0 < i)%nat -> exists d' q', nearest_loop ds i (Some q) d = (d', Some q') /\
  ((q', d') = (q, d) \/ In (q', d') ds) /\ d' <= d /\ forall p x, In (p, x) ds -> d' <= x.
Proof.
  induction ds as [|[p x] ds IH]; intros i q d I; cbn [nearest_loop].
  - exists d, q. split; [reflexivity|]. split; [left; reflexivity|]. split; [lra|]. intros p x [].
  - destruct (Rlt_dec x d) as [X|X].
    + destruct (IH (S i) p x ltac:(lia)) as [d' [q' [E [B [C F]]]]]. exists d', q'. split; [exact E|]. split.
      * right. destruct B as [B|B]; [left; symmetry; exact B | right; exact B].
      * split; [lra|]. intros p' x' [H|H]; [injection H as <- <-; exact C | apply (F p' x' H)].
    + destruct (Nat.eqb_spec i 0) as [I0|I0]; [lia|]. destruct (IH (S i) q d ltac:(lia)) as [d' [q' [E [B [C F]]]]]. exists d', q'.
      split; [exact E|]. split; [destruct B as [B|B]; [left; exact B | right; right; exact B]|]. split; [exact C|].
      intros p' x' [H|H]; [injection H as <- <-; lra | apply (F p' x' H)].
Qed.
Lemma loop_all : forall ds, ds <> [] -> exists d' q', nearest_loop ds 0 None (-1) = (d', Some q') /\ In (q', d') ds /\ forall p x, In (p, x) ds -> d' <= x.
Proof.
  intros [|[q d] ds] N; [congruence|]. cbn [nearest_loop Nat.eqb].
  destruct (loop_from ds 1 q d ltac:(lia)) as [d' [q' [E [B [C F]]]]]. exists d', q'.
  split; [destruct (Rlt_dec d (-1)); exact E|]. split; [destruct B as [B|B]; [left; symmetry; exact B | right; exact B]|].
  intros p x [H|H]; [injection H as <- <-; exact C | apply (F p x H)].
Qed.

Section Line.
Context (r K : R) (fwd inv : R -> R -> R -> R -> R * R * R) (pt : R * R).
Hypothesis Hr : 0 < r.
Hypothesis HK : K <= 1 / 100 * 2 ^ 100.
Let q := pos (fst pt) (snd pt).
Definition good_for (s : rpt * rpt) (a : rpt * R) : Prop :=
  let arc := on_arc3 (pos (fst (fst s)) (snd (fst s))) (pos (fst (snd s)) (snd (snd s))) in
  arc (pos (fst (fst a)) (snd (fst a))) /\ central_angle (pos (fst (fst a)) (snd (fst a))) q (snd a / r) /\
  forall c t, arc c -> central_angle c q t -> snd a <= r * t + (1 / 100 + / 10000000 * K).
Lemma edge_good : forall e0 e1, fair_edge r K fwd inv pt e0 e1 ->
  exists p x, nearest_on_edge fwd inv pt e0 e1 = Found p x /\ good_for (e0, e1) (p, x).
Proof.
  intros e0 e1 [az [L [a0 [a1 [Os [LK [Lp [A0 [A0' [A1 A1']]]]]]]]]].
  assert (Lq : (L + / 10000000 * L) / r < PI).
  { apply (Rmult_lt_reg_r r); [exact Hr|]. replace ((L + / 10000000 * L) / r * r) with (L + / 10000000 * L) by (field; lra). exact Lp. }
  destruct (sphere_near r fwd inv pt e0 e1 az L Hr Os (1 / 100) 100 a0 a1 ltac:(lra) ltac:(lia) ltac:(lra) Lq A0 A0' A1 A1') as [p [x [F [B [C G]]]]].
  exists p, x. split; [exact F|]. unfold good_for. cbn [fst snd]. split; [exact B|]. split; [exact C|].
  intros c t Hc Ht. pose proof (G c t Hc Ht). lra.
Qed.
Lemma edges_good : forall segs, (forall s, In s segs -> fair_edge r K fwd inv pt (fst s) (snd s)) ->
  exists ds, edges_near fwd inv pt segs = Some ds /\ Forall2 good_for segs ds.
Proof.
  induction segs as [|[e0 e1] segs IH]; intros H; cbn [edges_near].
  - exists []. split; [reflexivity | constructor].
  - cbn [fst snd]. destruct (edge_good e0 e1 (H (e0, e1) (or_introl eq_refl))) as [p [x [E G]]]. rewrite E.
    destruct IH as [ds [Es Gs]]; [intros s S; apply H; right; exact S|]. rewrite Es. exists ((p, x) :: ds). split; [reflexivity|]. constructor; assumption.
Qed.
Lemma f2_in_r : forall {A B} (P : A -> B -> Prop) l m y, Forall2 P l m -> In y m -> exists x, In x l /\ P x y.
Proof. intros A B P l m y F. induction F as [|x z l m Pz F IH]; intros I; [destruct I|]. destruct I as [<-|I]; [exists x; split; [left; reflexivity | exact Pz] | destruct (IH I) as [x' [I' P']]; exists x'; split; [right; exact I' | exact P']]. Qed.
Lemma f2_in_l : forall {A B} (P : A -> B -> Prop) l m x, Forall2 P l m -> In x l -> exists y, In y m /\ P x y.
Proof. intros A B P l m x F. induction F as [|z y l m Pz F IH]; intros I; [destruct I|]. destruct I as [<-|I]; [exists y; split; [left; reflexivity | exact Pz] | destruct (IH I) as [y' [I' P']]; exists y'; split; [right; exact I' | exact P']]. Qed.

Lemma line_near : forall l, (2 <= length l)%nat -> (forall a b, consecutive l a b -> fair_edge r K fwd inv pt a b) ->
  exists x p, nearest_to_point_geog fwd inv l pt = Some (x, Some p) /\
    (exists a b, consecutive l a b /\ on_arc3 (pos (fst a) (snd a)) (pos (fst b) (snd b)) (pos (fst p) (snd p))) /\
    central_angle (pos (fst p) (snd p)) q (x / r) /\
    forall a b c t, consecutive l a b -> on_arc3 (pos (fst a) (snd a)) (pos (fst b) (snd b)) c -> central_angle c q t ->
      x <= r * t + (1 / 100 + / 10000000 * K).
Proof.
  intros l Ll H.
  destruct (edges_good (pairs l)) as [ds [E F]].
  { intros [a b] I. apply H. apply GeomR_More.in_pairs. exact I. }
  assert (N : ds <> []).
  { destruct l as [|a [|b l]]; cbn [length] in Ll; try lia. intros Z. rewrite Z in F. inversion F. }
  destruct (loop_all ds N) as [x [p [El [I M]]]]. exists x, p.
  split; [unfold nearest_to_point_geog; rewrite E; cbn [option_map]; rewrite El; reflexivity|].
  destruct (f2_in_r _ _ _ _ F I) as [[a b] [Ip [G1 [G2 G3]]]]. cbn [fst snd] in *. split; [|split].
  - exists a, b. split; [apply GeomR_More.in_pairs; exact Ip | exact G1].
  - exact G2.
  - intros a' b' c t S Oc Ct. apply GeomR_More.in_pairs in S. destruct (f2_in_l _ _ _ _ F S) as [[p' x'] [I' [_ [_ G]]]]. cbn [fst snd] in G.
    pose proof (G c t Oc Ct). pose proof (M p' x' I'). lra.
Qed.
End Line.

(* the equator *)
Definition eq_fwd (r x y az f : R) : R * R * R := (x + f / r * 180 / PI, y, -90).
Definition eq_inv (r x1 y1 x2 y2 : R) : R * R * R := (90, -90, r * acos (dot (pos x1 y1) (pos x2 y2))).
Lemma dot_bound : forall x1 y1 x2 y2, -1 <= dot (pos x1 y1) (pos x2 y2) <= 1.
Proof.
  intros x1 y1 x2 y2. pose proof (bessel (pos x1 y1) (dirv (rad x1) (rad y1) 0) (pos x2 y2) (upos_unit _ _) (dirv_unit _ _ _) (dirv_orth _ _ _) (upos_unit _ _)). nra.
Qed.
Lemma angle_acos : forall x1 y1 x2 y2, central_angle (pos x1 y1) (pos x2 y2) (acos (dot (pos x1 y1) (pos x2 y2))).
Proof. intros. split; [apply acos_bound | apply cos_acos; apply dot_bound]. Qed.
Lemma rad_0 : rad 0 = 0. Proof. unfold rad. field. Qed.
Lemma rad_90 : rad 90 = PI / 2. Proof. unfold rad. field. Qed.
Lemma eq_dot : forall x1 x2, dot (pos x1 0) (pos x2 0) = cos (rad x2 - rad x1).
Proof. intros. unfold pos, upos, dot. rewrite rad_0, cos_0, sin_0. cbn [fst snd]. rewrite cos_minus. ring. Qed.
Lemma eq_travel : forall l t, travel l 0 (PI / 2) t = upos (l + t) 0.
Proof.
  intros l t. unfold travel, vadd, vscale, east, north, upos. rewrite cos_PI2, sin_PI2, cos_0, sin_0. cbn [fst snd]. rewrite cos_plus, sin_plus.
  f_equal; [f_equal|]; ring.
Qed.
Lemma eq_arc : forall r x0 x1 pt, 0 < r -> 0 <= x1 - x0 <= 180 -> on_sphere r (eq_fwd r) (eq_inv r) pt (x0, 0) (x1, 0) 90 (r * rad (x1 - x0)).
Proof.
  intros r x0 x1 pt Hr X. pose proof PI_RGT_0.
  assert (Sb : rad x1 - rad x0 = rad (x1 - x0)) by (unfold rad; field).
  assert (B : 0 <= rad (x1 - x0) <= PI) by (unfold rad; split; [apply Rmult_le_pos; [apply Rmult_le_pos|]; lra|]; apply (Rmult_le_reg_r 180); [lra|]; unfold Rdiv; rewrite Rmult_assoc, Rinv_l by lra; nra).
  assert (Q : r * rad (x1 - x0) / r = rad (x1 - x0)) by (field; lra).
  assert (Fp : forall f, pos (x0 + f / r * 180 / PI) 0 = travel (rad x0) (rad 0) (rad 90) (f / r)).
  { intros f. rewrite rad_0, rad_90, eq_travel. unfold pos. rewrite rad_0. f_equal. unfold rad. field. lra. }
  split; cbn [fst snd].
  - exists (-90). unfold eq_inv. rewrite eq_dot, Sb. rewrite acos_cos by lra. reflexivity.
  - rewrite Q. split; [exact B|]. rewrite eq_dot, Sb. reflexivity.
  - rewrite Q, rad_0, rad_90, eq_travel. unfold pos. rewrite rad_0. f_equal. lra.
  - intros f F. cbn zeta. unfold eq_fwd. cbn [fst snd]. apply Fp.
  - intros f F. cbn zeta. unfold eq_fwd, eq_inv. cbn [fst snd]. replace (r * acos (dot (pos (x0 + f / r * 180 / PI) 0) (pos (fst pt) (snd pt))) / r) with (acos (dot (pos (x0 + f / r * 180 / PI) 0) (pos (fst pt) (snd pt)))) by (field; lra).
    apply angle_acos.
Qed.
Lemma quarter_edge : forall r, 0 < r -> fair_edge r (r * (PI / 3)) (eq_fwd r) (eq_inv r) (0, 60) (0, 0) (60, 0).
Proof.
  intros r Hr. pose proof PI_RGT_0. pose proof PI_4.
  assert (E60 : rad 60 = PI / 3) by (unfold rad; field).
  assert (S : rad (60 - 0) = PI / 3) by (unfold rad; field).
  exists 90, (r * rad (60 - 0)), (PI / 3), (acos (1 / 4)).
  split; [apply eq_arc; lra|]. rewrite S. split; [lra|]. split; [nra|]. cbn [fst snd].
  assert (D0 : dot (pos 0 0) (pos 0 60) = cos (PI / 3)). { unfold pos, upos, dot. rewrite rad_0, E60, cos_0, sin_0. cbn [fst snd]. ring. }
  assert (D1 : dot (pos 60 0) (pos 0 60) = 1 / 4). { unfold pos, upos, dot. rewrite rad_0, E60, cos_0, sin_0, cos_PI3. cbn [fst snd]. field. }
  split; [split; [lra | symmetry; exact D0]|]. split; [lra|]. split; [split; [apply acos_bound | rewrite cos_acos by lra; symmetry; exact D1]|].
  replace (/ 10000000 * (r * (PI / 3)) / r) with (/ 10000000 * (PI / 3)) by (field; lra).
  set (e := / 10000000 * (PI / 3)). assert (e0 : 0 < e < 1 / 4) by (unfold e; lra).
  assert (acos (1 / 4) <= PI / 2 - e); [|lra]. pose proof PI2_3_2.
  apply angle_le; [apply acos_bound | lra|]. rewrite cos_acos by lra. rewrite cos_minus, cos_PI2, sin_PI2. pose proof (sin_lt_x e ltac:(lra)). lra.
Qed.
Lemma far_first : forall r, 0 < r -> nearest_to_point_geog (eq_fwd r) (eq_inv r) [(0, 0); (90, 0)] (-160, 0) = Some (r * (8 * PI / 9), Some (0, 0)).
Proof.
  intros r Hr. pose proof PI_RGT_0. pose proof PI_4.
  assert (I : eq_inv r 0 0 90 0 = (90, -90, r * (PI / 2))).
  { unfold eq_inv. rewrite eq_dot, rad_0, rad_90, Rminus_0_r, acos_cos by lra. reflexivity. }
  assert (D : forall f, 0 <= f -> f / r <= PI / 9 -> distance_along (eq_fwd r) (eq_inv r) (-160, 0) (0, 0) 90 f = r * (8 * PI / 9 + f / r)).
  { intros f F G. unfold distance_along, eq_fwd, eq_inv. cbn [fst snd]. f_equal. rewrite eq_dot.
    replace (rad (-160) - rad (0 + f / r * 180 / PI)) with (- (8 * PI / 9 + f / r)) by (unfold rad; field; lra). rewrite cos_neg.
    apply acos_cos. split; [|lra]. assert (0 <= f / r) by (apply Rmult_le_pos; [exact F | left; apply Rinv_0_lt_compat; exact Hr]). lra. }
  assert (E : nearest_on_edge (eq_fwd r) (eq_inv r) (-160, 0) (0, 0) (90, 0) = Found (0, 0) (r * (8 * PI / 9))).
  { unfold nearest_on_edge. rewrite (unfold_near (eq_fwd r) (eq_inv r) (-160, 0) (0, 0) (90, 0) (1 / 100) 100 90 (-90) (r * (PI / 2)) I). cbn zeta.
    assert (D0 : distance_along (eq_fwd r) (eq_inv r) (-160, 0) (0, 0) 90 0 = r * (8 * PI / 9)).
    { rewrite D; [unfold Rdiv; rewrite Rmult_0_l; ring | lra | unfold Rdiv; rewrite Rmult_0_l; lra]. }
    set (e := / 10000000 * (r * (PI / 2))). assert (He : e / r = / 10000000 * (PI / 2)) by (unfold e; field; lra).
    assert (e0 : 0 < e) by (unfold e; apply Rmult_lt_0_compat; [lra|]; apply Rmult_lt_0_compat; lra).
    match goal with |- context [Rlt_dec 0 ?x] => destruct (Rlt_dec 0 x) as [A|A] end; [rewrite D0; reflexivity|]. exfalso. apply A.
    rewrite Rplus_0_l, D0, D by (rewrite ?He; lra). apply Rdiv_lt_0_compat; [|exact e0].
    replace (r * (8 * PI / 9 + e / r) - r * (8 * PI / 9)) with e by (field; lra). exact e0. }
  unfold nearest_to_point_geog, pairs. cbn [tl combine edges_near fst snd]. rewrite E. cbn [option_map edges_near nearest_loop Nat.eqb].
  destruct (Rlt_dec (r * (8 * PI / 9)) (-1)); reflexivity.
Qed.
Lemma near_second : on_arc3 (pos 0 0) (pos 90 0) (pos 90 0) /\ central_angle (pos 90 0) (pos (-160) 0) (11 * PI / 18).
Proof.
  pose proof PI_RGT_0. split.
  - split; [apply upos_unit|]. exists 0, 1. split; [lra|]. split; [lra|]. destruct (pos 0 0) as [[a b] c], (pos 90 0) as [[a' b'] c']. unfold vadd, vscale. cbn [fst snd]. f_equal; [f_equal|]; ring.
  - split; [lra|]. rewrite eq_dot. replace (rad (-160) - rad 90) with (- (25 * PI / 18)) by (unfold rad; field). rewrite cos_neg.
    replace (25 * PI / 18) with (- (11 * PI / 18) + 2 * PI) by field. rewrite <- (cos_neg (11 * PI / 18)). symmetry.
    replace (- (11 * PI / 18) + 2 * PI) with (- (11 * PI / 18) + 2 * INR 1 * PI) by (cbn [INR]; ring). apply cos_period.
Qed.
