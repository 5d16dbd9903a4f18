From Coq Require Import List ZArith QArith Bool Lia Lqa Sorted.
From Verif Require Import Geom_Model Geom_Spec Geom_Proofs Inter_Model Inter_Spec Inter_Proofs.
From Verif Require Import Contains_Model Contains_Spec Contains_Proofs Contains_Winding Contains_Inside Ssys_Spec Isys_Model Isys_Proofs Psys_Model Psys_Spec.
From Verif Require Grid_Spec Gsys_Spec.
Import ListNotations.
Open Scope Q_scope.

Lemma ltq_iff a b : ltq a b = true <-> a < b.
Proof.
  unfold ltq. rewrite negb_true_iff. split.
  - intros H. apply Qnot_le_lt. intros K. apply Qle_bool_iff in K. congruence.
  - intros H. destruct (Qle_bool b a) eqn:E; [| reflexivity]. apply Qle_bool_iff in E. lra.
Qed.
Lemma passing_in test pts i : In i (passing test pts) <-> exists q, nth_error pts i = Some q /\ test q = true.
Proof.
  unfold passing. rewrite filter_In, in_seq. split.
  - intros (_ & H). destruct (nth_error pts i) as [q |]; [| discriminate]. exists q. auto.
  - intros (q & E & H). rewrite E. split; [| exact H]. assert (i < length pts)%nat by (apply nth_error_Some; congruence). lia.
Qed.
Lemma strictly_iff x0 y0 x1 y1 q : strictly (x0, y0, x1, y1) q = true <-> inside x0 y0 x1 y1 q.
Proof. unfold strictly, inside. rewrite !andb_true_iff, !ltq_iff. tauto. Qed.
Lemma filter_sorted (f : nat -> bool) l : StronglySorted lt l -> StronglySorted lt (filter f l).
Proof.
  induction 1 as [| a l S IH F]; cbn [filter]; [constructor |]. destruct (f a); [| exact IH]. constructor; [exact IH |].
  apply Forall_forall. intros x X. apply filter_In in X as [X _]. rewrite Forall_forall in F. exact (F x X).
Qed.
Lemma passing_sorted test pts : StronglySorted lt (passing test pts).
Proof.
  apply filter_sorted. generalize 0%nat. induction (length pts) as [| n IH]; intros k; cbn [seq]; constructor; [apply IH |].
  apply Forall_forall. intros x X. apply in_seq in X. lia.
Qed.

Section P.
Variables (C : Type) (eqb : C -> C -> bool) (tr : C -> C -> Q * Q -> Q * Q).
Hypothesis SY : systems eqb tr.
Notation within_radius_in := (within_radius_in C eqb tr).
Notation within_polygon_in := (within_polygon_in C eqb tr).

Lemma near_iff c p r s q : near C eqb tr c p r s q = true <-> closer p (tr s c q) r.
Proof.
  unfold near, closer. rewrite (vertex_in_is C eqb tr SY). destruct (tr s c q) as [x y]. cbn [fst snd].
  rewrite andb_true_iff, !ltq_iff. reflexivity.
Qed.
Lemma radius_plain s pts c p r i :
  In i (within_radius_in false s pts c p r) <-> exists q, nth_error pts i = Some q /\ closer p (tr s c q) r.
Proof.
  cbn [Psys_Model.within_radius_in]. rewrite passing_in. split; intros (q & E & H); exists q; (split; [exact E | apply near_iff; exact H]).
Qed.
Lemma close_axis x r y : 0 < r -> x * x + y * y < r * r -> - r < x < r.
Proof. intros R H. split; nra. Qed.
Lemma radius_same s pts p r : within_radius_in true s pts s p r = within_radius_in false s pts s p r.
Proof.
  cbn [Psys_Model.within_radius_in]. unfold passing. apply filter_ext. intros i. destruct (nth_error pts i) as [q |]; [| reflexivity].
  destruct (near C eqb tr s p r s q) eqn:N; [| apply andb_false_r]. rewrite andb_true_r.
  apply near_iff in N. rewrite (proj2 SY) in N. destruct N as [R D]. unfold strictly. rewrite !andb_true_iff, !ltq_iff.
  pose proof (close_axis _ _ _ R D) as [X1 X2]. rewrite Qplus_comm in D. pose proof (close_axis _ _ _ R D) as [Y1 Y2]. lra.
Qed.
Lemma radius_index s pts c p r i : In i (within_radius_in true s pts c p r) <->
  In i (within_radius_in false s pts c p r) /\
  exists q, nth_error pts i = Some q /\ inside (fst p - r) (snd p - r) (fst p + r) (snd p + r) q.
Proof.
  cbn [Psys_Model.within_radius_in]. rewrite !passing_in. split.
  - intros (q & E & H). apply andb_true_iff in H as [B H]. split; exists q; (split; [exact E |]); [exact H |]. apply strictly_iff, B.
  - intros ((q & E & H) & q' & E' & B). rewrite E in E'. injection E' as <-. exists q. split; [exact E |].
    rewrite H, andb_true_r. apply strictly_iff, B.
Qed.
Lemma polygon_index s pts c ring i : In i (within_polygon_in true s pts c ring) <->
  In i (within_polygon_in false s pts c ring) /\
  exists q x0 y0 x1 y1, nth_error pts i = Some q /\ ring <> [] /\ tight_box x0 y0 x1 y1 (map (tr c s) ring) /\ inside x0 y0 x1 y1 q.
Proof.
  cbn [Psys_Model.within_polygon_in]. rewrite !passing_in, (map_ext _ _ (vertex_in_is C eqb tr SY c s)).
  destruct ring as [| v ring].
  { cbn [map bbox_c]. split; [intros (q & E & H); discriminate H | intros (_ & q & x0 & y0 & x1 & y1 & _ & N & _); destruct (N eq_refl)]. }
  destruct (bbox_c_tight (map (tr c s) (v :: ring))) as (x0 & y0 & x1 & y1 & EB & T); [discriminate |]. rewrite EB. split.
  - intros (q & E & H). apply andb_true_iff in H as [B H]. split; [exists q; auto |]. exists q, x0, y0, x1, y1.
    split; [exact E | split; [discriminate | split; [exact T | apply strictly_iff, B]]].
  - intros ((q & E & H) & q' & a0 & b0 & a1 & b1 & E' & _ & T' & B). rewrite E in E'. injection E' as <-. exists q. split; [exact E |].
    rewrite H, andb_true_r. apply strictly_iff. destruct (tight_unique _ _ _ _ _ _ _ _ _ T T') as (Q1 & Q2 & Q3 & Q4).
    unfold inside in *. rewrite Q1, Q2, Q3, Q4. exact B.
Qed.
Lemma sorted_all index s pts c p r ring :
  StronglySorted lt (within_radius_in index s pts c p r) /\ StronglySorted lt (within_polygon_in index s pts c ring).
Proof. split; unfold Psys_Model.within_radius_in, Psys_Model.within_polygon_in; destruct index; apply passing_sorted. Qed.
Lemma polygon_plain s pts c ring i q : nth_error pts i = Some q -> off (tr s c q) ring ->
  (In i (within_polygon_in false s pts c ring) <-> exists w, winding (tr s c q) ring w /\ w <> 0%Z).
Proof.
  intros E O. cbn [Psys_Model.within_polygon_in]. rewrite passing_in. unfold has_point. cbn [contains_c].
  split.
  - intros (q' & E' & H). rewrite E in E'. injection E' as <-. rewrite (vertex_in_is C eqb tr SY) in H.
    exists (count (tr s c q) ring). split; [apply count_winding, O |]. apply negb_true_iff, Z.eqb_neq in H. exact H.
  - intros (w & W & N). exists q. split; [exact E |]. rewrite (vertex_in_is C eqb tr SY). apply negb_true_iff, Z.eqb_neq.
    rewrite (winding_unique _ _ _ _ O (count_winding _ _ O) W). exact N.
Qed.
Lemma polygon_same s pts ring : (forall q, In q pts -> off q ring) ->
  within_polygon_in true s pts s ring = within_polygon_in false s pts s ring.
Proof.
  intros O. cbn [Psys_Model.within_polygon_in]. unfold passing. apply filter_ext. intros i.
  destruct (nth_error pts i) as [q |] eqn:E; [| reflexivity]. apply nth_error_In, O in E.
  destruct (has_point C eqb tr s ring s q) eqn:K; [| apply andb_false_r]. rewrite andb_true_r.
  unfold has_point in K. cbn [contains_c] in K. rewrite (vertex_in_is C eqb tr SY), (proj2 SY) in K. apply negb_true_iff, Z.eqb_neq in K.
  rewrite (map_ext _ _ (vertex_in_is C eqb tr SY s s)), (map_ext _ _ (proj2 SY s)), map_id.
  destruct ring as [| v ring]; [destruct K; reflexivity |].
  destruct (bbox_c_tight (v :: ring)) as (x0 & y0 & x1 & y1 & EB & T); [discriminate |]. rewrite EB.
  apply strictly_iff. exact (count_inside _ _ _ _ _ _ E T K).
Qed.
Lemma polygon_straight s pts c ring : Gsys_Spec.affine (tr c s) -> (forall q, same (tr c s (tr s c q)) q) ->
  (forall q, In q pts -> off (tr s c q) ring) ->
  within_polygon_in true s pts c ring = within_polygon_in false s pts c ring.
Proof.
  intros (a & b & e & d & f & g & AF) BACK O. cbn [Psys_Model.within_polygon_in]. unfold passing. apply filter_ext. intros i.
  destruct (nth_error pts i) as [q |] eqn:E; [| reflexivity]. apply nth_error_In, O in E.
  destruct (has_point C eqb tr c ring s q) eqn:K; [| apply andb_false_r]. rewrite andb_true_r.
  unfold has_point in K. cbn [contains_c] in K. rewrite (vertex_in_is C eqb tr SY) in K. apply negb_true_iff, Z.eqb_neq in K.
  rewrite (map_ext _ _ (vertex_in_is C eqb tr SY c s)).
  destruct ring as [| v ring]; [destruct K; reflexivity |].
  destruct (bbox_c_tight (map (tr c s) (v :: ring))) as (x0 & y0 & x1 & y1 & EB & T & _); [discriminate |]. rewrite EB.
  apply strictly_iff.
  assert (NX : ~ (a == 0 /\ b == 0)).
  { intros [A B]. destruct (BACK (e + 1, 0)) as [X _]. destruct (AF (tr s c (e + 1, 0))) as [Y _]. cbn [fst snd] in *. rewrite Y, A, B in X. lra. }
  assert (NY : ~ (d == 0 /\ f == 0)).
  { intros [A B]. destruct (BACK (0, g + 1)) as [_ X]. destruct (AF (tr s c (0, g + 1))) as [_ Y]. cbn [fst snd] in *. rewrite Y, A, B in X. lra. }
  destruct (BACK q) as [QX QY]. destruct (AF (tr s c q)) as [FX FY]. cbn [fst snd] in FX, FY. rewrite QX in FX. rewrite QY in FY.
  assert (V : forall u, In u (v :: ring) -> x0 <= a * fst u + b * snd u + e <= x1 /\ y0 <= d * fst u + f * snd u + g <= y1).
  { intros u U. destruct (T _ (in_map (tr c s) _ _ U)) as [T1 T2]. destruct (AF u) as [U1 U2]. cbn [fst snd] in U1, U2.
    rewrite U1 in T1. rewrite U2 in T2. split; assumption. }
  clear T EB. set (p := tr s c q) in *. clearbody p.
  split; split.
  - destruct (Qlt_le_dec x0 (fst q)) as [Z | Z]; [exact Z |]. destruct K. apply (half_plane a b); [exact E | exact NX |].
    intros u U. destruct (V u U). lra.
  - destruct (Qlt_le_dec (fst q) x1) as [Z | Z]; [exact Z |]. destruct K. apply (half_plane (- a) (- b)); [exact E | lra |].
    intros u U. destruct (V u U). lra.
  - destruct (Qlt_le_dec y0 (snd q)) as [Z | Z]; [exact Z |]. destruct K. apply (half_plane d f); [exact E | exact NY |].
    intros u U. destruct (V u U). lra.
  - destruct (Qlt_le_dec (snd q) y1) as [Z | Z]; [exact Z |]. destruct K. apply (half_plane (- d) (- f)); [exact E | lra |].
    intros u U. destruct (V u U). lra.
Qed.
End P.
