(** Proofs: polygons and paths off their boundary. *)
From Coq Require Import List ZArith QArith Qabs Qfield Lqa Bool Arith Lia.
From Verif Require Import Geom_Model Geom_Spec Geom_Proofs Inter_Model Inter_Spec Inter_Proofs Contains_Model Contains_Spec Contains_Proofs
  Contains_Winding Within_Winding Within_Spec.
Import ListNotations.
Open Scope Q_scope.

Lemma sub_seg : forall a b z w, on_seg (a, b) z -> on_seg (z, a) w -> on_seg (a, b) w.
Proof.
  intros a b z w (t & Ht & Zx & Zy) (s & Hs & Wx & Wy). unfold same, along in *. cbn [fst snd] in *.
  exists (t * (1 - s)). split.
  - split; [apply Qmult_le_0_compat; lra|]. assert (t * (1 - s) <= 1 * (1 - s)) by (apply Qmult_le_compat_r; lra). lra.
  - unfold same, along. cbn [fst snd]. split; [rewrite Wx, Zx|rewrite Wy, Zy]; ring.
Qed.
Lemma first_on : forall a b, on_seg (a, b) a.
Proof. intros. exists 0. split; [lra|]. unfold same, along. cbn [fst snd]. split; ring. Qed.
Lemma second_on : forall a b, on_seg (a, b) b.
Proof. intros. exists 1. split; [lra|]. unfold same, along. cbn [fst snd]. split; ring. Qed.

(** Along an edge no point of which is on the ring, the count is the same. *)
Lemma count_edge : forall l a b z, (forall w, on_seg (a, b) w -> off w l) -> on_seg (a, b) z -> count z l = count a l.
Proof.
  intros l a b z H O. apply count_apart. intros e E w We Wz. apply (H w (sub_seg a b z w O Wz) e E). destruct e; exact We.
Qed.
Lemma count_vertices : forall l path ring v, (forall z, point_of path ring z -> off z l) -> nth_error path 0 = Some v ->
  forall i u, nth_error path i = Some u -> count u l = count v l.
Proof.
  intros l path ring v H V. induction i as [|i IH]; intros u U; [congruence|].
  assert (exists a, nth_error path i = Some a) as (a & A).
  { destruct (nth_error path i) as [a|] eqn:E; [exists a; reflexivity|]. apply nth_error_None in E.
    assert (S i < length path)%nat by (apply nth_error_Some; congruence). lia. }
  rewrite <- (IH a A). apply (count_edge l a u u); [|apply second_on].
  intros w Hw. apply H. exists (a, u). split; [exists i; left; split; assumption|exact Hw].
Qed.
Lemma count_path : forall l path ring z z', (forall z, point_of path ring z -> off z l) ->
  point_of path ring z -> point_of path ring z' -> count z l = count z' l.
Proof.
  intros l path ring.
  assert (K : forall z, (forall z, point_of path ring z -> off z l) -> point_of path ring z ->
    exists v, nth_error path 0 = Some v /\ count z l = count v l).
  { intros z H ([a b] & E & O). assert (exists i, nth_error path i = Some a) as (i & A).
    { destruct E as (i & [[A _]|(_ & _ & A & _)]); exists i; exact A. }
    destruct path as [|v path]; [destruct i; discriminate|]. exists v. split; [reflexivity|].
    rewrite <- (count_vertices l (v :: path) ring v H eq_refl i a A).
    apply (count_edge l a b); [|exact O]. intros w Hw. apply H. exists (a, b). split; assumption. }
  intros z z' H Z1 Z2. destruct (K z H Z1) as (v & V & E). destruct (K z' H Z2) as (v' & V' & E'). congruence.
Qed.

Section Poly.
Variables P D C : Type.
Fixpoint contains_path (g : geom P D C) : forall path ring z z', (forall z, point_of path ring z -> off_edges P D C z g) ->
  point_of path ring z -> point_of path ring z' -> contains P D C g z = contains P D C g z'.
Proof.
  destruct g as [k v r subs pr d c]. intros path ring z z' H Z1 Z2. rewrite !contains_eq.
  assert (E : count z (xys v) = count z' (xys v)).
  { apply (count_path _ path ring); [|exact Z1|exact Z2]. intros w W. specialize (H w W). cbn [off_edges] in H. apply H. }
  rewrite E. destruct r; [|reflexivity]. destruct (Z.eqb (count z' (xys v)) 0); [reflexivity|].
  assert (H' : forall w, point_of path ring w -> (fix all l := match l with [] => True | s :: l' => off_edges P D C w s /\ all l' end) subs).
  { intros w W. specialize (H w W). cbn [off_edges] in H. apply H. }
  clear H E. induction subs as [|s subs IH]; [reflexivity|].
  assert (H1 : forall w, point_of path ring w -> off_edges P D C w s) by (intros w W; exact (proj1 (H' w W))).
  specialize (IH (fun w W => proj2 (H' w W))). rewrite (contains_path s path ring z z' H1 Z1 Z2).
  destruct (contains P D C s z') as [[|]|e]; cbn [bind]; try reflexivity. exact IH.
Qed.
Lemma region_path : forall (g : geom P D C) path ring z z', rings P D C g -> (forall z, point_of path ring z -> off_edges P D C z g) ->
  point_of path ring z -> point_of path ring z' -> (region P D C z g <-> region P D C z' g).
Proof.
  intros g path ring z z' R H Z1 Z2. rewrite <- !(contains_region P D C g) by (try exact R; apply H; assumption).
  rewrite (contains_path g path ring z z' H Z1 Z2). reflexivity.
Qed.
End Poly.
