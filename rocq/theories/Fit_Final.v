(** The statements about [affine_matrix]. *)
From Coq Require Import List QArith Bool Lqa Lia.
From Verif Require Geom_Model.
From Verif Require Import Geom_Spec Proj_Model Proj_Spec Proj_Proofs Fit_Model Fit_Spec Fit_Proofs Fit_Exists.
Import ListNotations.
Local Open Scope Q_scope.

Section Fit.
Context {C W : Type} (place : C -> Q * Q -> W) (is_same eqb : C -> C -> bool) (transform : C -> C -> outcome (Q * Q -> Q * Q)).
Hypothesis Fa : faithful place is_same eqb transform.

Lemma fit_best : forall la ca b cb, reachable is_same transform cb (Some ca) -> length la = length b ->
  exists lb, length lb = length la /\ map (place ca) lb = map (place cb) b /\
  forall lstsq, answers lstsq (design la) (ravel (Geom_Model.V2 lb)) ->
  exists a0 a1 a2 a3 a4 a5,
    affine_matrix C is_same transform lstsq (Geom_Model.V2 la, ca) (Geom_Model.V2 b, cb) = Ok (Geom_Model.M23 a0 a1 a2 a3 a4 a5) /\
    best (a0, a1, a2, a3, a4, a5) la lb.
Proof.
  intros la ca b cb R L.
  destruct (vertices_total is_same transform (Geom_Model.V2 b) cb (Some ca) false R (or_introl I)) as [u E].
  pose proof (vertices_places place is_same eqb transform Fa _ _ _ _ _ E) as P. cbn [asked] in P.
  assert (X : exists lb, u = Geom_Model.V2 lb).
  { unfold vertices in E. destruct (is_same ca cb); [injection E as <-; eexists; reflexivity|].
    destruct (transform cb ca) as [f|]; [|discriminate]. injection E as <-. eexists; reflexivity. }
  destruct X as [lb ->]. exists lb. unfold places in P. cbn [Geom_Model.xys] in P.
  split; [|split; [exact P|]].
  - rewrite L. rewrite <- (map_length (place cb) b), <- P, map_length. reflexivity.
  - intros lstsq [m [S H]]. destruct (fit_ok is_same transform lstsq la ca (Geom_Model.V2 b, cb) lb m E L S H) as [a0 [a1 [a2 [a3 [a4 [a5 [F [_ B]]]]]]]].
    exists a0, a1, a2, a3, a4, a5. split; assumption.
Qed.
End Fit.

Lemma f2_length : forall {A B} (P : A -> B -> Prop) l m, Forall2 P l m -> length l = length m.
Proof. intros A B P l m F. induction F as [|x y l m _ _ IH]; [reflexivity | cbn [length]; rewrite IH; reflexivity]. Qed.
Lemma exact_image : forall m m0 la lb, best m la lb -> Forall2 (fun p q => same (image m0 p) q) la lb ->
  Forall2 (fun p q => same (image m p) q) la lb.
Proof.
  intros m m0 la lb B E.
  assert (L : length la = length lb) by (exact (f2_length _ _ _ E)).
  apply misfit_zero; [exact L|]. pose proof (B m0) as H. rewrite (misfit_exact _ _ _ E) in H. pose proof (misfit_nonneg m la lb). lra.
Qed.
Lemma unique : forall m m' la lb, length la = length lb -> spread la -> best m la lb -> best m' la lb -> same6 m m'.
Proof.
  intros m m' la lb L S B B'. apply (spread_same _ _ la S). apply apart_zero. apply (best_apart _ _ la lb); assumption.
Qed.
Lemma recovered : forall m m0 la lb, spread la -> best m la lb -> Forall2 (fun p q => same (image m0 p) q) la lb -> same6 m m0.
Proof.
  intros m m0 la lb S B E.
  assert (L : length la = length lb) by (exact (f2_length _ _ _ E)).
  apply (unique m m0 la lb L S B). intros m'. rewrite (misfit_exact _ _ _ E). apply misfit_nonneg.
Qed.
