From Coq Require Import List ZArith QArith Bool Lia.
From Verif Require Import Geom_Model Geom_Spec Geom_Proofs Inter_Model Inter_Spec Inter_Proofs Inter_Sweep2 Inter_Complete2.
From Verif Require Import Contains_Model Contains_Spec Contains_Proofs Contains_Winding Ssys_Spec Isys_Model.
Import ListNotations.
Open Scope Q_scope.

Section P.
Variables (C : Type) (eqb : C -> C -> bool) (tr : C -> C -> Q * Q -> Q * Q).
Hypothesis SY : systems eqb tr.

Lemma vertex_in_is c s p : vertex_in C eqb tr c s p = tr c s p.
Proof.
  unfold vertex_in. destruct (eqb s c) eqn:E; [| reflexivity]. apply (proj1 SY) in E. subst. symmetry. apply (proj2 SY).
Qed.
Lemma in_same fuel s a ra b rb : intersects_in C eqb tr fuel s a ra s b rb = geom_intersects fuel a ra b rb.
Proof.
  unfold intersects_in, geom_intersects. rewrite (map_ext (vertex_in C eqb tr s s) (fun p => p)); [rewrite map_id; reflexivity |].
  intros p. rewrite vertex_in_is. apply (proj2 SY).
Qed.
Lemma same_exact s a ra b rb : simple_path a ra -> simple_path b rb -> proper a ra b rb ->
  exists w, (forall fuel, (2 * (length a + length b) + 1 < fuel)%nat -> intersects_in C eqb tr fuel s a ra s b rb = Ret w) /\
  (w = true <-> exists e f, edge_of a ra e /\ edge_of b rb f /\ meet e f).
Proof.
  intros A B P. destruct (geom_exact a ra b rb A B P) as (w & H & K). exists w. split; [| exact K].
  intros fuel L. rewrite in_same. apply H, L.
Qed.
Lemma numbers_meet fuel s a ra c b rb : a <> [] -> b <> [] -> intersects_in C eqb tr fuel s a ra c b rb = Ret true ->
  (exists e f, edge_of a ra e /\ edge_of b rb f /\ meet e f) /\
  exists x0 y0 x1 y1 u0 v0 u1 v1 p, tight_box x0 y0 x1 y1 a /\ tight_box u0 v0 u1 v1 (map (tr c s) b) /\
    covers x0 y0 x1 y1 p /\ covers u0 v0 u1 v1 p.
Proof.
  intros NA NB H. unfold intersects_in in H. rewrite (map_ext _ _ (vertex_in_is c s)) in H.
  destruct (bbox_c_tight a NA) as (x0 & y0 & x1 & y1 & Ea & Ta).
  destruct (bbox_c_tight (map (tr c s) b)) as (u0 & v0 & u1 & v1 & Eb & Tb).
  { destruct b; [destruct (NB eq_refl) | discriminate]. }
  rewrite Ea, Eb in H. destruct (bboxes_overlap _ _) eqn:O; [| discriminate]. split; [eapply intersects_sound, H |].
  assert (S : forall x y x' y' l, l <> [] -> tight_box x y x' y' l -> x <= x' /\ y <= y').
  { intros x y x' y' [| q l] N (K & _); [destruct (N eq_refl) |]. destruct (K q (or_introl eq_refl)) as [[K1 K2] [K3 K4]].
    split; eapply Qle_trans; eassumption. }
  destruct (S _ _ _ _ _ NA Ta). 
  assert (NB' : map (tr c s) b <> []) by (destruct b; [destruct (NB eq_refl) | discriminate]).
  destruct (S _ _ _ _ _ NB' Tb).
  apply bboxes_overlap_spec in O; try assumption. destruct O as (p & P1 & P2).
  exists x0, y0, x1, y1, u0, v0, u1, v1, p. auto.
Qed.
Lemma contains_at {P D K : Type} s (g : geom P D K) c p : rings P D K g -> off_edges P D K (tr c s p) g ->
  exists b, contains_in C eqb tr s g c p = Ok b /\ (b = true <-> region P D K (tr c s p) g).
Proof. intros R O. unfold contains_in. rewrite vertex_in_is. apply contains_spec; assumption. Qed.
End P.
