(** Statements in terms of exact values, and witnesses. *)
From Coq Require Import List ZArith QArith Qabs Qpower Qreals Reals Lra Lia Bool.
From Flocq Require Import Core IEEE754.BinarySingleNaN.
From Verif Require Inter_Model.
From Verif Require Import Geom_Model Geom_Spec Contains_Spec Contains_Winding Inter_Spec.
From Verif Require Import Dbl_Model Dbl_Spec Dbl_Float Dbl_Contains Dbl_Grid Dbl_Area.
Import ListNotations.
Open Scope Q_scope.

Lemma val_le (a b : double) : value a <= value b <-> (val a <= val b)%R.
Proof. rewrite Rle_Q, !value_R. reflexivity. Qed.
Lemma pos_R' (a : double) : 0 < value a <-> (0 < val a)%R.
Proof. rewrite Rlt_Q, value_R. replace (Q2R 0) with 0%R by (unfold Q2R; cbn; lra). reflexivity. Qed.
Lemma neg_R' (a : double) : value a < 0 <-> (val a < 0)%R.
Proof. rewrite Rlt_Q, value_R. replace (Q2R 0) with 0%R by (unfold Q2R; cbn; lra). reflexivity. Qed.
Lemma orient (d a b : double) : (0 < value d /\ value a <= value b) \/ (value d < 0 /\ value b <= value a) ->
  (0 < val d /\ val a <= val b)%R \/ (val d < 0 /\ val b <= val a)%R.
Proof. rewrite pos_R', neg_R', !val_le. tauto. Qed.
Lemma columns_in_order T x x' y y' : plain T -> upto 300 x -> upto 300 x' -> upto 300 y -> upto 300 y' ->
  (0 < value (dx T) /\ value x <= value x') \/ (value (dx T) < 0 /\ value x' <= value x) ->
  value (snd (positions T x y)) <= value (snd (positions T x' y')) /\
  forall i j i' j', indices T x y = Some (i, j) -> indices T x' y' = Some (i', j') -> (j <= j')%Z.
Proof.
  intros HT Hx Hx' Hy Hy' O. apply orient in O. pose proof (col_order T x x' y y' HT Hx Hx' Hy Hy' O) as C.
  split; [apply val_le; assumption |]. unfold indices. destruct (positions T x y) as [p q], (positions T x' y') as [p' q']; cbn [snd] in C.
  intros i j i' j'. destruct (to_int32 p); [| discriminate]. destruct (to_int32 q) eqn:E; [| discriminate]. intros H. injection H as _ <-.
  destruct (to_int32 p'); [| discriminate]. destruct (to_int32 q') eqn:E'; [| discriminate]. intros H. injection H as _ <-.
  eapply to_int32_order; eassumption.
Qed.
Lemma rows_in_order T x x' y y' : plain T -> upto 300 x -> upto 300 x' -> upto 300 y -> upto 300 y' ->
  (0 < value (dy T) /\ value y <= value y') \/ (value (dy T) < 0 /\ value y' <= value y) ->
  value (fst (positions T x y)) <= value (fst (positions T x' y')) /\
  forall i j i' j', indices T x y = Some (i, j) -> indices T x' y' = Some (i', j') -> (i <= i')%Z.
Proof.
  intros HT Hx Hx' Hy Hy' O. apply orient in O. pose proof (row_order T x x' y y' HT Hx Hx' Hy Hy' O) as C.
  split; [apply val_le; assumption |]. unfold indices. destruct (positions T x y) as [p q], (positions T x' y') as [p' q']; cbn [fst] in C.
  intros i j i' j'. destruct (to_int32 p) eqn:E; [| discriminate]. destruct (to_int32 q); [| discriminate]. intros H. injection H as <- _.
  destruct (to_int32 p') eqn:E'; [| discriminate]. destruct (to_int32 q'); [| discriminate]. intros H. injection H as <- _.
  eapply to_int32_order; eassumption.
Qed.

(** Witnesses. *)
Definition D (m e : Z) : double := binary_normalize 53 1024 _ _ mode_NE m e false.
Definition wp : pnt := (D 8208651944766733 (-50), D 2487397170238195 (-50)).
Definition wa : pnt := (D 2589569785738035 (-48), D 5404319552844595 (-54)).
Definition wb : pnt := (D 7543529375845581 (-50), D 3152519739159347 (-50)).
Definition wc : pnt := (D 1 0, D 1 0).
Definition wd : pnt := (D 12 0, D 4 0).
Definition vp : pnt := (D 1456774220459899 (-48), D 1847348723936041 (-48)).
Definition va : pnt := (D 4165829655317709 (-50), D 3602879701896397 (-54)).
Definition vb : pnt := (D 5967269506265907 (-50), D 3996944669291315 (-49)).
Definition vc : pnt := (D 1 0, D 4 0).
Definition vd : pnt := (D 9 0, D 3 0).
Lemma upto_check k a : is_finite a && Qle_bool (Qabs (value a)) (Qpower 2 k) = true -> upto k a.
Proof. intros H. apply andb_true_iff in H. rewrite Qle_bool_iff in H. exact H. Qed.
Lemma upto2_check k l : forallb (fun p : pnt => is_finite (fst p) && Qle_bool (Qabs (value (fst p))) (Qpower 2 k) && (is_finite (snd p) && Qle_bool (Qabs (value (snd p))) (Qpower 2 k))) l = true -> Forall (upto2 k) l.
Proof.
  intros H. rewrite forallb_forall in H. apply Forall_forall. intros p I. specialize (H p I). apply andb_true_iff in H. destruct H.
  split; apply upto_check; assumption.
Qed.
Definition inside (p : pnt) (l : list pnt) : Prop := exists w, winding (values p) (map values l) w /\ w <> 0%Z.
Lemma inside_check (p : pnt) l b : forallb (fun e => negb (Qeq_bool (tri (values p) (fst e) (snd e)) 0)) (Inter_Model.edges (map values l) true) = true ->
  negb (Contains_Model.count (values p) (map values l) =? 0)%Z = b ->
  off (values p) (map values l) /\ if b then inside p l else ~ inside p l.
Proof.
  intros H1 H2. apply off_check in H1. split; [assumption |]. unfold inside. pose proof (count_wound _ _ H1) as C. destruct b.
  - apply negb_true_iff, Z.eqb_neq in H2. apply C. assumption.
  - apply negb_false_iff, Z.eqb_eq in H2. intros K. apply C in K. congruence.
Qed.
Lemma in_both : exists a b c d p : pnt, Forall (upto2 4) [a; b; c; d; p] /\
  off (values p) (map values [a; b; c]) /\ off (values p) (map values [b; a; d]) /\
  ~ inside p [a; b; c] /\ inside p [b; a; d] /\
  contains p [a; b; c] = true /\ contains p [b; a; d] = true.
Proof.
  exists wa, wb, wc, wd, wp. split; [apply upto2_check; vm_compute; reflexivity |].
  destruct (inside_check wp [wa; wb; wc] false) as [O1 I1]; [vm_compute; reflexivity .. |].
  destruct (inside_check wp [wb; wa; wd] true) as [O2 I2]; [vm_compute; reflexivity .. |].
  repeat split; try assumption; vm_compute; reflexivity.
Qed.
Lemma in_neither : exists a b c d p : pnt, Forall (upto2 4) [a; b; c; d; p] /\
  off (values p) (map values [a; b; c]) /\ off (values p) (map values [b; a; d]) /\
  inside p [a; b; c] /\ ~ inside p [b; a; d] /\
  contains p [a; b; c] = false /\ contains p [b; a; d] = false.
Proof.
  exists va, vb, vc, vd, vp. split; [apply upto2_check; vm_compute; reflexivity |].
  destruct (inside_check vp [va; vb; vc] true) as [O1 I1]; [vm_compute; reflexivity .. |].
  destruct (inside_check vp [vb; va; vd] false) as [O2 I2]; [vm_compute; reflexivity .. |].
  split; [assumption |]. split; [assumption |]. split; [assumption |]. split; [assumption |]. split; vm_compute; reflexivity.
Qed.

Lemma sized_check a : is_finite a && Qle_bool (Qpower 2 (-200)) (Qabs (value a)) && Qle_bool (Qabs (value a)) (Qpower 2 200) = true -> sized a.
Proof. intros H. rewrite !andb_true_iff, !Qle_bool_iff in H. unfold sized. tauto. Qed.
Definition grid02 : transform := mkT zero zero (D 3602879701896397 (-54)) (D 3602879701896397 (-54)) zero zero.
Definition far : transform := mkT (D 6755451737293310 0) zero (D 3 0) (D 3 0) zero zero.
Lemma plain02 : plain grid02.
Proof. unfold plain, grid02; cbn [x0 y0 dx dy sx sy]. repeat (apply conj); try (apply upto_check; vm_compute; reflexivity); try (apply sized_check; vm_compute; reflexivity); vm_compute; reflexivity. Qed.
Lemma plain_far : plain far.
Proof. unfold plain, far; cbn [x0 y0 dx dy sx sy]. repeat (apply conj); try (apply upto_check; vm_compute; reflexivity); try (apply sized_check; vm_compute; reflexivity); vm_compute; reflexivity. Qed.
Lemma other_cell : exists T x y i j j', plain T /\ upto 2 x /\ upto 2 y /\
  value (x0 T) + inject_Z j * value (dx T) < value x /\ value x < value (x0 T) + inject_Z (j + 1) * value (dx T) /\
  indices T x y = Some (i, j') /\ j' <> j.
Proof.
  exists grid02, (D 2476979795053773 (-50)), (D 1 0), 4%Z, 11%Z, 10%Z. split; [exact plain02 |].
  split; [apply upto_check; vm_compute; reflexivity |]. split; [apply upto_check; vm_compute; reflexivity |].
  split; [vm_compute; reflexivity |]. split; [vm_compute; reflexivity |]. split; [| lia].
  vm_compute. reflexivity.
Qed.
Lemma lost_centre : exists T i j i' j', plain T /\ cells (x0 T) (dx T) <= Qpower 2 52 /\ cells (y0 T) (dy T) == 0 /\
  (0 <= i < 1000)%Z /\ (0 <= j < 1000)%Z /\ indices T (fst (center T i j)) (snd (center T i j)) = Some (i', j') /\ j' <> j.
Proof.
  exists far, 0%Z, 582%Z, 0%Z, 583%Z. split; [exact plain_far |]. split; [apply Qle_bool_iff; vm_compute; reflexivity |].
  split; [vm_compute; reflexivity |]. split; [lia |]. split; [lia |]. split; [| lia]. vm_compute. reflexivity.
Qed.
Lemma area_lost : exists l m : list pnt, length l = 3%nat /\ length m = 3%nat /\ Forall (upto2 54) (l ++ m) /\
  signed_area (0, 0) (map values l) == 2 /\ Qabs (signed_area (0, 0) (map values m)) == 2 /\
  value (ring_area l) == 4 /\ value (ring_area m) == 0.
Proof.
  exists [(D 1 53, zero); (D 4503599627370497 1, zero); (D 4503599627370497 1, D 2 0)].
  exists [(D 1 53, zero); (D 4503599627370497 1, D 2 0); (D 1 53, D 2 0)].
  split; [reflexivity |]. split; [reflexivity |]. split; [apply upto2_check; vm_compute; reflexivity |].
  repeat split; vm_compute; reflexivity.
Qed.

(** Checks for examples. *)
Definition clear_b (pt a b : Q * Q) : bool :=
  let p := (fst b - fst a) * (snd pt - snd a) in
  let q := (fst pt - fst a) * (snd b - snd a) in
  Contains_Model.qlt ((Qabs p + Qabs q) * Qpower 2 (-51) + Qpower 2 (-1074)) (Qabs (p - q)).
Lemma edge_clear_check (p a b c : pnt) :
  clear_b (values p) (values a) (values b) && clear_b (values p) (values b) (values c) && clear_b (values p) (values c) (values a) = true ->
  forall i x y, ring_edge [a; b; c] i x y -> clear_of (values p) (values x) (values y).
Proof.
  rewrite !andb_true_iff. unfold clear_b. rewrite !qlt_Q. intros [[H1 H2] H3] i x y [E1 E2].
  destruct i as [| [| [| i]]]; cbn in E1, E2; try discriminate; injection E1 as <-; injection E2 as <-; assumption.
Qed.
Lemma raster_check k e n f a : is_finite a && Qeq_bool (value a) (inject_Z n * Qpower 2 f) && (Z.abs n <=? 2 ^ k)%Z && (e =? f)%Z = true -> raster k e a.
Proof.
  rewrite !andb_true_iff. intros [[[F E] B] K]. apply Z.eqb_eq in K. subst f. split; [assumption |]. exists n. split; [apply Qeq_bool_iff; assumption | apply Z.leb_le; assumption].
Qed.
