(** Property C120: selecting points by a point or polygon in another coordinate system. *)
From Coq Require Import List ZArith QArith Bool Lia Lqa Sorted.
From Verif Require Import Geom_Model Geom_Spec Inter_Model Inter_Spec Contains_Model Contains_Spec Contains_Winding.
From Verif Require Import Ssys_Spec Isys_Props Psys_Model Psys_Spec Psys_Proofs.
From Verif Require Gsys_Spec.
Import ListNotations.
Open Scope Q_scope.

(** C120.  Without an index, within_radius selects exactly the points whose place, in the system of
    the centre, is closer to it than the radius. *)
Theorem C120_radius : forall (C : Type) eqb tr, @systems C eqb tr -> forall s pts c p r i,
  In i (within_radius_in C eqb tr false s pts c p r) <-> exists q, nth_error pts i = Some q /\ closer p (tr s c q) r.
Proof. exact radius_plain. Qed.
Print Assumptions C120_radius.
Example C120_radius_ex : systems Bool.eqb moved /\
  within_radius_in bool Bool.eqb moved false false [(0, 0); (1, 1); (5, 5); (2, 0)] true (3, 0) 2 = [1%nat; 3%nat] /\
  within_radius_in bool Bool.eqb moved false false [(0, 0); (1, 1); (5, 5); (2, 0)] true (1, 0) 2 = [0%nat; 1%nat].
Proof. split; [exact C119_nonvacuous |]. vm_compute. auto. Qed.

(** C120.  Without an index, within_polygon selects exactly the points whose place, in the system of
    the polygon, the ring winds round (off its edges, as in C30). *)
Theorem C120_polygon_partial : forall (C : Type) eqb tr, @systems C eqb tr -> forall s pts c ring i q,
  nth_error pts i = Some q -> off (tr s c q) ring ->
  (In i (within_polygon_in C eqb tr false s pts c ring) <-> exists w, winding (tr s c q) ring w /\ w <> 0%Z).
Proof. exact polygon_plain. Qed.
Print Assumptions C120_polygon_partial.
Definition square : list pt := [(- (2), 0); (2, 0); (2, 4); (- (2), 4)].
Example C120_polygon_ex : off (moved false true (0, 1)) square /\
  within_polygon_in bool Bool.eqb moved false false [(0, 1); (3 # 2, 1); (- (5 # 2), 1)] true square = [0%nat; 2%nat].
Proof. split; [apply off_check |]; vm_compute; reflexivity. Qed.

(** C120.  Selected points are in their order, each once, with and without an index. *)
Theorem C120_order : forall (C : Type) eqb tr index s pts c p r ring,
  StronglySorted lt (within_radius_in C eqb tr index s pts c p r) /\
  StronglySorted lt (within_polygon_in C eqb tr index s pts c ring).
Proof. exact sorted_all. Qed.
Print Assumptions C120_order.

(** C120.  In one system the index makes no difference to within_radius. *)
Theorem C120_same : forall (C : Type) eqb tr, @systems C eqb tr -> forall s pts p r,
  within_radius_in C eqb tr true s pts s p r = within_radius_in C eqb tr false s pts s p r.
Proof. exact radius_same. Qed.
Print Assumptions C120_same.
Example C120_same_ex :
  within_radius_in bool Bool.eqb moved true false [(0, 0); (1, 1); (5, 5); (2, 0)] false (1, 0) 2 = [0%nat; 1%nat; 3%nat].
Proof. vm_compute. reflexivity. Qed.

(** C120.  In one system the index makes no difference to within_polygon, if no point is on an edge (on
    the left and lower sides it does: C34_polygon_refuted). *)
Theorem C120_polygon_same_partial : forall (C : Type) eqb tr, @systems C eqb tr -> forall s pts ring,
  (forall q, In q pts -> off q ring) -> within_polygon_in C eqb tr true s pts s ring = within_polygon_in C eqb tr false s pts s ring.
Proof. exact polygon_same. Qed.
Print Assumptions C120_polygon_same_partial.
Example C120_polygon_same_ex : (forall q, In q [(0, 1); (3, 1)] -> off q square) /\
  within_polygon_in bool Bool.eqb moved true false [(0, 1); (3, 1)] false square = [0%nat].
Proof. split; [intros q [<- | [<- | []]]; apply off_check |]; vm_compute; reflexivity. Qed.

(** C120.  Nor does it in different systems, if the transformation keeps straight lines, can be undone,
    and no point is on an edge. *)
Theorem C120_straight_partial : forall (C : Type) eqb tr, @systems C eqb tr -> forall s pts c ring,
  Gsys_Spec.affine (tr c s) -> (forall q, same (tr c s (tr s c q)) q) -> (forall q, In q pts -> off (tr s c q) ring) ->
  within_polygon_in C eqb tr true s pts c ring = within_polygon_in C eqb tr false s pts c ring.
Proof. exact polygon_straight. Qed.
Print Assumptions C120_straight_partial.
(** Two systems, turned by 45 degrees against each other. *)
Definition turned (a b : bool) (p : Q * Q) : Q * Q :=
  match a, b with
  | true, false => (fst p - snd p, fst p + snd p)
  | false, true => ((fst p + snd p) / 2, (snd p - fst p) / 2)
  | _, _ => p
  end.
Example C120_straight_ex : systems Bool.eqb turned /\ Gsys_Spec.affine (turned true false) /\
  (forall q, same (turned true false (turned false true q)) q) /\
  (forall q, In q [(- (1), 1); (- (6), 3)] -> off (turned false true q) square) /\
  within_polygon_in bool Bool.eqb turned true false [(- (1), 1); (- (6), 3)] true square = [0%nat].
Proof.
  split; [split; [apply Bool.eqb_true_iff | intros [|] p; reflexivity] |]. split.
  - exists 1, (- (1)), 0, 1, 1, 0. intros p. split; cbn [turned fst snd]; ring.
  - split; [intros q; split; cbn [turned fst snd]; field |].
    split; [intros q [<- | [<- | []]]; apply off_check |]; vm_compute; reflexivity.
Qed.

(** C120.  What an index leaves of the selection by radius: the points whose own numbers are inside
    the square round the numbers of the centre. *)
Theorem C120_radius_index : forall (C : Type) eqb tr s pts c p r i,
  In i (within_radius_in C eqb tr true s pts c p r) <->
  In i (within_radius_in C eqb tr false s pts c p r) /\
  exists q, nth_error pts i = Some q /\ inside (fst p - r) (snd p - r) (fst p + r) (snd p + r) q.
Proof. exact radius_index. Qed.
Print Assumptions C120_radius_index.
(** C120.  What an index leaves of the selection by polygon: the points inside the box of the
    transformed vertices. *)
Theorem C120_polygon_index : forall (C : Type) eqb tr, @systems C eqb tr -> forall s pts c ring i,
  In i (within_polygon_in C eqb tr true s pts c ring) <->
  In i (within_polygon_in C eqb tr false s pts c ring) /\
  exists q x0 y0 x1 y1, nth_error pts i = Some q /\ ring <> [] /\ tight_box x0 y0 x1 y1 (map (tr c s) ring) /\ inside x0 y0 x1 y1 q.
Proof. exact polygon_index. Qed.
Print Assumptions C120_polygon_index.

(** Finding: with an index, within_radius with a centre in another system loses points, here one that
    is exactly at the centre. *)
Theorem C120_radius_refuted : exists pts p r,
  (exists q, nth_error pts 0 = Some q /\ closer p (moved false true q) r) /\
  within_radius_in bool Bool.eqb moved true false pts true p r = [].
Proof.
  exists [(0, 0)], (1, 0), (1 # 2). split; [| vm_compute; reflexivity].
  exists (0, 0). split; [reflexivity |]. unfold closer. cbn [moved fst snd]. lra.
Qed.
Print Assumptions C120_radius_refuted.
(** Two systems: a line of equal y in the second is a parabola in the first. *)
Definition bent (a b : bool) (p : Q * Q) : Q * Q :=
  match a, b with
  | true, false => (fst p, snd p - fst p * fst p)
  | false, true => (fst p, snd p + fst p * fst p)
  | _, _ => p
  end.
(** Finding: with an index, within_polygon loses points of a polygon in another system if the
    transformation bends lines, here all of those near the middle of a square. *)
Theorem C120_polygon_refuted : systems Bool.eqb bent /\ (forall p a b, same (bent b a (bent a b p)) p) /\
  exists pts ring, (exists q w, nth_error pts 0 = Some q /\ off (bent false true q) ring /\ winding (bent false true q) ring w /\ w <> 0%Z) /\
  within_polygon_in bool Bool.eqb bent false false pts true ring = [0%nat] /\
  within_polygon_in bool Bool.eqb bent true false pts true ring = [].
Proof.
  split; [split; [apply Bool.eqb_true_iff | intros [|] p; reflexivity] |]. split.
  - intros [x y] [|] [|]; split; cbn [bent fst snd]; ring.
  - exists [(0, 1)], square. assert (O : off (bent false true (0, 1)) square) by (apply off_check; vm_compute; reflexivity).
    split; [| vm_compute; auto]. exists (0, 1), (count (bent false true (0, 1)) square).
    split; [reflexivity | split; [exact O | split; [apply count_winding, O | vm_compute; discriminate]]].
Qed.
Print Assumptions C120_polygon_refuted.
