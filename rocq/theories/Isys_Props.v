(** Property C119: geometries in different coordinate systems together. *)
From Coq Require Import List ZArith QArith Bool Lia Lqa.
From Verif Require Import Geom_Model Geom_Spec Inter_Model Inter_Spec Inter_Examples Contains_Model Contains_Spec Contains_Winding.
From Verif Require Import Ssys_Spec Isys_Model Isys_Proofs.
Import ListNotations.
Open Scope Q_scope.

(** Two systems: x in the second is one more than in the first. *)
Definition moved (a b : bool) (p : Q * Q) : Q * Q :=
  match a, b with
  | true, false => (fst p - 1, snd p)
  | false, true => (fst p + 1, snd p)
  | _, _ => p
  end.
Example C119_nonvacuous : systems Bool.eqb moved.
Proof. split; [apply Bool.eqb_true_iff | intros [|] p; reflexivity]. Qed.

(** C119.  A polygon contains a point in any system exactly if the transformed point is in its
    region (off its edges, as in C30). *)
Theorem C119_contains_partial : forall (C : Type) eqb tr, @systems C eqb tr ->
  forall (P D K : Type) s (g : geom P D K) c p, rings P D K g -> off_edges P D K (tr c s p) g ->
  exists b, contains_in C eqb tr s g c p = Ok b /\ (b = true <-> region P D K (tr c s p) g).
Proof. intros C eqb tr SY P D K. exact (contains_at C eqb tr SY). Qed.
Print Assumptions C119_contains_partial.
Example C119_contains_ex :
  contains_in bool Bool.eqb moved false donut true (3 # 2, 1 # 3) = Ok true /\
  contains_in bool Bool.eqb moved false donut true (9 # 2, 1 # 3) = Ok true /\
  contains_in bool Bool.eqb moved false donut true (1 # 2, 1 # 3) = Ok false.
Proof. vm_compute. auto. Qed.

(** C119.  Whether two lines or polygons in the same system intersect: exactly if edges of them meet
    (in general position, as in C29). *)
Theorem C119_same_partial : forall (C : Type) eqb tr, @systems C eqb tr ->
  forall s a ra b rb, simple_path a ra -> simple_path b rb -> proper a ra b rb ->
  exists w, (forall fuel, (2 * (length a + length b) + 1 < fuel)%nat -> intersects_in C eqb tr fuel s a ra s b rb = Ret w) /\
  (w = true <-> exists e f, edge_of a ra e /\ edge_of b rb f /\ meet e f).
Proof. exact same_exact. Qed.
Print Assumptions C119_same_partial.
Example C119_same_ex : simple_path tent false /\ simple_path bar false /\ proper tent false bar false.
Proof. exact (conj tent_simple (conj bar_simple tent_bar)). Qed.

(** C119.  In different systems, True means that the boxes overlap in the system of the first, and
    that edges meet if the numbers of the second are taken to be in that system as well. *)
Theorem C119_numbers_partial : forall (C : Type) eqb tr, @systems C eqb tr ->
  forall fuel s a ra c b rb, a <> [] -> b <> [] -> intersects_in C eqb tr fuel s a ra c b rb = Ret true ->
  (exists e f, edge_of a ra e /\ edge_of b rb f /\ meet e f) /\
  exists x0 y0 x1 y1 u0 v0 u1 v1 p, tight_box x0 y0 x1 y1 a /\ tight_box u0 v0 u1 v1 (map (tr c s) b) /\
    covers x0 y0 x1 y1 p /\ covers u0 v0 u1 v1 p.
Proof. exact numbers_meet. Qed.
Print Assumptions C119_numbers_partial.

(** The diagonal, a line that crosses it and one that does not, as places in the first system. *)
Definition diagonal : list pt := [(0, 0); (4, 4)].
Definition crossing : list pt := [(5 # 4, 7 # 4); (7 # 4, 5 # 4)].
Definition aside : list pt := [(3 # 4, 9 # 4); (5 # 4, 7 # 4)].
Lemma two_edges (p q : pt) e : edge_of [p; q] false e <-> e = (p, q).
Proof.
  split.
  - intros (i & [[H1 H2] | (H & _)]); [| discriminate]. destruct e as [u v]. cbn in *.
    destruct i as [| [| i]]; cbn in *; [congruence | discriminate | destruct i; discriminate].
  - intros ->. exists 0%nat. left. split; reflexivity.
Qed.

(** Finding: lines in different systems that cross are said not to intersect, because the numbers of
    the second are not transformed, *)
Theorem C119_missed_refuted : exists a b,
  (forall fuel, (20 < fuel)%nat -> intersects_in bool Bool.eqb moved fuel false a false true b false = Ret false) /\
  exists e f, edge_of a false e /\ edge_of (map (moved true false) b) false f /\ meet e f.
Proof.
  exists diagonal, (map (moved false true) crossing). split.
  - intros fuel L. replace fuel with (21 + (fuel - 21))%nat by lia. vm_compute. reflexivity.
  - exists ((0, 0), (4, 4)), (moved true false (moved false true (5 # 4, 7 # 4)), moved true false (moved false true (7 # 4, 5 # 4))).
    split; [apply two_edges; reflexivity |]. split; [apply two_edges; reflexivity |].
    exists (3 # 2, 3 # 2). split; [exists (3 # 8) | exists (1 # 2)]; (split; [lra | split; vm_compute; reflexivity]).
Qed.
Print Assumptions C119_missed_refuted.
(** and lines that do not meet are said to intersect. *)
Theorem C119_false_refuted : exists a b,
  (forall fuel, (20 < fuel)%nat -> intersects_in bool Bool.eqb moved fuel false a false true b false = Ret true) /\
  forall e f, edge_of a false e -> edge_of (map (moved true false) b) false f -> ~ meet e f.
Proof.
  exists diagonal, (map (moved false true) aside). split.
  - intros fuel L. replace fuel with (21 + (fuel - 21))%nat by lia. vm_compute. reflexivity.
  - intros e f He Hf. apply two_edges in He, Hf. subst e f.
    intros ([x y] & (t & T & S1 & S2) & (u & U & S3 & S4)). unfold along in *. cbn [fst snd moved] in *. lra.
Qed.
Print Assumptions C119_false_refuted.
(** Finding: the points of intersection of lines in different systems are those of their numbers: here
    a point that is not on the second line, for lines that do not meet, and none for lines that cross. *)
Theorem C119_intersections_refuted :
  (exists p, intersections_in bool false diagonal false true (map (moved false true) aside) false true = (false, [p]) /\ same p (2, 2)) /\
  (forall e, edge_of (map (moved true false) (map (moved false true) aside)) false e -> ~ on_seg e (2, 2)) /\
  intersections_in bool false diagonal false true (map (moved false true) crossing) false true = (false, []).
Proof.
  split; [| split].
  - eexists. split; [vm_compute; reflexivity |]. split; vm_compute; reflexivity.
  - intros e He. apply two_edges in He. subst e. intros (u & U & S3 & S4). unfold along in *. cbn [fst snd moved] in *. lra.
  - vm_compute. reflexivity.
Qed.
Print Assumptions C119_intersections_refuted.
