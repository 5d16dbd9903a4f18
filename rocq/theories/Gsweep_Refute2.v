(** More cases in which [intersects] in geographical coordinate systems is wrong. *)
From Coq Require Import List ZArith Reals Bool Lra Lia Sorted Permutation Arith.
From Verif Require Import GeomR_Model Sphere_Model Sphere_Spec Sphere_Proofs Sphere_Dist Sphere_Bnd Sphere_Inter Gsweep_Model Gsweep_Spec Gsweep_Geom Gsweep_Merid Gsweep_Sweep Gsweep_Line Gsweep_Steady Gsweep_Examples Gsweep_Refute.
Import ListNotations.
Open Scope R_scope.

Ltac rnum := repeat match goal with
  | |- context [rlt ?a ?b] => first [rewrite (proj2 (rlt_t a b)) by lra|rewrite (proj2 (rlt_f a b)) by lra]
  | |- context [req ?a ?b] => first [rewrite (proj2 (req_t a b)) by lra|rewrite (proj2 (req_f a b)) by lra]
  end.
Ltac step := try unfold ev_cmp, seg_cmp, lex, rcmp, bcmp, seg_events, of_kind, seg_eqb, leftof, rightof, remove, endings, enter; cbn [flat_map seg_events push ev_cmp lex rcmp seg_cmp bcmp fst snd p0 p1 color ex eseg ekind app fold_left take_same
  enter of_kind sweep_insert endings map filter end_segments skip_ending existsb leftof rightof remove index option_map nth_error firstn skipn obind seg_eqb andb orb Bool.eqb check negb seg_of]; rnum.
Ltac steps := repeat (progress step).

(* ---- short edges far from the meridian 0 *)
Definition short_e : rpt * rpt := ((134998 / 1000, 0), (135002 / 1000, 0)).
Definition short_f : rpt * rpt := ((134999 / 1000, 1 / 1000), (135001 / 1000, - (1 / 1000))).
Lemma short_plain : plain short_e /\ plain short_f.
Proof. split; (split; [|split; [|split]]); cbn [short_e short_f fst snd]; try (split; cbn [fst snd]; lra); lra. Qed.
Lemma short_cross : exists w, 0 < w < 1 / 100000000 /\ crossing_of short_e short_f = (w, - w, 0).
Proof.
  pose proof PI_RGT_0 as PP. destruct h2_spec as [HB HQ]. set (d := rad (1 / 1000)).
  assert (DB : 0 < d < 3 / 100000) by (unfold d, rad; pose proof PI_4; split; lra).
  assert (E1 : rad (134999 / 1000) = rad 135 - d) by (unfold d, rad; field). assert (E2 : rad (135001 / 1000) = rad 135 + d) by (unfold d, rad; field).
  assert (E3 : rad (134998 / 1000) = rad 135 - 2 * d) by (unfold d, rad; field). assert (E4 : rad (135002 / 1000) = rad 135 + 2 * d) by (unfold d, rad; field).
  assert (E5 : rad (- (1 / 1000)) = - d) by (unfold d, rad; field).
  assert (SD : 0 < sin d < 3 / 100000). { pose proof PI2_1. split; [apply sin_gt_0; lra|]. pose proof (sin_lt_x d). lra. }
  assert (S4 : 0 < sin (4 * d) < 12 / 100000). { pose proof PI2_1. split; [apply sin_gt_0; lra|]. pose proof (sin_lt_x (4 * d)). lra. }
  assert (CE : 0 < cos d <= 1). { pose proof PI2_1. split; [apply cos_gt_0; lra|apply COS_bound]. }
  assert (K : cos (rad 135 - 2 * d) * sin (rad 135 + 2 * d) - sin (rad 135 - 2 * d) * cos (rad 135 + 2 * d) = sin (4 * d)).
  { replace (4 * d) with ((rad 135 + 2 * d) - (rad 135 - 2 * d)) by ring. rewrite (sin_minus (rad 135 + 2 * d)). ring. }
  assert (M1 : sin (rad 135 - d) + sin (rad 135 + d) = 2 * h2 * cos d) by (rewrite sin_minus, sin_plus, (proj1 c135), (proj2 c135); ring).
  assert (M2 : cos (rad 135 - d) + cos (rad 135 + d) = - (2 * h2 * cos d)) by (rewrite cos_minus, cos_plus, (proj1 c135), (proj2 c135); ring).
  exists (2 * h2 * (cos d * cos d) * (sin (4 * d) * sin d)). split.
  - assert (P1 : 0 < cos d * cos d <= 1) by (split; nra). assert (P2 : 0 < sin (4 * d) * sin d < 36 / 10000000000) by (split; nra).
    assert (P3 : 0 < 2 * h2 * (cos d * cos d) < 142 / 100) by (split; nra). split; [nra|]. apply Rlt_trans with (142 / 100 * (36 / 10000000000)); [|lra]. nra.
  - unfold crossing_of, crossing, short_e, short_f. cbn [fst snd]. unfold pos, upos. rewrite E1, E2, E3, E4, E5, rad_0, cos_0, sin_0, cos_neg, sin_neg. fold d.
    unfold vprod. cbn [fst snd]. apply v3_eq; [| |ring].
    + transitivity ((cos (rad 135 - 2 * d) * sin (rad 135 + 2 * d) - sin (rad 135 - 2 * d) * cos (rad 135 + 2 * d)) * (- (sin d * cos d * (cos (rad 135 - d) + cos (rad 135 + d))))); [ring|]. rewrite K, M2. ring.
    + transitivity ((cos (rad 135 - 2 * d) * sin (rad 135 + 2 * d) - sin (rad 135 - 2 * d) * cos (rad 135 + 2 * d)) * (- (sin d * cos d * (sin (rad 135 - d) + sin (rad 135 + d))))); [ring|]. rewrite K, M1. ring.
Qed.
Lemma short_test : edges_intersect (fst short_e) (snd short_e) (fst short_f) (snd short_f) = false.
Proof.
  pose proof PI_RGT_0 as PP. destruct h2_spec as [HB HQ]. destruct short_cross as (w & W & C). unfold edges_intersect. rewrite cross3_twice. fold (crossing_of short_e short_f). rewrite C.
  assert (L : fst (cart2sph_c (vscale (-1) (w, - w, 0))) = Some 45).
  { unfold vscale, cart2sph_c. cbn [fst snd]. rewrite (proj2 (rlt_f _ _)) by (rewrite Rabs_left; lra).
    assert (N1 : sqrt (-1 * w * (-1 * w) + -1 * - w * (-1 * - w)) = w / h2).
    { replace (-1 * w * (-1 * w) + -1 * - w * (-1 * - w)) with (w / h2 * (w / h2)). - apply sqrt_square. left. apply Rdiv_lt_0_compat; lra.
      - transitivity (w * w / (h2 * h2)); [field; lra|]. rewrite HQ. field. }
    rewrite N1. assert (WH : 0 < w / h2) by (apply Rdiv_lt_0_compat; lra). rewrite (proj2 (req_f (w / h2) 0)) by lra. cbn [option_map]. f_equal.
    replace (-1 * - w / (w / h2)) with h2 by (field; lra). assert (AS : asin h2 = PI / 4) by (rewrite <- (proj2 c45), rad_45; apply asin_sin; lra). rewrite AS. field. lra. }
  rewrite L. cbn [option_map]. unfold antipodal. rewrite (pymod_unique (45 + 360) 360 45 1) by lra.
  assert (B : forall x, x = 45 \/ x = 45 - 180 -> isbetween_inc (fst (fst short_e)) (Some x) (fst (snd short_e)) = false).
  { intros x X. destruct (isbetween_inc _ _ _) eqn:E; [|reflexivity]. apply isbetween_t in E. cbn [short_e fst snd] in E. lra. }
  rewrite !B by auto. reflexivity.
Qed.
Lemma short_missed : forall height fuel, (5 < fuel)%nat -> geog_intersects height fuel [fst short_e; snd short_e] false [fst short_f; snd short_f] false = Ret false.
Proof.
  intros height fuel F. destruct short_plain as [Pe Pf]. apply single_false; [exact Pe|exact Pf| |exact F].
  assert (LO : xlo (seg_of false short_e) = 134998 / 1000 /\ xhi (seg_of false short_e) = 135002 / 1000) by (apply lohi_lt; cbn; lra).
  assert (LF : xlo (seg_of true short_f) = 134999 / 1000 /\ xhi (seg_of true short_f) = 135001 / 1000) by (apply lohi_lt; cbn; lra).
  intros s t [<- |[<- |[]]] [<- |[<- |[]]] NE RG; try (exfalso; apply NE; reflexivity).
  - exfalso. lra.
  - exact short_test.
Qed.
Lemma short_meet : meet short_e short_f.
Proof.
  destruct short_plain as [Pe Pf]. exists (pos 135 0). split; [apply equator_on; [exact Pe|lra|left; lra]|].
  apply arc_range; [exact Pf|lra|lra|]. split; [left; cbn; lra|]. unfold short_f. cbn [fst snd]. set (d := rad (1 / 1000)).
  assert (E1 : rad (134999 / 1000) = rad 135 - d) by (unfold d, rad; field). assert (E2 : rad (135001 / 1000) = rad 135 + d) by (unfold d, rad; field).
  assert (E5 : rad (- (1 / 1000)) = - d) by (unfold d, rad; field).
  unfold pos, upos. rewrite E1, E2, E5, rad_0, cos_0, sin_0, cos_neg, sin_neg. fold d. rewrite !cos_minus, !cos_plus, !sin_minus, !sin_plus, (proj1 c135), (proj2 c135).
  unfold vprod, dot. cbn [fst snd]. ring.
Qed.

(* ---- a polygon and a line beside it *)
Definition fork_a : list rpt := [(0, 0); (90, 0); (45, 45)].
Definition fork_b : list rpt := [(30, 45); (45, 60)].
Lemma fork_edges : forall e, edge_of fork_a true e <-> e = ((0, 0), (90, 0)) \/ e = ((90, 0), (45, 45)) \/ e = ((45, 45), (0, 0)).
Proof. intros e. rewrite <- in_edges. cbn. intuition (subst; auto). Qed.
Lemma fork_inner : ends_inner fork_a /\ ends_inner fork_b.
Proof. split; [intros p [<- |[<- |[<- |[]]]]|intros p [<- |[<- |[]]]]; split; cbn [fst snd]; lra. Qed.
Lemma congd_inner : forall x y, -180 < x < 180 -> -180 < y < 180 -> congd x y -> x = y.
Proof. intros x y X Y C. apply (congd_uniq y); [apply congd_sym, C|apply congd_refl|lra]. Qed.
Lemma fork_norepeat : no_repeat fork_a true.
Proof.
  intros i j e f E F C1 L1 C2 L2.
  assert (IE : edge_of fork_a true e) by (exists i; exact E). assert (IF : edge_of fork_a true f) by (exists j; exact F).
  apply sph_edges_nth in E, F. apply congd_inner in C1; [|apply edge_in in IE; apply (proj1 fork_inner), IE|apply edge_in in IF; apply (proj1 fork_inner), IF].
  cbn [sph_edges pairs combine tl fork_a app] in E, F.
  destruct i as [|[|[|i]]]; cbn [nth_error] in E; try (destruct i; discriminate E); injection E as <-;
    (destruct j as [|[|[|j]]]; cbn [nth_error] in F; try (destruct j; discriminate F); injection F as <-); cbn [fst snd] in *; try reflexivity; lra.
Qed.
Lemma fork_regular : forall e, edge_of fork_a true e -> plain e /\ one_side e.
Proof.
  intros e E. apply fork_edges in E. destruct E as [-> |[-> | ->]]; (split; [split; [|split; [|split]]; cbn [fst snd]; try (split; cbn [fst snd]; lra); lra|left; left; cbn [fst snd]; lra]).
Qed.
Lemma fork_b_plain : plain ((30, 45), (45, 60)).
Proof. split; [|split; [|split]]; cbn [fst snd]; try (split; cbn [fst snd]; lra); lra. Qed.
Lemma fork_boxes : forall height fuel, geog_intersects height fuel fork_a true fork_b false = intersects_sph height fuel fork_a true fork_b false.
Proof.
  intros height fuel. unfold geog_intersects.
  destruct (bbox_covers fork_a true ltac:(discriminate) (proj1 fork_inner)) as (xa & ya & xb & yb & -> & CA).
  { intros e E. destruct (fork_regular e E) as [P O]. split; [apply P|exact O]. }
  destruct (bbox_covers fork_b false ltac:(discriminate) (proj2 fork_inner)) as (xc & yc & xd & yd & -> & CB).
  { intros e E. apply one_edge in E. subst e. split; [cbn [fst snd]; lra|left; left; cbn [fst snd]; lra]. }
  assert (END : forall p q, on_edge (p, q) (pos (fst p) (snd p)) /\ on_edge (p, q) (pos (fst q) (snd q))) by (intros; apply arc_ends; apply upos_unit).
  destruct (CA ((0, 0), (90, 0)) 0 0) as [A1 A2]; [apply fork_edges; auto|lra|apply (END (0, 0) (90, 0))|cbn [fst snd]; lra|].
  destruct (CA ((90, 0), (45, 45)) 45 45) as [A3 A4]; [apply fork_edges; auto|lra|apply (END (90, 0) (45, 45))|cbn [fst snd]; lra|].
  destruct (CB ((30, 45), (45, 60)) 30 45) as [B1 B2]; [apply one_edge; reflexivity|lra|apply (END (30, 45) (45, 60))|cbn [fst snd]; lra|].
  rewrite (overlap_of _ _ _ _ _ _ _ _ 30 45) by lra. reflexivity.
Qed.
Lemma fork_found : forall height fuel, (6 < fuel)%nat -> geog_intersects height fuel fork_a true fork_b false = Ret true.
Proof.
  intros height fuel F. rewrite fork_boxes. destruct h2_spec as [HB HQ].
  destruct (intersects_sph_sweep height fork_a true fork_b false fork_norepeat (one_norepeat _ _)) as (w & S & _ & T).
  rewrite S by (cbn; lia). destruct w; [reflexivity|]. exfalso. specialize (T eq_refl).
  set (AB := seg_of false ((0, 0), (90, 0))). set (CA := seg_of false ((45, 45), (0, 0))).
  assert (IS : forall s, In s (segs fork_a true fork_b false) <-> s = AB \/ s = seg_of false ((90, 0), (45, 45)) \/ s = CA \/ s = seg_of true ((30, 45), (45, 60))).
  { intros s. rewrite (in_segs _ _ _ _ (proj1 fork_inner) (proj2 fork_inner)). split.
    - intros [(e & E & ->)|(e & E & ->)]; [apply fork_edges in E; destruct E as [-> |[-> | ->]]; auto|apply one_edge in E; subst e; auto].
    - intros [-> |[-> |[-> | ->]]]; [left; eexists; split; [apply fork_edges; left; reflexivity|reflexivity]|left; eexists; split; [apply fork_edges; right; left; reflexivity|reflexivity]|
        left; eexists; split; [apply fork_edges; right; right; reflexivity|reflexivity]|right; eexists; split; [apply one_edge; reflexivity|reflexivity]]. }
  assert (LA : xlo AB = 0 /\ xhi AB = 90) by (apply lohi_lt; cbn; lra). assert (LC : xlo CA = 0 /\ xhi CA = 45) by (apply lohi_gt; cbn; lra).
  assert (NA : nv AB) by (unfold nv; cbn; lra). assert (NC : nv CA) by (unfold nv; cbn; lra).
  assert (NE : AB <> CA) by (intros H; apply (f_equal p0) in H; cbn [AB CA seg_of p0 fst] in H; injection H; lra).
  destruct (T 0) as (q' & ND & IQ & AD & _).
  { exists (mkEv 0 Left AB). cbn [eseg ex]. split; [apply IS; auto|]. split; [|reflexivity]. split; [exact NA|cbn [ex eseg]; lra]. }
  assert (AJ : adj q' AB CA).
  { apply two_list; [exact ND|apply IQ; split; [apply IS; auto|split; [exact NA|lra]]|apply IQ; split; [apply IS; auto|split; [exact NC|lra]]|exact NE|].
    intros u U. apply IQ in U. destruct U as (I & _ & X). apply IS in I. destruct I as [-> |[-> |[-> | ->]]]; auto; exfalso.
    - assert (L : xlo (seg_of false ((90, 0), (45, 45))) = 45 /\ xhi (seg_of false ((90, 0), (45, 45))) = 90) by (apply lohi_gt; cbn; lra). lra.
    - assert (L : xlo (seg_of true ((30, 45), (45, 60))) = 30 /\ xhi (seg_of true ((30, 45), (45, 60))) = 45) by (apply lohi_lt; cbn; lra). lra. }
  assert (IA : In AB q') by (apply IQ; split; [apply IS; auto|split; [exact NA|lra]]).
  pose proof (AD AB CA IA (proj1 LA) AJ) as H. unfold intersects2 in H. cbn [AB CA seg_of p0 p1 fst snd] in H.
  assert (CR : crossing_of ((45, 45), (0, 0)) ((0, 0), (90, 0)) = (h2, 0, 0)).
  { unfold crossing_of, crossing. cbn [fst snd]. trig. unfold vprod. cbn [fst snd]. apply v3_eq; lra. }
  destruct (far ((45, 45), (0, 0)) ((0, 0), (90, 0))) as (R1 & _ & NS); [rewrite CR; cbn [fst]; rewrite Rabs_right; lra|].
  pose proof (two_complete ((45, 45), (0, 0)) ((0, 0), (90, 0))) as TC. cbn [fst snd] in TC. rewrite TC in H; [discriminate| | |exact R1|exact NS|].
  - apply fork_regular, fork_edges. auto.
  - apply fork_regular, fork_edges. auto.
  - exists (pos 0 0). split; unfold on_edge; cbn [fst snd]; apply arc_ends; apply upos_unit.
Qed.
(** The plane of an edge between two sets. *)
Lemma separated : forall n p q r s w, dot n p <= 0 -> dot n q <= 0 -> 0 < dot n r -> 0 < dot n s -> on_arc3 p q w -> on_arc3 r s w -> False.
Proof.
  intros n p q r s w P Q RR SS (U & a & b & A & B & E1) (_ & c & d & C & D & E2).
  assert (L : forall u v a b, dot n (vadd (vscale a u) (vscale b v)) = a * dot n u + b * dot n v).
  { intros [[u1 u2] u3] [[v1 v2] v3] a' b'. destruct n as [[n1 n2] n3]. unfold dot, vadd, vscale. cbn [fst snd]. ring. }
  assert (H1 : dot n w <= 0) by (rewrite E1, L; nra).
  assert (H2 : 0 <= dot n w) by (rewrite E2, L; nra).
  assert (H3 : c * dot n r + d * dot n s = 0) by (rewrite <- L, <- E2; lra).
  assert (c * dot n r = 0 /\ d * dot n s = 0) as [K1 K2] by (split; nra).
  apply Rmult_integral in K1, K2. destruct K1 as [-> |K1]; [|lra]. destruct K2 as [-> |K2]; [|lra].
  rewrite E2 in U. destruct r as [[r1 r2] r3], s as [[s1 s2] s3]. unfold dot, vadd, vscale in U. cbn [fst snd] in U. ring_simplify in U. lra.
Qed.
Lemma fork_apart : forall e f, edge_of fork_a true e -> edge_of fork_b false f -> ~ meet e f.
Proof.
  intros e f E F (w & O1 & O2). apply one_edge in F. subst f. apply fork_edges in E. destruct h2_spec as [HB HQ]. destruct h3_spec as [H3 _].
  assert (S : forall p q, dot (0, - h2, 1 / 2) p <= 0 -> dot (0, - h2, 1 / 2) q <= 0 -> on_arc3 p q w -> False).
  { intros p q P Q O. apply (separated (0, - h2, 1 / 2) p q _ _ w P Q) in O2; [exact O2| | |exact O]; unfold dot; cbn [fst snd]; trig; cbn [fst snd].
    - match goal with |- 0 < ?t => replace t with (h2 / 2 - h2 * h2 * (1 / 2)) by field end. rewrite HQ. lra.
    - match goal with |- 0 < ?t => replace t with (h3 / 2 - h2 * h2 * (1 / 2)) by field end. rewrite HQ. lra. }
  assert (V0 : dot (0, - h2, 1 / 2) (pos 0 0) <= 0) by (trig; unfold dot; cbn [fst snd]; lra).
  assert (V1 : dot (0, - h2, 1 / 2) (pos 90 0) <= 0) by (trig; unfold dot; cbn [fst snd]; lra).
  assert (V2 : dot (0, - h2, 1 / 2) (pos 45 45) <= 0) by (trig; unfold dot; cbn [fst snd]; match goal with |- ?t <= 0 => replace t with (h2 * (1 / 2 - h2 * h2)) by ring end; rewrite HQ; lra).
  destruct E as [-> |[-> | ->]]; refine (S _ _ _ _ O1); cbn [fst snd]; assumption.
Qed.
