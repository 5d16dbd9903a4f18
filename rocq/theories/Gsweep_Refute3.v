(** Cases of the sweep in which the order of the open edges matters. *)
From Coq Require Import List ZArith Reals Bool Lra Lia Sorted Permutation Arith.
From Verif Require Import GeomR_Model Sphere_Model Sphere_Spec Sphere_Proofs Sphere_Dist Sphere_Bnd Sphere_Inter Gsweep_Model Gsweep_Spec Gsweep_Geom Gsweep_Merid Gsweep_Sweep Gsweep_Line Gsweep_Steady Gsweep_Examples Gsweep_Refute Gsweep_Refute2.
Import ListNotations.
Open Scope R_scope.

(* ---- lines that touch end to end *)
Definition end_a : list rpt := [(0, 0); (30, 0)].
Definition end_b : list rpt := [(30, 0); (60, 30)].
Lemma end_inner : ends_inner end_a /\ ends_inner end_b.
Proof. split; intros p [<- |[<- |[]]]; split; cbn [fst snd]; lra. Qed.
Lemma end_missed : forall height fuel, (5 < fuel)%nat -> geog_intersects height fuel end_a false end_b false = Ret false.
Proof.
  intros height fuel F. assert (I : intersects_sph height fuel end_a false end_b false = Ret false).
  { unfold intersects_sph. fold (segs end_a false end_b false). rewrite (segs_inner _ _ _ _ (proj1 end_inner) (proj2 end_inner)).
    cbn [sph_edges pairs combine tl end_a end_b map app]. set (A := seg_of false ((0, 0), (30, 0))). set (B := seg_of true ((30, 0), (60, 30))).
    assert (EV : events [A; B] = [mkEv 0 Left A; mkEv 30 Right A; mkEv 30 Left B; mkEv 60 Right B]).
    { unfold events, A, B, seg_events, ev_cmp, seg_cmp, rcmp. steps. reflexivity. }
    rewrite EV. clear EV. do 6 (destruct fuel as [|fuel]; [lia|]). unfold A, B. cbn [length]. cbn [sweep].
    steps. destruct (goes_on _ _ _ _).
    all: steps; reflexivity. }
  unfold geog_intersects. destruct (geog_bbox end_a false); [|exact I]. destruct (geog_bbox end_b false); [|exact I]. destruct (boxes_overlap _ _); [exact I|reflexivity].
Qed.
Lemma end_meet : meet ((0, 0), (30, 0)) ((30, 0), (60, 30)).
Proof. exists (pos 30 0). split; unfold on_edge; cbn [fst snd]; apply arc_ends; apply upos_unit. Qed.

(* ---- a line that runs along an edge twice *)
Definition twice_a : list rpt := [(0, 0); (30, 0); (0, 0); (30, 0)].
Definition twice_b : list rpt := [(10, 0); (20, 0)].
Lemma twice_inner : ends_inner twice_a /\ ends_inner twice_b.
Proof. split; [intros p [<- |[<- |[<- |[<- |[]]]]]|intros p [<- |[<- |[]]]]; split; cbn [fst snd]; lra. Qed.
Lemma equator_test : forall x0 x1 x2 x3 c d, intersects2 (mkSeg (x0, 0) (x1, 0) c) (mkSeg (x2, 0) (x3, 0) d) = false.
Proof. intros. exact (two_same ((x0, 0), (x1, 0)) ((x2, 0), (x3, 0)) (equator_same _ _ _ _)). Qed.
Lemma skip_loop : forall (next : seg -> option (option seg)) ending (P : seg -> Prop), (forall s, P s -> existsb (seg_eqb s) ending = true /\ exists t, next s = Some (Some t) /\ P t) ->
  forall fuel s, P s -> skip_ending fuel next ending (Some s) = Loop.
Proof.
  intros next ending P H. induction fuel as [|fuel IH]; intros s Ps; cbn [skip_ending]; [reflexivity|]. destruct (H s Ps) as (E & t & N & Pt). rewrite E, N. apply IH, Pt.
Qed.
Lemma skip_left : forall fuel q ending s, (2 < fuel)%nat -> existsb (seg_eqb s) ending = true -> leftof q s = Some None -> skip_ending fuel (leftof q) ending (Some s) = Ret None.
Proof. intros fuel q ending s F E L. destruct fuel as [|[|fuel]]; [lia|lia|]. cbn [skip_ending]. rewrite E, L. reflexivity. Qed.
Lemma sweep_turn : forall height fuel n queue q evs rest q1, take_same (match queue with e :: _ => ex e | [] => 0 end) queue = (evs, rest) /\ enter height evs q = q1 /\ queue <> [] ->
  sweep height fuel (S n) queue q = obind (end_segments fuel (endings evs) (endings evs) q1) (fun p =>
      obind (check (fst p) evs (snd p)) (fun b => if b then Ret true else sweep height fuel n rest (fst p))).
Proof. intros height fuel n [|e queue] q evs rest q1 (H & <- & N); [contradiction|]. cbn [sweep]. rewrite H. reflexivity. Qed.
Section Twice.
Variable height : seg -> R -> option R.
Variables A A' B : seg.
Hypothesis EAA : seg_eqb A A = true.   Hypothesis EAA' : seg_eqb A A' = false. Hypothesis EAB : seg_eqb A B = false.
Hypothesis EA'A : seg_eqb A' A = false. Hypothesis EA'A' : seg_eqb A' A' = true. Hypothesis EA'B : seg_eqb A' B = false.
Hypothesis EBA : seg_eqb B A = false.  Hypothesis EBA' : seg_eqb B A' = false. Hypothesis EBB : seg_eqb B B = true.
Hypothesis IT : forall s t, In s [A; A'; B] -> In t [A; A'; B] -> intersects2 s t = false.
Ltac eqs := repeat (progress (cbn [existsb orb index option_map nth_error firstn skipn app skip_ending obind end_segments fst snd sweep_insert check ekind eseg ex of_kind];
  unfold leftof, rightof, remove; rewrite ?EAA, ?EAA', ?EAB, ?EA'A, ?EA'A', ?EA'B, ?EBA, ?EBA', ?EBB)).
Ltac ints := repeat (rewrite IT; [|cbn; tauto|cbn; tauto]).
Definition shape (q : list seg) : Prop := q = [A; A; A'] \/ q = [A; A'; A] \/ q = [A'; A; A].
Lemma loops : forall fuel q, shape q -> end_segments fuel [A; A; A'] [A; A; A'] q = Loop.
Proof.
  intros fuel q H.
  assert (RR : skip_ending fuel (rightof q) [A; A; A'] (Some A) = Loop).
  { apply (skip_loop _ _ (fun s => s = A \/ (s = A' /\ q = [A; A'; A]))); [|left; reflexivity]. intros s [-> |[-> ->]].
    - split; [cbn [existsb]; rewrite EAA; reflexivity|]. destruct H as [-> |[-> | ->]]; [exists A|exists A'|exists A]; (split; [eqs; reflexivity|auto]).
    - split; [cbn [existsb]; rewrite EA'A, EA'A'; reflexivity|]. exists A. split; [eqs; reflexivity|auto]. }
  cbn [end_segments]. rewrite RR.
  assert (LL : skip_ending fuel (leftof q) [A; A; A'] (Some A) = Loop \/ exists l, skip_ending fuel (leftof q) [A; A; A'] (Some A) = Ret l).
  { destruct fuel as [|[|[|fuel]]]; [left; reflexivity|..]; destruct H as [-> |[-> | ->]]; eqs; eauto. }
  destruct LL as [-> |(l & ->)]; reflexivity.
Qed.
Lemma phase0 : shape (sweep_insert height (sweep_insert height [A] A 0) A' 0) /\
  forall q, shape q -> check q [mkEv 0 Left A; mkEv 0 Left A; mkEv 0 Left A'] [] = Ret false.
Proof.
  split.
  - assert (E : sweep_insert height [A] A 0 = [A; A]) by (cbn [sweep_insert]; destruct (goes_on height A A 0); reflexivity). rewrite E. cbn [sweep_insert].
    unfold shape. destruct (goes_on height A A' 0); auto.
  - intros q [-> |[-> | ->]]; eqs; ints; reflexivity.
Qed.
Lemma insert_at : forall q, exists u v, sweep_insert height q B 10 = u ++ B :: v /\ q = u ++ v.
Proof.
  induction q as [|t q (u & v & E & ->)]; cbn [sweep_insert]; [exists [], []; auto|]. destruct (goes_on height t B 10); [|exists [], (t :: u ++ v); auto].
  rewrite E. exists (t :: u), v. auto.
Qed.
Lemma index_at : forall u v, (forall t, In t u -> seg_eqb t B = false) -> index (u ++ B :: v) B = Some (length u).
Proof. induction u as [|t u IH]; intros v H; cbn [index app length]; [rewrite EBB; reflexivity|]. rewrite H by (left; reflexivity). rewrite IH by (intros w I; apply H; right; exact I). reflexivity. Qed.
Lemma phase1 : forall q, shape q -> check (sweep_insert height q B 10) [mkEv 10 Left B] [] = Ret false /\
  forall fuel, (1 < fuel)%nat -> exists nb, end_segments fuel [B] [B] (sweep_insert height q B 10) = Ret (q, nb) /\ check q [mkEv 20 Right B] nb = Ret false.
Proof.
  intros q H. assert (M : forall t, In t q -> seg_eqb t B = false /\ intersects2 t B = false).
  { intros t I. assert (I' : t = A \/ t = A') by (destruct H as [-> |[-> | ->]]; cbn in I; intuition auto). split; [destruct I' as [-> | ->]; assumption|].
    apply IT; [destruct I' as [-> | ->]; cbn; auto|cbn; auto]. }
  destruct (insert_at q) as (u & v & -> & ->). clear H.
  assert (IX : index (u ++ B :: v) B = Some (length u)) by (apply index_at; intros t I; apply M, in_or_app; auto).
  assert (LO : exists l, leftof (u ++ B :: v) B = Some l /\ forall t, l = Some t -> In t (u ++ v)).
  { unfold leftof. rewrite IX. destruct (length u) as [|i] eqn:L; [exists None; split; [reflexivity|discriminate]|]. eexists. split; [reflexivity|].
    intros t T. rewrite nth_error_app1 in T by (clear - L; lia). apply nth_error_In in T. apply in_or_app. auto. }
  assert (RO : exists r, rightof (u ++ B :: v) B = Some r /\ forall t, r = Some t -> In t (u ++ v)).
  { unfold rightof. rewrite IX. eexists. split; [reflexivity|]. intros t T. rewrite nth_error_app2 in T by (clear; lia). replace (S (length u) - length u)%nat with 1%nat in T by (clear; lia).
    cbn [nth_error] in T. destruct v as [|t' v]; [discriminate|]. injection T as ->. apply in_or_app. right. left. reflexivity. }
  destruct LO as (l & LO & LI). destruct RO as (r & RO & RI). split.
  - cbn [check ekind eseg]. rewrite LO, RO.
    assert (E1 : match l with Some t => intersects2 t B | None => false end = false) by (destruct l; [apply M, LI; reflexivity|reflexivity]).
    assert (E2 : match r with Some t => intersects2 t B | None => false end = false) by (destruct r; [apply M, RI; reflexivity|reflexivity]). rewrite E1, E2. reflexivity.
  - intros [|[|fuel]] F; [clear - F; lia|clear - F; lia|]. exists [(l, r)]. split.
    + cbn [end_segments].
      assert (SL : skip_ending (S (S fuel)) (leftof (u ++ B :: v)) [B] (Some B) = Ret l).
      { cbn [skip_ending existsb]. rewrite EBB. cbn [orb]. rewrite LO. destruct l as [t|]; [|reflexivity]. rewrite (proj1 (M t (LI t eq_refl))). reflexivity. }
      assert (SR : skip_ending (S (S fuel)) (rightof (u ++ B :: v)) [B] (Some B) = Ret r).
      { cbn [skip_ending existsb]. rewrite EBB. cbn [orb]. rewrite RO. destruct r as [t|]; [|reflexivity]. rewrite (proj1 (M t (RI t eq_refl))). reflexivity. }
      rewrite SL, SR. cbn [obind]. unfold remove. rewrite IX. cbn [obind fst snd]. f_equal. f_equal.
      rewrite firstn_app, Nat.sub_diag, firstn_all, app_nil_r. f_equal. rewrite skipn_app. rewrite skipn_all2 by (clear; lia). replace (S (length u) - length u)%nat with 1%nat by (clear; lia). reflexivity.
    + cbn [check ekind eseg]. destruct l as [t|]; [|reflexivity]. destruct r as [t'|]; [|reflexivity]. rewrite (proj2 (M t' (RI t' eq_refl))). reflexivity.
Qed.
Lemma phases : forall fuel, sweep height fuel 8 [mkEv 0 Left A; mkEv 0 Left A; mkEv 0 Left A'; mkEv 10 Left B; mkEv 20 Right B; mkEv 30 Right A; mkEv 30 Right A; mkEv 30 Right A'] [] = Loop.
Proof.
  intros fuel. destruct phase0 as [S0 C0]. set (q := sweep_insert height (sweep_insert height [A] A 0) A' 0) in *. specialize (C0 q S0).
  rewrite (sweep_turn height fuel 7 _ _ [mkEv 0 Left A; mkEv 0 Left A; mkEv 0 Left A'] [mkEv 10 Left B; mkEv 20 Right B; mkEv 30 Right A; mkEv 30 Right A; mkEv 30 Right A'] q) by (split; [cbn [take_same ex]; rnum; reflexivity|split; [reflexivity|discriminate]]).
  cbn [endings map filter of_kind ekind end_segments obind fst snd]. rewrite C0. cbn [obind].
  destruct (phase1 q S0) as [C1 N1]. set (q1 := sweep_insert height q B 10) in *.
  rewrite (sweep_turn height fuel 6 _ _ [mkEv 10 Left B] [mkEv 20 Right B; mkEv 30 Right A; mkEv 30 Right A; mkEv 30 Right A'] q1) by (split; [cbn [take_same ex]; rnum; reflexivity|split; [reflexivity|discriminate]]).
  cbn [endings map filter of_kind ekind end_segments obind fst snd]. rewrite C1. cbn [obind].
  rewrite (sweep_turn height fuel 5 _ _ [mkEv 20 Right B] [mkEv 30 Right A; mkEv 30 Right A; mkEv 30 Right A'] q1) by (split; [cbn [take_same ex]; rnum; reflexivity|split; [reflexivity|discriminate]]).
  cbn [endings map filter of_kind ekind eseg]. destruct fuel as [|[|fuel]].
  - reflexivity.
  - unfold q1. destruct (insert_at q) as (u & v & -> & E). cbn [end_segments skip_ending existsb]. rewrite EBB. cbn [orb].
    assert (IX : index (u ++ B :: v) B = Some (length u)).
    { apply index_at. intros t I. assert (I' : In t q) by (rewrite E; apply in_or_app; auto). destruct S0 as [-> |[-> | ->]]; cbn in I'; intuition (subst; assumption). }
    unfold leftof. rewrite IX. destruct (length u); reflexivity.
  - destruct (N1 (S (S fuel)) ltac:(clear; lia)) as (nb & E & K). rewrite E. cbn [obind fst snd]. rewrite K. cbn [obind].
    rewrite (sweep_turn height (S (S fuel)) 4 _ _ [mkEv 30 Right A; mkEv 30 Right A; mkEv 30 Right A'] [] q) by (split; [cbn [take_same ex]; rnum; reflexivity|split; [reflexivity|discriminate]]).
    cbn [endings map filter of_kind ekind eseg]. rewrite loops by exact S0. reflexivity.
Qed.
End Twice.
Lemma twice_loops : forall height fuel, geog_intersects height fuel twice_a false twice_b false = Loop.
Proof.
  intros height fuel. assert (L : intersects_sph height fuel twice_a false twice_b false = Loop).
  { unfold intersects_sph. fold (segs twice_a false twice_b false). rewrite (segs_inner _ _ _ _ (proj1 twice_inner) (proj2 twice_inner)).
    cbn [sph_edges pairs combine tl twice_a twice_b map app]. unfold seg_of. cbn [fst snd]. set (A := mkSeg (0, 0) (30, 0) false). set (A' := mkSeg (30, 0) (0, 0) false). set (B := mkSeg (10, 0) (20, 0) true).
    assert (EV : events [A; A'; A; B] = [mkEv 0 Left A; mkEv 0 Left A; mkEv 0 Left A'; mkEv 10 Left B; mkEv 20 Right B; mkEv 30 Right A; mkEv 30 Right A; mkEv 30 Right A']).
    { unfold events, A, A', B. steps. reflexivity. }
    rewrite EV. clear EV. apply phases; try (unfold seg_eqb, A, A', B; steps; reflexivity).
    intros s t [<- |[<- |[<- |[]]]] [<- |[<- |[<- |[]]]]; apply equator_test. }
  unfold geog_intersects.
  assert (PL : forall e, edge_of twice_a false e \/ edge_of twice_b false e -> -180 < fst (snd e) - fst (fst e) < 180 /\ one_side e).
  { intros e [E|E]; rewrite <- in_edges in E; cbn [twice_a twice_b sph_edges pairs combine tl In] in E.
    - destruct E as [<- |[<- |[<- |[]]]]; (split; [cbn [fst snd]; lra|left; left; cbn [fst snd]; lra]).
    - destruct E as [<- |[]]; (split; [cbn [fst snd]; lra|left; left; cbn [fst snd]; lra]). }
  destruct (bbox_covers twice_a false ltac:(discriminate) (proj1 twice_inner)) as (xa & ya & xb & yb & -> & CA); [intros e E; apply PL; auto|].
  destruct (bbox_covers twice_b false ltac:(discriminate) (proj2 twice_inner)) as (xc & yc & xd & yd & -> & CB); [intros e E; apply PL; auto|].
  destruct (CA ((0, 0), (30, 0)) 10 0) as [A1 A2]; [rewrite <- in_edges; cbn; auto|lra|apply equator_on; [apply plain_eq; lra|lra|lra]|cbn [fst snd]; lra|].
  destruct (CB ((10, 0), (20, 0)) 10 0) as [B1 B2]; [rewrite <- in_edges; cbn; auto|lra|apply equator_on; [apply plain_eq; lra|lra|lra]|cbn [fst snd]; lra|].
  rewrite (overlap_of _ _ _ _ _ _ _ _ 10 0) by lra. exact L.
Qed.
(* ---- a line that turns *)
(** There are such heights. *)
Definition lat_formula (e : rpt * rpt) (x : R) : option R :=
  Some (atan (- (fst (fst (axis e)) * cos (rad x) + snd (fst (axis e)) * sin (rad x)) / snd (axis e)) * 180 / PI).
Lemma accurate_formula : accurate lat_formula.
Proof.
  intros e x P RG. eexists. split; [reflexivity|]. pose proof (plain_z e P) as NZ. fold (axis e) in NZ. set (n := axis e) in *.
  set (t := - (fst (fst n) * cos (rad x) + snd (fst n) * sin (rad x)) / snd n). pose proof (atan_bound t) as AB. pose proof PI_RGT_0 as PP.
  assert (Y : -90 < atan t * 180 / PI < 90) by (apply deg_lat; lra). split; [exact Y|].
  assert (X : -180 < x <= 180) by (destruct P as ((X0 & _) & (X1 & _) & _); lra).
  apply arc_range; [exact P|exact X|exact Y|]. split; [exact RG|]. fold (axis e). fold n.
  assert (RY : rad (atan t * 180 / PI) = atan t) by (unfold rad; field; lra). unfold dot, pos, upos. cbn [fst snd]. rewrite RY.
  assert (CP : 0 < cos (atan t)) by (apply cos_gt_0; lra).
  assert (ST : sin (atan t) = t * cos (atan t)). { pose proof (atan_right_inv t) as T. unfold tan in T. apply (f_equal (fun z => z * cos (atan t))) in T. unfold Rdiv in T. rewrite Rmult_assoc, Rinv_l, Rmult_1_r in T by lra. exact T. }
  rewrite ST. unfold t. field. exact NZ.
Qed.
Definition turn_a : list rpt := [(0, 45); (90, 0); (135, 45)].
Definition turn_b : list rpt := [(-30, -45); (120, 0)].
Definition te1 : rpt * rpt := ((0, 45), (90, 0)).
Definition te2 : rpt * rpt := ((90, 0), (135, 45)).
Definition tf : rpt * rpt := ((-30, -45), (120, 0)).
Lemma turn_inner : ends_inner turn_a /\ ends_inner turn_b.
Proof. split; [intros p [<- |[<- |[<- |[]]]]|intros p [<- |[<- |[]]]]; split; cbn [fst snd]; lra. Qed.
Lemma turn_plain : plain te1 /\ plain te2 /\ plain tf.
Proof. split; [|split]; (split; [|split; [|split]]); cbn [te1 te2 tf fst snd]; try (split; cbn [fst snd]; lra); lra. Qed.
Lemma turn_edges : forall e, edge_of turn_a false e <-> e = te1 \/ e = te2.
Proof. intros e. rewrite <- in_edges. cbn. intuition (subst; auto). Qed.
(** The third coordinates. *)
Lemma tf_z : forall p, on_edge tf p -> snd p <= 0 /\ (snd p = 0 -> fst (fst p) < 0).
Proof.
  intros p (U & s & t & S & T & E). destruct h2_spec as [HB HQ]. revert E. cbn [tf fst snd]. trig. unfold vadd, vscale. cbn [fst snd]. intros ->. cbn [fst snd]. unfold dot in U. cbn [fst snd] in U.
  split; [nra|]. intros Z. assert (s = 0) by nra. subst s. ring_simplify in U. destruct h3_spec as [H3 HQ3].
  assert (t <> 0) by (intros ->; ring_simplify in U; lra). nra.
Qed.
Lemma te_z : forall e p, edge_of turn_a false e -> on_edge e p -> 0 <= snd p /\ (snd p = 0 -> fst (fst p) = 0).
Proof.
  intros e p E O. apply turn_edges in E. destruct h2_spec as [HB HQ]. destruct O as (U & s & t & S & T & EQ). revert EQ.
  destruct E as [-> | ->]; cbn [te1 te2 fst snd]; trig; unfold vadd, vscale; cbn [fst snd]; intros ->; cbn [fst snd].
  - split; [nra|]. intros Z. assert (s = 0) by nra. subst s. ring.
  - split; [nra|]. intros Z. assert (t = 0) by nra. subst t. ring.
Qed.
Lemma turn_apart : forall e f, edge_of turn_a false e -> edge_of turn_b false f -> ~ meet e f.
Proof.
  intros e f E F (p & O1 & O2). apply one_edge in F. subst f. destruct (te_z e p E O1) as [A1 A2]. destruct (tf_z p O2) as [B1 B2]. assert (Z : snd p = 0) by lra. specialize (A2 Z). specialize (B2 Z). lra.
Qed.
Lemma turn_steady : steady turn_a /\ steady turn_b.
Proof.
  split; [|apply (one_steady tf), turn_plain]. split; [left|split; [apply turn_inner|]].
  - intros i j u v L U V. destruct i as [|[|[|i]]]; destruct j as [|[|[|j]]]; try lia; cbn in U, V; try (destruct i; discriminate U); try (destruct j; discriminate V); injection U as <-; injection V as <-; cbn [fst]; lra.
  - intros e E. apply turn_edges in E. destruct E as [-> | ->]; cbn [te1 te2 fst snd]; lra.
Qed.
Lemma turn_slopes : slope (seg_of false te1) < slope (seg_of false te2).
Proof.
  pose proof PI_RGT_0 as PP. destruct h2_spec as [HB HQ]. unfold slope. cbn [seg_of te1 te2 p0 p1 fst snd].
  assert (S1 : sphere_azimuth 0 45 90 0 = PI / 2).
  { unfold sphere_azimuth. replace (radians (90 - 0)) with (rad 90) by (unfold radians, rad; field). replace (radians 0) with (rad 0) by (unfold radians, rad; field).
    rewrite (proj1 c90), (proj2 c90), rad_0, tan_0. rewrite !Rmult_0_r, Rminus_0_r. unfold atan2, TerrainR_Model.atan2. destruct (Rlt_dec 0 0); [lra|]. destruct (Rlt_dec 0 1); lra. }
  assert (S2 : sphere_azimuth 90 0 135 45 < PI / 2).
  { unfold sphere_azimuth. replace (radians (135 - 90)) with (rad 45) by (unfold radians, rad; field). replace (radians 0) with (rad 0) by (unfold radians, rad; field). replace (radians 45) with (rad 45) by (unfold radians, rad; field).
    rewrite rad_0, sin_0, cos_0. unfold tan. rewrite (proj1 c45), (proj2 c45). replace (1 * (h2 / h2) - 0 * h2) with 1 by (field; lra).
    unfold atan2, TerrainR_Model.atan2. destruct (Rlt_dec 0 1); [|lra]. apply atan_bound. }
  rewrite S1. set (z := sphere_azimuth 90 0 135 45) in *. assert (z * 180 / PI < 90); [|replace (PI / 2 * 180 / PI) with 90 by (field; lra); lra].
  replace 90 with (PI / 2 * 180 / PI) by (field; lra). unfold Rdiv. apply Rmult_lt_compat_r; [apply Rinv_0_lt_compat; lra|]. unfold Rdiv in S2. lra.
Qed.
Lemma turn_test : intersects2 (seg_of false te2) (seg_of false te1) = true.
Proof.
  destruct turn_plain as (P1 & P2 & _). destruct h2_spec as [HB HQ].
  assert (C : crossing_of te2 te1 = (0, - (h2 / 2 + 1 / 2), 0)).
  { unfold crossing_of, crossing. cbn [te1 te2 fst snd]. trig. unfold vprod. cbn [fst snd]. apply v3_eq; nra. }
  unfold intersects2. cbn [seg_of p0 p1]. apply (two_complete te2 te1); [exact P2|exact P1| | |].
  - right. rewrite C. cbn [fst snd]. lra.
  - unfold same_circle. rewrite C. intros H. injection H. lra.
  - exists (pos 90 0). split; unfold on_edge; cbn [te1 te2 fst snd]; apply arc_ends; apply upos_unit.
Qed.
Lemma sin_pos_lat : forall y, -90 < y < 90 -> sin (rad y) <= 0 -> y <= 0.
Proof.
  intros y Y H. destruct (Rle_lt_dec y 0) as [L|L]; [exact L|]. exfalso. pose proof PI_RGT_0. pose proof (rad_lat _ Y) as RY. assert (0 < sin (rad y)); [|lra]. apply sin_gt_0; [|lra]. unfold rad. unfold Rdiv.
  apply Rmult_lt_0_compat; [|lra]. apply Rmult_lt_0_compat; lra.
Qed.

Section Turn.
Variable height : rpt * rpt -> R -> option R.
Hypothesis HA : accurate height.
Let hs (s : seg) (x : R) : option R := height (p0 s, p1 s) x.
Lemma h_f : forall x, -30 <= x <= 120 -> exists y, hs (seg_of true tf) x = Some y /\ y <= 0 /\ (0 < cos (rad x) \/ x = 90 -> y < 0).
Proof.
  intros x X. destruct (HA tf x) as (y & E & Y & O); [apply turn_plain|cbn; lra|]. exists y. split; [exact E|]. destruct (tf_z _ O) as [Z1 Z2]. unfold pos, upos in Z1, Z2. cbn [fst snd] in Z1, Z2.
  assert (L : y <= 0) by (apply sin_pos_lat; assumption). split; [exact L|]. intros C. destruct L as [L|L]; [exact L|]. exfalso. subst y. rewrite rad_0, sin_0, cos_0 in Z2. specialize (Z2 eq_refl).
  destruct C as [C| ->]; [nra|]. rewrite (proj1 c90) in Z2. lra.
Qed.
Lemma h_vertex : forall e p c, plain e -> p = fst e \/ p = snd e -> hs (seg_of c e) (fst p) = Some (snd p).
Proof.
  intros e p c P I. assert (RG : fst (fst e) <= fst p <= fst (snd e) \/ fst (snd e) <= fst p <= fst (fst e)) by (destruct I as [-> | ->]; lra).
  destruct (HA e (fst p) P RG) as (y & E & Y & O). unfold hs. cbn [seg_of p0 p1]. rewrite <- surjective_pairing. rewrite E. f_equal.
  assert (IP : inner p) by (destruct P as (A & B & _); destruct I as [-> | ->]; assumption). destruct IP as [X1 Y1].
  apply (one_height e (fst p)); [exact P|lra|exact Y|exact Y1|exact O|]. apply vertex_on; assumption.
Qed.
Lemma turn_sweep : forall fuel, (6 < fuel)%nat -> intersects_sph hs fuel turn_a false turn_b false = Ret true.
Proof.
  intros fuel F. unfold intersects_sph. fold (segs turn_a false turn_b false). rewrite (segs_inner _ _ _ _ (proj1 turn_inner) (proj2 turn_inner)).
  cbn [sph_edges pairs combine tl turn_a turn_b map app]. fold te1 te2 tf. set (E1 := seg_of false te1). set (E2 := seg_of false te2). set (FF := seg_of true tf).
  assert (EV : events [E1; E2; FF] = [mkEv (-30) Left FF; mkEv 0 Left E1; mkEv 90 Right E1; mkEv 90 Left E2; mkEv 120 Right FF; mkEv 135 Right E2]).
  { unfold events, E1, E2, FF, te1, te2, tf. steps. reflexivity. }
  rewrite EV. clear EV. cbn [length].
  assert (Q11 : seg_eqb E1 E1 = true) by (unfold E1, te1, seg_eqb; steps; reflexivity). assert (Q22 : seg_eqb E2 E2 = true) by (unfold E2, te2, seg_eqb; steps; reflexivity).
  assert (QFF : seg_eqb FF FF = true) by (unfold FF, tf, seg_eqb; steps; reflexivity). assert (QF1 : seg_eqb FF E1 = false) by (unfold FF, E1, tf, te1, seg_eqb; steps; reflexivity).
  assert (QF2 : seg_eqb FF E2 = false) by (unfold FF, E2, tf, te2, seg_eqb; steps; reflexivity). assert (Q12 : seg_eqb E1 E2 = false) by (unfold E1, E2, te1, te2, seg_eqb; steps; reflexivity).
  assert (Q21 : seg_eqb E2 E1 = false) by (unfold E1, E2, te1, te2, seg_eqb; steps; reflexivity).
  assert (HE0 : hs E1 0 = Some 45) by (apply (h_vertex te1 (0, 45)); [apply turn_plain|left; reflexivity]).
  assert (HE9 : hs E1 90 = Some 0) by (apply (h_vertex te1 (90, 0)); [apply turn_plain|right; reflexivity]).
  assert (HE2 : hs E2 90 = Some 0) by (apply (h_vertex te2 (90, 0)); [apply turn_plain|left; reflexivity]).
  destruct (h_f 0 ltac:(lra)) as (y0 & HF0 & Y0 & _). destruct (h_f 90 ltac:(lra)) as (y9 & HF9 & _ & Y9). specialize (Y9 (or_intror eq_refl)). fold FF in HF0, HF9.
  assert (G1 : goes_on hs FF E1 0 = true) by (unfold goes_on; rewrite HF0, HE0; rewrite (proj2 (rlt_t y0 45)) by lra; reflexivity).
  assert (G2 : goes_on hs FF E2 90 = true) by (unfold goes_on; rewrite HF9, HE2; rewrite (proj2 (rlt_t y9 0)) by lra; reflexivity).
  assert (G3 : goes_on hs E1 E2 90 = true).
  { unfold goes_on. rewrite HE9, HE2. rewrite (proj2 (req_t 0 0)) by reflexivity. rewrite (proj2 (rlt_t (slope E1) (slope E2))) by apply turn_slopes. cbn [andb]. apply orb_true_r. }
  rewrite (sweep_turn hs fuel 5 _ _ [mkEv (-30) Left FF] [mkEv 0 Left E1; mkEv 90 Right E1; mkEv 90 Left E2; mkEv 120 Right FF; mkEv 135 Right E2] [FF]) by (split; [cbn [take_same ex]; rnum; reflexivity|split; [reflexivity|discriminate]]).
  cbn [endings map filter of_kind ekind end_segments obind fst snd check eseg]. unfold leftof, rightof. cbn [index]. rewrite QFF. cbn [nth_error obind].
  rewrite (sweep_turn hs fuel 4 _ _ [mkEv 0 Left E1] [mkEv 90 Right E1; mkEv 90 Left E2; mkEv 120 Right FF; mkEv 135 Right E2] [FF; E1]) by (split; [cbn [take_same ex]; rnum; reflexivity|split; [unfold enter; cbn [fold_left of_kind ekind eseg ex sweep_insert]; rewrite G1; reflexivity|discriminate]]).
  cbn [endings map filter of_kind ekind end_segments obind fst snd check eseg]. unfold leftof, rightof. cbn [index]. rewrite QF1, Q11. cbn [option_map nth_error].
  destruct (intersects2 FF E1); [reflexivity|]. cbn [obind].
  rewrite (sweep_turn hs fuel 3 _ _ [mkEv 90 Right E1; mkEv 90 Left E2] [mkEv 120 Right FF; mkEv 135 Right E2] [FF; E1; E2]) by (split; [cbn [take_same ex]; rnum; reflexivity|split; [unfold enter; cbn [fold_left of_kind ekind eseg ex sweep_insert]; rewrite G2, G3; reflexivity|discriminate]]).
  destruct fuel as [|[|fuel]]; [clear - F; lia|clear - F; lia|]. cbn [endings map filter of_kind ekind end_segments eseg skip_ending existsb]. rewrite Q11. cbn [orb].
  unfold leftof, rightof, remove. cbn [index]. rewrite QF1, Q11. cbn [option_map nth_error]. rewrite QF1, Q21. cbn [orb obind firstn skipn app fst snd check ekind eseg].
  unfold E1, E2. rewrite turn_test. reflexivity.
Qed.
Lemma turn_found : forall fuel, (6 < fuel)%nat -> geog_intersects hs fuel turn_a false turn_b false = Ret true.
Proof.
  intros fuel F. unfold geog_intersects.
  destruct (bbox_covers turn_a false ltac:(discriminate) (proj1 turn_inner)) as (xa & ya & xb & yb & -> & CA).
  { intros e E. apply turn_edges in E. destruct E as [-> | ->]; (split; [cbn [te1 te2 fst snd]; lra|left; left; cbn [te1 te2 fst snd]; lra]). }
  destruct (CA te1 90 0) as [A1 A2]; [apply turn_edges; auto|lra|unfold on_edge; cbn [te1 fst snd]; apply arc_ends; apply upos_unit|cbn [te1 fst snd]; lra|].
  assert (BB : exists yc yd, geog_bbox turn_b false = Some (-30, yc, 120, yd) /\ yc <= 0 <= yd).
  { unfold geog_bbox, turn_b. cbn [fold_left fst snd]. set (s0 := mkB (-30) (-45) (-30) (-45) 0 (-30, -45)). set (s1 := bstep s0 (-30, -45)).
    destruct (bstep_east s0 (-30, -45)) as (B1 & B2 & B3); [apply stay|cbn [bprev s0 fst]; lra|]. fold s1 in B1, B2, B3. cbn [s0 bxmin bxmax brot fst] in B1, B2, B3.
    assert (P1 : bprev s1 = (-30, -45)) by apply bstep_prev.
    assert (N : bndlat_sph (-30, -45) (-30, -45) = None) by (apply bnd_answers; reflexivity).
    assert (Y1 : bymin s1 = -45 /\ bymax s1 = -45) by (unfold s1, bstep; cbn [bprev s0]; rewrite N; destruct (negb _); [split; reflexivity|]; destruct (rlt _ _); split; reflexivity).
    assert (C : crosses_datelinr (-30) 120 = 0).
    { unfold crosses_datelinr. rewrite (proj2 (rlt_f 180 _)) by (rewrite Rabs_left; lra). rewrite andb_false_r. reflexivity. }
    destruct (bstep_east s1 (120, 0)) as (D1 & D2 & _); [rewrite P1; cbn [fst]; exact C|rewrite P1; cbn [fst]; lra|]. cbn [fst] in D1, D2. rewrite B1 in D1. rewrite B2 in D2.
    assert (BN : bndlat_sph (-30, -45) (120, 0) = Some (-45, 0)).
    { pose proof PI_RGT_0. unfold bndlat_sph. cbn [fst snd]. rewrite (proj2 (req_f ((120 - -30) * PI / 180) 0)) by lra. cbn [andb orb]. unfold rsign. rewrite (proj2 (rle_f 0 (-45))) by lra. rewrite (proj2 (rle_t 0 0)) by lra. cbn [xorb].
      unfold fminr, fmaxr. destruct (Rle_dec (-45) 0); [reflexivity|lra]. }
    assert (Y2 : bymin (bstep s1 (120, 0)) <= 0 <= bymax (bstep s1 (120, 0))).
    { destruct Y1 as [Y1 Y1']. unfold bstep. rewrite P1, BN, Y1, Y1'. assert (M : fmaxr (-45) 0 = 0 /\ fminr (-45) (-45) = -45) by (unfold fmaxr, fminr; destruct (Rle_dec (-45) 0), (Rle_dec (-45) (-45)); lra).
      destruct M as [-> ->]. destruct (negb _); [cbn [bymin bymax]; lra|]. destruct (rlt _ _); cbn [bymin bymax]; lra. }
    exists (bymin (bstep s1 (120, 0))), (bymax (bstep s1 (120, 0))). split; [|exact Y2]. rewrite D1, D2.
    replace (fmaxr (fmaxr (-30) (-30)) 120) with 120 by (unfold fmaxr; destruct (Rle_dec (-30) (-30)); destruct (Rle_dec _ _); lra).
    rewrite (pymod_unique (-30 + 180) 360 150 0) by lra. rewrite (pymod_unique (120 + 180) 360 300 0) by lra.
    match goal with |- Some (?a, _, ?b, _) = Some (?c, _, ?d, _) => replace a with c by lra; replace b with d by lra end. reflexivity. }
  destruct BB as (yc & yd & -> & BY). rewrite (overlap_of _ _ _ _ _ _ _ _ 90 0) by lra. apply turn_sweep, F.
Qed.
End Turn.
