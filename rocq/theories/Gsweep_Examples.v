(** Examples of [intersects] in geographical coordinate systems. *)
From Coq Require Import List ZArith Reals Bool Lra Lia Sorted Permutation Arith.
From Verif Require Import GeomR_Model Sphere_Model Sphere_Spec Sphere_Proofs Sphere_Dist Sphere_Bnd Sphere_Inter Gsweep_Model Gsweep_Spec Gsweep_Geom Gsweep_Merid Gsweep_Sweep Gsweep_Line Gsweep_Steady.
Import ListNotations.
Open Scope R_scope.

Lemma segs_inner : forall a ra b rb, ends_inner a -> ends_inner b ->
  segs a ra b rb = map (seg_of false) (sph_edges a ra) ++ map (seg_of true) (sph_edges b rb).
Proof.
  intros a ra b rb A B. unfold segs. f_equal; apply map_ext_in; intros e I; apply in_edges, edge_in in I; destruct I; apply to_seg_inner; auto.
Qed.
(** Two edges. *)
Lemma one_edge : forall p q e, edge_of [p; q] false e <-> e = (p, q).
Proof.
  intros p q e. rewrite <- in_edges. cbn. split; [intros [H|[]]; symmetry; exact H|intros ->; left; reflexivity].
Qed.
Lemma one_norepeat : forall p q, no_repeat [p; q] false.
Proof.
  intros p q i j e f E F _ _ _ _. apply sph_edges_nth in E, F. cbn [sph_edges pairs combine tl] in E, F.
  destruct i as [|[|i]]; try discriminate. destruct j as [|[|j]]; try discriminate. reflexivity.
Qed.
Lemma one_steady : forall e, plain e -> steady [fst e; snd e].
Proof.
  intros [p q] (A & B & NE & SP). cbn [fst snd] in *. split; [|split].
  - assert (F : forall i j u v, (i < j)%nat -> nth_error [p; q] i = Some u -> nth_error [p; q] j = Some v -> u = p /\ v = q).
    { intros i j u v L U V. destruct i as [|[|i]]; cbn [nth_error] in U; [|destruct j as [|[|j]]; try lia; cbn in V; destruct j; discriminate|destruct i; discriminate].
      destruct j as [|[|j]]; [lia| |cbn in V; destruct j; discriminate]. cbn in V. split; congruence. }
    destruct (Rlt_le_dec (fst p) (fst q)); [left|right]; intros i j u v L U V; destruct (F i j u v L U V) as [-> ->]; lra.
  - intros r [<- |[<- |[]]]; assumption.
  - intros e E. apply one_edge in E. subst e. exact SP.
Qed.
(** Two lines of one edge each: right for all heights. *)
Lemma single_exact : forall height e f, plain e -> plain f -> one_side e -> one_side f -> resolved e f -> resolved f e -> ~ same_circle e f ->
  ~ end_to_end [fst e; snd e] [fst f; snd f] -> ~ end_to_end [fst f; snd f] [fst e; snd e] ->
  exists w, (forall fuel, (5 < fuel)%nat -> geog_intersects height fuel [fst e; snd e] false [fst f; snd f] false = Ret w) /\ (w = true <-> meet e f).
Proof.
  intros height e f Pe Pf Oe Of R1 R2 NS N1 N2. set (a := [fst e; snd e]) in *. set (b := [fst f; snd f]) in *.
  assert (Sa : steady a) by (apply one_steady, Pe). assert (Sb : steady b) by (apply one_steady, Pf).
  assert (EA : forall g, edge_of a false g <-> g = e) by (intros g; unfold a; rewrite one_edge, <- surjective_pairing; reflexivity).
  assert (EB : forall g, edge_of b false g <-> g = f) by (intros g; unfold b; rewrite one_edge, <- surjective_pairing; reflexivity).
  assert (AP : apart a b) by (intros g h G H; apply EA in G; apply EB in H; subst; auto).
  destruct (geog_answers height a false b false (steady_norepeat a Sa) (steady_norepeat b Sb)) as (w & SW). exists w. split; [exact SW|].
  assert (N : (length a + length b + 1 < 6)%nat) by (cbn; lia). split.
  - intros ->. specialize (SW 6%nat N). destruct (intersects_sph_sweep height a false b false (steady_norepeat a Sa) (steady_norepeat b Sb)) as (w & S & T & _).
    assert (H' : intersects_sph height 6 a false b false = Ret true).
    { unfold geog_intersects in SW. destruct (geog_bbox a false) as [ba|]; [|exact SW]. destruct (geog_bbox b false) as [bb|]; [|exact SW]. destruct (boxes_overlap ba bb); [exact SW|discriminate]. }
    rewrite (S 6%nat N) in H'. injection H' as ->. destruct (T eq_refl) as (x & HT).
    assert (CL : forall s t, In s (segs a false b false) -> In t (segs a false b false) -> s <> t -> color s <> color t).
    { intros s t Is It NE. apply (in_ss a b Sa Sb) in Is, It. destruct Is as [(g & G & ->)|(g & G & ->)], It as [(h & H & ->)|(h & H & ->)];
        try apply EA in G; try apply EA in H; try apply EB in G; try apply EB in H; subst; cbn; try discriminate; contradiction. }
    assert (FIN : exists g h, edge_of a false g /\ edge_of b false h /\ meet g h).
    { destruct HT as [(q' & s & t & ND & IQ & Is & It & NE & XS & H)|[(evs & q & s & r & ND & IQ & Is & IA & BE & XS & XR & H)|(q' & s & _ & Is & NV & _)]].
      - apply IQ in Is, It. apply (pair_sound a b Sa Sb AP t s); [apply It|apply Is|apply CL; [apply It|apply Is|]|exact H]. intros ->. apply NE. reflexivity.
      - assert (Ir : In r (enter height evs q)) by (destruct BE as (u & v & z & ->); apply in_or_app; right; right; apply in_or_app; right; left; reflexivity).
        apply IQ in Is. apply IA in Ir. apply (pair_sound a b Sa Sb AP r s); [apply Ir|apply Is|apply CL; [apply Ir|apply Is|]|exact H]. intros ->. contradiction.
      - exfalso. apply NV. apply (in_ss a b Sa Sb) in Is. destruct Is as [(g & G & ->)|(g & G & ->)]; apply plain_nv; [apply EA in G|apply EB in G]; subst; assumption. }
    destruct FIN as (g & h & G & H & M). apply EA in G. apply EB in H. subst. exact M.
  - intros M. assert (HM : exists g h, edge_of a false g /\ edge_of b false h /\ meet g h) by (exists e, f; split; [apply EA; reflexivity|split; [apply EB; reflexivity|exact M]]).
    pose proof (steady_complete a b Sa Sb AP ltac:(intros g G; apply EA in G; subst; exact Oe) ltac:(intros g G; apply EB in G; subst; exact Of) height N1 N2 HM 6 N) as H.
    rewrite (SW 6%nat N) in H. injection H as ->. reflexivity.
Qed.

(* ---- values *)
Definition h2 := sqrt 2 / 2.
Definition h3 := sqrt 3 / 2.
Lemma h2_spec : 7 / 10 < h2 < 71 / 100 /\ h2 * h2 = 1 / 2.
Proof.
  unfold h2. pose proof (sqrt_sqrt 2 ltac:(lra)) as Q. pose proof (sqrt_lt_R0 2 ltac:(lra)) as P. split; [|lra].
  assert (14 / 10 < sqrt 2 < 142 / 100) by (split; nra). lra.
Qed.
Lemma h3_spec : 86 / 100 < h3 < 87 / 100 /\ h3 * h3 = 3 / 4.
Proof.
  unfold h3. pose proof (sqrt_sqrt 3 ltac:(lra)) as Q. pose proof (sqrt_lt_R0 3 ltac:(lra)) as P. split; [|lra].
  assert (172 / 100 < sqrt 3 < 174 / 100) by (split; nra). lra.
Qed.
Lemma c30 : cos (rad 30) = h3 /\ sin (rad 30) = 1 / 2.
Proof. rewrite rad_30, cos_PI6, sin_PI6. split; reflexivity. Qed.
Lemma c45 : cos (rad 45) = h2 /\ sin (rad 45) = h2.
Proof.
  rewrite rad_45. unfold h2. rewrite cos_PI4, sin_PI4. assert (P : 0 < sqrt 2) by (apply sqrt_lt_R0; lra). pose proof (sqrt_sqrt 2 ltac:(lra)) as Q.
  assert (1 / sqrt 2 = sqrt 2 / 2); [|split; assumption]. apply Rmult_eq_reg_r with (sqrt 2); [|lra]. replace (1 / sqrt 2 * sqrt 2) with 1 by (field; lra). lra.
Qed.
Lemma c60 : cos (rad 60) = 1 / 2 /\ sin (rad 60) = h3.
Proof. rewrite rad_60, cos_PI3, sin_PI3. split; reflexivity. Qed.
Lemma c90 : cos (rad 90) = 0 /\ sin (rad 90) = 1.
Proof. rewrite rad_90, cos_PI2, sin_PI2. split; reflexivity. Qed.
Lemma c0 : cos (rad 0) = 1 /\ sin (rad 0) = 0.
Proof. rewrite rad_0, cos_0, sin_0. split; reflexivity. Qed.
Lemma cneg : forall x, cos (rad (- x)) = cos (rad x) /\ sin (rad (- x)) = - sin (rad x).
Proof. intros x. replace (rad (- x)) with (- rad x) by (unfold rad; field). rewrite cos_neg, sin_neg. auto. Qed.
Lemma csup : forall x, cos (rad (180 - x)) = - cos (rad x) /\ sin (rad (180 - x)) = sin (rad x).
Proof. intros x. replace (rad (180 - x)) with (PI - rad x) by (unfold rad; field). rewrite cos_minus, sin_minus, cos_PI, sin_PI. split; ring. Qed.
Lemma cm30 : cos (rad (-30)) = h3 /\ sin (rad (-30)) = - (1 / 2).
Proof. replace (-30) with (- (30)) by lra. rewrite (proj1 (cneg 30)), (proj2 (cneg 30)), (proj1 c30), (proj2 c30). auto. Qed.
Lemma cm10 : cos (rad (-10)) = cos (rad 10) /\ sin (rad (-10)) = - sin (rad 10).
Proof. replace (-10) with (- (10)) by lra. apply cneg. Qed.
Lemma cm45 : cos (rad (-45)) = h2 /\ sin (rad (-45)) = - h2.
Proof. replace (-45) with (- (45)) by lra. rewrite (proj1 (cneg 45)), (proj2 (cneg 45)), (proj1 c45), (proj2 c45). auto. Qed.
Lemma c150 : cos (rad 150) = - h3 /\ sin (rad 150) = 1 / 2.
Proof. replace 150 with (180 - 30) by lra. rewrite (proj1 (csup 30)), (proj2 (csup 30)), (proj1 c30), (proj2 c30). auto. Qed.
Lemma cm150 : cos (rad (-150)) = - h3 /\ sin (rad (-150)) = - (1 / 2).
Proof. replace (-150) with (- (150)) by lra. rewrite (proj1 (cneg 150)), (proj2 (cneg 150)), (proj1 c150), (proj2 c150). auto. Qed.
Lemma c135 : cos (rad 135) = - h2 /\ sin (rad 135) = h2.
Proof. replace 135 with (180 - 45) by lra. rewrite (proj1 (csup 45)), (proj2 (csup 45)), (proj1 c45), (proj2 c45). auto. Qed.
Lemma c120 : cos (rad 120) = - (1 / 2) /\ sin (rad 120) = h3.
Proof. replace 120 with (180 - 60) by lra. rewrite (proj1 (csup 60)), (proj2 (csup 60)), (proj1 c60), (proj2 c60). auto. Qed.
Lemma c180 : cos (rad 180) = -1 /\ sin (rad 180) = 0.
Proof. replace (rad 180) with PI by (unfold rad; field). rewrite cos_PI, sin_PI. auto. Qed.
Ltac trig := unfold pos, upos;
  rewrite ?(proj1 cm30), ?(proj2 cm30), ?(proj1 cm45), ?(proj2 cm45), ?(proj1 c150), ?(proj2 c150), ?(proj1 cm150), ?(proj2 cm150), ?(proj1 c135), ?(proj2 c135), ?(proj1 c120), ?(proj2 c120), ?(proj1 c180), ?(proj2 c180), ?(proj1 cm10), ?(proj2 cm10);
  rewrite ?(proj1 c0), ?(proj2 c0), ?(proj1 c30), ?(proj2 c30), ?(proj1 c45), ?(proj2 c45), ?(proj1 c60), ?(proj2 c60), ?(proj1 c90), ?(proj2 c90).

(* ---- an example *)
Definition ex_a : list rpt := [(-30, 0); (30, 0)].
Definition ex_b : list rpt := [(-30, 30); (0, 0); (30, 30)].
Lemma pa0 : pos (-30) 0 = (h3, - (1 / 2), 0). Proof. trig. apply v3_eq; ring. Qed.
Lemma pa1 : pos 30 0 = (h3, 1 / 2, 0). Proof. trig. apply v3_eq; ring. Qed.
Lemma pb0 : pos (-30) 30 = (3 / 4, - (h3 / 2), 1 / 2). Proof. destruct h3_spec as [_ Q]. trig. apply v3_eq; lra. Qed.
Lemma pb1 : pos 0 0 = (1, 0, 0). Proof. trig. apply v3_eq; ring. Qed.
Lemma pb2 : pos 30 30 = (3 / 4, h3 / 2, 1 / 2). Proof. destruct h3_spec as [_ Q]. trig. apply v3_eq; lra. Qed.
Lemma ex_b_edges : forall e, edge_of ex_b false e <-> e = ((-30, 30), (0, 0)) \/ e = ((0, 0), (30, 30)).
Proof. intros e. rewrite <- in_edges. cbn. intuition (subst; auto). Qed.
Lemma ex_b_steady : steady ex_b.
Proof.
  split; [left|split].
  - intros i j u v L U V. destruct i as [|[|[|i]]]; destruct j as [|[|[|j]]]; try lia; cbn in U, V; try (destruct i; discriminate U); try (destruct j; discriminate V); injection U as <-; injection V as <-; cbn [fst]; lra.
  - intros p [<- |[<- |[<- |[]]]]; split; cbn [fst snd]; lra.
  - intros e E. apply ex_b_edges in E. destruct E as [-> | ->]; cbn [fst snd]; lra.
Qed.
Lemma ex_a_plain : plain ((-30, 0), (30, 0)).
Proof. split; [|split; [|split]]; try (split; cbn [fst snd]; lra); cbn [fst snd]; lra. Qed.
Lemma ex_ab_cross : crossing_of ((-30, 0), (30, 0)) ((-30, 30), (0, 0)) = (- (h3 / 2), 0, 0) /\ crossing_of ((-30, 0), (30, 0)) ((0, 0), (30, 30)) = (h3 / 2, 0, 0).
Proof.
  destruct h3_spec as [_ Q]. unfold crossing_of, crossing. cbn [fst snd]. rewrite pa0, pa1, pb0, pb1, pb2. unfold vprod. cbn [fst snd]. split; apply v3_eq; lra.
Qed.
Lemma cross_swap : forall e f, crossing_of f e = vscale (-1) (crossing_of e f).
Proof.
  intros e f. unfold crossing_of, crossing. set (u := vprod (pos (fst (fst e)) _) _). set (v := vprod (pos (fst (fst f)) _) _). clearbody u v. unfold vprod, vscale. cbn [fst snd]. apply v3_eq; ring.
Qed.
Lemma far : forall e f, 1 / 100000000 < Rabs (fst (fst (crossing_of e f))) -> resolved e f /\ resolved f e /\ ~ same_circle e f.
Proof.
  intros e f H. split; [left; exact H|]. split.
  - left. rewrite cross_swap. unfold vscale. cbn [fst snd]. rewrite Rabs_mult. replace (Rabs (-1)) with 1 by (rewrite Rabs_left; lra). lra.
  - intros S. rewrite S in H. cbn [fst] in H. rewrite Rabs_R0 in H. lra.
Qed.
Lemma ex_apart : apart ex_a ex_b.
Proof.
  intros e f E F. apply one_edge in E. apply ex_b_edges in F. subst e. destruct ex_ab_cross as [C1 C2]. destruct h3_spec as [B _].
  apply far. destruct F as [-> | ->]; [rewrite C1|rewrite C2]; cbn [fst]; [rewrite Rabs_left by lra|rewrite Rabs_right by lra]; lra.
Qed.
Lemma ex_meet : meet ((-30, 0), (30, 0)) ((-30, 30), (0, 0)).
Proof.
  destruct h3_spec as [B Q]. exists (1, 0, 0). split; (split; [unfold dot; cbn [fst snd]; ring|]); cbn [fst snd].
  - exists (/ (2 * h3)), (/ (2 * h3)). assert (0 <= / (2 * h3)) by (left; apply Rinv_0_lt_compat; lra). split; [assumption|]. split; [assumption|].
    rewrite pa0, pa1. unfold vadd, vscale. cbn [fst snd]. apply v3_eq; field; lra.
  - exists 0, 1. split; [lra|]. split; [lra|]. rewrite pb1. unfold vadd, vscale. cbn [fst snd]. apply v3_eq; ring.
Qed.
Lemma ex_steady : steady ex_a /\ steady ex_b /\ apart ex_a ex_b /\ (forall e, edge_of ex_a false e -> one_side e) /\ (forall e, edge_of ex_b false e -> one_side e) /\
  ~ end_to_end ex_a ex_b /\ ~ end_to_end ex_b ex_a /\ exists e f, edge_of ex_a false e /\ edge_of ex_b false f /\ meet e f.
Proof.
  split; [apply (one_steady ((-30, 0), (30, 0))), ex_a_plain|]. split; [exact ex_b_steady|]. split; [exact ex_apart|].
  split; [intros e E; apply one_edge in E; subst e; left; left; cbn [fst snd]; lra|].
  split; [intros e E; apply ex_b_edges in E; destruct E as [-> | ->]; left; left; cbn [fst snd]; lra|].
  assert (X : forall p, In p ex_a -> In p ex_b -> False).
  { intros p [<- |[<- |[]]] H; cbn [ex_b In] in H; destruct H as [H|[H|[H|[]]]]; injection H; lra. }
  split; [intros (p & A & B & _); exact (X p A B)|]. split; [intros (p & A & B & _); exact (X p B A)|].
  exists ((-30, 0), (30, 0)), ((-30, 30), (0, 0)). split; [apply one_edge; reflexivity|]. split; [apply ex_b_edges; left; reflexivity|exact ex_meet].
Qed.
Definition ex_c : list rpt := [(0, -10); (0, 10)].
Lemma ex_vertical : no_repeat ex_a false /\ no_repeat ex_c false /\ (forall p, In p ex_a -> inner p) /\ (forall p, In p ex_c -> inner p) /\
  (forall e, edge_of ex_a false e -> regular e /\ one_side e) /\ (forall e, edge_of ex_c false e -> regular e /\ one_side e) /\
  exists e f, (edge_of ex_a false e /\ edge_of ex_c false f \/ edge_of ex_a false f /\ edge_of ex_c false e) /\ plain e /\ upright f /\
    (fst (fst e) <= fst (fst f) < fst (snd e) \/ fst (snd e) <= fst (fst f) < fst (fst e)) /\ resolved_at e (fst (fst f)) /\ meet e f.
Proof.
  assert (IC : forall p, In p ex_c -> inner p) by (intros p [<- |[<- |[]]]; split; cbn [fst snd]; lra).
  split; [apply one_norepeat|]. split; [apply one_norepeat|]. split; [apply (one_steady ((-30, 0), (30, 0))), ex_a_plain|]. split; [exact IC|].
  split; [intros e E; apply one_edge in E; subst e; split; [left; exact ex_a_plain|left; left; cbn [fst snd]; lra]|].
  split; [intros e E; apply one_edge in E; subst e; split; [right; split; [reflexivity|split; apply IC; cbn; auto]|right; reflexivity]|].
  exists ((-30, 0), (30, 0)), ((0, -10), (0, 10)). split; [left; split; apply one_edge; reflexivity|]. split; [exact ex_a_plain|]. split; [reflexivity|]. split; [left; cbn [fst snd]; lra|]. split.
  - left. unfold axis. cbn [fst snd]. rewrite pa0, pa1. unfold vprod. cbn [fst snd]. rewrite (proj1 c0). destruct h3_spec as [B _]. rewrite Rabs_right by lra. lra.
  - exists (pos 0 0). split.
    + apply arc_range; [exact ex_a_plain|lra|lra|]. cbn [fst snd]. split; [left; lra|]. rewrite pa0, pa1, pb1. unfold vprod, dot. cbn [fst snd]. ring.
    + apply (upright_on ((0, -10), (0, 10))); [reflexivity|apply IC; cbn; auto|apply IC; cbn; auto|cbn [fst snd]; lra].
Qed.
Lemma single_ex : let e := ((-30, 0), (30, 0)) in let f := ((-30, 30), (0, 0)) in
  plain e /\ plain f /\ one_side e /\ one_side f /\ resolved e f /\ resolved f e /\ ~ same_circle e f /\ ~ end_to_end [fst e; snd e] [fst f; snd f] /\ ~ end_to_end [fst f; snd f] [fst e; snd e] /\ meet e f.
Proof.
  intros e f. split; [exact ex_a_plain|]. split; [apply (steady_plain ex_b _ ex_b_steady), ex_b_edges; left; reflexivity|]. split; [left; left; cbn [e fst snd]; lra|]. split; [left; left; cbn [f fst snd]; lra|].
  destruct (ex_apart e f) as (R1 & R2 & NS); [apply one_edge; reflexivity|apply ex_b_edges; left; reflexivity|].
  split; [exact R1|]. split; [exact R2|]. split; [exact NS|].
  assert (X : forall p, In p [fst e; snd e] -> In p [fst f; snd f] -> False).
  { intros p [<- |[<- |[]]] [H|[H|[]]]; cbn [e f fst snd] in H; injection H; lra. }
  split; [intros (p & A & B & _); exact (X p A B)|]. split; [intros (p & A & B & _); exact (X p B A)|exact ex_meet].
Qed.
