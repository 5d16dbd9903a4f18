(** Areas on the ellipsoid: direction, start, meridians and the equator. *)
From Coq Require Import List ZArith Reals Lra Lia Bool.
From Coquelicot Require Import Coquelicot.
From Verif Require Brent_Model.
From Verif Require Import GeomR_Model GeomR_Proofs Sphere_Model Sphere_Spec Sphere_Proofs Sphere_Area Geod_Model Geod_Spec Geod_Forward
  Geod_Series Geod_Bounds Geod_Revert Geod_Accurate Geod_Symm Geod_Unwrap Geod_Inverse Geod_Answer Geod_Round Geod_More.
Import ListNotations.
Open Scope R_scope.

(** The area of an edge in the canonical configuration. *)
Definition tol0 : R := 1 / 1000000000000.
Definition part (flat a b : R) (ys : R * R) (x : R) : outcome R :=
  andthen (inverse flat a b 0 (fst ys) x (snd ys) tol0) (fun '(az, _, _, _) =>
  area_canonical flat a b (fst ys * PI / 180) (snd ys * PI / 180) (az * PI / 180)).
Definition scaled (k : R) (o : outcome R) : outcome R := andthen o (fun v => Done (k * v)).
Lemma area_edge_part : forall flat a b x1 y1 x2 y2, area_edge flat a b x1 y1 x2 y2 =
  scaled (if rlt x2 x1 then -1 else 1) (part flat a b (ordered_lats y1 y2) (folded_lon (x2 - x1))).
Proof.
  intros. unfold area_edge, part, scaled. rewrite canonicalf_parts. change (1 / 1000000000000) with tol0.
  destruct (inverse flat a b 0 _ _ _ tol0) as [[[[az baz] s] w]|]; cbn [andthen]; [|reflexivity].
  destruct (area_canonical _ _ _ _ _ _); reflexivity.
Qed.
Lemma rlt_ft : forall x y, x <> y -> rlt y x = negb (rlt x y).
Proof. intros x y N. destruct (rlt y x) eqn:A, (rlt x y) eqn:B; rl A; rl B; try reflexivity; lra. Qed.
Lemma area_back : forall flat a b x1 y1 x2 y2, x1 <> x2 ->
  area_edge flat a b x2 y2 x1 y1 = scaled (-1) (area_edge flat a b x1 y1 x2 y2).
Proof.
  intros flat a b x1 y1 x2 y2 N. rewrite !area_edge_part, ordered_back, folded_opp, (rlt_ft x2 x1) by (intros E; apply N; lra).
  destruct (part _ _ _ _ _) as [v|]; [|reflexivity]. unfold scaled. cbn [andthen].
  destruct (rlt x2 x1); cbn [negb]; f_equal; ring.
Qed.
Lemma ordered_mirror : forall y1 y2, ordered_lats (- y1) (- y2) = ordered_lats y1 y2.
Proof.
  intros y1 y2. unfold ordered_lats. rewrite !Rabs_Ropp. destruct (rlt (Rabs y1) (Rabs y2)) eqn:A; rl A.
  - destruct (rlt 0 (- y2)) eqn:P, (rlt 0 y2) eqn:Q; rl P; rl Q; [lra| | |]; rewrite ?Ropp_involutive; try reflexivity.
    assert (y2 = 0) by lra. subst y2. rewrite Rabs_R0 in A. pose proof (Rabs_pos y1). lra.
  - destruct (rlt 0 (- y1)) eqn:P, (rlt 0 y1) eqn:Q; rl P; rl Q; [lra| | |]; rewrite ?Ropp_involutive; try reflexivity.
    assert (y1 = 0) by lra. subst y1. rewrite Rabs_R0 in A. pose proof (Rabs_pos y2).
    assert (Rabs y2 = 0) by lra. assert (y2 = 0) by (destruct (Req_dec y2 0); [assumption|exfalso; apply Rabs_no_R0 in H1; contradiction]). subst. rewrite Ropp_0. reflexivity.
Qed.
(** The sign of the latitudes is lost. *)
Lemma area_mirror : forall flat a b x1 y1 x2 y2, area_edge flat a b x1 (- y1) x2 (- y2) = area_edge flat a b x1 y1 x2 y2.
Proof. intros. rewrite !area_edge_part, ordered_mirror. reflexivity. Qed.
(** An edge across the meridian of 180 degrees has the area of a shifted one with the other sign. *)
Lemma area_shift : forall flat a b x1 y1 x2 y2 k, x1 < x2 -> x2 + 360 * IZR k < x1 ->
  area_edge flat a b x1 y1 (x2 + 360 * IZR k) y2 = scaled (-1) (area_edge flat a b x1 y1 x2 y2).
Proof.
  intros flat a b x1 y1 x2 y2 k L1 L2. rewrite !area_edge_part, (proj2 (rlt_t (x2 + 360 * IZR k) x1)), (proj2 (rlt_f x2 x1)) by lra.
  replace (folded_lon (x2 + 360 * IZR k - x1)) with (folded_lon (x2 - x1)).
  - destruct (part _ _ _ _ _) as [v|]; [|reflexivity]. unfold scaled. cbn [andthen]. f_equal. ring.
  - unfold folded_lon. replace (reduce_degr (x2 + 360 * IZR k - x1)) with (reduce_degr (x2 - x1)); [reflexivity|].
    destruct (reduce_degr_spec (x2 - x1)) as [R1 [m E]]. destruct (reduce_degr_spec (x2 + 360 * IZR k - x1)) as [R2 [m2 E2]].
    symmetry. apply reduce_degr_unique; [exact R1|]. exists (k + m)%Z. rewrite plus_IZR. lra.
Qed.

(* ---- meridians and the equator *)
Lemma reduced_cos : forall f p, 0 < cos (reduced f p).
Proof. intros f p. unfold reduced. destruct (atan_bound ((1 - f) * tan p)). apply cos_gt_0; lra. Qed.
Lemma reduced_range : forall f p, - (PI / 2) < reduced f p < PI / 2.
Proof. intros f p. unfold reduced. destruct (atan_bound ((1 - f) * tan p)). lra. Qed.
Lemma atan2_polar : forall flat t, - PI < t <= PI -> atan2 flat (sin t) (cos t) = t.
Proof. intros flat t H. pose proof (atan2_unique flat 1 t ltac:(lra) H) as E. rewrite !Rmult_1_l in E. exact E. Qed.
Lemma atan2_zero : forall flat x, 0 < x -> atan2 flat 0 x = 0.
Proof.
  intros flat x P. pose proof PI_RGT_0. pose proof (atan2_unique flat x 0 P ltac:(lra)) as E. rewrite sin_0, cos_0, Rmult_0_r, Rmult_1_r in E. exact E.
Qed.
Lemma done_inj : forall (v w : R), Done v = Done w -> v = w.
Proof. intros v w H. injection H. auto. Qed.
Lemma canonical_meridian : forall flat a b p1 p2 v, area_canonical flat a b p1 p2 0 = Done v -> v = 0.
Proof.
  intros flat a b p1 p2 v. unfold area_canonical. cbv zeta. set (f := flattening a b). pose proof PI_RGT_0 as P0.
  destruct (rlt (f * (2 - f)) 0); [discriminate|]. destruct (req (sqrt (f * (2 - f))) 0); [discriminate|].
  set (b1 := reduced f p1). set (b2 := reduced f p2). pose proof (reduced_cos f p1) as C1. pose proof (reduced_cos f p2) as C2. fold b1 in C1. fold b2 in C2.
  pose proof (reduced_range f p1) as H1. pose proof (reduced_range f p2) as H2. fold b1 in H1. fold b2 in H2.
  assert (A0 : azimuth0 flat 0 b1 = 0).
  { unfold azimuth0. rewrite sin_0, cos_0, !Rmult_0_l. apply atan2_zero. apply sqrt_lt_R0. lra. }
  rewrite A0.
  assert (EA : solve_NEA flat 0 0 b1 = (b1, 0)).
  { unfold solve_NEA. rewrite cos_0, Rmult_1_l, atan2_polar by lra. rewrite sin_0, Rmult_0_l, atan2_zero by exact C1. reflexivity. }
  assert (EB : solve_NEB flat 0 0 b1 b2 = Done (0, b2, 0)).
  { unfold solve_NEB. rewrite cos_0. replace (1 ^ 2 * cos b1 ^ 2 + (cos b2 ^ 2 - cos b1 ^ 2)) with (cos b2 ^ 2) by ring.
    rewrite sqrt_pow2 by lra. replace (cos b2 / cos b2) with 1 by (field; lra).
    rewrite (proj2 (rle_t 0 (cos b2 ^ 2))) by (apply pow2_ge_0). rewrite (proj2 (rle_t (-1) 1)), (proj2 (rle_t 1 1)) by lra. cbn [andb andthen].
    rewrite acos_1, cos_0, Rmult_1_l, atan2_polar by lra. rewrite sin_0, Rmult_0_l, atan2_zero by exact C2. reflexivity. }
  rewrite EA, EB. cbn [andthen]. intros H. apply done_inj in H. subst v.
  replace (tan (5 / 10 * (0 - 0))) with 0 by (rewrite Rminus_0_r, Rmult_0_r, tan_0; reflexivity). rewrite !Rmult_0_r, atan_0, sin_0. ring.
Qed.
Lemma canonical_equator : forall flat a b al v, cos al = 0 -> area_canonical flat a b 0 0 al = Done v -> v = 0.
Proof.
  intros flat a b al v Z. unfold area_canonical. cbv zeta. set (f := flattening a b).
  destruct (rlt (f * (2 - f)) 0); [discriminate|]. destruct (req (sqrt (f * (2 - f))) 0); [discriminate|].
  assert (B0 : reduced f 0 = 0) by (unfold reduced; rewrite tan_0, Rmult_0_r; apply atan_0). rewrite B0.
  assert (A0 : cos (azimuth0 flat al 0) = 0).
  { destruct (azimuth0_spec flat al 0) as (_ & B & _ & E & _). rewrite sin_0, Z in E. nra. }
  destruct (solve_NEA _ _ _ _) as [s1 o1]. destruct (solve_NEB _ _ _ _ _) as [[[al2 s2] o2]|]; cbn [andthen]; [|discriminate].
  rewrite A0. replace (5 / 10 * 0 + 5 / 10 * 0) with 0 by field. rewrite sin_0. intros H. apply done_inj in H. subst v.
  match goal with |- context [atan ?e] => assert (Z1 : e = 0) by (unfold Rdiv; ring) end. rewrite Z1, atan_0. ring.
Qed.
Lemma ordered_ok : forall y1 y2, let '(u, v) := ordered_lats y1 y2 in u <= 0 /\ Rabs v <= Rabs u.
Proof.
  intros y1 y2. unfold ordered_lats. destruct (rlt (Rabs y1) (Rabs y2)) eqn:A; rl A.
  - destruct (rlt 0 y2) eqn:B; rl B; rewrite ?Rabs_Ropp; lra.
  - destruct (rlt 0 y1) eqn:B; rl B; rewrite ?Rabs_Ropp; lra.
Qed.
Lemma az_right : forall az, az = 90 \/ az = -90 -> cos (az * PI / 180) = 0.
Proof. intros az [-> | ->]; [replace (90 * PI / 180) with (PI / 2) by field|replace (-90 * PI / 180) with (- (PI / 2)) by field; rewrite cos_neg]; apply cos_PI2. Qed.
Lemma part_equator : forall flat a b x v, part flat a b (0, 0) x = Done v -> v = 0.
Proof.
  intros flat a b x v. unfold part. cbn [fst snd]. unfold inverse. rewrite !(proj2 (req_t 0 0)) by reflexivity. cbn [andb]. unfold inverse_equatorial.
  replace (0 * PI / 180) with 0 by field.
  destruct (rlt _ 0); cbn [andthen]; apply canonical_equator, az_right; auto.
Qed.
Lemma folded_zero : folded_lon 0 = 0.
Proof.
  unfold folded_lon. rewrite (reduce_degr_unique 0 0); [|lra|exists 0%Z; cbn [IZR]; ring].
  destruct (rlt 0 0) eqn:A; rl A; [lra|]. destruct (rlt 180 0) eqn:B; rl B; [lra|]. reflexivity.
Qed.
Lemma part_meridian : forall flat a b y1 y2 v, part flat a b (ordered_lats y1 y2) 0 = Done v -> v = 0.
Proof.
  intros flat a b y1 y2 v. pose proof (ordered_ok y1 y2) as H. destruct (ordered_lats y1 y2) as [u w] eqn:E. destruct H as [H1 H2].
  destruct (req u w && req w 0) eqn:Z.
  { apply andb_true_iff in Z. rewrite !req_t in Z. destruct Z as [-> ->]. apply part_equator. }
  unfold part. cbn [fst snd]. unfold inverse. rewrite Z, canonicalf_parts, (proj2 (rlt_f (Rabs u) (Rabs w))), (proj2 (rlt_f 0 u)) by lra.
  replace (0 - 0) with 0 by ring. rewrite folded_zero.
  assert (RZ : reduce_degr 0 = 0) by (apply reduce_degr_unique; [lra|exists 0%Z; cbn [IZR]; ring]). rewrite RZ.
  rewrite (proj2 (rlt_f 0 0)), (proj2 (rlt_f 180 0)) by lra. cbn [orb]. unfold solve_inverse. rewrite (proj2 (req_t 0 0)) by reflexivity.
  destruct (solve_NEA _ _ _ _) as [s1 o1]. destruct (solve_NEB _ _ _ _ _) as [[[al2 s2] o2]|]; cbn [andthen]; [|discriminate].
  rewrite finish_undo. cbn [undo s_alpha2]. cbn [andthen].
  assert (AZ : pymod (0 * 180 / PI + 180) 360 - 180 = 0).
  { pose proof PI_RGT_0. rewrite (pymod_unique _ 360 180 0); [ring|lra|lra|]. cbn [IZR]. field. lra. }
  rewrite AZ. replace (0 * PI / 180) with 0 by field. apply canonical_meridian.
Qed.
Lemma scaled_zero : forall k o v, (forall w, o = Done w -> w = 0) -> scaled k o = Done v -> v = 0.
Proof. intros k o v H E. destruct o as [w|]; [|discriminate]. cbn in E. apply done_inj in E. subst v. rewrite (H w eq_refl). ring. Qed.
Lemma area_meridian_zero : forall flat a b x1 y1 x2 y2 v, congd x1 x2 -> area_edge flat a b x1 y1 x2 y2 = Done v -> v = 0.
Proof.
  intros flat a b x1 y1 x2 y2 v [k K]. rewrite area_edge_part. apply scaled_zero. intros w.
  replace (folded_lon (x2 - x1)) with 0; [apply part_meridian|]. rewrite <- folded_zero at 1. unfold folded_lon.
  rewrite !(reduce_degr_unique _ 0); [reflexivity|lra|exists (- k)%Z; rewrite opp_IZR; lra|lra|exists 0%Z; cbn [IZR]; ring].
Qed.
Lemma area_equator_zero : forall flat a b x1 x2 v, area_edge flat a b x1 0 x2 0 = Done v -> v = 0.
Proof.
  intros flat a b x1 x2 v. rewrite area_edge_part. apply scaled_zero. intros w. replace (ordered_lats 0 0) with (0, 0); [apply part_equator|].
  unfold ordered_lats. rewrite (proj2 (rlt_f (Rabs 0) (Rabs 0))), (proj2 (rlt_f 0 0)) by lra. reflexivity.
Qed.
(** Back along an edge the area has the other sign. *)
Lemma area_edge_back : forall flat a b x1 y1 x2 y2 v, area_edge flat a b x1 y1 x2 y2 = Done v -> area_edge flat a b x2 y2 x1 y1 = Done (- v).
Proof.
  intros flat a b x1 y1 x2 y2 v H. destruct (Req_dec x1 x2) as [->|N].
  - assert (v = 0) by (eapply area_meridian_zero; [|exact H]; exists 0%Z; cbn [IZR]; ring). subst v. rewrite Ropp_0. rewrite <- H.
    rewrite !area_edge_part, ordered_back. reflexivity.
  - rewrite area_back by exact N. rewrite H. cbn. f_equal. ring.
Qed.

(* ---- rings *)
Lemma edges_cons : forall flat a b p q l, edges_area flat a b ((p, q) :: l) =
  andthen (area_edge flat a b (fst p) (snd p) (fst q) (snd q)) (fun v => andthen (edges_area flat a b l) (fun w => Done (v + w))).
Proof. reflexivity. Qed.
Lemma edges_app : forall flat a b l m v, edges_area flat a b (l ++ m) = Done v <->
  exists u w, edges_area flat a b l = Done u /\ edges_area flat a b m = Done w /\ v = u + w.
Proof.
  intros flat a b l m. induction l as [|[p q] l IH]; intros v.
  - cbn [app edges_area]. split.
    + intros H. exists 0, v. split; [reflexivity|]. split; [exact H|ring].
    + intros (u & w & U & W & ->). apply done_inj in U. subst u. rewrite Rplus_0_l. exact W.
  - cbn [app]. rewrite !edges_cons. destruct (area_edge flat a b _ _ _ _) as [x|]; cbn [andthen].
    + split.
      * destruct (edges_area flat a b (l ++ m)) as [y|] eqn:E; cbn [andthen]; [|discriminate]. intros H. apply done_inj in H. subst v.
        destruct (proj1 (IH y) eq_refl) as (u & w & U & W & ->). exists (x + u), w. rewrite U. cbn [andthen]. split; [reflexivity|]. split; [exact W|ring].
      * intros (u & w & U & W & ->). destruct (edges_area flat a b l) as [y|] eqn:E; cbn [andthen] in U; [|discriminate]. apply done_inj in U. subst u.
        rewrite (proj2 (IH (y + w))). { cbn [andthen]. f_equal. ring. } exists y, w. auto.
    + split; [discriminate|]. intros (u & w & U & _). discriminate.
Qed.
Definition flip (e : rpt * rpt) : rpt * rpt := (snd e, fst e).
Lemma edges_flip : forall flat a b l v, edges_area flat a b l = Done v -> edges_area flat a b (rev (map flip l)) = Done (- v).
Proof.
  intros flat a b l. induction l as [|[p q] l IH]; intros v H.
  - cbn [edges_area map rev] in *. apply done_inj in H. subst v. rewrite Ropp_0. reflexivity.
  - rewrite edges_cons in H. destruct (area_edge flat a b _ _ _ _) as [x|] eqn:E; cbn [andthen] in H; [|discriminate].
    destruct (edges_area flat a b l) as [y|] eqn:F; cbn [andthen] in H; [|discriminate]. apply done_inj in H. subst v.
    cbn [map rev]. apply edges_app. exists (- y), (- x). split; [apply IH; reflexivity|]. split; [|ring].
    unfold flip. cbn [fst snd]. rewrite edges_cons. rewrite (area_edge_back _ _ _ _ _ _ _ _ E). cbn [andthen edges_area]. f_equal. ring.
Qed.
Lemma edges_perm : forall flat a b l m v, edges_area flat a b (l ++ m) = Done v -> edges_area flat a b (m ++ l) = Done v.
Proof. intros flat a b l m v H. apply edges_app in H. destruct H as (u & w & U & W & ->). apply edges_app. exists w, u. split; [exact W|]. split; [exact U|ring]. Qed.
(** The sides of the ring, starting with the one from the first vertex. *)
Fixpoint path_pairs (l : list rpt) : list (rpt * rpt) :=
  match l with p :: ((q :: _) as l') => (p, q) :: path_pairs l' | _ => [] end.
Lemma path_app : forall l p q m, path_pairs (l ++ p :: q :: m) = path_pairs (l ++ [p]) ++ (p, q) :: path_pairs (q :: m).
Proof.
  induction l as [|u l IH]; intros p q m; [reflexivity|]. destruct l as [|w l].
  - reflexivity.
  - change ((u :: w :: l) ++ p :: q :: m) with (u :: w :: (l ++ p :: q :: m)). change ((u :: w :: l) ++ [p]) with (u :: w :: (l ++ [p])).
    change (path_pairs (u :: w :: (l ++ p :: q :: m))) with ((u, w) :: path_pairs ((w :: l) ++ p :: q :: m)). rewrite IH. reflexivity.
Qed.
Lemma path_rev : forall l, path_pairs (rev l) = rev (map flip (path_pairs l)).
Proof.
  induction l as [|p l IH]; [reflexivity|]. destruct l as [|q l]; [reflexivity|].
  change (rev (p :: q :: l)) with ((rev l ++ [q]) ++ [p]). rewrite <- app_assoc. cbn [app]. rewrite path_app.
  change (path_pairs (p :: q :: l)) with ((p, q) :: path_pairs (q :: l)). cbn [map rev]. rewrite <- IH. reflexivity.
Qed.
Lemma combine_path : forall l p, combine (p :: l) l = path_pairs (p :: l).
Proof. induction l as [|q l IH]; intros p; [reflexivity|]. cbn [combine path_pairs]. f_equal. exact (IH q). Qed.
Lemma ring_path : forall l d, l <> [] -> ring_pairs l = (last l d, hd d l) :: path_pairs l.
Proof.
  intros [|p l] d N; [contradiction|]. unfold ring_pairs. cbn [hd].
  change (combine (last (p :: l) p :: p :: l) (p :: l)) with ((last (p :: l) p, p) :: combine (p :: l) l).
  assert (LD : forall e, last (p :: l) e = last (p :: l) d).
  { intros e. clear. revert p. induction l as [|q l IH]; intros p; [reflexivity|]. exact (IH q). }
  rewrite LD, combine_path. reflexivity.
Qed.
Lemma ring_rev : forall l, exists k m, map flip (ring_pairs l) = k ++ m /\ rev (ring_pairs (rev l)) = m ++ k.
Proof.
  intros l. destruct l as [|p l]; [exists [], []; split; reflexivity|].
  assert (N : rev (p :: l) <> []) by (intros E; apply (f_equal (@length _)) in E; rewrite rev_length in E; discriminate).
  exists [flip (last (p :: l) p, p)], (map flip (path_pairs (p :: l))). split.
  - rewrite (ring_path (p :: l) p) by discriminate. reflexivity.
  - rewrite (ring_path _ p N), path_rev. cbn [rev]. rewrite rev_involutive. f_equal. unfold flip. cbn [fst snd]. f_equal. f_equal.
    + cbn [rev]. apply last_last.
    + assert (E : p :: l = removelast (p :: l) ++ [last (p :: l) p]) by (apply app_removelast_last; discriminate).
      assert (H : forall x m, hd x (rev (m ++ [last (p :: l) p])) = last (p :: l) p) by (intros x m; rewrite rev_app_distr; reflexivity).
      specialize (H p (removelast (p :: l))). rewrite <- E in H. exact H.
Qed.
Lemma polygon_done : forall flat a b l v, polygon_area flat a b l = Done v <-> exists u, edges_area flat a b (ring_pairs l) = Done u /\ v = Rabs u.
Proof.
  intros flat a b l v. unfold polygon_area. destruct (edges_area _ _ _ _) as [u|]; cbn [andthen].
  - split; [intros H; apply done_inj in H; exists u; auto|]. intros (u' & U & ->). apply done_inj in U. subst. reflexivity.
  - split; [discriminate|]. intros (u & U & _). discriminate.
Qed.
(** The area does not depend on the direction of the ring, *)
Lemma polygon_rev : forall flat a b l v, polygon_area flat a b l = Done v -> polygon_area flat a b (rev l) = Done v.
Proof.
  intros flat a b l v H. apply polygon_done in H. destruct H as (u & U & ->). apply polygon_done. exists (- u). split; [|symmetry; apply Rabs_Ropp].
  apply edges_flip in U. destruct (ring_rev l) as (k & m & K & M). rewrite K, rev_app_distr in U.
  rewrite <- (rev_involutive (ring_pairs (rev l))), M, rev_app_distr. apply edges_perm. exact U.
Qed.
Lemma path_last : forall l p d, l <> [] -> path_pairs (l ++ [p]) = path_pairs l ++ [(last l d, p)].
Proof.
  intros l p d N. rewrite (app_removelast_last d N) at 1. rewrite <- app_assoc. cbn [app]. rewrite path_app. cbn [path_pairs].
  rewrite <- (app_removelast_last d N). reflexivity.
Qed.
(** nor on the vertex it starts with. *)
Lemma polygon_rotate : forall flat a b l m v, polygon_area flat a b (l ++ m) = Done v -> polygon_area flat a b (m ++ l) = Done v.
Proof.
  assert (K : forall flat a b p l v, polygon_area flat a b (p :: l) = Done v -> polygon_area flat a b (l ++ [p]) = Done v).
  { intros flat a b p [|q l] v H; [exact H|]. apply polygon_done in H. destruct H as (u & U & ->). apply polygon_done. exists u. split; [|reflexivity].
    rewrite (ring_path _ p) in U by discriminate. cbn [hd] in U. change (last (p :: q :: l) p) with (last (q :: l) p) in U.
    change (path_pairs (p :: q :: l)) with ((p, q) :: path_pairs (q :: l)) in U.
    rewrite (ring_path _ p) by (intros E; apply (f_equal (@length _)) in E; rewrite app_length in E; cbn in E; lia).
    rewrite last_last. change (hd p ((q :: l) ++ [p])) with q. rewrite (path_last _ _ p) by discriminate.
    apply (edges_perm flat a b [(last (q :: l) p, p)] ((p, q) :: path_pairs (q :: l)) u U). }
  intros flat a b l. induction l as [|p l IH]; intros m v H; [rewrite app_nil_r; exact H|].
  cbn [app] in H. apply K in H. rewrite <- app_assoc in H. apply IH in H. rewrite <- app_assoc in H. exact H.
Qed.
(** A rectangle that reaches as far south as north has no area. *)
Lemma balanced_none : forall flat a b w h v, 0 < w -> polygon_area flat a b [(0, - h); (w, - h); (w, h); (0, h)] = Done v -> v = 0.
Proof.
  intros flat a b w h v W H. apply polygon_done in H. destruct H as (u & U & ->).
  change (ring_pairs [(0, - h); (w, - h); (w, h); (0, h)]) with [((0, h), (0, - h)); ((0, - h), (w, - h)); ((w, - h), (w, h)); ((w, h), (0, h))] in U.
  rewrite !edges_cons in U. cbn [fst snd edges_area] in U.
  destruct (area_edge flat a b 0 h 0 (- h)) as [u1|] eqn:E1; cbn [andthen] in U; [|discriminate].
  destruct (area_edge flat a b 0 (- h) w (- h)) as [u2|] eqn:E2; cbn [andthen] in U; [|discriminate].
  destruct (area_edge flat a b w (- h) w h) as [u3|] eqn:E3; cbn [andthen] in U; [|discriminate].
  destruct (area_edge flat a b w h 0 h) as [u4|] eqn:E4; cbn [andthen] in U; [|discriminate]. apply done_inj in U. subst u.
  apply area_meridian_zero in E1; [|exists 0%Z; cbn [IZR]; ring]. apply area_meridian_zero in E3; [|exists 0%Z; cbn [IZR]; ring].
  rewrite area_mirror in E2. apply area_edge_back in E2. rewrite E4 in E2. apply done_inj in E2. subst.
  match goal with |- Rabs ?e = 0 => replace e with 0 by ring end. apply Rabs_R0.
Qed.
(** On ellipsoids that are not oblate there is no area. *)
Lemma area_not_oblate : forall flat a b x1 y1 x2 y2, 0 < a -> a <= b -> exists e, area_edge flat a b x1 y1 x2 y2 = Raises e.
Proof.
  intros flat a b x1 y1 x2 y2 PA AB. rewrite area_edge_part. unfold part.
  destruct (inverse flat a b 0 _ _ _ tol0) as [[[[az baz] s] w]|e]; cbn [andthen]; [|exists e; reflexivity].
  unfold area_canonical. cbv zeta. assert (F : flattening a b <= 0).
  { unfold flattening. apply Rmult_le_reg_r with a; [exact PA|]. replace ((a - b) / a * a) with (a - b) by (field; lra). lra. }
  set (f := flattening a b) in *. destruct (rlt (f * (2 - f)) 0) eqn:L; rl L; [exists ValueError; reflexivity|].
  assert (Z : f * (2 - f) = 0) by nra. rewrite Z, sqrt_0, (proj2 (req_t 0 0)) by reflexivity. exists ZeroDivisionError. reflexivity.
Qed.
Lemma polygon_prolate : forall flat a b l, 0 < a -> a < b -> l <> [] -> exists e, polygon_area flat a b l = Raises e.
Proof.
  intros flat a b [|p l] PA AB N; [contradiction|]. unfold polygon_area. rewrite (ring_path _ p) by discriminate. rewrite edges_cons.
  destruct (area_not_oblate flat a b (fst (last (p :: l) p)) (snd (last (p :: l) p)) (fst (hd p (p :: l))) (snd (hd p (p :: l))) PA) as (e & E); [lra|].
  rewrite E. exists e. reflexivity.
Qed.
(** Across the meridian of 180 degrees the area has the wrong sign. *)
Lemma area_dateline : forall flat a b y1 y2 v, area_edge flat a b 170 y1 190 y2 = Done v -> area_edge flat a b 170 y1 (-170) y2 = Done (- v).
Proof.
  intros flat a b y1 y2 v H. replace (-170) with (190 + 360 * IZR (-1)) by (cbn [IZR]; lra). rewrite area_shift by (cbn [IZR]; lra).
  rewrite H. cbn. f_equal. ring.
Qed.
