(** Concrete cases for GeomR_Props. *)
From Coq Require Import List ZArith Reals Bool Arith Lia Lra.
From Verif Require Import Geom_Model GeomR_Model GeomR_Spec GeomR_Proofs GeomR_More GeomR_Points.
Import ListNotations.
Open Scope R_scope.

Lemma edist_val : forall a b d, 0 <= d -> (fst a - fst b)^2 + (snd a - snd b)^2 = d * d -> edist a b = d.
Proof. intros a b d D E. unfold edist. rewrite E. apply sqrt_square, D. Qed.
Ltac ed d := rewrite (edist_val _ _ d) by (cbn [fst snd]; lra).

Lemma rotate_90 : rotate 90 1 1 3 1 = (1, 3).
Proof.
  unfold rotate. replace (90 * PI / 180) with (PI / 2) by field. rewrite cos_PI2, sin_PI2. f_equal; ring.
Qed.
Lemma length_345 : length_c [(0, 0); (3, 4); (3, 0)] true = Ok 12 /\
  cumulength (map flatp [(0, 0); (3, 4); (3, 0)]) = Ok [0; 5; 9].
Proof.
  split.
  - rewrite length_spec by discriminate. f_equal. cbn [ring_len path_len app]. ed 5. ed 4. ed 3. lra.
  - cbn [map cumulength cumu]. rewrite !distance_planar by auto. cbn [hp flatp rx ry fst snd].
    unfold hp, flatp. cbn [rx ry fst snd]. ed 5. ed 4. do 3 f_equal. 1: lra. f_equal. lra.
Qed.
Lemma cumulength_3d : exists l cs, l <> [] /\ cumulength l = Ok cs /\ length_c (map hp l) false <> Ok (last cs 0).
Proof.
  exists [mkRP 0 0 (Some 0); mkRP 3 0 (Some 4)]. eexists. split; [discriminate|]. split; [reflexivity|].
  rewrite length_spec by discriminate. cbn [map hp line_len path_len rx ry last cumu]. unfold hp. cbn [rx ry]. ed 3.
  rewrite distance_spec. cbn [rz]. unfold edist3, hp. cbn [rx ry fst snd].
  replace ((0 - 3) ^ 2 + (0 - 0) ^ 2 + (0 - 4) ^ 2) with (5 * 5) by ring. rewrite sqrt_square by lra.
  intros E. injection E as E. lra.
Qed.
Lemma azimuth_val : forall p q az, -180 <= az < 180 -> hp p <> hp q -> bearing (hp p) (hp q) (edist (hp p) (hp q)) az ->
  azimuth p q = Some az.
Proof.
  intros p q az I N B. destruct (azimuth_some p q N) as (a & A & Ia & Ba). rewrite A. f_equal.
  assert (D : 0 < edist (hp p) (hp q)).
  { destruct (edist_nonneg (hp p) (hp q)); [assumption|]. exfalso. apply N, edist_0. auto. }
  destruct (bearing_unique _ _ _ _ _ D Ba B) as [k K].
  assert (-1 < IZR k) by lra. assert (IZR k < 1) by lra. apply lt_IZR in H, H0. assert (k = 0)%Z by lia. subst k. lra.
Qed.
Lemma azimuth_east_north : azimuth (flatp (0, 0)) (flatp (5, 0)) = Some 90 /\ azimuth (flatp (1, 1)) (flatp (1, 9)) = Some 0.
Proof.
  split; apply azimuth_val; try lra; unfold hp, flatp; cbn [rx ry fst snd].
  - intros E. injection E. lra.
  - ed 5. unfold bearing. cbn [fst snd]. replace (90 * PI / 180) with (PI / 2) by field. rewrite cos_PI2, sin_PI2. lra.
  - intros E. injection E. lra.
  - ed 8. unfold bearing. cbn [fst snd]. replace (0 * PI / 180) with 0 by field. rewrite cos_0, sin_0. lra.
Qed.
Lemma meridian : forall inv : rpt -> rpt -> R, exists p q, p <> q /\ azimuth_geog inv p q = None /\ azimuth_geog inv p p <> None.
Proof.
  intros inv. exists (0, 0), (0, 1). split; [intros E; injection E; lra|]. unfold azimuth_geog. cbn [fst snd].
  destruct (Req_EM_T 0 0); [|congruence]. destruct (Req_EM_T 0 1); [lra|]. split; [reflexivity|discriminate].
Qed.

Lemma three_split : forall (u v w a b : rpt) l1 l2, [u; v; w] = l1 ++ a :: b :: l2 -> a = u /\ b = v \/ a = v /\ b = w.
Proof.
  intros u v w a b [|x [|y [|z [|z' l1]]]] l2 E; cbn in E; try discriminate E; [left|right]; split; congruence.
Qed.
Lemma abs_big : forall x, 1 <= Rabs x -> 1 / 10000 <= Rabs x.
Proof. intros. lra. Qed.
Lemma regular_example : regular_path [(0, 0); (4, 0); (4, 4)].
Proof.
  intros l1 a b l2 E. apply three_split in E. destruct E as [[-> ->]|[-> ->]]; [left|right]; cbn [fst snd].
  - rewrite Rabs_left; lra.
  - lra.
Qed.
Lemma nearest_repeated : forall p a, nearest_to_point [a; a] p = Err ZeroDivisionError.
Proof.
  intros p a. unfold nearest_to_point. change (pairs [a; a]) with [(a, a)]. cbn [mapM fst snd]. rewrite pt_nearest_zero. reflexivity.
Qed.
Lemma short_horizontal : exists p a b q d, a <> b /\ pt_nearest_planar p a b = Ok (q, d) /\ ~ on_segment a b q.
Proof.
  exists (1, 0), (0, 0), (1 / 20000, 0). eexists. eexists. split; [intros E; injection E; lra|]. split.
  - unfold pt_nearest_planar. cbn [fst snd].
    destruct (Req_EM_T _ 0) as [Z|_]; [exfalso; lra|].
    destruct (Rlt_dec (Rabs (0 - 1 / 20000)) (1 / 10000)) as [_|N]; [|exfalso; apply N; rewrite Rabs_left; lra].
    unfold fmaxr, fminr. destruct (Rle_dec 0 0); [|lra].
    match goal with |- context [Rlt_dec 0 ?e] => destruct (Rlt_dec 0 e) as [H|_]; [exfalso; rewrite Rminus_eq_0, Rmult_0_r, Rplus_0_r in H; lra|] end.
    match goal with |- context [Rlt_dec ?e 0] => destruct (Rlt_dec e 0) as [H|_]; [exfalso; rewrite Rminus_eq_0, Rmult_0_r, Rplus_0_r in H; lra|] end.
    reflexivity.
  - intros (t & T & E). unfold lerp in E. cbn [fst snd] in E. injection E as E _.
    match type of E with ?e = _ => replace e with 1 in E by field end. lra.
Qed.
Lemma on_path_one : forall a b q, on_path [a; b] q -> on_segment a b q.
Proof. intros a b q (l1 & u & v & l2 & E & O). apply two_split in E. destruct E as [-> ->]. exact O. Qed.
Lemma closing_edge : exists l p d q r, nearest_to_point l p = Ok (d, Some q) /\
  on_segment (last l (0, 0)) (hd (0, 0) l) r /\ edist p r < d.
Proof.
  exists [(0, 0); (4, 0); (4, 4)], (1, 1).
  destruct (nearest_line [(0, 0); (4, 0); (4, 4)] (1, 1) regular_example) as (d & q & E & O & De & _); [cbn; lia|].
  exists d, q, (1, 1). split; [exact E|]. split.
  - exists (3 / 4). split; [lra|]. cbn [last hd]. unfold lerp. cbn [fst snd]. f_equal; lra.
  - rewrite (edist_val (1, 1) (1, 1) 0) by (cbn [fst snd]; lra). rewrite De.
    destruct (edist_nonneg (1, 1) q) as [P|P]; [exact P|]. exfalso. symmetry in P. apply edist_0 in P. subst q.
    destruct O as (l1 & u & v & l2 & E3 & t & T & Et). apply three_split in E3. unfold lerp in Et.
    destruct E3 as [[-> ->]|[-> ->]]; cbn [fst snd] in Et; injection Et; intros; lra.
Qed.
Lemma within_all_wrong : exists l p d q, regular_path l /\ on_path l q /\ edist p q <= d /\ within_distance l p d = Ok false.
Proof.
  exists [(0, 0); (4, 0); (4, 4)], (0, 0), 1, (0, 0). split; [exact regular_example|]. split.
  { exists [], (0, 0), (4, 0), [(4, 4)]. split; [reflexivity|]. exists 0. split; [lra|]. unfold lerp. cbn [fst snd]. f_equal; ring. }
  split; [ed 0; lra|].
  destruct (within_distance_spec [(0, 0); (4, 0); (4, 4)] (0, 0) 1 regular_example) as (b & E & B). rewrite E.
  destruct b; [|reflexivity]. exfalso.
  destruct (proj1 B eq_refl [(0, 0)] (4, 0) (4, 4) [] eq_refl) as (q & (t & T & ->) & D).
  unfold lerp in D. cbn [fst snd] in D.
  assert (S : edist (0, 0) (4 + t * (4 - 4), 0 + t * (4 - 0)) * edist (0, 0) (4 + t * (4 - 4), 0 + t * (4 - 0)) <= 1 * 1).
  { apply Rmult_le_compat; try apply edist_nonneg; exact D. }
  rewrite edist_sq in S. cbn [fst snd] in S. nra.
Qed.
Lemma npoints_example : let l := map flatp [(0, 0); (3, 4); (3, 0)] in
  planar l /\ 1 / 100000000 <= line_len (map hp l) / INR (4 - 1).
Proof.
  split; [repeat constructor|]. cbn [map flatp]. unfold hp, flatp. cbn [rx ry fst snd line_len path_len]. ed 5. ed 4.
  cbn [Nat.sub INR]. lra.
Qed.
Lemma npoints_zero_length : exists l, length l = 2%nat /\ forall fuel, (1 <= fuel)%nat ->
  exists pts, to_npoints fuel l 5 = Some (Ok pts) /\ length pts = 1%nat.
Proof.
  exists [flatp (0, 0); flatp (0, 0)]. split; [reflexivity|]. intros [|fuel] F; [lia|].
  exists [flatp (0, 0)]. split; [|reflexivity]. cbn [to_npoints tl combine Z.eqb]. cbn [cumulength cumu last].
  rewrite !distance_planar by auto. rewrite (proj2 (edist_0 _ _) eq_refl). cbn [npoints_loop].
  match goal with |- context [Rlt_dec ?a ?b] => destruct (Rlt_dec a b); [lra|] end. reflexivity.
Qed.
Lemma split_edges : forall (P : rp -> rp -> Prop) a l,
  (forall u v, In (u, v) (combine (a :: l) l) -> P u v) -> forall l1 u v l2, a :: l = l1 ++ u :: v :: l2 -> P u v.
Proof.
  intros P a l H l1. revert a l H. induction l1 as [|x l1 IH]; intros a l H u v l2 E; cbn [app] in E.
  - injection E as -> ->. apply H. left. reflexivity.
  - injection E as -> ->. destruct l1 as [|y l1].
    + cbn [app] in *. apply H. right. left. reflexivity.
    + cbn [app] in *. apply (IH y (l1 ++ u :: v :: l2)) with (l2 := l2); [|reflexivity]. intros u' v' I. apply H. right. exact I.
Qed.
Lemma short_example : let l := map flatp [(0, 0); (6, 0); (12, 0); (18, 0); (24, 0); (30, 0)] in
  planar l /\ line_len (map hp l) = 30 /\
  forall l1 u v l2, l = l1 ++ u :: v :: l2 -> 0 < edist (hp u) (hp v) < 10.
Proof.
  split; [repeat constructor|]. split.
  - cbn [map]. unfold hp, flatp. cbn [rx ry fst snd line_len path_len].
    rewrite !(edist_val _ _ 6) by (cbn [fst snd]; lra). lra.
  - cbn [map]. apply (split_edges (fun u v => 0 < edist (hp u) (hp v) < 10)). intros u v I. cbn [combine In] in I.
    repeat (destruct I as [I|I]; [injection I as <- <-; unfold hp, flatp; cbn [rx ry fst snd]; ed 6; lra|]). destruct I.
Qed.
Lemma to_points_zero : forall fuel a b, rz a = None -> rz b = None -> hp a <> hp b -> to_points fuel [a; b] 0 = None.
Proof.
  intros fuel a b A B N. unfold to_points. cbn [tl combine points_segs fst snd]. rewrite points_zero; [reflexivity|].
  rewrite distance_planar by auto. destruct (edist_nonneg (hp a) (hp b)); [assumption|]. exfalso. apply N, edist_0. auto.
Qed.

Lemma long_example : let l := map flatp [(0, 0); (3, 4); (3, 0)] in
  planar l /\ (forall l1 a b l2, l = l1 ++ a :: b :: l2 -> 3 <= edist (hp a) (hp b)) /\
  INR 3 * 3 <= line_len (map hp l) < INR 4 * 3.
Proof.
  cbv zeta. split; [repeat constructor|]. cbn [map]. unfold flatp. cbn [fst snd]. split.
  - intros l1 a b l2 E. destruct l1 as [|u [|v [|w l1]]]; cbn in E.
    + injection E as <- <- _. unfold hp. cbn. ed 5. lra.
    + injection E as _ <- <- _. unfold hp. cbn. ed 4. lra.
    + injection E. intros. discriminate.
    + injection E. intros. destruct l1; discriminate.
  - cbn [map]. unfold hp. cbn [rx ry fst snd line_len path_len]. ed 5. ed 4. cbn [INR]. lra.
Qed.

Lemma azimuth_geog_spec : forall (inv : rpt -> rpt -> R) p q,
  (fst p <> fst q -> azimuth_geog inv p q = Some (inv p q)) /\
  (azimuth_geog inv p q = None <-> fst p = fst q /\ snd p <> snd q).
Proof.
  intros inv p q. unfold azimuth_geog. destruct (Req_EM_T (fst p) (fst q)) as [E|E]; [destruct (Req_EM_T (snd p) (snd q)) as [F|F]|];
    (split; [|split; [try discriminate|]]); try tauto; try reflexivity.
Qed.
