(** Proofs about the crossing of two arcs, and of an arc and a meridian. *)
From Coq Require Import List ZArith Reals Bool Lra Lia.
From Verif Require Import GeomR_Model Sphere_Model Sphere_Spec Sphere_Proofs Sphere_Dist Sphere_Bnd Sphere_Inter Gsweep_Model Gsweep_Spec.
Import ListNotations.
Open Scope R_scope.

(** Two wrong signs make a right one. *)
Lemma cross3_twice : forall a b c d, cross3 (eulerpole_c a b) (eulerpole_c c d) = vscale (-1) (crossing a b c d).
Proof.
  intros a b c d. unfold eulerpole_c, crossing. rewrite !sph2cart_pos. unfold cross3, vprod, vscale, vx, vy, vz. cbn [fst snd]. apply v3_eq; ring.
Qed.

Lemma minmax : forall a x b, (fminr a b <= x <= fmaxr a b) <-> (a <= x <= b \/ b <= x <= a).
Proof. intros a x b. unfold fminr, fmaxr. destruct (Rle_dec a b); lra. Qed.
Lemma isbetween_t : forall a x b, isbetween_inc a (Some x) b = true <-> (a <= x <= b \/ b <= x <= a).
Proof. intros a x b. unfold isbetween_inc. rewrite andb_true_iff, !rle_t. apply minmax. Qed.

(** The longitude of a direction. *)
Lemma lon_dir : forall x y z, 1 / 100000000 < Rabs x \/ 0 <= x -> x <> 0 \/ y <> 0 ->
  exists l, fst (cart2sph_c (x, y, z)) = Some l /\ -180 < l <= 180 /\
    x = sqrt (x * x + y * y) * cos (rad l) /\ y = sqrt (x * x + y * y) * sin (rad l).
Proof.
  intros x y z HX N. unfold cart2sph_c. cbn [fst]. pose proof PI_RGT_0 as PP.
  set (r := sqrt (x * x + y * y)). assert (r0 : 0 < r) by (apply norm_pos; exact N).
  assert (rr : r * r = x * x + y * y) by (apply sqrt_sqrt; nra).
  assert (L : exists lam, (if rlt (1 / 100000000) (Rabs x) then Some (atan2 0 y x) else if req r 0 then None else Some (asin (y / r))) = Some lam /\
              - PI < lam <= PI /\ r * cos lam = x /\ r * sin lam = y).
  { destruct (rlt (1 / 100000000) (Rabs x)) eqn:E.
    - exists (atan2 0 y x). split; [reflexivity|]. destruct (atan2_polar 0 y x N) as (A & B & C). auto.
    - apply rlt_f in E. destruct (req r 0) eqn:E2; [apply req_t in E2; lra|].
      assert (X : 0 <= x) by lra.
      assert (B : -1 <= y / r <= 1).
      { assert (y / r * r = y) by (field; lra). split; apply Rmult_le_reg_r with r; try lra; nra. }
      exists (asin (y / r)). split; [reflexivity|]. pose proof (asin_bound (y / r)). split; [lra|].
      rewrite sin_asin by lra. rewrite cos_asin by lra. split; [|field; lra].
      assert (Q : sqrt (1 - (y / r)²) = x / r).
      { apply Rsqr_inj; [apply sqrt_pos|unfold Rdiv; apply Rmult_le_pos; [lra|left; apply Rinv_0_lt_compat; lra]|]. rewrite Rsqr_sqrt.
        - unfold Rsqr. apply Rmult_eq_reg_r with (r * r); [|nra].
          replace ((1 - y / r * (y / r)) * (r * r)) with (r * r - y * y) by (field; lra).
          replace (x / r * (x / r) * (r * r)) with (x * x) by (field; lra). lra.
        - unfold Rsqr. nra. }
      rewrite Q. field. lra. }
  destruct L as (lam & L & La & L1 & L2). rewrite L. clear L. cbn [option_map].
  eexists. split; [reflexivity|]. split.
  - assert (E : lam * 180 / PI * PI = 180 * lam) by (field; lra). split; [apply Rmult_lt_reg_r with PI|apply Rmult_le_reg_r with PI]; lra.
  - unfold rad. rewrite !deg_rad. split; lra.
Qed.
(** A latitude for a direction that is not upright. *)
Lemma lat_dir : forall x y z l, x <> 0 \/ y <> 0 -> x = sqrt (x * x + y * y) * cos (rad l) -> y = sqrt (x * x + y * y) * sin (rad l) ->
  exists lat m, -90 < lat < 90 /\ 0 < m /\ (x, y, z) = vscale m (pos l lat).
Proof.
  intros x y z l N X Y. pose proof PI_RGT_0 as PP. set (r := sqrt (x * x + y * y)) in *. assert (r0 : 0 < r) by (apply norm_pos; exact N).
  exists (atan (z / r) * 180 / PI), (sqrt (r * r + z * z)).
  destruct (atan_bound (z / r)) as [B1 B2]. destruct (TerrainR_Proofs.atan_polar z r r0) as [U V].
  split.
  - assert (E : atan (z / r) * 180 / PI * PI = 180 * atan (z / r)) by (field; lra). split; apply Rmult_lt_reg_r with PI; lra.
  - split; [apply sqrt_lt_R0; nra|]. unfold pos. unfold rad at 2. rewrite deg_rad. unfold upos, vscale. cbn [fst snd].
    apply v3_eq; [rewrite X at 1; rewrite <- Rmult_assoc, U; ring | rewrite Y at 1; rewrite <- Rmult_assoc, U; ring | rewrite V; ring].
Qed.

(** Points of an arc that does not pass a pole or the date line. *)
Lemma arc_range : forall e l lat, plain e -> -180 < l <= 180 -> -90 < lat < 90 ->
  (on_edge e (pos l lat) <-> (fst (fst e) <= l <= fst (snd e) \/ fst (snd e) <= l <= fst (fst e)) /\
     dot (vprod (pos (fst (fst e)) (snd (fst e))) (pos (fst (snd e)) (snd (snd e)))) (pos l lat) = 0).
Proof.
  intros [[x0 y0] [x1 y1]] l lat ((X0 & Y0) & (X1 & Y1) & NE & SP) L La. unfold on_edge. cbn [fst snd] in *.
  assert (F : forall x0 y0 x1 y1, -180 < x0 < 180 -> -180 < x1 < 180 -> -90 < y0 < 90 -> -90 < y1 < 90 -> 0 < x1 - x0 < 180 ->
    (on_arc3 (pos x0 y0) (pos x1 y1) (pos l lat) <-> x0 <= l <= x1 /\ dot (vprod (pos x0 y0) (pos x1 y1)) (pos l lat) = 0)).
  { clear - L La. intros x0 y0 x1 y1 X0 X1 Y0 Y1 SP.
    rewrite (arc_forward x0 x1 (x1 - x0) y0 y1 l lat Y0 Y1 La SP) by (exists 0%Z; lra).
    assert (B : lon_between l x0 x1 <-> x0 <= l <= x1); [|rewrite B; reflexivity]. split.
    - intros (s & d & S & D & [[H1 H2]|[H1 H2]]).
      + assert (E : x0 + d = x0 + (x1 - x0)) by (apply (congd_uniq x1); [exact H1|exists 0%Z; lra|lra]).
        assert (E2 : x0 + s = l) by (apply (congd_uniq l); [exact H2|apply congd_refl|lra]). lra.
      + assert (E : x1 + d = x0 + 360) by (apply (congd_uniq x0); [exact H1|exists (-1)%Z; lra|lra]). lra.
    - intros B. exists (l - x0), (x1 - x0). split; [lra|]. split; [lra|]. left. split; exists 0%Z; lra. }
  destruct (Rlt_le_dec x0 x1) as [C|C].
  - rewrite (F x0 y0 x1 y1) by (assumption || lra). split; [intros [A B]; split; [left|]; assumption|]. intros [[A|A] B]; [split; assumption|lra].
  - assert (G : on_arc3 (pos x0 y0) (pos x1 y1) (pos l lat) <-> on_arc3 (pos x1 y1) (pos x0 y0) (pos l lat)) by (split; apply arc_swap).
    rewrite G, (F x1 y1 x0 y0) by (assumption || lra).
    assert (K : dot (vprod (pos x0 y0) (pos x1 y1)) (pos l lat) = - dot (vprod (pos x1 y1) (pos x0 y0)) (pos l lat)) by (unfold dot, vprod; cbn [fst snd]; ring).
    rewrite K. split; [intros [A B]; split; [right; exact A|lra]|]. intros [[A|A] B]; [lra|split; [exact A|lra]].
Qed.
(** The axis of such an arc is not level. *)
Lemma plain_z : forall e, plain e -> snd (vprod (pos (fst (fst e)) (snd (fst e))) (pos (fst (snd e)) (snd (snd e)))) <> 0.
Proof.
  intros [[x0 y0] [x1 y1]] ((X0 & Y0) & (X1 & Y1) & NE & SP). cbn [fst snd] in *. unfold pos. rewrite vprod_z.
  pose proof (cos_rad_pos _ Y0). pose proof (cos_rad_pos _ Y1).
  assert (S : sin (rad x1 - rad x0) <> 0).
  { replace (rad x1 - rad x0) with (rad (x1 - x0)) by (unfold rad; field).
    destruct (Rlt_le_dec x0 x1); [pose proof (sin_rad_pos (x1 - x0) ltac:(lra)) | pose proof (sin_rad_neg (x1 - x0) ltac:(lra))]; lra. }
  intros Z. apply Rmult_integral in Z. destruct Z as [Z|Z]; [lra|]. apply Rmult_integral in Z. destruct Z as [Z|Z]; [exact (S Z)|lra].
Qed.
(** A crossing that is not level has a longitude. *)
Lemma crossing_level : forall e f, plain e -> plain f -> ~ same_circle e f ->
  fst (fst (crossing_of e f)) <> 0 \/ snd (fst (crossing_of e f)) <> 0.
Proof.
  intros e f Pe Pf N. pose proof (plain_z e Pe) as Ze. pose proof (plain_z f Pf) as Zf. unfold same_circle, crossing_of, crossing in *.
  set (u := vprod (pos (fst (fst e)) _) _) in *. set (v := vprod (pos (fst (fst f)) _) _) in *. clearbody u v. clear Pe Pf.
  destruct u as [[u1 u2] u3], v as [[v1 v2] v3]. unfold vprod in *. cbn [fst snd] in *.
  destruct (Req_dec (u2 * v3 - u3 * v2) 0) as [A|A]; [|left; exact A]. destruct (Req_dec (u3 * v1 - u1 * v3) 0) as [B|B]; [|right; exact B].
  exfalso. apply N. apply v3_eq; [exact A | exact B |].
  apply Rmult_eq_reg_r with u3; [|exact Ze]. rewrite Rmult_0_l. transitivity (u1 * (v2 * u3) - u2 * (v1 * u3)); [ring|].
  replace (v2 * u3) with (u2 * v3) by lra. replace (v1 * u3) with (u1 * v3) by lra. ring.
Qed.

Lemma antipodal_range : forall l, -180 <= antipodal l < 180.
Proof. intros l. unfold antipodal. destruct (unroll_degr_spec (l + 360)) as [B _]. unfold unroll_degr in B. lra. Qed.
Section Two.
Variables e f : rpt * rpt.
Hypothesis Pe : plain e.
Hypothesis Pf : plain f.
Hypothesis RES : resolved e f.
Let ne := vprod (pos (fst (fst e)) (snd (fst e))) (pos (fst (snd e)) (snd (snd e))).
Let nf := vprod (pos (fst (fst f)) (snd (fst f))) (pos (fst (snd f)) (snd (snd f))).
Lemma two_lon : ~ same_circle e f -> exists l lat m,
  fst (cart2sph_c (cross3 (eulerpole_c (fst e) (snd e)) (eulerpole_c (fst f) (snd f)))) = Some l /\ -180 < l <= 180 /\ -90 < lat < 90 /\ 0 < m /\
  crossing_of e f = vscale (- m) (pos l lat) /\ dot ne (pos l lat) = 0 /\ dot nf (pos l lat) = 0.
Proof.
  intros N. rewrite cross3_twice. pose proof (crossing_level e f Pe Pf N) as LV. unfold resolved in RES. fold (crossing_of e f).
  assert (F : forall w, dot w (crossing_of e f) = dot w (vscale (-1) (vscale (-1) (crossing_of e f)))).
  { intros w. unfold dot, vscale. cbn [fst snd]. ring. }
  assert (F1 : dot ne (crossing_of e f) = 0) by (unfold crossing_of, crossing, ne, dot, vprod; cbn [fst snd]; ring).
  assert (F2 : dot nf (crossing_of e f) = 0) by (unfold crossing_of, crossing, nf, dot, vprod; cbn [fst snd]; ring).
  destruct (crossing_of e f) as [[x y] z]. unfold vscale at 1. cbn [fst snd] in *.
  destruct (lon_dir (-1 * x) (-1 * y) (-1 * z)) as (l & E & L & Ex & Ey).
  { destruct RES as [Q|Q]; [left|right; lra]. replace (-1 * x) with (- x) by ring. rewrite Rabs_Ropp. exact Q. }
  { destruct LV; [left|right]; lra. }
  destruct (lat_dir (-1 * x) (-1 * y) (-1 * z) l) as (lat & m & La & M & V); [destruct LV; [left|right]; lra | exact Ex | exact Ey|].
  exists l, lat, m. split; [exact E|]. split; [exact L|]. split; [exact La|]. split; [exact M|].
  assert (W : (x, y, z) = vscale (- m) (pos l lat)).
  { clear - V. destruct (pos l lat) as [[a b] c]. unfold vscale in *. cbn [fst snd] in *. injection V as V1 V2 V3. apply v3_eq; lra. }
  split; [exact W|]. rewrite W in F1, F2.
  assert (G : forall w, dot w (vscale (- m) (pos l lat)) = - m * dot w (pos l lat)) by (intros; unfold dot, vscale; cbn [fst snd]; ring).
  rewrite G in F1, F2. split; apply Rmult_eq_reg_l with (- m); lra.
Qed.
Lemma two_nan : same_circle e f -> fst (cart2sph_c (cross3 (eulerpole_c (fst e) (snd e)) (eulerpole_c (fst f) (snd f)))) = None.
Proof.
  intros E. rewrite cross3_twice. fold (crossing_of e f). unfold same_circle in E. rewrite E. unfold vscale, cart2sph_c. cbn [fst snd].
  rewrite (proj2 (rlt_f _ _)) by (rewrite Rmult_0_r, Rabs_R0; lra).
  rewrite (proj2 (req_t _ _)); [reflexivity|]. replace (-1 * 0 * (-1 * 0) + -1 * 0 * (-1 * 0)) with 0 by ring. apply sqrt_0.
Qed.
Lemma two_sound : edges_intersect (fst e) (snd e) (fst f) (snd f) = true -> meet e f.
Proof.
  intros H. unfold edges_intersect in H.
  assert (D : same_circle e f \/ ~ same_circle e f).
  { unfold same_circle. destruct (crossing_of e f) as [[x y] z]. destruct (Req_dec x 0), (Req_dec y 0), (Req_dec z 0); try (right; intros Q; injection Q; intros; contradiction).
    left. subst. reflexivity. }
  destruct D as [D|D]; [rewrite (two_nan D) in H; discriminate|].
  destruct (two_lon D) as (l & lat & m & E & L & La & M & W & D1 & D2). rewrite E in H. cbn [option_map] in H.
  destruct (antipode l lat) as [AN _]. fold (antipodal l) in AN. pose proof (antipodal_range l) as AR.
  destruct (isbetween_inc (fst (fst e)) (Some l) (fst (snd e)) && isbetween_inc (fst (fst f)) (Some l) (fst (snd f))) eqn:K.
  - apply andb_prop in K. destruct K as [K1 K2]. apply isbetween_t in K1, K2. exists (pos l lat).
    split; apply arc_range; try assumption; split; assumption.
  - destruct (isbetween_inc (fst (fst e)) (Some (antipodal l)) (fst (snd e)) && _) eqn:K'; [|discriminate].
    apply andb_prop in K'. destruct K' as [K1 K2]. apply isbetween_t in K1, K2.
    assert (-180 < antipodal l) by (destruct Pe as ((B1 & _) & (B2 & _) & _); lra).
    exists (pos (antipodal l) (- lat)). split; (apply arc_range; [assumption|lra|lra|]); (split; [assumption|]); rewrite AN; apply dot_neg; assumption.
Qed.
Lemma two_complete : ~ same_circle e f -> meet e f -> edges_intersect (fst e) (snd e) (fst f) (snd f) = true.
Proof.
  intros N (p & A & B). destruct (two_lon N) as (l & lat & m & E & L & La & M & W & D1 & D2).
  unfold edges_intersect. rewrite E. cbn [option_map].
  destruct (antipode l lat) as [AN _]. fold (antipodal l) in AN. pose proof (antipodal_range l) as AR.
  assert (PP : p = pos l lat \/ p = vscale (-1) (pos l lat)).
  { apply parallel; [apply upos_unit|exact (proj1 A)|].
    assert (DA : dot ne p = 0). { destruct A as (_ & s & t & _ & _ & Q). rewrite Q. unfold ne, dot, vprod, vadd, vscale. cbn [fst snd]. ring. }
    assert (DB : dot nf p = 0). { destruct B as (_ & s & t & _ & _ & Q). rewrite Q. unfold nf, dot, vprod, vadd, vscale. cbn [fst snd]. ring. }
    assert (V : vprod (crossing_of e f) p = (0, 0, 0)).
    { unfold crossing_of, crossing. fold ne nf. destruct ne as [[e1 e2] e3], nf as [[f1 f2] f3], p as [[p1 p2] p3]. unfold vprod, dot in *. cbn [fst snd] in *.
      apply v3_eq.
      - transitivity (f1 * (e1 * p1 + e2 * p2 + e3 * p3) - e1 * (f1 * p1 + f2 * p2 + f3 * p3)); [ring|rewrite DA, DB; ring].
      - transitivity (f2 * (e1 * p1 + e2 * p2 + e3 * p3) - e2 * (f1 * p1 + f2 * p2 + f3 * p3)); [ring|rewrite DA, DB; ring].
      - transitivity (f3 * (e1 * p1 + e2 * p2 + e3 * p3) - e3 * (f1 * p1 + f2 * p2 + f3 * p3)); [ring|rewrite DA, DB; ring]. }
    rewrite W in V. assert (V' : vprod (vscale (- m) (pos l lat)) p = vscale (- m) (vprod (pos l lat) p)) by (unfold vprod, vscale; cbn [fst snd]; apply v3_eq; ring).
    rewrite V' in V. destruct (vprod (pos l lat) p) as [[a b] c]. unfold vscale in V. cbn [fst snd] in V. injection V as V1 V2 V3. apply v3_eq; (apply Rmult_eq_reg_l with (- m); lra). }
  destruct PP as [-> | ->].
  - apply arc_range in A; [|assumption|lra|lra]. apply arc_range in B; [|assumption|lra|lra]. destruct A as [A _], B as [B _].
    rewrite (proj2 (isbetween_t _ _ _) A), (proj2 (isbetween_t _ _ _) B). reflexivity.
  - destruct (isbetween_inc (fst (fst e)) (Some l) (fst (snd e)) && isbetween_inc (fst (fst f)) (Some l) (fst (snd f))); [reflexivity|].
    rewrite <- AN in A, B.
    destruct (Req_dec (antipodal l) (-180)) as [Z|Z].
    + exfalso. rewrite Z in A. rewrite (pos_congd (-180) 180) in A by (exists (-1)%Z; lra).
      apply arc_range in A; [|assumption|lra|lra]. destruct Pe as ((B1 & _) & (B2 & _) & _). lra.
    + apply arc_range in A; [|assumption|lra|lra]. apply arc_range in B; [|assumption|lra|lra]. destruct A as [A _], B as [B _].
      rewrite (proj2 (isbetween_t _ _ _) A), (proj2 (isbetween_t _ _ _) B). reflexivity.
Qed.
End Two.
(** Edges of the same circle are never found to meet. *)
Lemma two_same : forall e f, same_circle e f -> edges_intersect (fst e) (snd e) (fst f) (snd f) = false.
Proof. intros e f H. unfold edges_intersect. rewrite (two_nan e f H). reflexivity. Qed.
Lemma self_circle : forall e, same_circle e e.
Proof. intros e. unfold same_circle, crossing_of, crossing, vprod. cbn [fst snd]. apply v3_eq; ring. Qed.

(** In exact arithmetic there are no heights. *)
Lemma no_height : forall s x, exact_height s x = None.
Proof.
  intros s x. unfold exact_height, intersection_sph.
  assert (E : cross3 (eulerpole_c (p0 s) (p1 s)) (eulerpole_c (x, -90) (x, 90)) = (0, 0, 0)).
  { assert (Z : eulerpole_c (x, -90) (x, 90) = (0, 0, 0)).
    { unfold eulerpole_c. rewrite !sph2cart_pos. cbn [fst snd]. unfold pos, upos.
      assert (C1 : rad (-90) = - (PI / 2)) by (unfold rad; field). assert (C2 : rad 90 = PI / 2) by (unfold rad; field).
      rewrite C1, C2, cos_neg, sin_neg, cos_PI2, sin_PI2. unfold cross3, vx, vy, vz. cbn [fst snd]. apply v3_eq; ring. }
    rewrite Z. unfold cross3, vx, vy, vz. cbn [fst snd]. apply v3_eq; ring. }
  rewrite E. unfold cart2sph_c. rewrite (proj2 (rlt_f _ _)) by (rewrite Rabs_R0; lra).
  assert (S2 : sqrt (0 * 0 + 0 * 0) = 0) by (replace (0 * 0 + 0 * 0) with 0 by ring; apply sqrt_0).
  assert (S3 : sqrt (0 * 0 + 0 * 0 + 0 * 0) = 0) by (replace (0 * 0 + 0 * 0 + 0 * 0) with 0 by ring; apply sqrt_0).
  rewrite S2, S3, (proj2 (req_t 0 0)) by reflexivity. reflexivity.
Qed.
