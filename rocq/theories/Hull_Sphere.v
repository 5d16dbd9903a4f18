(** Azimuths and sides on the sphere (proofs). *)
From Coq Require Import List Bool Arith Reals Lra Lia.
From Verif Require Import GeomR_Model Sphere_Model Sphere_Spec Sphere_Proofs Hull_Model Hull_Spec Hull_SphereSpec.
Import ListNotations.
Open Scope R_scope.

Lemma rad_minus : forall x y, rad (x - y) = rad x - rad y. Proof. intros. unfold rad. field. Qed.
(** Components of q to the east, to the north and upwards, at p. *)
Definition E_ (p q : rpt) : R := cos (rad (snd q)) * sin (rad (fst q - fst p)).
Definition N_ (p q : rpt) : R := cos (rad (snd p)) * sin (rad (snd q)) - sin (rad (snd p)) * cos (rad (snd q)) * cos (rad (fst q - fst p)).
Definition U_ (p q : rpt) : R := sin (rad (snd p)) * sin (rad (snd q)) + cos (rad (snd p)) * cos (rad (snd q)) * cos (rad (fst q - fst p)).
Definition ev (p : rpt) : v3 := east (rad (fst p)).
Definition nv (p : rpt) : v3 := north (rad (fst p)) (rad (snd p)).

Lemma frame : forall p q, place q = vadd (vscale (E_ p q) (ev p)) (vadd (vscale (N_ p q) (nv p)) (vscale (U_ p q) (place p))).
Proof.
  intros p q. unfold place, pos, upos, E_, N_, U_, ev, nv, east, north, vadd, vscale. cbn [fst snd].
  rewrite rad_minus, sin_minus, cos_minus.
  set (a := rad (fst q)). set (b := rad (snd q)). set (c := rad (fst p)). set (d := rad (snd p)).
  pose proof (sin2_cos2 c) as C. pose proof (sin2_cos2 d) as DD. unfold Rsqr in C, DD.
  assert (sin c * sin c = 1 - cos c * cos c) as C' by lra. assert (sin d * sin d = 1 - cos d * cos d) as D' by lra.
  apply v3_eq.
  - transitivity (cos b * (cos a * (cos c * cos c + sin c * sin c) + 0)); [rewrite C'; ring |].
    transitivity (cos b * (sin c * sin c * cos a - sin c * cos c * sin a) + (sin d * sin d + cos d * cos d) * cos b * (cos a * cos c + sin a * sin c) * cos c); [rewrite D', C'; ring | ring].
  - transitivity (cos b * (sin a * (cos c * cos c + sin c * sin c) + 0)); [rewrite C'; ring |].
    transitivity (cos b * (cos c * cos c * sin a - sin c * cos c * cos a) + (sin d * sin d + cos d * cos d) * cos b * (cos a * cos c + sin a * sin c) * sin c); [rewrite D'; ring | ring].
  - transitivity ((sin d * sin d + cos d * cos d) * sin b); [rewrite D'; ring | ring].
Qed.
Lemma frame_one : forall p, dot (ev p) (vprod (nv p) (place p)) = 1.
Proof.
  intros p. unfold place, pos, upos, ev, nv, east, north, dot, vprod. cbn [fst snd].
  set (c := rad (fst p)). set (d := rad (snd p)).
  pose proof (sin2_cos2 c) as C. pose proof (sin2_cos2 d) as DD. unfold Rsqr in C, DD.
  transitivity ((sin c * sin c + cos c * cos c) * (sin d * sin d + cos d * cos d)); [ring | rewrite C, DD; ring].
Qed.
Lemma det_frame : forall (e n u : v3) a1 a2 a3 b1 b2 b3 c1 c2 c3,
  dot (vadd (vscale a1 e) (vadd (vscale a2 n) (vscale a3 u)))
      (vprod (vadd (vscale b1 e) (vadd (vscale b2 n) (vscale b3 u))) (vadd (vscale c1 e) (vadd (vscale c2 n) (vscale c3 u)))) =
  (a1 * (b2 * c3 - b3 * c2) - a2 * (b1 * c3 - b3 * c1) + a3 * (b1 * c2 - b2 * c1)) * dot e (vprod n u).
Proof. intros [[e1 e2] e3] [[n1 n2] n3] [[u1 u2] u3] *. unfold dot, vprod, vadd, vscale. cbn [fst snd]. ring. Qed.
Lemma turn_frame : forall p z a b, turn z a b =
  E_ p z * (N_ p a * U_ p b - U_ p a * N_ p b) - N_ p z * (E_ p a * U_ p b - U_ p a * E_ p b) + U_ p z * (E_ p a * N_ p b - N_ p a * E_ p b).
Proof.
  intros p z a b. unfold turn. rewrite (frame p z), (frame p a), (frame p b), det_frame, frame_one. ring.
Qed.
Lemma frame_self : forall p, E_ p p = 0 /\ N_ p p = 0 /\ U_ p p = 1.
Proof.
  intros p. unfold E_, N_, U_. rewrite (Rminus_diag_eq (fst p) (fst p) eq_refl). replace (rad 0) with 0 by (unfold rad; field). rewrite sin_0, cos_0.
  pose proof (sin2_cos2 (rad (snd p))) as C. unfold Rsqr in C. repeat split; lra.
Qed.
Lemma turn_local : forall p a b, turn p a b = E_ p a * N_ p b - N_ p a * E_ p b.
Proof. intros. rewrite (turn_frame p). destruct (frame_self p) as (-> & -> & ->). ring. Qed.

Lemma turn_rot : forall a b c, turn a b c = turn b c a.
Proof. intros. unfold turn. destruct (place a) as [[? ?] ?], (place b) as [[? ?] ?], (place c) as [[? ?] ?]. unfold dot, vprod. cbn [fst snd]. ring. Qed.
Lemma turn_swap : forall a b c, turn a b c = - turn b a c.
Proof. intros. unfold turn. destruct (place a) as [[? ?] ?], (place b) as [[? ?] ?], (place c) as [[? ?] ?]. unfold dot, vprod. cbn [fst snd]. ring. Qed.
Lemma turn_plucker : forall p z a b c, turn p a b * turn z a c = turn p z a * turn a b c + turn p a c * turn z a b.
Proof.
  intros. unfold turn. destruct (place p) as [[? ?] ?], (place z) as [[? ?] ?], (place a) as [[? ?] ?], (place b) as [[? ?] ?], (place c) as [[? ?] ?].
  unfold dot, vprod. cbn [fst snd]. ring.
Qed.

(* ---- positions *)
Definition lat_ok (q : rpt) : Prop := -90 < snd q < 90.
Definition near (p q : rpt) : Prop := -180 < fst q - fst p < 180.
Lemma near_sym : forall p q, near p q -> near q p. Proof. unfold near. intros. lra. Qed.
Lemma cos_lat : forall q, lat_ok q -> 0 < cos (rad (snd q)). Proof. intros. apply cos_rad_pos. assumption. Qed.
Lemma sin_lon : forall x, -180 < x < 180 -> sin (rad x) = 0 -> x = 0.
Proof.
  intros x B S. pose proof PI_RGT_0. unfold rad in *. destruct (Rtotal_order x 0) as [L | [E | G]]; [| exact E |].
  - assert (sin (x * PI / 180) < 0); [| lra]. replace (x * PI / 180) with (- (- x * PI / 180)) by field. rewrite sin_neg. assert (0 < sin (- x * PI / 180)); [| lra]. apply sin_gt_0; nra.
  - assert (0 < sin (x * PI / 180)); [| lra]. apply sin_gt_0; nra.
Qed.
Lemma sin_pos_lon : forall x, 0 < x < 180 -> 0 < sin (rad x).
Proof. intros x B. pose proof PI_RGT_0. unfold rad. apply sin_gt_0; nra. Qed.
(** On the meridian of p. *)
Lemma meridian : forall p q, fst q = fst p -> E_ p q = 0 /\ N_ p q = sin (rad (snd q - snd p)).
Proof.
  intros p q E. unfold E_, N_. rewrite E, (Rminus_diag_eq (fst p) (fst p) eq_refl). replace (rad 0) with 0 by (unfold rad; field). rewrite sin_0, cos_0.
  split; [ring |]. rewrite rad_minus, sin_minus. ring.
Qed.
Lemma local_ne : forall p q, lat_ok p -> lat_ok q -> near p q -> q <> p -> E_ p q <> 0 \/ N_ p q <> 0.
Proof.
  intros p q LP LQ NE D. destruct (Req_EM_T (E_ p q) 0) as [E | E]; [| left; exact E]. right. intros Nz. apply D.
  unfold E_ in E. apply Rmult_integral in E. destruct E as [E | E]; [pose proof (cos_lat q LQ); lra |].
  apply sin_lon in E; [| exact NE]. assert (fst q = fst p) as X by lra. destruct (meridian p q X) as [_ M]. rewrite M in Nz.
  apply sin_lon in Nz; [| unfold lat_ok in *; lra]. destruct p, q; cbn [fst snd] in *. f_equal; lra.
Qed.
Definition az (p q : rpt) : R := sphere_azimuth (fst p) (snd p) (fst q) (snd q).
Lemma az_polar : forall p q, lat_ok p -> lat_ok q -> near p q -> q <> p ->
  exists r, 0 < r /\ E_ p q = r * sin (az p q) /\ N_ p q = r * cos (az p q) /\ - PI < az p q <= PI.
Proof.
  intros p q LP LQ NE D. pose proof (cos_lat q LQ) as CQ. unfold az, sphere_azimuth. cbn zeta. unfold radians. rewrite !rad_alt.
  set (y := sin (rad (fst q - fst p))). set (x := cos (rad (snd p)) * tan (rad (snd q)) - sin (rad (snd p)) * cos (rad (fst q - fst p))).
  assert (E_ p q = cos (rad (snd q)) * y) as EY by reflexivity.
  assert (N_ p q = cos (rad (snd q)) * x) as EX by (unfold N_, x, tan; field; lra).
  assert (x <> 0 \/ y <> 0) as NZ.
  { destruct (local_ne p q LP LQ NE D) as [H | H]; [right | left]; intros Z; apply H; [rewrite EY, Z | rewrite EX, Z]; ring. }
  destruct (atan2_polar 0 y x NZ) as (B & C & S). pose proof (norm_pos x y NZ) as NP.
  exists (cos (rad (snd q)) * sqrt (x * x + y * y)). split; [nra |]. split; [rewrite EY, Rmult_assoc; f_equal; symmetry; assumption |]. split; [rewrite EX, Rmult_assoc; f_equal; symmetry; assumption | assumption].
Qed.
Lemma isleft_turn : forall a b c, lat_ok a -> lat_ok b -> lat_ok c -> near b a -> near b c -> a <> b -> c <> b ->
  (isleft_sphere a b c = true <-> 0 < turn a b c).
Proof.
  intros a b c LA LB LC NA NC DA DC. pose proof PI_RGT_0.
  destruct (az_polar b a LB LA NA DA) as (ra & RA & EA & NNA & _). destruct (az_polar b c LB LC NC DC) as (rc & RC & EC & NNC & _).
  unfold isleft_sphere. cbn zeta. rewrite rlt_t.
  change (0 < reduce_rad (az b c - az b a) <-> 0 < turn a b c).
  assert (turn a b c = ra * rc * sin (az b c - az b a)) as T.
  { rewrite turn_rot. rewrite turn_local, EA, NNA, EC, NNC, sin_minus. ring. }
  assert (0 < sin (az b c - az b a) <-> 0 < turn a b c) as TS.
  { rewrite T. split; intros X; [assert (0 < ra * rc) by nra; nra |]. apply Rmult_lt_reg_l with (ra * rc); nra. }
  rewrite <- TS. destruct (reduce_rad_spec (az b c - az b a)) as [B [k K]]. set (r := reduce_rad (az b c - az b a)) in *.
  assert (sin (az b c - az b a) = sin r) as ->.
  { rewrite K. replace (r + 2 * PI * IZR k) with (r + 2 * IZR k * PI) by ring.
    destruct k as [| n | n].
    - f_equal. ring.
    - rewrite <- (positive_nat_Z n), <- INR_IZR_INZ. apply sin_period.
    - rewrite <- Pos2Z.opp_pos, opp_IZR, <- (positive_nat_Z n), <- INR_IZR_INZ. rewrite <- (sin_period _ (Pos.to_nat n)). f_equal. ring. }
  split; intros X.
  - apply sin_gt_0; lra.
  - destruct (Rlt_le_dec 0 r) as [? | Y]; [assumption |]. exfalso. assert (sin r <= 0); [| lra].
    rewrite <- (Ropp_involutive r), sin_neg. assert (0 <= sin (- r)) by (apply sin_ge_0; lra). lra.
Qed.

(* ---- seen from the westernmost vertex *)
Definition west (p q : rpt) : Prop := 0 <= fst q - fst p < 180 /\ (fst q = fst p -> snd q <= snd p).
Lemma west_near : forall p q, west p q -> near p q. Proof. unfold west, near. intros. lra. Qed.
Lemma az_range : forall p q, lat_ok p -> lat_ok q -> west p q -> q <> p -> 0 < az p q <= PI.
Proof.
  intros p q LP LQ W D. destruct (az_polar p q LP LQ (west_near p q W) D) as (r & RP & E & Nn & B). split; [| apply B].
  destruct (Rlt_le_dec 0 (az p q)) as [? | X]; [assumption |]. exfalso. pose proof PI_RGT_0.
  assert (sin (az p q) <= 0) as S. { rewrite <- (Ropp_involutive (az p q)), sin_neg. assert (0 <= sin (- az p q)) by (apply sin_ge_0; lra). lra. }
  destruct W as [W1 W2]. destruct (Req_EM_T (fst q) (fst p)) as [X0 | X0].
  - destruct (meridian p q X0) as [ME MN]. specialize (W2 X0).
    assert (snd q < snd p) as L by (destruct (Req_EM_T (snd q) (snd p)) as [Y | Y]; [exfalso; apply D; destruct p, q; cbn [fst snd] in *; f_equal; assumption | lra]).
    assert (N_ p q < 0) as NN.
    { rewrite MN. replace (snd q - snd p) with (- (snd p - snd q)) by ring. replace (rad (- (snd p - snd q))) with (- rad (snd p - snd q)) by (unfold rad; field).
      rewrite sin_neg. assert (0 < sin (rad (snd p - snd q))); [| lra]. apply sin_pos_lon. unfold lat_ok in *. lra. }
    assert (sin (az p q) = 0) as S0 by (rewrite ME in E; symmetry in E; apply Rmult_integral in E; destruct E; [lra | assumption]).
    assert (az p q = 0) as A0.
    { destruct (Rlt_le_dec (az p q) 0) as [Y | Y]; [| lra]. exfalso. assert (0 < sin (- az p q)) by (apply sin_gt_0; lra). rewrite sin_neg in H0. lra. }
    rewrite A0, cos_0 in Nn. lra.
  - assert (0 < E_ p q) as EP by (unfold E_; apply Rmult_lt_0_compat; [apply cos_lat, LQ | apply sin_pos_lon; lra]). nra.
Qed.
Lemma turn_key : forall p a b, lat_ok p -> lat_ok a -> lat_ok b -> west p a -> west p b -> a <> p -> b <> p ->
  (0 < turn p a b <-> az p b < az p a).
Proof.
  intros p a b LP LA LB WA WB DA DB. pose proof PI_RGT_0.
  destruct (az_polar p a LP LA (west_near p a WA) DA) as (ra & RA & EA & NA & _). destruct (az_polar p b LP LB (west_near p b WB) DB) as (rb & RB & EB & NB & _).
  pose proof (az_range p a LP LA WA DA) as A1. pose proof (az_range p b LP LB WB DB) as B1.
  assert (turn p a b = ra * rb * sin (az p a - az p b)) as T by (rewrite turn_local, EA, NA, EB, NB, sin_minus; ring).
  rewrite T. split; intros X.
  - destruct (Rlt_le_dec (az p b) (az p a)) as [? | Y]; [assumption |]. exfalso.
    assert (0 <= sin (az p b - az p a)) as S by (apply sin_ge_0; lra). replace (az p a - az p b) with (- (az p b - az p a)) in X by ring. rewrite sin_neg in X.
    assert (0 < ra * rb) by nra. nra.
  - assert (0 < sin (az p a - az p b)) by (apply sin_gt_0; lra). assert (0 < ra * rb) by nra. nra.
Qed.
Lemma turn_line : forall p z a b, lat_ok p -> lat_ok a -> near p a -> a <> p -> turn p z a = 0 -> turn p a b = 0 -> turn z a b = 0.
Proof.
  intros p z a b LP LA NA DA Z B. rewrite turn_local in Z, B. rewrite (turn_frame p z a b).
  destruct (local_ne p a LP LA NA DA) as [H | H].
  - apply (Rmult_eq_reg_l (E_ p a)); [| exact H]. rewrite B, Rmult_0_r.
    transitivity (E_ p z * (E_ p a * N_ p a * U_ p b - E_ p a * U_ p a * N_ p b) - (N_ p z * E_ p a) * (E_ p a * U_ p b - U_ p a * E_ p b)); [ring |].
    replace (N_ p z * E_ p a) with (E_ p z * N_ p a) by lra.
    transitivity (- E_ p z * U_ p a * (E_ p a * N_ p b - N_ p a * E_ p b)); [ring | rewrite B; ring].
  - apply (Rmult_eq_reg_l (N_ p a)); [| exact H]. rewrite B, Rmult_0_r.
    transitivity ((E_ p z * N_ p a) * (N_ p a * U_ p b - U_ p a * N_ p b) - N_ p z * (N_ p a * E_ p a * U_ p b - N_ p a * U_ p a * E_ p b)); [ring |].
    replace (E_ p z * N_ p a) with (N_ p z * E_ p a) by lra.
    transitivity (- N_ p z * U_ p a * (E_ p a * N_ p b - N_ p a * E_ p b)); [ring | rewrite B; ring].
Qed.
(** Two vertices in the same direction from p. *)
Lemma ray : forall p s v, lat_ok p -> lat_ok s -> lat_ok v -> near p s -> near p v -> s <> p -> v <> p -> az p s = az p v ->
  exists c t, 0 < t /\ place v = vadd (vscale c (place p)) (vscale t (place s)).
Proof.
  intros p s v LP LS LV NS NV DS DV E.
  destruct (az_polar p s LP LS NS DS) as (rs & RS & ES & NNS & _). destruct (az_polar p v LP LV NV DV) as (rv & RV & EV & NNV & _).
  exists (U_ p v - rv / rs * U_ p s), (rv / rs). split; [apply Rdiv_lt_0_compat; assumption |].
  rewrite (frame p v), (frame p s), ES, NNS, EV, NNV, E.
  destruct (ev p) as [[e1 e2] e3], (nv p) as [[n1 n2] n3], (place p) as [[u1 u2] u3]. unfold vadd, vscale. cbn [fst snd].
  apply v3_eq; field; lra.
Qed.
Lemma turn_ray : forall p s v a b c t, place v = vadd (vscale c (place p)) (vscale t (place s)) -> turn a b v = c * turn a b p + t * turn a b s.
Proof.
  intros p s v a b c t E. unfold turn. rewrite E. destruct (place a) as [[? ?] ?], (place b) as [[? ?] ?], (place p) as [[? ?] ?], (place s) as [[? ?] ?].
  unfold dot, vprod, vadd, vscale. cbn [fst snd]. ring.
Qed.
