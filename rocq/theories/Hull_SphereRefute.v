(** Hulls on the sphere that are not convex (proofs). *)
From Coq Require Import List Bool Arith Reals Lra Lia.
From Verif Require Hull_SphereScan.
From Verif Require Import GeomR_Model Sphere_Model Sphere_Spec Sphere_Proofs Hull_Model Hull_Spec Hull_SphereSpec Hull_Sphere Hull_SphereMain.
Import ListNotations.
Open Scope R_scope.

Ltac decide_r := repeat match goal with
  | |- context [rlt ?a ?b] => first [replace (rlt a b) with true by (symmetry; apply rlt_t; lra) | replace (rlt a b) with false by (symmetry; apply rlt_f; lra)]
  | |- context [req ?a ?b] => first [replace (req a b) with true by (symmetry; apply req_t; lra) | replace (req a b) with false by (symmetry; apply req_f; lra)]
  end; cbn [orb andb negb].

Lemma rad0 : rad 0 = 0. Proof. unfold rad. field. Qed.
Lemma rad_m : forall x, rad (- x) = - rad x. Proof. intros. unfold rad. field. Qed.
Lemma rad30 : rad 30 = PI / 6. Proof. unfold rad. field. Qed.
Lemma rad45 : rad 45 = PI / 4. Proof. unfold rad. field. Qed.
Lemma rad60 : rad 60 = PI / 3. Proof. unfold rad. field. Qed.
Lemma rad90 : rad 90 = PI / 2. Proof. unfold rad. field. Qed.
Lemma rad120 : rad 120 = 2 * (PI / 3). Proof. unfold rad. field. Qed.
Lemma radm30 : rad (-30) = - (PI / 6). Proof. unfold rad. field. Qed.
Lemma radm45 : rad (-45) = - (PI / 4). Proof. unfold rad. field. Qed.
Lemma radm60 : rad (-60) = - (PI / 3). Proof. unfold rad. field. Qed.
Lemma sqrt3 : sqrt 3 * sqrt 3 = 3 /\ 1.7 < sqrt 3 < 1.8.
Proof.
  split; [apply sqrt_sqrt; lra |]. split.
  - rewrite <- (sqrt_square 1.7) by lra. apply sqrt_lt_1; lra.
  - rewrite <- (sqrt_square 1.8) by lra. apply sqrt_lt_1; lra.
Qed.
Lemma sin_neg_range : forall x, - PI < x <= PI -> sin x < 0 -> x < 0.
Proof. intros x B S. destruct (Rlt_le_dec x 0) as [? | X]; [assumption |]. exfalso. assert (0 <= sin x) by (apply sin_ge_0; lra). lra. Qed.
Lemma sin_pos_range : forall x, - PI < x <= PI -> 0 < sin x -> 0 < x < PI.
Proof.
  intros x B S. pose proof PI_RGT_0. split.
  - destruct (Rlt_le_dec 0 x) as [? | X]; [assumption |]. exfalso. assert (0 <= sin (- x)) by (apply sin_ge_0; lra). rewrite sin_neg in H0. lra.
  - destruct (Req_EM_T x PI) as [-> | X]; [rewrite sin_PI in S; lra | lra].
Qed.

Lemma neg_of : forall n x, 0 < n -> n * x < 0 -> x < 0.
Proof. intros n x P H. destruct (Rlt_le_dec x 0) as [? | X]; [assumption |]. exfalso. assert (0 <= n * x) by (apply Rmult_le_pos; lra). lra. Qed.
(* ---- a vertex given twice *)
Definition rep_b : rpt := (90, -30).
Definition rep_d : rpt := (120, 0).
Definition rep_l : rpt := (0, 0).
Definition rep_a : rpt := (60, -60).
Definition repeated : list rpt := [rep_b; rep_d; rep_l; rep_a; rep_b].

Lemma pl_l : place rep_l = (1, 0, 0).
Proof. unfold place, pos, upos, rep_l. cbn [fst snd]. rewrite rad0, sin_0, cos_0. apply v3_eq; ring. Qed.
Lemma pl_a : place rep_a = (1 / 4, sqrt 3 / 4, - (sqrt 3 / 2)).
Proof. unfold place, pos, upos, rep_a. cbn [fst snd]. rewrite radm60, rad60, sin_neg, cos_neg, sin_PI3, cos_PI3. apply v3_eq; field. Qed.
Lemma pl_b : place rep_b = (0, sqrt 3 / 2, - (1 / 2)).
Proof. unfold place, pos, upos, rep_b. cbn [fst snd]. rewrite radm30, rad90, sin_neg, cos_neg, sin_PI6, cos_PI6, sin_PI2, cos_PI2. apply v3_eq; field. Qed.
Lemma pl_d : place rep_d = (- (1 / 2), sqrt 3 / 2, 0).
Proof. unfold place, pos, upos, rep_d. cbn [fst snd]. rewrite rad0, rad120, sin_0, cos_0, sin_2PI3, cos_2PI3. apply v3_eq; field. Qed.
Ltac turns3 := unfold turn; rewrite ?pl_l, ?pl_a, ?pl_b, ?pl_d; unfold dot, vprod; cbn [fst snd]; destruct sqrt3; nra.
Lemma t_lab : 0 < turn rep_l rep_a rep_b. Proof. turns3. Qed.
Lemma t_lbd : 0 < turn rep_l rep_b rep_d. Proof. turns3. Qed.
Lemma t_abd : turn rep_a rep_b rep_d < 0. Proof. turns3. Qed.
Lemma rlat : lat_ok rep_l /\ lat_ok rep_a /\ lat_ok rep_b /\ lat_ok rep_d.
Proof. unfold lat_ok, rep_l, rep_a, rep_b, rep_d. cbn [fst snd]. lra. Qed.
Ltac ne := intros X; injection X; intros; lra.
Lemma az_dup : az rep_b rep_b = 0.
Proof.
  unfold az, sphere_azimuth. cbn zeta. unfold radians. rewrite !rad_alt. cbn [rep_b fst snd].
  replace (90 - 90) with 0 by ring. rewrite rad0, sin_0, cos_0.
  assert (cos (rad (-30)) <> 0) as C by (pose proof (cos_rad_pos (-30)); lra).
  replace (cos (rad (-30)) * tan (rad (-30)) - sin (rad (-30)) * 1) with 0 by (unfold tan; field; exact C).
  unfold atan2, TerrainR_Model.atan2. destruct (Rlt_dec 0 0); [lra |]. destruct (Rlt_dec 0 0); [lra | reflexivity].
Qed.
Lemma reduce_id : forall x, - PI <= x < PI -> reduce_rad x = x.
Proof. intros x B. apply reduce_rad_unique; [exact B |]. exists 0%Z. ring. Qed.
Lemma left_dup : isleft_sphere rep_a rep_b rep_b = true.
Proof.
  unfold isleft_sphere. cbn zeta. change (rlt 0 (reduce_rad (az rep_b rep_b - az rep_b rep_a)) = true). rewrite az_dup, rlt_t.
  destruct rlat as (_ & LA & LB & _). destruct (az_polar rep_b rep_a LB LA) as (r & RP & E & _ & B); [unfold near; cbn; lra | ne |].
  assert (az rep_b rep_a < 0) as S.
  { apply sin_neg_range; [exact B |]. assert (E_ rep_b rep_a < 0) as EN.
    { unfold E_. cbn [rep_a rep_b fst snd]. replace (60 - 90) with (-30) by ring. rewrite radm30, radm60, sin_neg, cos_neg, sin_PI6, cos_PI3. lra. }
    nra. }
  rewrite reduce_id; lra.
Qed.
Lemma left_after : isleft_sphere rep_b rep_b rep_d = true.
Proof.
  unfold isleft_sphere. cbn zeta. change (rlt 0 (reduce_rad (az rep_b rep_d - az rep_b rep_b)) = true). rewrite az_dup, rlt_t.
  destruct rlat as (_ & _ & LB & LD). destruct (az_polar rep_b rep_d LB LD) as (r & RP & E & _ & B); [unfold near; cbn; lra | ne |].
  assert (0 < az rep_b rep_d < PI) as S.
  { apply sin_pos_range; [exact B |]. assert (0 < E_ rep_b rep_d) as EN.
    { unfold E_. cbn [rep_d rep_b fst snd]. replace (120 - 90) with 30 by ring. rewrite rad0, rad30, cos_0, sin_PI6. lra. }
    nra. }
  rewrite reduce_id; lra.
Qed.
Lemma keys_rep : akey rep_l rep_a < akey rep_l rep_b /\ akey rep_l rep_b < akey rep_l rep_d.
Proof.
  destruct rlat as (LL & LA & LB & LD).
  assert (west rep_l rep_a /\ west rep_l rep_b /\ west rep_l rep_d) as (WA & WB & WD) by (unfold west, rep_l, rep_a, rep_b, rep_d; cbn [fst snd]; lra).
  pose proof t_lab as T1. pose proof t_lbd as T2. apply turn_key in T1; auto; try ne. apply turn_key in T2; auto; try ne. unfold akey. lra.
Qed.
Theorem repeated_hull : sphere_hull repeated = Ok [rep_l; rep_a; rep_b; rep_b; rep_d].
Proof.
  assert (leftmost rpt (0, 0) xlt xeq yup repeated = 2%nat) as L.
  { unfold leftmost, at_. cbn [length repeated Nat.sub seq fold_left nth rep_a rep_b rep_d rep_l fst snd]. 
    do 4 (decide_r; cbn [nth fst snd rep_a rep_b rep_d rep_l]). reflexivity. }
  assert (rby repeated 2 = [(akey rep_l rep_a, 3%nat); (akey rep_l rep_b, 0%nat); (akey rep_l rep_b, 4%nat); (akey rep_l rep_d, 1%nat)]) as B.
  { unfold by_azimuth, at_. cbn [length repeated seq filter Nat.eqb negb map nth]. destruct keys_rep as [K1 K2].
    set (ka := akey rep_l rep_a) in *. set (kb := akey rep_l rep_b) in *. set (kd := akey rep_l rep_d) in *. clearbody ka kb kd.
    unfold sort, pair_le. cbn [fold_right insert pair_le fst snd].
    do 8 (unfold pair_le; decide_r; cbn [insert pair_le fst snd Nat.leb]). reflexivity. }
  unfold sphere_hull, hull, hull_indices.
  change (fun p0 q : rpt => PI / 2 - sphere_azimuth (fst p0) (snd p0) (fst q) (snd q)) with akey.
  unfold repeated at 1. cbn zeta. rewrite L, B. cbn [drop_duplicates]. destruct keys_rep as [K1 K2].
  set (ka := akey rep_l rep_a) in *. set (kb := akey rep_l rep_b) in *. set (kd := akey rep_l rep_d) in *. clearbody ka kb kd. decide_r. cbn [rev app].
  cbn [scan pops]. unfold at_. cbn [repeated nth]. rewrite left_dup. cbn [scan pops]. unfold at_. cbn [repeated nth]. rewrite left_after. reflexivity.
Qed.

(* ---- across the date line *)
Definition dl_l : rpt := (-150, 0).
Definition dl_s : rpt := (-150, -45).
Definition dl_b : rpt := (150, 0).
Definition dl_c : rpt := (150, -45).
Definition dateline : list rpt := [dl_l; dl_s; dl_b; dl_c].

Lemma rad300 : rad 300 = - (PI / 3) + 2 * PI. Proof. unfold rad. field. Qed.
Lemma rad150 : rad 150 = PI - PI / 6. Proof. unfold rad. field. Qed.
Lemma radm150 : rad (-150) = - (PI - PI / 6). Proof. unfold rad. field. Qed.
Lemma sin300 : sin (rad 300) = - (sqrt 3 / 2). Proof. rewrite rad300. rewrite sin_plus, sin_2PI, cos_2PI, sin_neg, sin_PI3. ring. Qed.
Lemma sinm300 : sin (rad (-300)) = sqrt 3 / 2. Proof. replace (-300) with (- (300)) by ring. rewrite rad_m, sin_neg, sin300. ring. Qed.
Lemma sin150 : sin (PI - PI / 6) = 1 / 2. Proof. rewrite sin_minus, sin_PI, cos_PI, sin_PI6. field. Qed.
Lemma cos150 : cos (PI - PI / 6) = - (sqrt 3 / 2). Proof. rewrite cos_minus, sin_PI, cos_PI, cos_PI6; ring. Qed.
Definition h2 : R := 1 / sqrt 2.
Lemma h2_pos : 0 < h2. Proof. unfold h2. apply Rdiv_lt_0_compat; [lra | apply sqrt_lt_R0; lra]. Qed.
Lemma tanm45 : tan (rad (-45)) = -1.
Proof. rewrite radm45, tan_neg, tan_PI4. ring. Qed.
Lemma pd_l : place dl_l = (- (sqrt 3 / 2), - (1 / 2), 0).
Proof. unfold place, pos, upos, dl_l. cbn [fst snd]. rewrite rad0, radm150, sin_neg, cos_neg, sin150, cos150, sin_0, cos_0. apply v3_eq; field. Qed.
Lemma pd_s : place dl_s = (- (h2 * (sqrt 3 / 2)), - (h2 * (1 / 2)), - h2).
Proof. unfold place, pos, upos, dl_s. cbn [fst snd]. rewrite radm45, radm150, !sin_neg, !cos_neg, sin150, cos150, sin_PI4, cos_PI4. fold h2. apply v3_eq; field. Qed.
Lemma pd_b : place dl_b = (- (sqrt 3 / 2), 1 / 2, 0).
Proof. unfold place, pos, upos, dl_b. cbn [fst snd]. rewrite rad0, rad150, sin150, cos150, sin_0, cos_0. apply v3_eq; field. Qed.
Lemma pd_c : place dl_c = (- (h2 * (sqrt 3 / 2)), h2 * (1 / 2), - h2).
Proof. unfold place, pos, upos, dl_c. cbn [fst snd]. rewrite radm45, rad150, sin_neg, cos_neg, sin150, cos150, sin_PI4, cos_PI4. fold h2. apply v3_eq; field. Qed.
Lemma td_lsb : turn dl_l dl_s dl_b < 0.
Proof. unfold turn. rewrite pd_l, pd_s, pd_b. unfold dot, vprod. cbn [fst snd]. destruct sqrt3. pose proof h2_pos. nra. Qed.
Lemma td_sbc : 0 < turn dl_s dl_b dl_c.
Proof.
  unfold turn. rewrite pd_c, pd_s, pd_b. unfold dot, vprod. cbn [fst snd]. destruct sqrt3. pose proof h2_pos.
  match goal with |- 0 < ?e => replace e with (h2 * h2 * (sqrt 3 / 2)) by field end. assert (0 < h2 * h2) by nra. nra.
Qed.
Lemma az_ls : az dl_l dl_s = PI.
Proof.
  unfold az, sphere_azimuth. cbn zeta. unfold radians. rewrite !rad_alt. cbn [dl_l dl_s fst snd].
  replace (-150 - -150) with 0 by ring. rewrite rad0, sin_0, cos_0, tanm45. replace 0 with (1 * sin PI) at 2 by (rewrite sin_PI; ring).
  replace (1 * -1 - 0 * 1) with (1 * cos PI) by (rewrite cos_PI; ring). apply atan2_unique; pose proof PI_RGT_0; lra.
Qed.
Lemma az_bc : az dl_b dl_c = PI.
Proof.
  unfold az, sphere_azimuth. cbn zeta. unfold radians. rewrite !rad_alt. cbn [dl_b dl_c fst snd].
  replace (150 - 150) with 0 by ring. rewrite rad0, sin_0, cos_0, tanm45. replace 0 with (1 * sin PI) at 2 by (rewrite sin_PI; ring).
  replace (1 * -1 - 0 * 1) with (1 * cos PI) by (rewrite cos_PI; ring). apply atan2_unique; pose proof PI_RGT_0; lra.
Qed.
Lemma az_lb : az dl_l dl_b = - (PI / 2).
Proof.
  unfold az, sphere_azimuth. cbn zeta. unfold radians. rewrite !rad_alt. cbn [dl_l dl_b fst snd].
  replace (150 - -150) with 300 by ring. rewrite rad0, sin_0, cos_0, sin300, tan_0.
  replace (- (sqrt 3 / 2)) with (sqrt 3 / 2 * sin (- (PI / 2))) by (rewrite sin_neg, sin_PI2; ring).
  replace (1 * 0 - 0 * cos (rad 300)) with (sqrt 3 / 2 * cos (- (PI / 2))) by (rewrite cos_neg, cos_PI2; ring).
  apply atan2_unique; [destruct sqrt3; lra | pose proof PI_RGT_0; lra].
Qed.
Lemma az_lc : az dl_l dl_c < - (PI / 2).
Proof.
  unfold az, sphere_azimuth. cbn zeta. unfold radians. rewrite !rad_alt. cbn [dl_l dl_c fst snd].
  replace (150 - -150) with 300 by ring. rewrite rad0, sin_0, cos_0, sin300, tanm45. replace (1 * -1 - 0 * cos (rad 300)) with (-1) by ring.
  destruct sqrt3 as [S3 SB]. destruct (atan2_polar 0 (- (sqrt 3 / 2)) (-1)) as (C & S & B); [left; lra |].
  assert (0 < sqrt (-1 * -1 + - (sqrt 3 / 2) * - (sqrt 3 / 2))) as NP by (apply norm_pos; left; lra).
  set (t := atan2 0 (- (sqrt 3 / 2)) (-1)) in *. set (n := sqrt (-1 * -1 + _)) in *.
  assert (sin t < 0) as S1 by (apply (neg_of n); lra). assert (cos t < 0) as C1 by (apply (neg_of n); lra). apply sin_neg_range in S1; [| exact B].
  destruct (Rlt_le_dec t (- (PI / 2))) as [? | X]; [assumption |]. exfalso. assert (0 <= cos t) by (apply cos_ge_0; lra). lra.
Qed.
Lemma az_bs : PI / 2 < az dl_b dl_s < PI.
Proof.
  unfold az, sphere_azimuth. cbn zeta. unfold radians. rewrite !rad_alt. cbn [dl_b dl_s fst snd].
  replace (-150 - 150) with (-300) by ring. rewrite rad0, sin_0, cos_0, sinm300, tanm45. replace (1 * -1 - 0 * cos (rad (-300))) with (-1) by ring.
  destruct sqrt3 as [S3 SB]. destruct (atan2_polar 0 (sqrt 3 / 2) (-1)) as (C & S & B); [left; lra |].
  assert (0 < sqrt (-1 * -1 + sqrt 3 / 2 * (sqrt 3 / 2))) as NP by (apply norm_pos; left; lra).
  set (t := atan2 0 (sqrt 3 / 2) (-1)) in *. set (n := sqrt (-1 * -1 + _)) in *.
  assert (0 < sin t) as S1 by (apply (Hull_SphereScan.pos_of n); lra). assert (cos t < 0) as C1 by (apply (neg_of n); lra). apply sin_pos_range in S1; [| exact B]. split; [| apply S1].
  destruct (Rlt_le_dec (PI / 2) t) as [? | X]; [assumption |]. exfalso. assert (0 <= cos t) by (apply cos_ge_0; lra). lra.
Qed.
Theorem dateline_hull : sphere_hull dateline = Ok [dl_l; dl_s; dl_b; dl_c].
Proof.
  pose proof PI_RGT_0 as PP.
  assert (leftmost rpt (0, 0) xlt xeq yup dateline = 0%nat) as L.
  { unfold leftmost, at_. cbn [length dateline Nat.sub seq fold_left nth dl_l dl_s dl_b dl_c fst snd].
    do 3 (decide_r; cbn [nth fst snd dl_l dl_s dl_b dl_c]). reflexivity. }
  assert (akey dl_l dl_s < akey dl_l dl_b /\ akey dl_l dl_b < akey dl_l dl_c) as [K1 K2].
  { unfold akey. rewrite az_ls, az_lb. pose proof az_lc. lra. }
  assert (rby dateline 0 = [(akey dl_l dl_s, 1%nat); (akey dl_l dl_b, 2%nat); (akey dl_l dl_c, 3%nat)]) as B.
  { unfold by_azimuth, at_. cbn [length dateline seq filter Nat.eqb negb map nth].
    set (ka := akey dl_l dl_s) in *. set (kb := akey dl_l dl_b) in *. set (kd := akey dl_l dl_c) in *. clearbody ka kb kd.
    unfold sort, pair_le. cbn [fold_right insert pair_le fst snd].
    do 6 (unfold pair_le; decide_r; cbn [insert pair_le fst snd Nat.leb]). reflexivity. }
  assert (isleft_sphere dl_s dl_b dl_c = true) as IL.
  { unfold isleft_sphere. cbn zeta. change (rlt 0 (reduce_rad (az dl_b dl_c - az dl_b dl_s)) = true). rewrite az_bc, rlt_t. pose proof az_bs. rewrite reduce_id; lra. }
  unfold sphere_hull, hull, hull_indices.
  change (fun p0 q : rpt => PI / 2 - sphere_azimuth (fst p0) (snd p0) (fst q) (snd q)) with akey.
  unfold dateline at 1. cbn zeta. rewrite L, B. cbn [drop_duplicates].
  set (ka := akey dl_l dl_s) in *. set (kb := akey dl_l dl_b) in *. set (kd := akey dl_l dl_c) in *. clearbody ka kb kd. decide_r. cbn [rev app].
  cbn [scan pops]. unfold at_. cbn [dateline nth]. rewrite IL. reflexivity.
Qed.
