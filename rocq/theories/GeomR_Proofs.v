(** Proofs about distances, azimuths, walking, rotation and lengths. *)
From Coq Require Import List ZArith Reals Bool Arith Lia Lra.
From Verif Require Import Geom_Model GeomR_Model GeomR_Spec.
From Verif Require TerrainR_Model TerrainR_Proofs.
Import ListNotations.
Open Scope R_scope.


Lemma pair_eq : forall a b : rpt, fst a = fst b -> snd a = snd b -> a = b.
Proof. intros [a a'] [b b']; cbn; intros -> ->; reflexivity. Qed.
(* ---- angles *)
Lemma pymod_spec : forall x m, 0 < m -> 0 <= pymod x m < m /\ exists k : Z, pymod x m = x - m * IZR k.
Proof.
  intros x m M. unfold pymod. destruct (base_Int_part (x / m)) as [A B].
  split; [|exists (Int_part (x / m)); reflexivity].
  set (k := IZR (Int_part (x / m))) in *.
  assert (E : x = m * (x / m)) by (field; lra).
  set (q := x / m) in *. clearbody k q. rewrite E. clear E.
  assert (m * k <= m * q) by (apply Rmult_le_compat_l; lra).
  assert (m * q < m * (k + 1)) by (apply Rmult_lt_compat_l; lra).
  split; lra.
Qed.
Lemma trig_period : forall x k, cos (x + 2 * IZR k * PI) = cos x /\ sin (x + 2 * IZR k * PI) = sin x.
Proof.
  intros x k. destruct (Z_le_gt_dec 0 k) as [K|K].
  - rewrite <- (Z2Nat.id k K), <- INR_IZR_INZ. split; [apply cos_period|apply sin_period].
  - assert (E : x = (x + 2 * IZR k * PI) + 2 * INR (Z.to_nat (- k)) * PI).
    { rewrite INR_IZR_INZ, Z2Nat.id by lia. rewrite opp_IZR. ring. }
    split; [rewrite E at 2; rewrite cos_period|rewrite E at 2; rewrite sin_period]; reflexivity.
Qed.
Lemma same_angle : forall a b, cos a = cos b -> sin a = sin b -> exists k : Z, a = b + 2 * IZR k * PI.
Proof.
  intros a b C S.
  assert (H : cos (a - b) = 1).
  { rewrite cos_minus, C, S. pose proof (sin2_cos2 b) as H. unfold Rsqr in H. lra. }
  assert (H0 : sin ((a - b) / 2) = 0).
  { replace (a - b) with (2 * ((a - b) / 2)) in H by field. rewrite cos_2a_sin in H.
    assert (sin ((a - b) / 2) * sin ((a - b) / 2) = 0) by lra.
    apply Rsqr_0_uniq. exact H0. }
  destruct (sin_eq_0_0 _ H0) as [k K]. exists k. lra.
Qed.
Lemma deg_period : forall a k, (a + 360 * IZR k) * PI / 180 = a * PI / 180 + 2 * IZR k * PI.
Proof. intros. field. Qed.

Lemma bearing_period : forall p q d az k, bearing p q d az -> bearing p q d (az + 360 * IZR k).
Proof.
  unfold bearing. intros p q d az k. rewrite deg_period. destruct (trig_period (az * PI / 180) k) as [-> ->]. auto.
Qed.
Lemma bearing_unique : forall p q d a b, 0 < d -> bearing p q d a -> bearing p q d b -> exists k : Z, a = b + 360 * IZR k.
Proof.
  intros p q d a b D [A1 A2] [B1 B2].
  assert (C : cos (a * PI / 180) = cos (b * PI / 180)) by (apply Rmult_eq_reg_l with d; lra).
  assert (S : sin (a * PI / 180) = sin (b * PI / 180)) by (apply Rmult_eq_reg_l with d; lra).
  destruct (same_angle _ _ C S) as [k K]. exists k. pose proof PI_RGT_0.
  assert ((a - b - 360 * IZR k) * PI = 0).
  { replace ((a - b - 360 * IZR k) * PI) with (180 * (a * PI / 180 - (b * PI / 180 + 2 * IZR k * PI))) by field. rewrite K. ring. }
  apply Rmult_integral in H0. lra.
Qed.

Lemma edist_pdist : forall x0 y0 x1 y1, pdist x0 y0 x1 y1 = edist (x0, y0) (x1, y1).
Proof. intros. unfold pdist, edist. cbn [fst snd]. f_equal. ring. Qed.
Lemma edist_sym : forall a b, edist a b = edist b a.
Proof. intros. unfold edist. f_equal. ring. Qed.
Lemma edist_nonneg : forall a b, 0 <= edist a b.
Proof. intros. apply sqrt_pos. Qed.
Lemma edist_sq : forall a b, edist a b * edist a b = (fst a - fst b)^2 + (snd a - snd b)^2.
Proof. intros. apply sqrt_sqrt. pose proof (pow2_ge_0 (fst a - fst b)). pose proof (pow2_ge_0 (snd a - snd b)). lra. Qed.
Lemma edist_0 : forall a b, edist a b = 0 <-> a = b.
Proof.
  intros [x y] [x' y']. split.
  - intros H. pose proof (edist_sq (x, y) (x', y')) as S. rewrite H in S. cbn [fst snd] in S.
    pose proof (pow2_ge_0 (x - x')). pose proof (pow2_ge_0 (y - y')).
    assert (A : (x - x')^2 = 0) by lra. assert (B : (y - y')^2 = 0) by lra.
    f_equal; nra.
  - intros E. rewrite E. unfold edist. rewrite !Rminus_eq_0. replace (0 ^ 2 + 0 ^ 2) with 0 by ring. apply sqrt_0.
Qed.
Lemma edist_triangle : forall a b c, edist a c <= edist a b + edist b c.
Proof.
  intros [xa ya] [xb yb] [xc yc]. pose proof (triangle xa ya xc yc xb yb) as T. unfold dist_euc, Rsqr in T.
  unfold edist. cbn [fst snd].
  replace ((xa - xc) ^ 2 + (ya - yc) ^ 2) with ((xa - xc) * (xa - xc) + (ya - yc) * (ya - yc)) by ring.
  replace ((xa - xb) ^ 2 + (ya - yb) ^ 2) with ((xa - xb) * (xa - xb) + (ya - yb) * (ya - yb)) by ring.
  replace ((xb - xc) ^ 2 + (yb - yc) ^ 2) with ((xb - xc) * (xb - xc) + (yb - yc) * (yb - yc)) by ring.
  exact T.
Qed.

Lemma distance_spec : forall p q,
  distance p q = match rz p, rz q with
                 | Some z, Some z' => edist3 (hp p) (hp q) z z'
                 | _, _ => edist (hp p) (hp q)
                 end.
Proof.
  intros [x y [z|]] [x' y' [z'|]]; unfold distance; cbn [rx ry rz]; rewrite edist_pdist; try reflexivity.
  unfold hp. cbn [rx ry]. rewrite edist_sq. unfold edist3. cbn [fst snd]. f_equal. ring.
Qed.
Lemma distance_planar : forall p q, rz p = None \/ rz q = None -> distance p q = edist (hp p) (hp q).
Proof. intros p q H. rewrite distance_spec. destruct (rz p), (rz q); try reflexivity. destruct H; discriminate. Qed.

Lemma azimuth_some : forall p q, hp p <> hp q -> exists az, azimuth p q = Some az /\ -180 <= az < 180 /\
  bearing (hp p) (hp q) (edist (hp p) (hp q)) az.
Proof.
  intros p q N.
  assert (E : azimuth p q = Some (pymod (90 - atan2 0 (ry q - ry p) (rx q - rx p) * 180 / PI + 180) 360 - 180)).
  { unfold azimuth. destruct (Req_EM_T (rx p) (rx q)); [|reflexivity].
    destruct (Req_EM_T (ry p) (ry q)); [|reflexivity]. exfalso. apply N. unfold hp. congruence. }
  rewrite E. clear E. eexists. split; [reflexivity|].
  set (th := atan2 0 (ry q - ry p) (rx q - rx p)).
  destruct (pymod_spec (90 - th * 180 / PI + 180) 360) as [B [k K]]; [lra|].
  split; [lra|].
  assert (NZ : rx q - rx p <> 0 \/ ry q - ry p <> 0).
  { destruct (Req_EM_T (rx q) (rx p)); [|left; lra]. right. intros H. apply N. unfold hp. f_equal; lra. }
  destruct (TerrainR_Proofs.atan2_polar 0 _ _ NZ) as (P1 & P2 & _).
  fold (atan2 0 (ry q - ry p) (rx q - rx p)) in P1, P2. fold th in P1, P2.
  assert (D : edist (hp p) (hp q) = sqrt ((rx q - rx p) * (rx q - rx p) + (ry q - ry p) * (ry q - ry p))).
  { unfold edist, hp. cbn [fst snd]. f_equal. ring. }
  rewrite K. replace (90 - th * 180 / PI + 180 - 360 * IZR k - 180) with (90 - th * 180 / PI + 360 * IZR (- k)).
  2: { rewrite opp_IZR. ring. }
  apply bearing_period. unfold bearing.
  replace ((90 - th * 180 / PI) * PI / 180) with (PI / 2 - th).
  2: { field. apply PI_neq0. }
  rewrite sin_shift, cos_shift, D, P1, P2. unfold hp. cbn [fst snd]. split; ring.
Qed.
Lemma azimuth_none : forall p q, hp p = hp q -> azimuth p q = None.
Proof.
  intros p q H. injection H as X Y. unfold azimuth.
  destruct (Req_EM_T (rx p) (rx q)); [|contradiction]. destruct (Req_EM_T (ry p) (ry q)); [reflexivity|contradiction].
Qed.
Lemma walk_bearing : forall p d az, rz (walk p d az) = None /\ bearing (hp p) (hp (walk p d az)) d az.
Proof.
  intros. split; [reflexivity|]. unfold bearing, walk, hp. cbn [rx ry rz fst snd].
  replace ((90 - az) * PI / 180) with (PI / 2 - az * PI / 180) by field.
  rewrite cos_shift, sin_shift. split; reflexivity.
Qed.
Lemma bearing_dist : forall p q d az, bearing p q d az -> edist p q = Rabs d.
Proof.
  intros p q d az [A B]. unfold edist. rewrite A, B.
  set (s := az * PI / 180). replace ((fst p - (fst p + d * sin s)) ^ 2 + (snd p - (snd p + d * cos s)) ^ 2)
    with (Rsqr d * (Rsqr (sin s) + Rsqr (cos s))) by (unfold Rsqr; ring).
  rewrite sin2_cos2, Rmult_1_r. apply sqrt_Rsqr_abs.
Qed.
Lemma walk_distance : forall p d az, distance p (walk p d az) = Rabs d.
Proof.
  intros. destruct (walk_bearing p d az) as [Z B]. rewrite distance_planar by auto. eapply bearing_dist, B.
Qed.
Lemma walk_azimuth : forall p d az, 0 < d -> exists k : Z,
  azimuth p (walk p d az) = Some (az + 360 * IZR k) /\ -180 <= az + 360 * IZR k < 180.
Proof.
  intros p d az D. destruct (walk_bearing p d az) as [_ B].
  pose proof (bearing_dist _ _ _ _ B) as E. rewrite Rabs_right in E by lra.
  destruct (azimuth_some p (walk p d az)) as (a & A1 & A2 & A3).
  { intros H. apply edist_0 in H. lra. }
  rewrite E in A3. destruct (bearing_unique _ _ _ _ _ D A3 B) as [k K].
  exists k. rewrite <- K. auto.
Qed.
Lemma walk_there : forall p q, hp p <> hp q -> exists az, azimuth p q = Some az /\
  hp (walk p (edist (hp p) (hp q)) az) = hp q.
Proof.
  intros p q N. destruct (azimuth_some p q N) as (az & A & _ & B1 & B2). exists az. split; [exact A|].
  destruct (walk_bearing p (edist (hp p) (hp q)) az) as [_ [C1 C2]].
  apply pair_eq; congruence.
Qed.
Lemma azimuth_back : forall p q a b, azimuth p q = Some a -> azimuth q p = Some b -> b = a - 180 \/ b = a + 180.
Proof.
  intros p q a b A B.
  assert (N : hp p <> hp q) by (intros H; rewrite (azimuth_none _ _ H) in A; discriminate).
  destruct (azimuth_some p q N) as (a' & A1 & A2 & A3). rewrite A in A1. injection A1 as <-.
  destruct (azimuth_some q p) as (b' & B1 & B2 & B3). { congruence. } rewrite B in B1. injection B1 as <-.
  rewrite edist_sym in B3.
  assert (D : 0 < edist (hp p) (hp q)).
  { destruct (edist_nonneg (hp p) (hp q)); [assumption|]. exfalso. apply N, edist_0. auto. }
  assert (H : bearing (hp q) (hp p) (edist (hp p) (hp q)) (a + 180)).
  { destruct A3 as [X Y]. unfold bearing. replace ((a + 180) * PI / 180) with (a * PI / 180 + PI) by field.
    rewrite neg_sin, neg_cos. split; lra. }
  destruct (bearing_unique _ _ _ _ _ D B3 H) as [k K].
  assert (k = -1 \/ k = 0)%Z as [-> | ->].
  { assert (IZR k < 1). { lra. } assert (-2 < IZR k) by lra. apply lt_IZR in H0. apply lt_IZR in H1. lia. }
  all: lra.
Qed.

(* ---- rotation *)
Lemma rotate_turned : forall th o p, turned o th p (rotate th (fst o) (snd o) (fst p) (snd p)).
Proof.
  intros th [ox oy] p r phi ->. unfold rotate. cbn [fst snd]. set (t := th * PI / 180).
  rewrite cos_plus, sin_plus. f_equal; ring.
Qed.
Lemma polar : forall o p : rpt, exists r phi, p = (fst o + r * cos phi, snd o + r * sin phi).
Proof.
  intros [ox oy] [x y]. cbn [fst snd].
  destruct (Req_EM_T (x - ox) 0) as [E|E]; [destruct (Req_EM_T (y - oy) 0) as [E'|E']|].
  - exists 0, 0. f_equal; lra.
  - destruct (TerrainR_Proofs.atan2_polar 0 (y - oy) (x - ox)) as (P1 & P2 & _); [lra|].
    do 2 eexists. f_equal; [rewrite P1|rewrite P2]; ring.
  - destruct (TerrainR_Proofs.atan2_polar 0 (y - oy) (x - ox)) as (P1 & P2 & _); [lra|].
    do 2 eexists. f_equal; [rewrite P1|rewrite P2]; ring.
Qed.
Lemma turned_unique : forall o th p q q', turned o th p q -> turned o th p q' -> q = q'.
Proof. intros o th p q q' A B. destruct (polar o p) as (r & phi & E). rewrite (A _ _ E), (B _ _ E). reflexivity. Qed.
Lemma rotate_isometry : forall th o p q,
  edist (rotate th (fst o) (snd o) (fst p) (snd p)) (rotate th (fst o) (snd o) (fst q) (snd q)) = edist p q.
Proof.
  intros th [ox oy] [x y] [x' y']. unfold edist, rotate. cbn [fst snd]. set (t := th * PI / 180). f_equal.
  transitivity (((x - x')^2 + (y - y')^2) * (Rsqr (sin t) + Rsqr (cos t))); [unfold Rsqr; ring|].
  rewrite sin2_cos2. ring.
Qed.
Lemma rotate_add : forall a b o p, let q := rotate a (fst o) (snd o) (fst p) (snd p) in
  rotate b (fst o) (snd o) (fst q) (snd q) = rotate (a + b) (fst o) (snd o) (fst p) (snd p).
Proof.
  intros a b o p q. destruct (polar o p) as (r & phi & E).
  pose proof (rotate_turned a o p _ _ E) as A. fold q in A.
  pose proof (rotate_turned b o q _ _ A) as B.
  rewrite (rotate_turned (a + b) o p _ _ E), B.
  replace ((a + b) * PI / 180) with (a * PI / 180 + b * PI / 180) by field. rewrite Rplus_assoc. reflexivity.
Qed.
Lemma rotate_full : forall k o p, rotate (360 * IZR k) (fst o) (snd o) (fst p) (snd p) = p.
Proof.
  intros k o p. destruct (polar o p) as (r & phi & E). rewrite (rotate_turned _ o p _ _ E).
  replace (phi + 360 * IZR k * PI / 180) with (phi + 2 * IZR k * PI) by field.
  destruct (trig_period phi k) as [-> ->]. symmetry. exact E.
Qed.

(* ---- lengths *)
Lemma length_loop_spec : forall l a d, length_loop a l d = d + path_len a l.
Proof.
  induction l as [|b l IH]; intros a d; cbn [length_loop path_len]; [ring|].
  rewrite IH, edist_pdist. rewrite <- !surjective_pairing. ring.
Qed.
Lemma length_spec : forall l ring, l <> [] -> length_c l ring = Ok (if ring then ring_len l else line_len l).
Proof.
  intros [|a l] ring N; [congruence|]. cbn [length_c ring_len line_len]. destruct ring; rewrite length_loop_spec, Rplus_0_l; reflexivity.
Qed.
Lemma path_len_app : forall l a b m, path_len a (l ++ b :: m) = path_len a (l ++ [b]) + path_len b m.
Proof. induction l as [|c l IH]; intros a b m; cbn [app path_len]; [ring|]. rewrite IH. ring. Qed.
Lemma line_len_app : forall l b m, line_len (l ++ b :: m) = line_len (l ++ [b]) + line_len (b :: m).
Proof. intros [|a l] b m; cbn [app line_len]; [cbn; ring|]. apply path_len_app. Qed.
Lemma path_len_nonneg : forall l a, 0 <= path_len a l.
Proof. induction l as [|b l IH]; intros a; cbn [path_len]; [lra|]. pose proof (edist_nonneg a b). specialize (IH b). lra. Qed.
Lemma line_len_nonneg : forall l, 0 <= line_len l.
Proof. intros [|a l]; cbn [line_len]; [lra|apply path_len_nonneg]. Qed.
Lemma path_len_far : forall l a b, edist a b <= path_len a (l ++ [b]).
Proof.
  induction l as [|c l IH]; intros a b; cbn [app path_len]; [lra|].
  pose proof (edist_triangle a c b). specialize (IH c b). lra.
Qed.
Lemma path_len_rev : forall l a b, path_len a (l ++ [b]) = path_len b (rev l ++ [a]).
Proof.
  induction l as [|c l IH]; intros a b; cbn [app rev path_len].
  - rewrite edist_sym. reflexivity.
  - rewrite IH, <- app_assoc. cbn [app]. rewrite (path_len_app (rev l) b c [a]). cbn [path_len]. rewrite (edist_sym a c). ring.
Qed.
Lemma line_len_rev : forall l, line_len (rev l) = line_len l.
Proof.
  intros [|a l]; [reflexivity|]. destruct l as [|b l] using rev_ind; [reflexivity|]. clear IHl.
  cbn [rev]. rewrite rev_app_distr. cbn [rev app line_len]. rewrite path_len_rev, rev_involutive. reflexivity.
Qed.
Lemma path_len_map : forall f l a, (forall p q, edist (f p) (f q) = edist p q) -> path_len (f a) (map f l) = path_len a l.
Proof. intros f l. induction l as [|b l IH]; intros a F; cbn [map path_len]; [reflexivity|]. rewrite F, IH by exact F. reflexivity. Qed.
Lemma line_len_map : forall f l, (forall p q, edist (f p) (f q) = edist p q) -> line_len (map f l) = line_len l.
Proof. intros f [|a l] F; [reflexivity|]. cbn [map line_len]. apply path_len_map, F. Qed.
Lemma ring_len_map : forall f l, (forall p q, edist (f p) (f q) = edist p q) -> ring_len (map f l) = ring_len l.
Proof.
  intros f [|a l] F; [reflexivity|]. cbn [map ring_len]. rewrite <- (path_len_map f _ a F), map_app. reflexivity.
Qed.
Lemma sumr_from : forall l d, fold_left Rplus l d = d + fold_right Rplus 0 l.
Proof. induction l as [|x l IH]; intros d; cbn; [ring|]. rewrite IH. ring. Qed.
Lemma pairs_sum : forall l a d, fold_left Rplus (map seg_length (pairs (a :: l))) d = d + path_len a l.
Proof.
  induction l as [|b l IH]; intros a d; [cbn; ring|].
  change (pairs (a :: b :: l)) with ((a, b) :: pairs (b :: l)). cbn [map fold_left path_len]. rewrite IH.
  unfold seg_length. cbn [fst snd]. rewrite length_loop_spec. cbn [path_len]. ring.
Qed.
Lemma last_app : forall (l : list rpt) a d, last (l ++ [a]) d = a.
Proof. induction l as [|b l IH]; intros a d; [reflexivity|]. cbn [app last]. destruct (l ++ [a]) eqn:E; [destruct l; discriminate|]. rewrite <- E. apply IH. Qed.
Lemma perimeter_spec : forall l subs, l <> [] -> perimeter l subs = Ok (ring_len l + fold_right Rplus 0 subs).
Proof.
  intros [|v l] subs N; [congruence|]. unfold perimeter, sumr. f_equal.
  rewrite (sumr_from subs), Rplus_0_l. f_equal.
  rewrite map_app, fold_left_app, pairs_sum. cbn [map fold_left]. unfold seg_length. cbn [fst snd].
  rewrite length_loop_spec. cbn [path_len ring_len].
  destruct l as [|w l] using rev_ind; [cbn; ring|]. clear IHl.
  rewrite (app_comm_cons _ _ v), last_app, <- app_assoc. cbn [app]. rewrite (path_len_app l v w [v]). cbn [path_len]. ring.
Qed.
Lemma perimeter_length : forall l, l <> [] -> perimeter l [] = length_c l true.
Proof. intros l N. rewrite perimeter_spec, length_spec by exact N. cbn. f_equal. ring. Qed.
(* cumulative lengths *)
Lemma cumu_nth : forall l a d i, planar (a :: l) -> (i < length l)%nat ->
  nth i (cumu a l d) 0 = d + path_len (hp a) (map hp (firstn (S i) l)).
Proof.
  induction l as [|b l IH]; intros a d i P I; cbn [length] in I; [lia|].
  inversion P as [|? ? Pa Pl]; subst. cbn [cumu]. rewrite distance_planar by auto.
  destruct i as [|i]; cbn [nth]; rewrite firstn_cons; cbn [map path_len].
  - cbn. ring.
  - rewrite IH by (auto; lia). ring.
Qed.
Lemma cumu_length : forall l a d, length (cumu a l d) = length l.
Proof. induction l as [|b l IH]; intros; cbn [cumu length]; [reflexivity|]. rewrite IH. reflexivity. Qed.
Lemma cumulength_spec : forall l, l <> [] -> planar l -> exists cs, cumulength l = Ok cs /\ length cs = length l /\
  forall i, (i < length l)%nat -> nth i cs 0 = line_len (map hp (firstn (S i) l)).
Proof.
  intros [|a l] N P; [congruence|]. cbn [cumulength]. eexists. split; [reflexivity|].
  cbn [length]. rewrite cumu_length. split; [reflexivity|].
  intros [|i] I; [reflexivity|]. cbn [nth]. rewrite firstn_cons. cbn [map line_len].
  rewrite cumu_nth by (auto; lia). ring.
Qed.
Lemma last_nth0 : forall (l : list R) d, last l d = nth (length l - 1) l d.
Proof.
  induction l as [|a l IH]; intros d; [reflexivity|]. destruct l as [|b l]; [reflexivity|].
  change (last (a :: b :: l) d) with (last (b :: l) d). rewrite IH.
  replace (length (b :: l) - 1)%nat with (length l) by (cbn; lia).
  replace (length (a :: b :: l) - 1)%nat with (S (length l)) by (cbn; lia). reflexivity.
Qed.
Lemma cumulength_last : forall l cs, l <> [] -> planar l -> cumulength l = Ok cs -> last cs 0 = line_len (map hp l).
Proof.
  intros l cs N P E. destruct (cumulength_spec l N P) as (cs' & E' & L & H). rewrite E in E'. injection E' as <-.
  rewrite last_nth0, L. assert (0 < length l)%nat by (destruct l; [congruence|cbn; lia]). rewrite H by lia.
  replace (S (length l - 1)) with (length l) by lia. rewrite firstn_all. reflexivity.
Qed.
Lemma last_app_gen : forall {A} (l : list A) b d, last (l ++ [b]) d = b.
Proof. induction l as [|c l IH]; intros b d; [reflexivity|]. cbn [app]. rewrite <- (IH b d) at 2. destruct l; reflexivity. Qed.
Lemma displacement_le : forall l d, planar l -> displacement l = Ok d -> d <= line_len (map hp l).
Proof.
  intros [|a l] d P E; [discriminate|].
  assert (Ed : d = distance a (last (a :: l) a)) by (unfold displacement in E; congruence). rewrite Ed. clear Ed E.
  inversion P as [|? ? Pa Pl]; subst.
  rewrite distance_planar by auto. cbn [map line_len].
  destruct l as [|b l] using rev_ind.
  - cbn. rewrite (proj2 (edist_0 _ _) eq_refl). lra.
  - clear IHl. rewrite app_comm_cons. replace (last ((a :: l) ++ [b]) a) with b.
    2: { symmetry. apply last_app_gen. }
    rewrite map_app. apply path_len_far.
Qed.
Lemma displacement_spec : forall a l b, planar (a :: l) -> nth_error (a :: l) (length l) = Some b ->
  displacement (a :: l) = Ok (edist (hp a) (hp b)).
Proof.
  intros a l b P E. unfold displacement. f_equal. assert (H : last (a :: l) a = b).
  { assert (NZ : a :: l <> []) by discriminate. destruct (exists_last NZ) as (l' & c & X). rewrite X in *. rewrite last_app_gen.
    assert (LN : length (l' ++ [c]) = S (length l)) by (rewrite <- X; reflexivity). rewrite app_length in LN. cbn [length] in LN.
    rewrite nth_error_app2 in E by lia. replace (length l - length l')%nat with 0%nat in E by lia. cbn in E. congruence. }
  rewrite H. assert (In b (a :: l)) by (eapply nth_error_In; exact E). unfold planar in P. rewrite Forall_forall in P.
  rewrite distance_planar by (left; auto || apply P; left; reflexivity). reflexivity.
Qed.

(* ---- nearest vertex *)
Lemma argmin_spec : forall l i best m (pre : list R), length pre = i -> (best < i)%nat -> nth best pre 0 = m ->
  (forall j, (j < i)%nat -> m <= nth j pre 0) -> (forall j, (j < best)%nat -> m < nth j pre 0) ->
  let k := argmin_from l i best m in
  (k < length (pre ++ l))%nat /\ (forall j, (j < length (pre ++ l))%nat -> nth k (pre ++ l) 0 <= nth j (pre ++ l) 0) /\
  (forall j, (j < k)%nat -> nth k (pre ++ l) 0 < nth j (pre ++ l) 0).
Proof.
  induction l as [|d l IH]; intros i best m pre L B M H1 H2; cbn [argmin_from].
  - rewrite app_nil_r. rewrite M, L. auto.
  - replace (pre ++ d :: l) with ((pre ++ [d]) ++ l) by (rewrite <- app_assoc; reflexivity).
    assert (Old : forall j, (j < i)%nat -> nth j (pre ++ [d]) 0 = nth j pre 0) by (intros; apply app_nth1; lia).
    assert (New : nth i (pre ++ [d]) 0 = d) by (rewrite app_nth2 by lia; rewrite L, Nat.sub_diag; reflexivity).
    assert (Le : length (pre ++ [d]) = S i) by (rewrite app_length; cbn; lia).
    destruct (Rlt_dec d m) as [D|D]; apply IH; auto.
    + intros j J. destruct (Nat.eq_dec j i) as [-> |]; [rewrite New; lra|]. rewrite Old by lia. specialize (H1 j ltac:(lia)). lra.
    + intros j J. rewrite Old by lia. specialize (H1 j ltac:(lia)). lra.
    + rewrite Old; auto.
    + intros j J. destruct (Nat.eq_dec j i) as [-> |]; [rewrite New; lra|]. rewrite Old by lia. apply H1. lia.
    + intros j J. rewrite Old by lia. apply H2. lia.
Qed.
Lemma nearest_vertex_spec : forall l p, l <> [] -> exists k v, nearest_vertex l p = Ok k /\ nth_error l k = Some v /\
  (forall j w, nth_error l j = Some w -> distance p v <= distance p w) /\
  (forall j w, (j < k)%nat -> nth_error l j = Some w -> distance p v < distance p w).
Proof.
  intros [|a l] p N; [congruence|]. unfold nearest_vertex. cbn [map].
  destruct (argmin_spec (map (distance p) l) 1 0 (distance p a) [distance p a]) as (A & B & C); try reflexivity; try lia.
  { intros j J. assert (j = 0)%nat as -> by lia. cbn. lra. }
  set (k := argmin_from _ _ _ _) in *. change ([distance p a] ++ map (distance p) l) with (map (distance p) (a :: l)) in *.
  rewrite map_length in A, B. exists k.
  destruct (nth_error (a :: l) k) as [v|] eqn:E; [|apply nth_error_None in E; lia].
  assert (NT : forall j w, nth_error (a :: l) j = Some w -> nth j (map (distance p) (a :: l)) 0 = distance p w).
  { intros j w J. apply nth_error_nth. apply map_nth_error. exact J. }
  exists v. split; [reflexivity|]. split; [reflexivity|]. split.
  - intros j w J. rewrite <- (NT _ _ E), <- (NT _ _ J). apply B. apply nth_error_Some. congruence.
  - intros j w J Jw. rewrite <- (NT _ _ E), <- (NT _ _ Jw). apply C, J.
Qed.
