(** The count is the winding number. *)
From Coq Require Import List ZArith QArith Qabs Bool Arith Lia Reals Qreals Lra.
From Verif Require Import Geom_Model Geom_Spec Geom_Proofs Inter_Model Inter_Spec Inter_Proofs Contains_Model Contains_Spec Contains_Proofs.
From Verif Require TerrainR_Model TerrainR_Proofs.
Import ListNotations.
Open Scope R_scope.

(** Angles in (0, 2 PI]. *)
Definition ang (y x : R) : R :=
  let t := TerrainR_Model.atan2 0 y x in if Rlt_dec 0 t then t else t + 2 * PI.
Lemma ang_spec : forall x y, x <> 0 \/ y <> 0 ->
  exists r, 0 < r /\ x = r * cos (ang y x) /\ y = r * sin (ang y x) /\ 0 < ang y x <= 2 * PI.
Proof.
  intros x y N. destruct (TerrainR_Proofs.atan2_polar 0 y x N) as (A & B & C).
  set (t := TerrainR_Model.atan2 0 y x) in *. exists (sqrt (x * x + y * y)).
  split. { apply sqrt_lt_R0. destruct N; nra. }
  unfold ang. fold t. pose proof PI_RGT_0. destruct (Rlt_dec 0 t).
  - repeat split; try lra.
  - rewrite cos_plus, sin_plus, cos_2PI, sin_2PI. repeat split; try lra.
Qed.
Lemma sin_pos : forall t, 0 < t < PI -> 0 < sin t. Proof. intros. apply sin_gt_0; lra. Qed.
Lemma sin_neg' : forall t, PI < t < 2 * PI -> sin t < 0. Proof. intros. apply sin_lt_0; lra. Qed.
(** Signs and angles. *)
Lemma ang_up : forall t, 0 < t <= 2 * PI -> 0 < sin t -> t < PI.
Proof.
  intros t H S. destruct (Rlt_dec t PI); [assumption|]. exfalso.
  destruct (Req_dec t PI) as [-> |E]; [rewrite sin_PI in S; lra|].
  destruct (Req_dec t (2 * PI)) as [-> |E']; [rewrite sin_2PI in S; lra|].
  pose proof (sin_neg' t). lra.
Qed.
Lemma ang_down : forall t, 0 < t <= 2 * PI -> sin t <= 0 -> PI <= t.
Proof. intros t H S. destruct (Rle_dec PI t); [assumption|]. exfalso. pose proof (sin_pos t). lra. Qed.

(** One edge, seen from the origin. *)
Definition cross (ax ay bx b_y : R) : R := ax * b_y - ay * bx.
Lemma turn_edge : forall ax ay bx b_y (k : Z),
  (ax <> 0 \/ ay <> 0) -> (bx <> 0 \/ b_y <> 0) ->
  ~ (cross ax ay bx b_y = 0 /\ ax * bx + ay * b_y <= 0) ->
  (ay <= 0 /\ 0 < b_y /\ 0 < cross ax ay bx b_y /\ k = 1%Z) \/
  (ay <= 0 /\ 0 < b_y /\ cross ax ay bx b_y <= 0 /\ k = 0%Z) \/
  (0 < ay /\ b_y <= 0 /\ cross ax ay bx b_y < 0 /\ k = (-1)%Z) \/
  (0 < ay /\ b_y <= 0 /\ 0 <= cross ax ay bx b_y /\ k = 0%Z) \/
  (ay <= 0 /\ b_y <= 0 /\ k = 0%Z) \/ (0 < ay /\ 0 < b_y /\ k = 0%Z) ->
  let t := ang b_y bx - ang ay ax + 2 * PI * IZR k in
  - PI < t < PI /\ exists r, 0 < r /\ bx = r * (cos t * ax - sin t * ay) /\ b_y = r * (sin t * ax + cos t * ay).
Proof.
  intros ax ay bx b_y k NA NB ND H t.
  destruct (ang_spec ax ay NA) as (ra & RA & XA & YA & IA).
  destruct (ang_spec bx b_y NB) as (rb & RB & XB & YB & IB).
  set (u := ang ay ax) in *. set (v := ang b_y bx) in *.
  assert (CR : cross ax ay bx b_y = ra * rb * sin (v - u)).
  { unfold cross. rewrite XA, YA, XB, YB, sin_minus. ring. }
  assert (DT : ax * bx + ay * b_y = ra * rb * cos (v - u)).
  { rewrite XA, YA, XB, YB, cos_minus. ring. }
  assert (RR : 0 < ra * rb) by (apply Rmult_lt_0_compat; assumption).
  assert (SY : forall s, 0 < ra * rb * s -> 0 < s).
  { intros s S. apply (Rmult_lt_reg_l (ra * rb)); lra. }
  assert (SN : forall s, ra * rb * s < 0 -> s < 0).
  { intros s S. apply (Rmult_lt_reg_l (ra * rb)); lra. }
  assert (SZ : forall s, ra * rb * s <= 0 -> s <= 0).
  { intros s S. apply (Rmult_le_reg_l (ra * rb)); lra. }
  assert (SP : forall s, 0 <= ra * rb * s -> 0 <= s).
  { intros s S. apply (Rmult_le_reg_l (ra * rb)); lra. }
  (* the difference is no odd multiple of PI *)
  assert (NP : v - u <> PI).
  { intros E. apply ND. rewrite CR, DT, E, sin_PI, cos_PI. split; lra. }
  assert (NM : v - u <> - PI).
  { intros E. apply ND. rewrite CR, DT, E, sin_neg, cos_neg, sin_PI, cos_PI. split; lra. }
  assert (YAp : 0 < ay -> u < PI). { intros A. apply ang_up; [exact IA|]. apply (Rmult_lt_reg_l ra); lra. }
  assert (YAn : ay <= 0 -> PI <= u). { intros A. apply ang_down; [exact IA|]. apply (Rmult_le_reg_l ra); lra. }
  assert (YBp : 0 < b_y -> v < PI). { intros A. apply ang_up; [exact IB|]. apply (Rmult_lt_reg_l rb); lra. }
  assert (YBn : b_y <= 0 -> PI <= v). { intros A. apply ang_down; [exact IB|]. apply (Rmult_le_reg_l rb); lra. }
  assert (T : - PI < t < PI).
  { unfold t. pose proof PI_RGT_0.
    destruct H as [(A & B & D & ->)|[(A & B & D & ->)|[(A & B & D & ->)|[(A & B & D & ->)|[(A & B & ->)|(A & B & ->)]]]]].
    - specialize (YAn A). specialize (YBp B). rewrite CR in D. apply SY in D.
      destruct (Rle_dec (v - u) (- PI)) as [K|K]; [lra|]. exfalso.
      assert (0 < u - v < PI) by lra. pose proof (sin_pos (u - v) ltac:(lra)) as S.
      replace (v - u) with (- (u - v)) in D by ring. rewrite sin_neg in D. lra.
    - specialize (YAn A). specialize (YBp B). rewrite CR in D. apply SZ in D.
      destruct (Rle_dec (v - u) (- PI)) as [K|K]; [|lra]. exfalso.
      pose proof (sin_neg' (u - v) ltac:(lra)) as S.
      replace (v - u) with (- (u - v)) in D by ring. rewrite sin_neg in D. lra.
    - specialize (YAp A). specialize (YBn B). rewrite CR in D. apply SN in D.
      destruct (Rle_dec PI (v - u)) as [K|K]; [lra|]. exfalso.
      pose proof (sin_pos (v - u) ltac:(lra)) as S. lra.
    - specialize (YAp A). specialize (YBn B). rewrite CR in D. apply SP in D.
      destruct (Rle_dec PI (v - u)) as [K|K]; [|lra]. exfalso.
      pose proof (sin_neg' (v - u) ltac:(lra)) as S. lra.
    - specialize (YAn A). specialize (YBn B). lra.
    - specialize (YAp A). specialize (YBp B). lra. }
  split; [exact T|]. exists (rb / ra). split; [apply Rdiv_lt_0_compat; assumption|].
  assert (CS : cos (t + u) = cos v /\ sin (t + u) = sin v).
  { unfold t. replace (v - u + 2 * PI * IZR k + u) with (v + 2 * PI * IZR k) by ring.
    assert (P : forall x n, cos (x + 2 * PI * IZR n) = cos x /\ sin (x + 2 * PI * IZR n) = sin x).
    { intros x n. assert (Q : cos (2 * PI * IZR n) = 1 /\ sin (2 * PI * IZR n) = 0).
      { assert (sin (PI * IZR n) = 0) as S by (rewrite Rmult_comm; apply sin_eq_0_1; exists n; reflexivity).
        replace (2 * PI * IZR n) with (2 * (PI * IZR n)) by ring. rewrite sin_2a, cos_2a_sin, S. split; ring. }
      destruct Q as [Q1 Q2]. rewrite cos_plus, sin_plus, Q1, Q2. split; ring. }
    apply P. }
  destruct CS as [CS1 CS2]. rewrite cos_plus in CS1. rewrite sin_plus in CS2.
  split.
  - rewrite XB, XA, YA. rewrite <- CS1. field. lra.
  - rewrite YB, XA, YA. rewrite <- CS2. field. lra.
Qed.

(** Rational points. *)
Lemma Q2R_tri : forall p a b, Q2R (tri p a b) = (1 / 2) * cross (qx a - qx p) (qy a - qy p) (qx b - qx p) (qy b - qy p).
Proof.
  intros p a b. unfold tri, cross, qx, qy. rewrite Q2R_mult, !Q2R_minus, !Q2R_mult, !Q2R_minus.
  replace (Q2R (1 # 2)) with (1 / 2) by (unfold Q2R; cbn; lra). ring.
Qed.
Lemma q0 : Q2R 0 = 0. Proof. unfold Q2R. cbn. lra. Qed.
Lemma off_seg : forall p a b, ~ on_seg (a, b) p ->
  (qx a - qx p <> 0 \/ qy a - qy p <> 0) /\ (qx b - qx p <> 0 \/ qy b - qy p <> 0) /\
  ~ (cross (qx a - qx p) (qy a - qy p) (qx b - qx p) (qy b - qy p) = 0 /\
     (qx a - qx p) * (qx b - qx p) + (qy a - qy p) * (qy b - qy p) <= 0).
Proof.
  intros p a b H.
  assert (M : ~ (cross (qx a - qx p) (qy a - qy p) (qx b - qx p) (qy b - qy p) = 0 /\
     (qx a - qx p) * (qx b - qx p) + (qy a - qy p) * (qy b - qy p) <= 0)).
  { intros [C D]. apply H, on_edge.
    - apply eqR_Qeq. rewrite Q2R_tri, C, q0. ring.
    - apply Rle_Qle. rewrite q0, Q2R_plus, !Q2R_mult, !Q2R_minus. exact D. }
  split; [|split; [|exact M]].
  - destruct (Req_dec (qx a - qx p) 0) as [E|E]; [|left; exact E].
    destruct (Req_dec (qy a - qy p) 0) as [F|F]; [|right; exact F].
    exfalso. apply M. rewrite E, F. unfold cross. split; [ring|lra].
  - destruct (Req_dec (qx b - qx p) 0) as [E|E]; [|left; exact E].
    destruct (Req_dec (qy b - qy p) 0) as [F|F]; [|right; exact F].
    exfalso. apply M. rewrite E, F. unfold cross. split; [ring|lra].
Qed.
Definition angle (p a : pt) : R := ang (qy a - qy p) (qx a - qx p).
Definition edge_turn (p a b : pt) : R := angle p b - angle p a + 2 * PI * IZR (edge_count p a b).
Lemma edge_turn_spec : forall p a b, ~ on_seg (a, b) p -> turn p a b (edge_turn p a b).
Proof.
  intros p a b H. destruct (off_seg p a b H) as (NA & NB & ND). unfold turn, edge_turn, angle.
  apply turn_edge; try assumption.
  pose proof (Q2R_tri p a b) as T.
  assert (L : forall x y : pt, (snd x <= snd y)%Q -> qy x - qy y <= 0) by (intros x y K; apply Qle_Rle in K; unfold qy; lra).
  assert (M : forall x y : pt, (snd y < snd x)%Q -> 0 < qy x - qy y) by (intros x y K; apply Qlt_Rlt in K; unfold qy; lra).
  assert (T1 : (0 < tri p a b)%Q -> 0 < Q2R (tri p a b)) by (intros K; apply Qlt_Rlt in K; rewrite q0 in K; exact K).
  assert (T2 : (tri p a b < 0)%Q -> Q2R (tri p a b) < 0) by (intros K; apply Qlt_Rlt in K; rewrite q0 in K; exact K).
  assert (T3 : (0 <= tri p a b)%Q -> 0 <= Q2R (tri p a b)) by (intros K; apply Qle_Rle in K; rewrite q0 in K; exact K).
  assert (T4 : (tri p a b <= 0)%Q -> Q2R (tri p a b) <= 0) by (intros K; apply Qle_Rle in K; rewrite q0 in K; exact K).
  destruct (edge_count_cases p a b) as [(A & B & D & E)|[(A & B & D & E)|[(A & B & D & E)|[(A & B & D & E)|[(A & B & E)|(A & B & E)]]]]].
  - left. apply L in A. apply M in B. apply T1 in D. repeat split; try assumption. lra.
  - right; left. apply L in A. apply M in B. apply T4 in D. repeat split; try assumption. lra.
  - right; right; left. apply M in A. apply L in B. apply T2 in D. repeat split; try assumption. lra.
  - right; right; right; left. apply M in A. apply L in B. apply T3 in D. repeat split; try assumption. lra.
  - right; right; right; right; left. apply L in A. apply L in B. repeat split; assumption.
  - right; right; right; right; right. apply M in A. apply M in B. repeat split; assumption.
Qed.

(** The whole ring. *)
Lemma edges_len : forall (l : list pt) , length (edges l true) = length l.
Proof.
  intros [|v l]; [reflexivity|]. unfold edges.
  assert (F : forall (m : list pt) a, length (consecutive (a :: m)) = length m).
  { induction m as [|b m IH]; intros a; [reflexivity|].
    change (consecutive (a :: b :: m)) with ((a, b) :: consecutive (b :: m)). cbn [length]. rewrite IH. reflexivity. }
  cbn [app]. rewrite F, app_length. cbn [length]. lia.
Qed.
Lemma ring_edge_at : forall (l : list pt) i a b, ring_edge l i a b <-> edge_at l true i (a, b).
Proof.
  intros l i a b. unfold ring_edge, edge_at, path_edge. cbn [fst snd]. split.
  - intros [A B]. destruct (Nat.eqb_spec (S i) (length l)) as [E|E].
    + right. repeat split; assumption.
    + left. split; assumption.
  - intros [[A B]|(_ & E & A & B)].
    + split; [exact A|]. destruct (Nat.eqb_spec (S i) (length l)) as [E|E]; [|exact B].
      exfalso. assert (S i < length l)%nat by (apply nth_error_Some; congruence). lia.
    + split; [exact A|]. rewrite E, Nat.eqb_refl. exact B.
Qed.
Lemma total_path : forall p l a, total (map (fun e => edge_turn p (fst e) (snd e)) (consecutive (a :: l))) =
  angle p (last l a) - angle p a + 2 * PI * Q2R (path_sum (ec p) a l).
Proof.
  intros p l. induction l as [|b l IH]; intros a.
  - transitivity 0; [reflexivity|]. cbn [last path_sum]. rewrite q0. ring.
  - change (consecutive (a :: b :: l)) with ((a, b) :: consecutive (b :: l)).
    cbn [map total fst snd]. rewrite IH. cbn [path_sum]. rewrite Q2R_plus.
    replace (last (b :: l) a) with (last l b).
    + unfold edge_turn at 1. replace (Q2R (ec p a b)) with (IZR (edge_count p a b)); [ring|].
      unfold ec, Q2R, inject_Z. cbn. field.
    + destruct l as [|c l]; [reflexivity|]. change (last (c :: l) b = last (c :: l) a).
      clear. revert c. induction l as [|d l IH]; intros c; [reflexivity|]. apply (IH d).
Qed.
Lemma Q2R_inject : forall z, Q2R (inject_Z z) = IZR z.
Proof. intros z. unfold Q2R, inject_Z. cbn. field. Qed.
Lemma count_winding : forall p l, off p l -> winding p l (count p l).
Proof.
  intros p l O. exists (map (fun e => edge_turn p (fst e) (snd e)) (edges l true)). split; [|split].
  - rewrite map_length. apply edges_len.
  - intros i a b t H N. apply ring_edge_at in H. pose proof H as H'. apply edges_nth in H'.
    rewrite nth_error_map, H' in N. cbn in N. injection N as <-. apply edge_turn_spec. apply O. exists i. exact H.
  - destruct l as [|v l]; [cbn; lra|]. unfold edges. cbn [app].
    rewrite total_path. rewrite last_last. pose proof (count_sum p (v :: l)) as S. cbn [ring_sum] in S.
    apply Qeq_eqR in S. rewrite <- S, Q2R_inject. ring.
Qed.

(** Uniqueness. *)
Lemma turn_unique : forall p a b t s, (qx a - qx p <> 0 \/ qy a - qy p <> 0) -> turn p a b t -> turn p a b s -> t = s.
Proof.
  intros p a b t s N (T & r & R1 & X & Y) (S & r' & R2 & X' & Y').
  set (u := qx a - qx p) in *. set (v := qy a - qy p) in *.
  assert (L : 0 < u * u + v * v) by (destruct N; nra).
  rewrite X in X'. rewrite Y in Y'.
  assert (C : r * cos t = r' * cos s).
  { apply (Rmult_eq_reg_r (u * u + v * v)); [|lra].
    replace (r * cos t * (u * u + v * v)) with ((r * (cos t * u - sin t * v)) * u + (r * (sin t * u + cos t * v)) * v) by ring.
    rewrite X', Y'. ring. }
  assert (D : r * sin t = r' * sin s).
  { apply (Rmult_eq_reg_r (u * u + v * v)); [|lra].
    replace (r * sin t * (u * u + v * v)) with ((r * (sin t * u + cos t * v)) * u - (r * (cos t * u - sin t * v)) * v) by ring.
    rewrite X', Y'. ring. }
  pose proof (sin2_cos2 t) as P1. pose proof (sin2_cos2 s) as P2. unfold Rsqr in P1, P2.
  assert (E : r = r').
  { assert (r * r = r' * r').
    { replace (r * r) with ((r * sin t) * (r * sin t) + (r * cos t) * (r * cos t)).
      - rewrite C, D. transitivity (r' * r' * (sin s * sin s + cos s * cos s)); [ring|]. rewrite P2. ring.
      - transitivity (r * r * (sin t * sin t + cos t * cos t)); [ring|]. rewrite P1. ring. }
    nra. }
  subst r'. apply Rmult_eq_reg_l in C; [|lra]. apply Rmult_eq_reg_l in D; [|lra].
  assert (Z : sin (t - s) = 0) by (rewrite sin_minus, C, D; ring).
  assert (K : cos (t - s) = 1) by (rewrite cos_minus, C, D; lra).
  pose proof PI_RGT_0.
  destruct (Req_dec (t - s) 0) as [|NE]; [lra|]. exfalso.
  destruct (Rlt_dec 0 (t - s)) as [Q|Q].
  - destruct (Rtotal_order (t - s) PI) as [W|[W|W]].
    + pose proof (sin_pos (t - s)). lra.
    + rewrite W, cos_PI in K. lra.
    + pose proof (sin_neg' (t - s)). lra.
  - assert (Z' : sin (s - t) = 0) by (replace (s - t) with (- (t - s)) by ring; rewrite sin_neg; lra).
    assert (K' : cos (s - t) = 1) by (replace (s - t) with (- (t - s)) by ring; rewrite cos_neg; lra).
    destruct (Rtotal_order (s - t) PI) as [W|[W|W]].
    + pose proof (sin_pos (s - t)). lra.
    + rewrite W, cos_PI in K'. lra.
    + pose proof (sin_neg' (s - t)). lra.
Qed.
Lemma total_ext : forall ts ss, length ts = length ss -> (forall i t s, nth_error ts i = Some t -> nth_error ss i = Some s -> t = s) -> total ts = total ss.
Proof.
  induction ts as [|t ts IH]; intros [|s ss] L H; try discriminate; [reflexivity|]. cbn [total].
  rewrite (H 0%nat t s eq_refl eq_refl). rewrite (IH ss); [reflexivity|cbn in L; lia|].
  intros i a b A B. apply (H (S i)); assumption.
Qed.
Lemma winding_unique : forall p l w w', off p l -> winding p l w -> winding p l w' -> w = w'.
Proof.
  intros p l w w' O (ts & L & H & T) (ss & L' & H' & T').
  assert (E : total ts = total ss).
  { apply total_ext; [congruence|]. intros i t s A B.
    assert (I : (i < length (edges l true))%nat) by (rewrite edges_len, <- L; apply nth_error_Some; congruence).
    apply nth_error_Some in I. destruct (nth_error (edges l true) i) as [[a b]|] eqn:EE; [|congruence].
    apply edges_nth in EE. assert (N : ~ on_seg (a, b) p) by (apply O; exists i; exact EE).
    apply ring_edge_at in EE. destruct (off_seg p a b N) as (NA & _).
    apply (turn_unique p a b t s NA); [apply (H i)|apply (H' i)]; assumption. }
  rewrite T, T' in E. pose proof PI_RGT_0. apply Rmult_eq_reg_l in E; [|lra]. apply eq_IZR, E.
Qed.
Lemma count_wound : forall p l, off p l -> (count p l <> 0%Z <-> exists w, winding p l w /\ w <> 0%Z).
Proof.
  intros p l O. split.
  - intros N. exists (count p l). split; [apply count_winding, O|exact N].
  - intros (w & W & N). rewrite (winding_unique p l (count p l) w O (count_winding p l O) W). exact N.
Qed.

(** A point strictly to the left of every edge is inside. *)
Lemma turn_left : forall p a b t, left_of p a b -> turn p a b t -> 0 < t.
Proof.
  intros p a b t L ((T1 & T2) & r & RP & X & Y). unfold left_of in L. apply Qlt_Rlt in L. rewrite q0, Q2R_tri in L.
  unfold cross in L. rewrite X, Y in L. set (u := qx a - qx p) in *. set (v := qy a - qy p) in *.
  assert (Z : 0 < r * (u * u + v * v) * sin t) by nra.
  destruct (Rlt_dec 0 t); [assumption|]. exfalso.
  destruct (Req_dec t 0) as [-> |NZ]; [rewrite sin_0 in Z; lra|].
  pose proof (sin_pos (- t) ltac:(lra)) as S. rewrite sin_neg in S.
  assert (0 <= r * (u * u + v * v)) by nra. nra.
Qed.
Lemma total_pos : forall ts, ts <> [] -> (forall t, In t ts -> 0 < t) -> 0 < total ts.
Proof.
  induction ts as [|t ts IH]; intros N H; [congruence|]. cbn [total]. destruct ts as [|s ts].
  - cbn [total]. pose proof (H t (or_introl eq_refl)). lra.
  - pose proof (H t (or_introl eq_refl)).
    assert (0 < total (s :: ts)) by (apply IH; [discriminate|]; intros x I; apply H; right; exact I). lra.
Qed.
Lemma count_left : forall p l, l <> [] -> (forall i a b, ring_edge l i a b -> left_of p a b) -> (0 < count p l)%Z.
Proof.
  intros p l N H.
  assert (O : off p l).
  { intros [a b] (i & E). apply left_off. left. apply (H i), ring_edge_at, E. }
  destruct (count_winding p l O) as (ts & L & T & S).
  assert (0 < total ts).
  { apply total_pos.
    - destruct ts; [|discriminate]. destruct l; [congruence|discriminate].
    - intros t I. apply In_nth_error in I. destruct I as (i & I).
      assert (J : (i < length (edges l true))%nat) by (rewrite edges_len, <- L; apply nth_error_Some; congruence).
      apply nth_error_Some in J. destruct (nth_error (edges l true) i) as [[a b]|] eqn:EE; [|congruence].
      apply edges_nth, ring_edge_at in EE. apply (turn_left p a b); [apply (H i), EE|apply (T i); assumption]. }
  rewrite S in H0. pose proof PI_RGT_0. apply lt_IZR. nra.
Qed.
Lemma count_right : forall p l, l <> [] -> (forall i a b, ring_edge l i a b -> right_of p a b) -> (count p l < 0)%Z.
Proof.
  intros p l N H.
  assert (0 < count p (rev l))%Z; [|rewrite count_rev in *; lia].
  apply count_left.
  { intros E. apply N. rewrite <- (rev_involutive l), E. reflexivity. }
  intros i a b E.
  assert (exists j, ring_edge l j b a) as (j & J).
  { clear H. destruct E as [A B]. rewrite rev_length in B.
    assert (I : (i < length (rev l))%nat) by (apply nth_error_Some; congruence). rewrite rev_length in I.
    assert (RN : forall k x, (k < length l)%nat -> nth_error (rev l) k = Some x -> nth_error l (length l - 1 - k) = Some x).
    { intros k x K X. destruct (nth_error l (length l - 1 - k)) as [y|] eqn:Y.
      - apply nth_error_nth with (d := x) in Y. apply nth_error_nth with (d := x) in X.
        rewrite rev_nth in X by exact K. replace (length l - S k)%nat with (length l - 1 - k)%nat in X by lia. congruence.
      - exfalso. apply nth_error_None in Y. lia. }
    apply RN in A; [|exact I]. destruct (Nat.eqb_spec (S i) (length l)) as [E|E].
    - apply RN in B; [|lia]. exists (length l - 1)%nat. split; [replace (length l - 1 - 0)%nat with (length l - 1)%nat in B by lia; exact B|].
      replace (S (length l - 1)) with (length l) by lia. rewrite Nat.eqb_refl.
      replace (length l - 1 - i)%nat with 0%nat in A by lia. exact A.
    - apply RN in B; [|lia]. exists (length l - 1 - S i)%nat. split; [exact B|].
      destruct (Nat.eqb_spec (S (length l - 1 - S i)) (length l)); [lia|].
      replace (S (length l - 1 - S i)) with (length l - 1 - i)%nat by lia. exact A. }
  specialize (H _ _ _ J). apply right_left, H.
Qed.

(** Polygons with sub-polygons. *)
Section Poly.
Variables P D C : Type.
Fixpoint contains_region (g : geom P D C) : forall p, rings P D C g -> off_edges P D C p g ->
  (contains P D C g p = Ok true <-> region P D C p g).
Proof.
  destruct g as [k v r subs pr d c]. intros p. cbn [rings off_edges region]. intros [-> H] [O Os].
  rewrite contains_eq. rewrite <- (count_wound p (xys v) O).
  destruct (Z.eqb_spec (count p (xys v)) 0) as [E|E].
  { split; [discriminate|]. intros [N _]. contradiction. }
  induction subs as [|s subs IH].
  - cbn [bind negb]. split; [intros _|reflexivity]. split; [exact E|exact I].
  - destruct H as [H1 H2]. destruct Os as [O1 O2]. specialize (IH H2 O2).
    pose proof (contains_region s p H1 O1) as CR.
    destruct (rings_always P D C s H1 p) as (b & B). rewrite B in *. cbn [bind]. destruct b.
    + cbn [bind negb]. split; [discriminate|]. intros [_ [N _]]. exfalso. apply N, CR. reflexivity.
    + rewrite IH. split.
      * intros [N M]. split; [exact N|]. split; [|exact M]. intros K. apply CR in K. discriminate.
      * intros [N [_ M]]. split; [exact N|exact M].
Qed.
Lemma contains_spec : forall g p, rings P D C g -> off_edges P D C p g ->
  exists b, contains P D C g p = Ok b /\ (b = true <-> region P D C p g).
Proof.
  intros g p H O. destruct (rings_always P D C g H p) as (b & B). exists b. split; [exact B|].
  rewrite <- (contains_region g p H O), B. split; [intros ->; reflexivity|congruence].
Qed.
End Poly.

(** Consequences for polygons without sub-polygons. *)
Section Simple.
Variables P D C : Type.
Lemma contains_same_count : forall (g h : geom P D C) p, gring P D C g = true -> gring P D C h = true -> gsubs P D C g = [] -> gsubs P D C h = [] ->
  (count p (xys (gverts P D C g)) = 0%Z <-> count p (xys (gverts P D C h)) = 0%Z) -> contains P D C g p = contains P D C h p.
Proof.
  intros g h p RG RH SG SH E. rewrite !contains_simple by assumption. f_equal. f_equal.
  destruct (Z.eqb_spec (count p (xys (gverts P D C g))) 0) as [A|A];
  destruct (Z.eqb_spec (count p (xys (gverts P D C h))) 0) as [B|B]; try reflexivity; tauto.
Qed.
Lemma contains_rotated : forall (g h : geom P D C) p l m, gring P D C g = true -> gring P D C h = true -> gsubs P D C g = [] -> gsubs P D C h = [] ->
  xys (gverts P D C g) = l ++ m -> xys (gverts P D C h) = m ++ l -> contains P D C g p = contains P D C h p.
Proof.
  intros g h p l m RG RH SG SH A B. apply contains_same_count; try assumption. rewrite A, B, count_rotate. reflexivity.
Qed.
Lemma contains_reversed : forall (g h : geom P D C) p, gring P D C g = true -> gring P D C h = true -> gsubs P D C g = [] -> gsubs P D C h = [] ->
  xys (gverts P D C h) = rev (xys (gverts P D C g)) -> contains P D C g p = contains P D C h p.
Proof.
  intros g h p RG RH SG SH A. apply contains_same_count; try assumption. rewrite A, count_rev. lia.
Qed.
Lemma contains_left : forall (g : geom P D C) p, gring P D C g = true -> gsubs P D C g = [] -> xys (gverts P D C g) <> [] ->
  (forall i a b, ring_edge (xys (gverts P D C g)) i a b -> left_of p a b) \/
  (forall i a b, ring_edge (xys (gverts P D C g)) i a b -> right_of p a b) -> contains P D C g p = Ok true.
Proof.
  intros g p RG SG N [H|H]; rewrite contains_simple by assumption.
  - pose proof (count_left p _ N H). destruct (Z.eqb_spec (count p (xys (gverts P D C g))) 0); [lia|reflexivity].
  - pose proof (count_right p _ N H). destruct (Z.eqb_spec (count p (xys (gverts P D C g))) 0); [lia|reflexivity].
Qed.
Lemma contains_joined : forall (g h u : geom P D C) p a l b m,
  gring P D C g = true -> gring P D C h = true -> gring P D C u = true ->
  gsubs P D C g = [] -> gsubs P D C h = [] -> gsubs P D C u = [] ->
  xys (gverts P D C g) = a :: l ++ [b] -> xys (gverts P D C h) = b :: m ++ [a] -> xys (gverts P D C u) = a :: l ++ b :: m ->
  (contains P D C g p = Ok false -> contains P D C u p = contains P D C h p) /\
  (contains P D C h p = Ok false -> contains P D C u p = contains P D C g p).
Proof.
  intros g h u p a l b m RG RH RU SG SH SU A B E. rewrite !contains_simple by assumption. rewrite A, B, E, (count_cut p a l b m).
  split; intros K.
  - assert (Z : count p (a :: l ++ [b]) = 0%Z).
    { apply Z.eqb_eq. revert K. destruct (Z.eqb (count p (a :: l ++ [b])) 0); cbn; intros K; [reflexivity|discriminate K]. }
    rewrite Z. reflexivity.
  - assert (Z : count p (b :: m ++ [a]) = 0%Z).
    { apply Z.eqb_eq. revert K. destruct (Z.eqb (count p (b :: m ++ [a])) 0); cbn; intros K; [reflexivity|discriminate K]. }
    rewrite Z, Z.add_0_r. reflexivity.
Qed.
End Simple.

(** Deciding [off] for points in line with no edge. *)
Lemma off_check : forall p l, forallb (fun e => negb (Qeq_bool (tri p (fst e) (snd e)) 0)) (edges l true) = true -> off p l.
Proof.
  intros p l H [a b] E O. apply edges_spec in E. rewrite forallb_forall in H. specialize (H _ E). cbn [fst snd] in H.
  destruct (Qeq_bool (tri p a b) 0) eqn:K; [discriminate|]. apply Qeq_bool_neq in K.
  apply (left_off p a b); [|exact O]. unfold left_of, right_of.
  destruct (Q_dec (tri p a b) 0) as [[L|L]|L]; [right; exact L|left; exact L|contradiction].
Qed.
Open Scope Q_scope.
Definition square (a b : Q) (subs : list (geom unit unit unit)) : geom unit unit unit :=
  Geom unit unit unit KPolygon (V2 [(a, a); (b, a); (b, b); (a, b)]) true subs tt None tt.
Definition donut := square 0 4 [square 1 3 []].
Definition bow := Geom unit unit unit KPolygon (V2 [(0, 0); (4, 4); (4, 0); (0, 4)])%Q true [] tt None tt.
Lemma donut_ok : rings unit unit unit donut /\
  off_edges unit unit unit (1 # 2, 1 # 3) donut /\ contains unit unit unit donut (1 # 2, 1 # 3) = Ok true /\
  off_edges unit unit unit (2, 5 # 2) donut /\ contains unit unit unit donut (2, 5 # 2) = Ok false /\
  off_edges unit unit unit (1, 5) donut /\ contains unit unit unit donut (5, 1 # 2) = Ok false.
Proof.
  split; [cbn; tauto|].
  split; [cbn [off_edges donut square]; repeat split; apply off_check; vm_compute; reflexivity|].
  split; [vm_compute; reflexivity|].
  split; [cbn [off_edges donut square]; repeat split; apply off_check; vm_compute; reflexivity|].
  split; [vm_compute; reflexivity|].
  split; [|vm_compute; reflexivity].
  cbn [off_edges donut square xys]. split; [|split; [|exact I]].
  - apply off_check. vm_compute. reflexivity.
  - split; [|exact I]. intros [a b] E (t & T & X & Y). apply edges_spec in E. cbn in E.
    repeat (destruct E as [E|E]; [injection E as <- <-; unfold along in *; cbn [fst snd] in *; try lra; clear -T X Y; exfalso; Lqa.lra|]). contradiction.
Qed.
Lemma square_left : forall i a b, ring_edge (xys (gverts unit unit unit (square 0 4 []))) i a b -> left_of (1, 2) a b.
Proof.
  intros i a b H. apply ring_edge_at, edges_nth in H. do 4 (destruct i as [|i]; [injection H as <- <-; reflexivity|]).
  destruct i; discriminate.
Qed.
(** Boundary points: some are in, some are not. *)
Lemma boundary : exists g p q e f, rings unit unit unit g /\ edge_of (xys (gverts unit unit unit g)) true e /\ on_seg e p /\
  edge_of (xys (gverts unit unit unit g)) true f /\ on_seg f q /\
  contains unit unit unit g p = Ok true /\ contains unit unit unit g q = Ok false.
Proof.
  exists (square 0 4 []), (1, 0), (1, 4), ((0, 0), (4, 0)), ((4, 4), (0, 4)).
  split; [cbn; tauto|]. split; [apply edges_spec; cbn; tauto|].
  split; [exists (1 # 4); split; [split; discriminate|split; reflexivity]|]. split; [apply edges_spec; cbn; tauto|].
  split; [exists (3 # 4); split; [split; discriminate|split; reflexivity]|]. split; vm_compute; reflexivity.
Qed.
