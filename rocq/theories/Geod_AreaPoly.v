(** Areas of polygons in one hemisphere. *)
From Coq Require Import List ZArith Reals Lra Lia Bool.
From Coquelicot Require Import Coquelicot.
From Verif Require Brent_Model.
From Verif Require Import GeomR_Model GeomR_Proofs Sphere_Model Sphere_Spec Sphere_Proofs Sphere_Area Geod_Model Geod_Spec Geod_Forward
  Geod_Series Geod_Bounds Geod_Revert Geod_Accurate Geod_Symm Geod_Unwrap Geod_Inverse Geod_Answer Geod_Round Geod_More Geod_Area Geod_Near
  Geod_AreaSpec Geod_AreaSeries Geod_AreaTrue Geod_AreaEdge.
Import ListNotations.
Open Scope R_scope.

(* ---- edges along a meridian *)
Lemma meridian_over : forall a b x y1 y2, 0 < b -> b < a -> -90 < y1 < 90 -> -90 < y2 < 90 -> geodesic_over a b (rad x) (rad y1) (rad x) (rad y2) 0.
Proof.
  intros a b x y1 y2 HB HA Y1 Y2. pose proof PI_RGT_0 as P0. assert (PA : 0 < a) by lra.
  assert (RL : forall y, -90 < y < 90 -> - (PI / 2) < rad y < PI / 2) by (intros y H; unfold rad; split; nra).
  assert (M : forall u w, -90 < u < 90 -> -90 < w < 90 -> reduced (flattening a b) (rad u) <= reduced (flattening a b) (rad w) -> geodesic_over a b (rad x) (rad u) (rad x) (rad w) 0).
  { intros u w HU HW L. pose proof (reduced_spec a b (rad u) PA HB (RL u HU)) as R1. pose proof (reduced_spec a b (rad w) PA HB (RL w HW)) as R2.
    set (be1 := reduced (flattening a b) (rad u)) in *. set (be2 := reduced (flattening a b) (rad w)) in *.
    exists 0, 1, be1, be2, 0, 0, be1, be2, 0, 0. split; [lra|]. split; [exact R1|]. split; [exact R2|].
    assert (K : forall be, on_circle 0 1 be 0 be 0) by (intros be; unfold on_circle; rewrite sin_0, cos_0; repeat split; lra).
    split; [apply K|]. split; [apply K|]. split; [destruct R1 as (_ & R1 & _); destruct R2 as (_ & R2 & _); lra|]. split; [|symmetry; apply below_meridian].
    exists 0%Z. assert (Z : RInt (lag a b 0 1) be1 be2 = 0).
    { rewrite (RInt_ext _ (fun _ => 0)); [|intros s _; unfold lag, Rdiv; inR; ring]. rewrite (RInt_const (V := R_CompleteNormedModule)). change ((be2 - be1) * 0 = 0). ring. }
    rewrite Z. cbn [IZR]. ring. }
  destruct (Rle_lt_dec (reduced (flattening a b) (rad y1)) (reduced (flattening a b) (rad y2))) as [L|L]; [apply M; assumption|].
  rewrite <- Ropp_0. apply over_back; [assumption|assumption|]. apply M; try assumption. lra.
Qed.
Lemma meridian_edge : forall flat a b x y1 y2, 0 < b -> b < a -> -90 < y1 < 90 -> -90 < y2 < 90 -> area_edge flat a b x y1 x y2 = Done 0.
Proof.
  intros flat a b x y1 y2 HB HA Y1 Y2. assert (EX : exists v, area_edge flat a b x y1 x y2 = Done v).
  2: { destruct EX as (v & E). rewrite E. f_equal. apply (area_meridian_zero flat a b x y1 x y2 v); [exists 0%Z; cbn [IZR]; ring|exact E]. }
  rewrite area_edge_part. replace (x - x) with 0 by ring. rewrite folded_zero. rewrite (proj2 (rlt_f x x)) by lra.
  pose proof (ordered_ok y1 y2) as OK. pose proof (ordered_facts y1 y2 Y1 Y2) as YS. destruct (ordered_lats y1 y2) as [u w]. destruct OK as [U W]. destruct YS as (_ & YU).
  assert (EX : exists v, part flat a b (u, w) 0 = Done v); [|destruct EX as (v & ->); eexists; reflexivity].
  destruct (Req_dec u 0) as [UZ|UN].
  { subst u. rewrite Rabs_R0 in W. assert (W0 : w = 0) by (destruct (Req_dec w 0) as [E|E]; [exact E|apply Rabs_pos_lt in E; lra]). subst w. apply part_equator_answers. lra. }
  assert (UW : Rabs w <= - u) by (rewrite (Rabs_left u) in W; lra). unfold part. cbn [fst snd]. unfold inverse.
  assert (Z : (req u w && req w 0)%bool = false).
  { apply andb_false_iff. destruct (Req_dec u w) as [<-|N]; [right; apply req_f; exact UN|left; apply req_f; exact N]. }
  rewrite Z, canonicalf_parts, (proj2 (rlt_f (Rabs u) (Rabs w))), (proj2 (rlt_f 0 u)) by lra.
  assert (OU : ordered_lats u w = (u, w)).
  { unfold ordered_lats. rewrite (proj2 (rlt_f (Rabs u) (Rabs w))), (proj2 (rlt_f 0 u)) by lra. reflexivity. }
  rewrite OU. cbn [fst snd]. replace (0 - 0) with 0 by ring. rewrite folded_zero.
  destruct (canonical_reduced a b u w ltac:(lra) HB ltac:(lra) UW) as (_ & _ & CL). cbv zeta in CL. apply Rabs_le_between in UW as UW'.
  destruct (solve_meridian flat a b u 0 w tol0 ltac:(left; reflexivity) ltac:(lra) ltac:(lra) CL) as (al & s & SV & _). rewrite SV. cbn [andthen].
  destruct (finish _ _ _ _) as [[az baz] d]. cbn [andthen]. apply canonical_answers; [lra|exact CL].
Qed.
Lemma equator_edge : forall flat a b x1 x2, 0 < b -> b < a -> area_edge flat a b x1 0 x2 0 = Done 0.
Proof.
  intros flat a b x1 x2 HB HA. assert (EX : exists v, area_edge flat a b x1 0 x2 0 = Done v).
  2: { destruct EX as (v & E). rewrite E. f_equal. apply (area_equator_zero flat a b x1 x2 v E). }
  rewrite area_edge_part. assert (O0 : ordered_lats 0 0 = (0, 0)).
  { unfold ordered_lats. rewrite !(proj2 (rlt_f _ _)) by lra. reflexivity. }
  rewrite O0. destruct (part_equator_answers flat a b (folded_lon (x2 - x1)) ltac:(lra)) as (v & ->). eexists. reflexivity.
Qed.

(* ---- polygons *)
Definition lon_err (a b : R) : R := 2 / 1000000000000 + 140 * Rabs (flattening a b) * Rabs (third a b) ^ 6.
Definition answered (flat a b : R) (e : rpt * rpt) : Prop :=
  let '((x1, y1), (x2, y2)) := e in
  x1 = x2 \/ (y1 = 0 /\ y2 = 0) \/
  (1 / 1000000000 <= Rabs (x2 - x1) <= 180 - 1 / 1000000000 /\ exists az baz s, inverse flat a b x1 y1 x2 y2 (1 / 1000000000000) = Done (az, baz, s, false)).
Lemma err_pos : forall a b, 0 < b -> b < a -> 0 < area_err a b /\ 0 < lon_err a b.
Proof.
  intros a b HB HA. pose proof (ep_pos a b HB HA) as EP. split.
  - unfold area_err. assert (0 < b ^ 2) by (apply pow_lt; exact HB). pose proof (pow_lt _ 6 EP). apply Rmult_lt_0_compat; [apply Rmult_lt_0_compat; assumption|lra].
  - unfold lon_err. assert (0 <= Rabs (third a b) ^ 6) by apply pow_le, Rabs_pos. pose proof (Rabs_pos (flattening a b)).
    assert (0 <= 140 * Rabs (flattening a b) * Rabs (third a b) ^ 6) by (apply Rmult_le_pos; [lra|assumption]). lra.
Qed.
Lemma edge_value : forall flat a b e k, 0 < b -> b < a -> Rabs (third a b) <= 1 / 10 -> (k = 1 /\ 0 <= snd (fst e) < 90 /\ 0 <= snd (snd e) < 90 \/ k = -1 /\ -90 < snd (fst e) <= 0 /\ -90 < snd (snd e) <= 0) ->
  answered flat a b e -> exists v A, area_edge flat a b (fst (fst e)) (snd (fst e)) (fst (snd e)) (snd (snd e)) = Done v /\
    edge_over a b (lon_err a b) e A /\ Rabs (v + k * A) <= area_err a b.
Proof.
  intros flat a b [[x1 y1] [x2 y2]] k HB HA HT HK AN. cbn [fst snd] in *. destruct (err_pos a b HB HA) as [EP LP].
  assert (Y1 : -90 < y1 < 90) by lra. assert (Y2 : -90 < y2 < 90) by lra.
  assert (EQ : y1 = 0 /\ y2 = 0 -> exists v A, area_edge flat a b x1 y1 x2 y2 = Done v /\ edge_over a b (lon_err a b) ((x1, y1), (x2, y2)) A /\ Rabs (v + k * A) <= area_err a b).
  { intros [-> ->]. exists 0, 0. split; [apply equator_edge; assumption|]. split; [left; auto|]. rewrite Rmult_0_r, Rplus_0_r, Rabs_R0. lra. }
  destruct AN as [->|[Z|(HX & az & baz & s & IV)]]; [|exact (EQ Z)|].
  - exists 0, 0. split; [apply meridian_edge; assumption|]. split; [|rewrite Rmult_0_r, Rplus_0_r, Rabs_R0; lra].
    right. exists 0. rewrite Rabs_R0, Rplus_0_r. split; [lra|]. apply meridian_over; assumption.
  - destruct (Req_dec (y1 + y2) 0) as [Z|NZ]; [apply EQ; lra|].
    destruct (area_edge_over flat a b x1 y1 x2 y2 az baz s HB HA HT Y1 Y2 NZ HX IV) as (v & dl & A & V & G & D & B1 & B2). exists v, A. split; [exact V|]. split.
    + right. exists dl. split; [exact D|exact G].
    + destruct HK as [(-> & K)|(-> & K)]; [rewrite Rmult_1_l; apply B2; lra|]. replace (v + -1 * A) with (v - A) by ring. apply B1. lra.
Qed.
Lemma edges_value : forall flat a b k es, 0 < b -> b < a -> Rabs (third a b) <= 1 / 10 ->
  (forall e, In e es -> (k = 1 /\ 0 <= snd (fst e) < 90 /\ 0 <= snd (snd e) < 90 \/ k = -1 /\ -90 < snd (fst e) <= 0 /\ -90 < snd (snd e) <= 0) /\ answered flat a b e) ->
  exists v As, edges_area flat a b es = Done v /\ Forall2 (edge_over a b (lon_err a b)) es As /\ Rabs (v + k * total As) <= INR (length es) * area_err a b.
Proof.
  intros flat a b k es HB HA HT. induction es as [|e es IH]; intros H.
  - exists 0, []. split; [reflexivity|]. split; [constructor|]. cbn [total fold_right length INR]. rewrite Rmult_0_r, Rplus_0_r, Rabs_R0. lra.
  - destruct IH as (w & As & E & F & B); [intros; apply H; right; assumption|]. destruct (H e (or_introl eq_refl)) as [HK AN].
    destruct (edge_value flat a b e k HB HA HT HK AN) as (v & A & V & O & BV). exists (v + w), (A :: As). destruct e as [p q]. rewrite edges_cons. cbn [fst snd] in V. rewrite V. cbn [andthen]. rewrite E. cbn [andthen].
    split; [reflexivity|]. split; [constructor; assumption|]. change (total (A :: As)) with (A + total As). change (length ((p, q) :: es)) with (Datatypes.S (length es)). rewrite S_INR.
    replace (v + w + k * (A + total As)) with (v + k * A + (w + k * total As)) by ring. eapply Rle_trans; [apply Rabs_triang|]. lra.
Qed.
Lemma ring_edges_path : forall r p d, combine (p :: r) (r ++ [d]) = path_pairs (p :: r) ++ [(last (p :: r) p, d)].
Proof.
  induction r as [|q r IH]; intros p d; [reflexivity|]. change (combine (p :: q :: r) ((q :: r) ++ [d])) with ((p, q) :: combine (q :: r) (r ++ [d])). rewrite IH.
  change (path_pairs (p :: q :: r)) with ((p, q) :: path_pairs (q :: r)). cbn [app]. do 4 f_equal. clear. revert q. induction r as [|z r IH]; intros q; [reflexivity|].
  change (last (q :: z :: r) q) with (last (z :: r) q). change (last (p :: q :: z :: r) p) with (last (z :: r) p). clear IH. revert z. induction r as [|y r IH]; intros z; [reflexivity|]. apply (IH y).
Qed.
Lemma ring_same : forall flat a b l v, edges_area flat a b (ring_edges l) = Done v -> edges_area flat a b (ring_pairs l) = Done v.
Proof.
  intros flat a b [|p r] v H; [exact H|]. unfold ring_edges in H. rewrite ring_edges_path in H. apply edges_perm in H.
  rewrite (ring_path (p :: r) p) by discriminate. exact H.
Qed.
Lemma ring_in : forall l p q, In (p, q) (ring_edges l) -> In p l /\ In q l.
Proof.
  intros [|z r] p q H; [contradiction|]. unfold ring_edges in H. split; [exact (in_combine_l _ _ _ _ H)|]. apply in_combine_r in H.
  apply in_app_or in H. destruct H as [H|[<-|[]]]; [right; exact H|left; reflexivity].
Qed.
Lemma ring_length : forall l, length (ring_edges l) = length l.
Proof. intros [|z r]; [reflexivity|]. unfold ring_edges. rewrite combine_length, app_length. cbn [length]. lia. Qed.
Lemma polygon_value : forall flat a b l, 0 < b -> b < a -> Rabs (third a b) <= 1 / 10 ->
  (forall p, In p l -> 0 <= snd p < 90) \/ (forall p, In p l -> -90 < snd p <= 0) -> (forall e, In e (ring_edges l) -> answered flat a b e) ->
  exists v As, polygon_area flat a b l = Done v /\ Forall2 (edge_over a b (lon_err a b)) (ring_edges l) As /\
    Rabs (v - Rabs (total As)) <= INR (length l) * area_err a b.
Proof.
  intros flat a b l HB HA HT HL AN.
  assert (K : exists k, (k = 1 \/ k = -1) /\ forall e, In e (ring_edges l) -> (k = 1 /\ 0 <= snd (fst e) < 90 /\ 0 <= snd (snd e) < 90 \/ k = -1 /\ -90 < snd (fst e) <= 0 /\ -90 < snd (snd e) <= 0) /\ answered flat a b e).
  { destruct HL as [HL|HL]; [exists 1|exists (-1)]; (split; [auto|]); intros [p q] I; pose proof (AN _ I) as A0; apply ring_in in I as [I1 I2]; (split; [|exact A0]); cbn [fst snd]; [left|right]; repeat split; try apply (HL _ I1); apply (HL _ I2). }
  destruct K as (k & K1 & K2). destruct (edges_value flat a b k (ring_edges l) HB HA HT K2) as (v & As & E & F & B). rewrite ring_length in B.
  exists (Rabs v), As. split; [apply polygon_done; exists v; split; [apply ring_same; exact E|reflexivity]|]. split; [exact F|].
  eapply Rle_trans; [|exact B]. assert (T : Rabs (total As) = Rabs (- (k * total As))).
  { rewrite Rabs_Ropp. destruct K1 as [-> | ->]; [rewrite Rmult_1_l; reflexivity|]. replace (-1 * total As) with (- total As) by ring. rewrite Rabs_Ropp. reflexivity. }
  rewrite T. eapply Rle_trans; [apply Rabs_triang_inv2|]. right. f_equal. ring.
Qed.
