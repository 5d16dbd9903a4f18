(** Points at equal spacing along lines of several segments (GeomR_Model.to_points). *)
From Coq Require Import Reals Lra Lia List Psatz ZArith.
From Verif Require Import Geom_Model GeomR_Model GeomR_Spec GeomR_Proofs GeomR_More GeomR_Points.
Import ListNotations.
Open Scope R_scope.

Section Stretch.
Variables (l : list rp) (dx : R) (K : nat).
Let h := map hp l.
Hypothesis Hdx : 0 < dx.
Hypothesis HK : INR K * dx <= line_len h < INR (S K) * dx.
Definition spaced (out : list rp) : Prop :=
  forall i v, nth_error (rev out) i = Some v -> at_length h (INR i * dx) (hp v).
Lemma spaced_cons : forall out v k, length out = k -> spaced out -> at_length h (INR k * dx) (hp v) -> spaced (v :: out).
Proof.
  intros out v k Hk P A i w. cbn [rev]. intros E. destruct (Nat.lt_ge_cases i (length out)) as [I|I].
  - rewrite nth_error_app1 in E by (rewrite rev_length; lia). apply P, E.
  - rewrite nth_error_app2 in E by (rewrite rev_length; lia). rewrite rev_length in E.
    destruct (i - length out)%nat as [|j] eqn:J; [|destruct j; discriminate]. injection E as <-.
    replace i with k by lia. exact A.
Qed.
Lemma seg_spec : forall fuel pre u w post c pos rem k out,
  l = pre ++ u :: w :: post -> rz u = None -> rz w = None ->
  let x0 := line_len (map hp (pre ++ [u])) in let D := edist (hp u) (hp w) in
  dx <= D -> rz c = None -> hp c = lerp (hp u) (hp w) (pos / D) -> 0 <= pos <= D -> (pos = 0 \/ rem = 0) ->
  0 <= rem < dx -> INR k * dx = x0 + pos - rem -> length out = S k -> spaced out -> (K + 2 <= fuel + k)%nat ->
  exists rem' k' out', points_seg fuel dx D w (azimuth u w) pos c rem out = Some (w, rem', out') /\
    0 <= rem' < dx /\ INR k' * dx = x0 + D - rem' /\ length out' = S k' /\ spaced out' /\ (k <= k')%nat.
Proof.
  intros fuel pre u w post. induction fuel as [|fuel IH]; intros c pos rem k out El Zu Zw x0 D HD Zc Hc Hp Hz Hr Hk Lo Sp F.
  { exfalso. assert (X : x0 + D <= line_len h).
    { unfold x0, D, h. rewrite El. replace (pre ++ u :: w :: post) with ((pre ++ [u]) ++ w :: post) by (rewrite <- app_assoc; reflexivity).
      rewrite !map_app. cbn [map].
      pose proof (line_len_mono (map hp pre ++ [hp u]) (hp w) (map hp post)) as Mo.
      rewrite <- app_assoc in Mo at 1. cbn [app] in Mo. rewrite (line_len_snoc2 (map hp pre) (hp u) (hp w)) in Mo. lra. }
    assert (Hlt : INR k * dx < INR (S K) * dx) by lra. apply Rmult_lt_reg_r in Hlt; [|lra]. apply INR_lt in Hlt. lia. }
  assert (X : x0 + D <= line_len h).
  { unfold x0, D, h. rewrite El. replace (pre ++ u :: w :: post) with ((pre ++ [u]) ++ w :: post) by (rewrite <- app_assoc; reflexivity).
    rewrite !map_app. cbn [map].
    pose proof (line_len_mono (map hp pre ++ [hp u]) (hp w) (map hp post)) as Mo.
    rewrite <- app_assoc in Mo at 1. cbn [app] in Mo. rewrite (line_len_snoc2 (map hp pre) (hp u) (hp w)) in Mo. lra. }
  assert (Ne : hp u <> hp w) by (intros E; apply edist_0 in E; unfold D in HD; lra).
  destruct (azimuth_some u w Ne) as (az & A & _ & B1 & B2).
  cbn [points_seg]. rewrite A.
  assert (Dc : distance c w = D - pos).
  { rewrite distance_planar by auto. rewrite Hc, edist_lerp'.
    - fold D. field. lra.
    - apply Rmult_le_reg_r with D; [lra|]. replace (pos / D * D) with pos by (field; lra). lra. }
  destruct (Rlt_dec pos D) as [Lt|Ge].
  - rewrite Dc. destruct (Rle_dec dx (D - pos)) as [Sl|Sl].
    + assert (Hw : hp (walk c (dx - rem) az) = lerp (hp u) (hp w) ((pos + (dx - rem)) / D)).
      { destruct (walk_bearing c (dx - rem) az) as [_ [W1 W2]].
        apply pair_eq; [rewrite W1|rewrite W2]; rewrite Hc; unfold lerp; cbn [fst snd]; [rewrite B1|rewrite B2]; fold D; field; lra. }
      destruct (IH (walk c (dx - rem) az) (pos + (dx - rem)) 0 (S k) (walk c (dx - rem) az :: out))
        as (rem' & k' & out' & E & R1 & R2 & R3 & R4 & R5); auto; try (split; lra).
      * fold D. lra.
      * rewrite S_INR. fold x0. lra.
      * cbn [length]. lia.
      * apply spaced_cons with (k := S k); auto. exists (map hp pre), (hp u), (hp w), (map hp post), ((pos + (dx - rem)) / D).
        split; [unfold h; rewrite El, map_app; reflexivity|]. split.
        { split; [apply Rmult_le_pos; [lra|]; left; apply Rinv_0_lt_compat; lra|]. apply Rmult_le_reg_r with D; [lra|].
          replace ((pos + (dx - rem)) / D * D) with (pos + (dx - rem)) by (field; lra). lra. }
        split; [exact Hw|]. rewrite S_INR. unfold x0 in Hk. rewrite map_app in Hk. cbn [map] in Hk. fold D.
        replace ((pos + (dx - rem)) / D * D) with (pos + (dx - rem)) by (field; lra). lra.
      * lia.
      * exists rem', k', out'. rewrite A in E. fold D in E, R2. fold x0 in R2. split; [exact E|]. split; [lra|]. split; [lra|]. split; [exact R3|]. split; [exact R4|]. lia.
    + destruct Hz as [Hz|Hz]; [lra|].
      assert (Kk : (k <= K)%nat).
      { assert (Hlt : INR k * dx < INR (S K) * dx) by lra. apply Rmult_lt_reg_r in Hlt; [|lra]. apply INR_lt in Hlt. lia. }
      destruct fuel as [|fuel]; [lia|]. cbn [points_seg]. destruct (Rlt_dec D D); [lra|].
      exists (D - pos), k, out. repeat split; auto; lra.
  - assert (Ep : pos = D) by lra. assert (Er : rem = 0) by (destruct Hz; lra).
    assert (Ec : c = w).
    { rewrite Ep in Hc. replace (D / D) with 1 in Hc by (field; lra).
      destruct c as [cx cy cz], w as [wx wy wz]. unfold hp, lerp in Hc. cbn in *. injection Hc as H1 H2. subst cz wz.
      f_equal; lra. }
    exists rem, k, out. rewrite Ec. repeat split; auto; lra.
Qed.
Lemma segs_spec : forall fuel post pre u rem k out,
  l = pre ++ u :: post -> planar l -> (forall l1 a b l2, l = l1 ++ a :: b :: l2 -> dx <= edist (hp a) (hp b)) ->
  0 <= rem < dx -> INR k * dx = line_len (map hp (pre ++ [u])) - rem -> length out = S k -> spaced out ->
  (K + 2 <= fuel)%nat ->
  exists out', points_segs fuel dx (combine (u :: post) post) u rem out = Some out' /\ length out' = S K /\ spaced out'.
Proof.
  intros fuel post. induction post as [|w post IH]; intros pre u rem k out El P Hs Hr Hk Lo Sp F.
  - exists out. split; [reflexivity|]. split; [|exact Sp]. fold h in HK. rewrite <- El in Hk. fold h in Hk.
    assert (A1 : INR k * dx < INR (S K) * dx) by lra. apply Rmult_lt_reg_r in A1; [|lra]. apply INR_lt in A1.
    assert (A2 : INR K * dx < INR (S k) * dx) by (rewrite (S_INR k); lra). apply Rmult_lt_reg_r in A2; [|lra]. apply INR_lt in A2. lia.
  - change (combine (u :: w :: post) (w :: post)) with ((u, w) :: combine (w :: post) post).
    cbn [points_segs fst snd].
    assert (Zu : rz u = None).
    { unfold planar in P. rewrite Forall_forall in P. apply P. rewrite El. apply in_or_app. right; left; reflexivity. }
    assert (Zw : rz w = None).
    { unfold planar in P. rewrite Forall_forall in P. apply P. rewrite El. apply in_or_app. right; right; left; reflexivity. }
    rewrite distance_planar by auto.
    pose proof (Hs pre u w post El) as HD.
    destruct (seg_spec fuel pre u w post u 0 rem k out El Zu Zw HD Zu) as (rem' & k' & out' & E & R1 & R2 & R3 & R4 & R5); auto.
    + unfold Rdiv. rewrite Rmult_0_l, lerp_0. reflexivity.
    + lra.
    + lra.
    + lia.
    + rewrite E. apply (IH (pre ++ [u]) w rem' k' out'); auto.
      * rewrite <- app_assoc. exact El.
      * rewrite R2. rewrite <- app_assoc. cbn [app]. rewrite !map_app. cbn [map]. rewrite line_len_snoc2. lra.
Qed.
End Stretch.
Lemma to_points_long : forall l dx K, planar l -> (2 <= length l)%nat -> 0 < dx ->
  (forall l1 a b l2, l = l1 ++ a :: b :: l2 -> dx <= edist (hp a) (hp b)) ->
  INR K * dx <= line_len (map hp l) < INR (S K) * dx ->
  forall fuel, (K + 2 <= fuel)%nat -> exists pts, to_points fuel l dx = Some (Ok pts) /\ length pts = S K /\
    forall i v, nth_error pts i = Some v -> at_length (map hp l) (INR i * dx) (hp v).
Proof.
  intros [|u [|w post]] dx K P Le Hdx Hs HK fuel F; [cbn in Le; lia|cbn in Le; lia|].
  set (l := u :: w :: post) in *.
  assert (S0 : spaced l dx [u]).
  { intros [|[|i]] v E; cbn in E; try discriminate. injection E as <-.
    exists [], (hp u), (hp w), (map hp post), 0. split; [reflexivity|]. split; [lra|]. split; [symmetry; apply lerp_0|].
    cbn. lra. }
  destruct (segs_spec l dx K Hdx HK fuel (w :: post) [] u 0 0%nat [u]) as (out' & E & Lo & Sp); auto.
  { lra. } { cbn. lra. }
  exists (rev out'). unfold to_points, l. cbn [tl]. rewrite E. split; [reflexivity|]. rewrite rev_length. split; [exact Lo|].
  exact Sp.
Qed.
