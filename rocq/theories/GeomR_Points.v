(** [to_npoints] and [to_points]. *)
From Coq Require Import List ZArith Reals Bool Arith Lia Lra.
From Verif Require Import Geom_Model GeomR_Model GeomR_Spec GeomR_Proofs GeomR_More.
Import ListNotations.
Open Scope R_scope.

Lemma walk_towards : forall c w s, rz c = None -> hp c <> hp w -> 0 <= s -> exists az, azimuth c w = Some az /\
  hp (walk c s az) = lerp (hp c) (hp w) (s / edist (hp c) (hp w)).
Proof.
  intros c w s Z N S. destruct (azimuth_some c w N) as (az & A & _ & B1 & B2). exists az. split; [exact A|].
  destruct (walk_bearing c s az) as [_ [W1 W2]].
  assert (E : edist (hp c) (hp w) <> 0) by (rewrite edist_0; exact N).
  unfold lerp. rewrite B1, B2. apply pair_eq; cbn [fst snd]; [rewrite W1|rewrite W2]; field; exact E.
Qed.

Lemma line_len_snoc2 : forall pre u w, line_len (pre ++ [u; w]) = line_len (pre ++ [u]) + edist u w.
Proof. intros pre u w. rewrite (line_len_app pre u [w]). cbn. ring. Qed.
Lemma line_len_mono : forall pre u post, line_len (pre ++ [u]) <= line_len (pre ++ u :: post).
Proof. intros. rewrite (line_len_app pre u post). pose proof (line_len_nonneg (u :: post)). lra. Qed.

Section NPoints.
Variables (l : list rp) (step : R) (n : nat).
Let h := map hp l.
Let L := line_len h.
Hypothesis Pl : planar l.
Hypothesis Hn : (2 <= n)%nat.
Hypothesis Hstep : 1 / 100000000 <= step.
Hypothesis HL : L = INR (n - 1) * step.
Notation eps := (1 / 100000000).

Definition placed (out : list rp) : Prop :=
  forall i v, nth_error (rev out) i = Some v -> at_length h (INR i * step) (hp v).
Definition ends (seg : rp * rp) (out : list rp) : Prop :=
  placed out /\ (length out = n \/ length out = (n - 1)%nat /\ exists s, L - eps <= s <= L /\ at_length h s (hp (snd seg))).

Lemma placed_cons : forall out v k, length out = k -> placed out -> at_length h (INR k * step) (hp v) -> placed (v :: out).
Proof.
  intros out v k K P A i w. cbn [rev]. intros E. destruct (Nat.eq_dec i k) as [-> |Ne].
  - rewrite nth_error_app2 in E by (rewrite rev_length; lia). rewrite rev_length, K, Nat.sub_diag in E. injection E as <-. exact A.
  - destruct (Nat.lt_ge_cases i k).
    + rewrite nth_error_app1 in E by (rewrite rev_length; lia). apply P, E.
    + rewrite nth_error_app2 in E by (rewrite rev_length; lia). rewrite rev_length, K in E.
      destruct (i - k)%nat as [|j] eqn:J; [lia|]. destruct j; discriminate.
Qed.

Lemma npoints_loop_spec : forall fuel pre u w post c t x steprem out k,
  l = pre ++ u :: w :: post -> hp c = lerp (hp u) (hp w) t -> rz c = None -> 0 <= t <= 1 ->
  x = line_len (map hp (pre ++ [u])) + t * edist (hp u) (hp w) ->
  length out = S k -> placed out -> steprem = INR (S k) * step - x -> 0 < steprem -> INR k * step <= x ->
  (n - k + length post <= fuel)%nat ->
  exists seg' out', npoints_loop fuel L step x c (c, w) (distance c w) steprem (combine (w :: post) post) out = Some (seg', out') /\
    ends seg' out'.
Proof.
  induction fuel as [|fuel IH]; intros pre u w post c t x steprem out k El Hc Zc T X Lo Po Sr Sp Kx Fu.
  - assert (K : (n <= k)%nat) by lia. exfalso.
    assert (x <= L).
    { unfold L, h. rewrite El, map_app. cbn [map]. rewrite X, map_app. cbn [map].
      pose proof (line_len_mono (map hp pre ++ [hp u]) (hp w) (map hp post)) as M. rewrite <- !app_assoc in M. cbn [app] in M.
      pose proof (line_len_snoc2 (map hp pre) (hp u) (hp w)) as M2. rewrite M2 in M. pose proof (edist_nonneg (hp u) (hp w)).
      assert (t * edist (hp u) (hp w) <= edist (hp u) (hp w)) by nra. lra. }
    assert (INR (n - 1) < INR k) by (apply lt_INR; lia). nra.
  - assert (Pw : rz w = None /\ Forall (fun p => rz p = None) post).
    { unfold planar in Pl. rewrite El in Pl. apply Forall_app in Pl. destruct Pl as [_ P2]. inversion P2 as [|? ? _ P3]; subst.
      inversion P3; subst. auto. }
    assert (Dc : distance c w = (1 - t) * edist (hp u) (hp w)).
    { rewrite distance_planar by auto. rewrite Hc. apply edist_lerp'. lra. }
    set (D := edist (hp u) (hp w)) in *. pose proof (edist_nonneg (hp u) (hp w)) as Dn. fold D in Dn.
    assert (Xw : line_len (map hp (pre ++ [u; w])) = x + (1 - t) * D).
    { rewrite map_app. cbn [map]. rewrite line_len_snoc2. fold D. rewrite X, map_app. cbn [map]. ring. }
    assert (XL : line_len (map hp (pre ++ [u; w])) <= L).
    { unfold L, h. rewrite El, !map_app. cbn [map].
      pose proof (line_len_mono (map hp pre ++ [hp u]) (hp w) (map hp post)) as M. rewrite <- !app_assoc in M. exact M. }
    assert (TD : 0 <= (1 - t) * D) by nra.
    assert (KL : INR k * step <= INR (n - 1) * step) by lra.
    assert (Kn : (k <= n - 1)%nat).
    { apply INR_le. apply Rmult_le_reg_r with step; lra. }
    cbn [npoints_loop fst snd]. destruct (Rlt_dec x (L - eps)) as [Xl|Xl].
    + destruct (Rle_dec steprem (distance c w)) as [Sl|Sl].
      * assert (Ne : hp c <> hp w).
        { intros E. rewrite distance_planar in Sl by auto. rewrite (proj2 (edist_0 _ _) E) in Sl. lra. }
        destruct (walk_towards c w steprem Zc Ne) as (az & A & W); [lra|]. rewrite A.
        set (c' := walk c steprem az) in *.
        assert (Ec : edist (hp c) (hp w) = (1 - t) * D) by (rewrite <- distance_planar by auto; exact Dc).
        set (t' := t + steprem / ((1 - t) * D) * (1 - t)).
        assert (Pos : 0 < (1 - t) * D) by lra.
        assert (t < 1) by nra. assert (0 < D) by nra.
        assert (Hc' : hp c' = lerp (hp u) (hp w) t').
        { rewrite W, Ec, Hc, lerp_lerp. reflexivity. }
        assert (Et : t' * D = t * D + steprem) by (unfold t'; field; lra).
        assert (T' : 0 <= t' <= 1).
        { split; [apply Rmult_le_reg_r with D; nra|]. apply Rmult_le_reg_r with D; lra. }
        replace (distance c w - steprem) with (distance c' w).
        2: { rewrite distance_planar by auto. rewrite Hc', edist_lerp' by lra. fold D. rewrite Dc.
             replace ((1 - t') * D) with (D - t' * D) by ring. rewrite Et. ring. }
        replace step with (INR (S (S k)) * step - (x + steprem)) at 2.
        2: { rewrite Sr, !S_INR. ring. }
        apply (IH pre u w post c' t' (x + steprem) _ (c' :: out) (S k)); auto.
        -- rewrite X. fold D. lra.
        -- cbn [length]. lia.
        -- apply placed_cons with (S k); auto. exists (map hp pre), (hp u), (hp w), (map hp post), t'.
           split; [unfold h; rewrite El, map_app; reflexivity|]. split; [exact T'|]. split; [exact Hc'|].
           fold D. rewrite map_app in X. cbn [map] in X. lra.
        -- rewrite (S_INR (S k)). lra.
        -- lra.
        -- lra.
        -- assert (HS : INR (S k) * step <= INR (n - 1) * step) by lra.
           assert (S k <= n - 1)%nat by (apply INR_le; apply Rmult_le_reg_r with step; [lra|exact HS]). lia.
      * assert (Kn2 : (S k <= n - 1)%nat).
        { destruct (Nat.eq_dec k (n - 1)) as [Ek|]; [|lia]. subst k. lra. }
        destruct post as [|w2 post].
        { exfalso. assert (L = line_len (map hp (pre ++ [u; w]))) by (unfold L, h; rewrite El; reflexivity).
          assert (INR (S k) * step <= INR (n - 1) * step) by (apply Rmult_le_compat_r; [lra|apply le_INR; lia]). lra. }
        cbn [combine].
        replace (combine post post) with (combine post post) by reflexivity.
        inversion Pw as [Zw Fp]. inversion Fp as [|? ? Zw2 Fp2]; subst x0 l0.
        replace (x + distance c w) with (line_len (map hp (pre ++ [u; w]))) by lra.
        replace (steprem - distance c w) with (INR (S k) * step - line_len (map hp (pre ++ [u; w]))) by lra.
        apply (IH (pre ++ [u]) w w2 post w 0 _ _ out k); auto.
        -- rewrite El, <- app_assoc. reflexivity.
        -- rewrite lerp_0. reflexivity.
        -- lra.
        -- rewrite <- app_assoc. cbn [app]. ring.
        -- lra.
        -- lra.
        -- cbn [length] in Fu. lia.
    + exists (c, w), out. split; [reflexivity|]. split; [exact Po|].
      assert (n - 2 <= k)%nat as K2.
      { destruct (Nat.le_gt_cases (n - 2) k); [assumption|]. exfalso.
        assert (INR (S (S k)) * step <= INR (n - 1) * step) by (apply Rmult_le_compat_r; [lra|apply le_INR; lia]).
        rewrite (S_INR (S k)) in H0. lra. }
      destruct (Nat.eq_dec k (n - 1)) as [->|]; [left; lia|]. right. split; [lia|].
      exists (line_len (map hp (pre ++ [u; w]))). split; [lra|]. cbn [snd].
      exists (map hp pre), (hp u), (hp w), (map hp post), 1. split; [unfold h; rewrite El, map_app; reflexivity|].
      split; [lra|]. split; [rewrite lerp_1; reflexivity|]. rewrite map_app. cbn [map]. rewrite line_len_snoc2. ring.
Qed.
End NPoints.

Lemma to_npoints_spec : forall l n, planar l -> (2 <= length l)%nat -> (2 <= n)%nat ->
  1 / 100000000 <= line_len (map hp l) / INR (n - 1) ->
  let h := map hp l in let L := line_len h in
  exists pts, (forall fuel, (n + length l <= fuel)%nat -> to_npoints fuel l (Z.of_nat n) = Some (Ok pts)) /\ length pts = n /\
    (forall i v, (i < n - 1)%nat -> nth_error pts i = Some v -> at_length h (INR i * (L / INR (n - 1))) (hp v)) /\
    (exists v s, nth_error pts (n - 1) = Some v /\ at_length h s (hp v) /\ L - 1 / 100000000 <= s <= L).
Proof.
  intros l n P Ll Hn Hs h L. destruct l as [|u [|w post]]; cbn in Ll; try lia.
  assert (N1 : 0 < INR (n - 1)) by (apply lt_0_INR; lia).
  set (step := L / INR (n - 1)).
  assert (HL : L = INR (n - 1) * step) by (unfold step; field; lra).
  change (1 / 100000000 <= step) in Hs.
  assert (Zu : rz u = None /\ rz w = None) by (inversion P as [|? ? A B]; inversion B; auto).
  assert (HH : forall fuel, (n + length (u :: w :: post) <= fuel)%nat -> exists seg' out',
    npoints_loop fuel L step 0 u (u, w) (distance u w) step (combine (w :: post) post) [u] = Some (seg', out') /\
    ends (u :: w :: post) step n seg' out').
  { intros fuel F. 
    pose proof (npoints_loop_spec (u :: w :: post) step n P Hn Hs HL fuel [] u w post u 0 0 step [u] 0) as G.
    apply G; auto.
    - rewrite lerp_0. reflexivity.
    - tauto.
    - lra.
    - cbn. ring.
    - intros i v E. destruct i as [|[|i]]; cbn in E; try discriminate. injection E as <-.
      exists [], (hp u), (hp w), (map hp post), 0. cbn [INR]. split; [reflexivity|]. split; [lra|].
      split; [rewrite lerp_0; reflexivity|]. cbn. ring.
    - cbn [INR]. ring.
    - lra.
    - cbn [INR]. lra.
    - cbn [length] in F. lia. }
  pose proof (HH (n + length (u :: w :: post))%nat (Nat.le_refl _)) as (seg & out & E & En).
  assert (Mono : forall fuel fuel' x c s sr st rest o r, npoints_loop fuel L step x c s sr st rest o = Some r -> (fuel <= fuel')%nat ->
     npoints_loop fuel' L step x c s sr st rest o = Some r).
  { clear. induction fuel as [|fuel IH]; intros fuel' x c s sr st rest o r E F; [discriminate|].
    destruct fuel' as [|fuel']; [lia|]. cbn [npoints_loop] in *. destruct (Rlt_dec x (L - 1 / 100000000)); [|exact E].
    destruct (Rle_dec st sr).
    - destruct (azimuth (fst s) (snd s)); [|discriminate]. apply IH; [exact E|lia].
    - destruct rest; (apply IH; [exact E|lia]). }
  exists (if (Z.of_nat (length out) =? Z.of_nat n - 1)%Z then rev (snd seg :: out) else rev out).
  assert (NN : exists m, n = S (S m)) by (exists (n - 2)%nat; lia). destruct NN as [m Em].
  split; [|split; [|split]].
  - intros fuel F. apply (Mono _ fuel) in E; [|exact F].
    unfold to_npoints. change (combine (u :: w :: post) (tl (u :: w :: post))) with ((u, w) :: combine (w :: post) post).
    cbv beta iota. destruct (Z.eqb_spec (Z.of_nat n) 1) as [H|_]; [lia|].
    destruct (cumulength_spec (u :: w :: post)) as (cs & Ec & _); [discriminate|exact P|].
    rewrite Ec. assert (NE : u :: w :: post <> []) by discriminate. rewrite (cumulength_last _ cs NE P Ec). fold h. fold L.
    replace (L / IZR (Z.of_nat n - 1)) with step.
    2: { unfold step. f_equal. rewrite INR_IZR_INZ. f_equal. f_equal. lia. }
    cbn [fst snd]. rewrite E. destruct (Z.of_nat (length out) =? Z.of_nat n - 1)%Z; reflexivity.
  - destruct En as [_ [En|[En _]]].
    + destruct (Z.eqb_spec (Z.of_nat (length out)) (Z.of_nat n - 1)); [lia|]. rewrite rev_length. exact En.
    + destruct (Z.eqb_spec (Z.of_nat (length out)) (Z.of_nat n - 1)); [|lia]. rewrite rev_length. cbn [length]. lia.
  - intros i v I Ev. destruct En as [Pl En].
    destruct (Z.eqb_spec (Z.of_nat (length out)) (Z.of_nat n - 1)) as [Lo|Lo]; [|apply Pl, Ev].
    cbn [rev] in Ev. rewrite nth_error_app1 in Ev by (rewrite rev_length; lia). apply Pl, Ev.
  - destruct En as [Pl [En|[En (s & S & A)]]].
    + destruct (Z.eqb_spec (Z.of_nat (length out)) (Z.of_nat n - 1)) as [Lo|Lo]; [lia|].
      destruct (nth_error (rev out) (n - 1)) as [v|] eqn:Ev; [|apply nth_error_None in Ev; rewrite rev_length in Ev; lia].
      exists v, L. split; [reflexivity|]. split; [|lra]. rewrite HL. apply Pl, Ev.
    + destruct (Z.eqb_spec (Z.of_nat (length out)) (Z.of_nat n - 1)) as [Lo|Lo]; [|lia].
      exists (snd seg), s. split; [|split; [exact A|exact S]]. cbn [rev]. rewrite nth_error_app2 by (rewrite rev_length; lia).
      rewrite rev_length. replace (n - 1 - length out)%nat with 0%nat by lia. reflexivity.
Qed.
Lemma to_npoints_one : forall fuel a b l, to_npoints fuel (a :: b :: l) 1 = Some (Err ZeroDivisionError).
Proof. intros. reflexivity. Qed.

(* ---- to_points *)
Section Points.
Variables (a b : rp) (dx : R).
Hypothesis Pa : rz a = None.
Hypothesis Pb : rz b = None.
Let D := edist (hp a) (hp b).
Hypothesis Hdx : 0 < dx.
Hypothesis HD : 0 < D.
Variable K : nat.
Hypothesis HK : INR K * dx <= D < INR (S K) * dx.

Lemma points_seg_spec : forall fuel k c out, (k <= K)%nat -> rz c = None -> hp c = lerp (hp a) (hp b) (INR k * dx / D) ->
  length out = S k -> (forall i v, nth_error (rev out) i = Some v -> hp v = lerp (hp a) (hp b) (INR i * dx / D)) ->
  (K - k + 2 <= fuel)%nat ->
  exists c' r' out', points_seg fuel dx D b (azimuth a b) (INR k * dx) c 0 out = Some (c', r', out') /\
    length out' = S K /\ (forall i v, nth_error (rev out') i = Some v -> hp v = lerp (hp a) (hp b) (INR i * dx / D)).
Proof.
  assert (Ne : hp a <> hp b) by (intros E; apply edist_0 in E; unfold D in HD; lra).
  destruct (azimuth_some a b Ne) as (az & A & _ & B1 & B2). rewrite A.
  induction fuel as [|fuel IH]; intros k c out Kk Zc Hc Lo P F; [lia|].
  assert (KD : INR k * dx <= D).
  { assert (INR k <= INR K) by (apply le_INR; lia). nra. }
  cbn [points_seg]. destruct (Rlt_dec (INR k * dx) D) as [X|X].
  - assert (Dc : distance c b = D - INR k * dx).
    { rewrite distance_planar by auto. rewrite Hc, edist_lerp'.
      - fold D. field. lra.
      - apply Rmult_le_reg_r with D; [lra|]. replace (INR k * dx / D * D) with (INR k * dx) by (field; lra). lra. }
    rewrite Dc. destruct (Rle_dec dx (D - INR k * dx)) as [Sl|Sl].
    + assert (Kk' : (S k <= K)%nat).
      { assert (INR (Datatypes.S k) * dx < INR (Datatypes.S K) * dx) by (rewrite (S_INR k); lra).
        apply Rmult_lt_reg_r in H; [|lra]. apply INR_lt in H. lia. }
      rewrite Rminus_0_r. replace (INR k * dx + dx) with (INR (Datatypes.S k) * dx) by (rewrite S_INR; ring).
      assert (Hw : hp (walk c dx az) = lerp (hp a) (hp b) (INR (Datatypes.S k) * dx / D)).
      { destruct (walk_bearing c dx az) as [_ [W1 W2]]. rewrite (S_INR k).
        apply pair_eq; [rewrite W1|rewrite W2]; rewrite Hc; unfold lerp; cbn [fst snd]; [rewrite B1|rewrite B2]; fold D; field; lra. }
      apply IH; auto; [cbn [length]; lia| |lia].
      intros i v E. cbn [rev] in E. destruct (Nat.lt_ge_cases i (length out)) as [I|I].
      * rewrite nth_error_app1 in E by (rewrite rev_length; lia). apply P, E.
      * rewrite nth_error_app2 in E by (rewrite rev_length; lia). rewrite rev_length in E.
        destruct (i - length out)%nat as [|j] eqn:J; [|destruct j; discriminate]. injection E as <-.
        replace i with (Datatypes.S k) by lia. exact Hw.
    + destruct fuel as [|fuel]; [lia|]. cbn [points_seg]. destruct (Rlt_dec D D); [lra|].
      do 3 eexists. split; [reflexivity|]. split; [|exact P].
      assert (INR K < INR (Datatypes.S k)) by (rewrite S_INR; nra). apply INR_lt in H. lia.
  - do 3 eexists. split; [reflexivity|]. split; [|exact P].
    assert (INR K < INR (Datatypes.S k)) by (rewrite S_INR; nra). apply INR_lt in H. lia.
Qed.
End Points.
Lemma to_points_segment : forall a b dx K, rz a = None -> rz b = None -> 0 < dx ->
  let D := edist (hp a) (hp b) in 0 < D -> INR K * dx <= D < INR (S K) * dx ->
  forall fuel, (K + 2 <= fuel)%nat -> exists pts, to_points fuel [a; b] dx = Some (Ok pts) /\ length pts = S K /\
    forall i v, nth_error pts i = Some v -> hp v = lerp (hp a) (hp b) (INR i * dx / D).
Proof.
  intros a b dx K Pa Pb Hdx D HD HK fuel F.
  destruct (points_seg_spec a b dx Pb Hdx HD K HK fuel 0 a [a]) as (c' & r' & out' & E & Lo & P); auto; try lia.
  { cbn [INR]. rewrite Rmult_0_l. unfold Rdiv. rewrite Rmult_0_l, lerp_0. reflexivity. }
  { intros [|[|i]] v E; cbn in E; try discriminate. injection E as <-. cbn [INR]. rewrite Rmult_0_l. unfold Rdiv. rewrite Rmult_0_l, lerp_0. reflexivity. }
  exists (rev out'). unfold to_points. cbn [combine tl points_segs fst snd]. rewrite distance_planar by auto.
  cbn [INR] in E. rewrite Rmult_0_l in E. rewrite E. split; [reflexivity|]. rewrite rev_length. auto.
Qed.
(** Segments shorter than the spacing give no points at all. *)
Lemma points_short : forall l a dx fuel rem out, planar (a :: l) -> (2 <= fuel)%nat ->
  (forall l1 u v l2, a :: l = l1 ++ u :: v :: l2 -> 0 < edist (hp u) (hp v) < dx) ->
  points_segs fuel dx (combine (a :: l) l) a rem out = Some out.
Proof.
  induction l as [|b l IH]; intros a dx fuel rem out P F H; [reflexivity|].
  inversion P as [|? ? Za Pl]; subst. inversion Pl as [|? ? Zb Pl']; subst.
  change (combine (a :: b :: l) (b :: l)) with ((a, b) :: combine (b :: l) l).
  cbn [points_segs fst snd]. destruct (H [] a b l eq_refl) as [H1 H2].
  destruct fuel as [|[|fuel]]; [lia|lia|]. cbn [points_seg]. rewrite distance_planar by auto.
  destruct (Rlt_dec 0 (edist (hp a) (hp b))) as [_|]; [|lra].
  destruct (Rle_dec dx (edist (hp a) (hp b))); [lra|].
  destruct (Rlt_dec (edist (hp a) (hp b)) (edist (hp a) (hp b))); [lra|].
  apply IH; auto. intros l1 u v l2 E. apply (H (a :: l1) u v l2). cbn [app]. rewrite E. reflexivity.
Qed.
Lemma to_points_short : forall l a dx fuel, planar (a :: l) -> (2 <= fuel)%nat ->
  (forall l1 u v l2, a :: l = l1 ++ u :: v :: l2 -> 0 < edist (hp u) (hp v) < dx) ->
  to_points fuel (a :: l) dx = Some (Ok [a]).
Proof. intros l a dx fuel P F H. unfold to_points. cbn [tl]. rewrite (points_short l a dx fuel 0 [a] P F H). reflexivity. Qed.
(** A spacing of zero never ends. *)
Lemma points_zero : forall fuel len s1 az c out, 0 < len -> points_seg fuel 0 len s1 az 0 c 0 out = None.
Proof.
  induction fuel as [|fuel IH]; intros len s1 az c out Lp; [reflexivity|].
  cbn [points_seg]. destruct (Rlt_dec 0 len); [|lra].
  destruct (Rle_dec 0 (distance c s1)) as [_|N].
  - destruct az; [|reflexivity]. rewrite Rminus_0_r, Rplus_0_r. apply IH, Lp.
  - exfalso. apply N. rewrite distance_spec. destruct (rz c), (rz s1); apply sqrt_pos.
Qed.
