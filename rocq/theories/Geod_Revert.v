(** The reverted series: from the distance back to the arc of the great circle. *)
From Coq Require Import List ZArith QArith Qreals Reals Lra Lia Bool.
From Coquelicot Require Import Coquelicot.
From Verif Require Import Geod_Model Geod_Spec Geod_Poly Geod_Forward Geod_Series Geod_Bounds.
Import ListNotations.
Open Scope R_scope.

(* ---- Taylor polynomials *)
Lemma cos_taylor : forall h, Rabs h <= 1 -> Rabs (cos h - (1 - h ^ 2 / 2 + h ^ 4 / 24 - h ^ 6 / 720)) <= h ^ 8 / 40320.
Proof.
  intros h H. apply Rabs_le_between in H.
  destruct (pre_cos_bound h 1) as [L U]; [lra|lra|].
  unfold cos_approx in L, U. change (2 * 1 + 1)%nat with 3%nat in L. change (2 * (1 + 1))%nat with 4%nat in U.
  cbn [sum_f_R0] in L, U. unfold cos_term in L, U.
  replace (INR (fact (2 * 0))) with 1 in L, U by (cbn [Nat.mul fact]; reflexivity).
  replace (INR (fact (2 * 1))) with 2 in L, U by (cbn; ring).
  replace (INR (fact (2 * 2))) with 24 in L, U by (cbn; ring).
  replace (INR (fact (2 * 3))) with 720 in L, U by (rewrite INR_IZR_INZ; f_equal).
  replace (INR (fact (2 * 4))) with 40320 in U.
  2:{ change (2 * 4)%nat with 8%nat. rewrite fact_simpl, mult_INR. replace (fact 7) with (7 * fact 6)%nat by (rewrite fact_simpl; reflexivity).
      rewrite mult_INR. replace (INR (fact 6)) with 720 by (rewrite INR_IZR_INZ; f_equal). cbn [INR]. ring. }
  assert (E : h ^ 8 = h ^ (2 * 4)) by reflexivity.
  apply Rabs_le. cbn [Nat.mul Nat.add pow] in *. assert (0 <= h ^ 8) by (replace (h ^ 8) with ((h ^ 4) ^ 2) by ring; apply pow2_ge_0).
  cbn [pow] in *. split; lra.
Qed.
Lemma sin_taylor0 : forall h, 0 <= h <= 1 -> Rabs (sin h - (h - h ^ 3 / 6 + h ^ 5 / 120)) <= h ^ 7 / 5040.
Proof.
  intros h H.
  destruct (pre_sin_bound h 1) as [L _]; [lra|lra|]. destruct (pre_sin_bound h 0) as [_ U]; [lra|lra|].
  unfold sin_approx in L, U. change (2 * 1 + 1)%nat with 3%nat in L. change (2 * (0 + 1))%nat with 2%nat in U.
  cbn [sum_f_R0] in L, U. unfold sin_term in L, U.
  replace (INR (fact (2 * 0 + 1))) with 1 in L, U by (cbn [Nat.mul fact]; reflexivity).
  replace (INR (fact (2 * 1 + 1))) with 6 in L, U by (cbn; ring).
  replace (INR (fact (2 * 2 + 1))) with 120 in L, U by (rewrite INR_IZR_INZ; f_equal).
  replace (INR (fact (2 * 3 + 1))) with 5040 in L.
  2:{ change (2 * 3 + 1)%nat with 7%nat. replace (fact 7) with (7 * fact 6)%nat by (rewrite fact_simpl; reflexivity).
      rewrite mult_INR. replace (INR (fact 6)) with 720 by (rewrite INR_IZR_INZ; f_equal). cbn [INR]. ring. }
  apply Rabs_le. cbn [Nat.mul Nat.add pow] in *. pose proof (pow_le h 7 (proj1 H)). cbn [pow] in *. split; lra.
Qed.
Lemma sin_taylor : forall h, Rabs h <= 1 -> Rabs (sin h - (h - h ^ 3 / 6 + h ^ 5 / 120)) <= Rabs h ^ 7 / 5040.
Proof.
  intros h H. destruct (Rle_dec 0 h) as [P|P].
  - rewrite (Rabs_right h) in * by lra. apply sin_taylor0. lra.
  - rewrite (Rabs_left1 h) in * by lra. pose proof (sin_taylor0 (- h) ltac:(lra)) as T. rewrite sin_neg in T.
    rewrite <- Rabs_Ropp. replace (- (sin h - (h - h ^ 3 / 6 + h ^ 5 / 120))) with (- sin h - (- h - (- h) ^ 3 / 6 + (- h) ^ 5 / 120)) by field.
    exact T.
Qed.

(* ---- sums of sines as polynomials *)
Fixpoint usumx (i : nat) (cv : ex) (cs : list ex) : ex :=
  match cs with [] => K 0 1 | e :: cs' => Add (Mul e (chebx (S i) (K 0 1) one cv)) (usumx (S i) cv cs') end.
Lemma sines_poly : forall cs cv env s, xev cv env = cos (2 * s) -> forall i,
  sines i (map (fun e => xev e env) cs) s = sin (2 * s) * xev (usumx i cv cs) env.
Proof.
  induction cs as [|e cs IH]; intros cv env s C i; [cbn [map sines usumx xev]; field|].
  cbn [map sines usumx]. rewrite (IH cv env s C). cbn [xev]. rewrite xev_cheb, C. unfold one. cbn [xev].
  replace (2 * (INR i + 1) * s) with (INR (S i) * (2 * s)) by (rewrite S_INR; ring). rewrite sin_mult.
  replace (IZR 1 / IZR 1) with 1 by field. replace (IZR 0 / IZR 1) with 0 by field. ring.
Qed.
(** One term of the composed series: U cos h + T sin h by the Taylor polynomials, without the
    sine of twice the angle; [d] is the shift over that sine, [h1], [h2], [h3] are the powers of
    the square of the shift. *)
Definition termx (k : nat) (cv d h1 h2 h3 : ex) : ex :=
  let q := (4 * Z.of_nat k * Z.of_nat k)%Z in
  Add (Mul (chebx k (K 0 1) one cv) (Sub (Add (Sub one (Mul (K q 2) h1)) (Mul (K (q * q) 24) h2)) (Mul (K (q * q * q) 720) h3)))
      (Mul (chebx k one cv cv) (Mul (Mul (K (2 * Z.of_nat k) 1) d) (Add (Sub one (Mul (K q 6) h1)) (Mul (K (q * q) 120) h2)))).
Fixpoint compx (i : nat) (cv d h1 h2 h3 : ex) (cs : list ex) : ex :=
  match cs with [] => K 0 1 | e :: cs' => Add (Mul e (termx (S i) cv d h1 h2 h3)) (compx (S i) cv d h1 h2 h3 cs') end.
Definition powers (cv d h1 h2 h3 : ex) (env : list R) : Prop :=
  let w := (1 - xev cv env ^ 2) * xev d env ^ 2 in xev h1 env = w /\ xev h2 env = w ^ 2 /\ xev h3 env = w ^ 3.
Fixpoint asum (l : list R) : R := match l with [] => 0 | x :: l' => Rabs x + asum l' end.

Lemma term_error : forall k cv d h1 h2 h3 env t M, xev cv env = cos (2 * t) -> powers cv d h1 h2 h3 env ->
  let del := sin (2 * t) * xev d env in
  2 * INR k * Rabs del <= M -> M <= 1 ->
  Rabs (sin (INR k * (2 * (t + del))) - sin (2 * t) * xev (termx k cv d h1 h2 h3) env) <= M ^ 7 / 4000.
Proof.
  intros k cv d h1 h2 h3 env t M C PW del HM M1. destruct PW as (W1 & W2 & W3). set (x := 2 * t) in *. set (D := xev d env) in *. set (h := 2 * INR k * del).
  assert (HH : Rabs h <= M).
  { unfold h. rewrite Rabs_mult, (Rabs_right (2 * INR k)); [exact HM|]. pose proof (pos_INR k). lra. }
  assert (E : sin (INR k * (2 * (t + del))) = sin (INR k * x) * cos h + cos (INR k * x) * sin h).
  { rewrite <- sin_plus. f_equal. unfold x, h. ring. }
  assert (V : sin x * xev (termx k cv d h1 h2 h3) env =
    sin (INR k * x) * (1 - h ^ 2 / 2 + h ^ 4 / 24 - h ^ 6 / 720) + cos (INR k * x) * (h - h ^ 3 / 6 + h ^ 5 / 120)).
  { unfold termx, one. cbv zeta. cbn [xev]. rewrite !xev_cheb. cbn [xev]. rewrite W1, W2, W3, C. fold D. rewrite sin_mult, cos_mult.
    replace (IZR 1 / IZR 1) with 1 by field. replace (IZR 0 / IZR 1) with 0 by field.
    rewrite !mult_IZR, <- INR_IZR_INZ. set (kk := INR k) in *. set (u := chebr k 0 1 (cos x)). set (v := chebr k 1 (cos x) (cos x)).
    pose proof (sc x) as SX. assert (HS : 1 - cos x ^ 2 = sin x * sin x) by (rewrite SX; ring). rewrite HS.
    unfold h, del. fold x. field. }
  rewrite E, V.
  set (p := 1 - h ^ 2 / 2 + h ^ 4 / 24 - h ^ 6 / 720). set (q := h - h ^ 3 / 6 + h ^ 5 / 120).
  replace (sin (INR k * x) * cos h + cos (INR k * x) * sin h - (sin (INR k * x) * p + cos (INR k * x) * q))
    with (sin (INR k * x) * (cos h - p) + cos (INR k * x) * (sin h - q)) by ring.
  eapply Rle_trans; [apply Rabs_triang|]. rewrite !Rabs_mult.
  assert (B1 : Rabs (sin (INR k * x)) <= 1) by (apply Rabs_le; pose proof (SIN_bound (INR k * x)); lra).
  assert (B2 : Rabs (cos (INR k * x)) <= 1) by (apply Rabs_le; pose proof (COS_bound (INR k * x)); lra).
  pose proof (cos_taylor h ltac:(lra)) as TC. pose proof (sin_taylor h ltac:(lra)) as TS. fold p in TC. fold q in TS.
  pose proof (Rabs_pos h) as H0. assert (M0 : 0 <= M) by lra.
  assert (H7 : Rabs h ^ 7 <= M ^ 7) by (apply pow_incr; lra).
  assert (H8 : h ^ 8 <= M ^ 7).
  { replace (h ^ 8) with (Rabs h ^ 8).
    - change (Rabs h ^ 8) with (Rabs h * Rabs h ^ 7). pose proof (pow_le M 7 M0). pose proof (pow_le (Rabs h) 7 H0). nra.
    - rewrite RPow_abs. apply Rabs_right. replace (h ^ 8) with ((h ^ 4) ^ 2) by ring. apply Rle_ge, pow2_ge_0. }
  pose proof (Rabs_pos (cos h - p)). pose proof (Rabs_pos (sin h - q)). pose proof (Rabs_pos (sin (INR k * x))). pose proof (Rabs_pos (cos (INR k * x))).
  pose proof (pow_le M 7 M0).
  apply Rle_trans with (1 * (M ^ 7 / 40320) + 1 * (M ^ 7 / 5040)); [|lra].
  apply Rplus_le_compat; apply Rmult_le_compat; try assumption; lra.
Qed.
Lemma comp_error : forall cv d h1 h2 h3 env t M (N : nat), xev cv env = cos (2 * t) -> powers cv d h1 h2 h3 env ->
  let del := sin (2 * t) * xev d env in
  2 * INR N * Rabs del <= M -> M <= 1 -> forall cs i, (i + length cs <= N)%nat ->
  Rabs (sines i (map (fun e => xev e env) cs) (t + del) - sin (2 * t) * xev (compx i cv d h1 h2 h3 cs) env)
    <= M ^ 7 / 4000 * asum (map (fun e => xev e env) cs).
Proof.
  intros cv d h1 h2 h3 env t M N C PW del HM M1. induction cs as [|e cs IH]; intros i L.
  - cbn [map sines compx xev asum]. replace (0 - sin (2 * t) * (IZR 0 / IZR 1)) with 0 by field. rewrite Rabs_R0. lra.
  - cbn [map sines compx asum length] in *. specialize (IH (S i) ltac:(lia)). cbn [xev].
    pose proof (term_error (S i) cv d h1 h2 h3 env t M C PW) as T. cbv zeta in T. fold del in T.
    assert (HM' : 2 * INR (S i) * Rabs del <= M).
    { eapply Rle_trans; [|exact HM]. apply Rmult_le_compat_r; [apply Rabs_pos|]. apply Rmult_le_compat_l; [lra|]. apply le_INR. lia. }
    specialize (T HM' M1). replace (2 * (INR i + 1) * (t + del)) with (INR (S i) * (2 * (t + del))) by (rewrite S_INR; ring).
    set (sn := sin (INR (S i) * (2 * (t + del)))) in *. set (v := xev e env) in *. set (w := xev (termx (S i) cv d h1 h2 h3) env) in *.
    replace (v * sn + sines (S i) (map (fun e0 => xev e0 env) cs) (t + del) - sin (2 * t) * (v * w + xev (compx (S i) cv d h1 h2 h3 cs) env))
      with (v * (sn - sin (2 * t) * w) + (sines (S i) (map (fun e0 => xev e0 env) cs) (t + del) - sin (2 * t) * xev (compx (S i) cv d h1 h2 h3 cs) env)) by ring.
    eapply Rle_trans; [apply Rabs_triang|]. rewrite Rabs_mult, Rmult_plus_distr_l.
    apply Rplus_le_compat; [|exact IH]. rewrite Rmult_comm. apply Rmult_le_compat_r; [apply Rabs_pos|exact T].
Qed.

(* ---- the check *)
Definition shiftx : ex := usumx 0 (X 1) (C1px (X 0)).
Lemma shift_check : small_check 1 1 shiftx (1 # 10) [1%Q] (2 # 3) = true.
Proof. vm_compute. reflexivity. Qed.
Definition wx : ex := Mul (Sub one (Pow (X 1) 2)) (Pow (X 2) 2).
(** Variables: eps, the cosine, the shift, and three powers. *)
Definition revx : ex := Add (X 2) (compx 0 (X 1) (X 2) (X 3) (X 4) (X 5) (C1x (X 0))).
Definition rev_tm : tm 1 :=
  let B := [1 # 10; 1%Q] in
  let e := (xp 2 (X 0), 0%Q) : tm 1 in let c := (xp 2 (X 1), 0%Q) : tm 1 in
  let d := xt 1 7 B [e; c] shiftx in
  let h1 := xt 1 7 B [e; c; d] wx in
  let h2 := xt 1 7 B [h1] (Pow (X 0) 2) in
  let h3 := xt 1 7 B [h1] (Pow (X 0) 3) in
  xt 1 7 B [e; c; d; h1; h2; h3] revx.
Lemma rev_check : (let t := rev_tm in forallb (iszero 1) (fst t) && Qle_bool (snd t) 274)%bool = true.
Proof. vm_cast_no_check (eq_refl true). Qed.
Lemma C1_check : Forall2 (fun t q => small_check 1 1 t (1 # 10) [1%Q] q = true) (C1x (X 0)) [51 # 100; 1 # 100; 1 # 100; 1 # 100; 1 # 100; 1 # 100]%Q.
Proof. unfold C1x. repeat (apply Forall2_cons; [vm_compute; reflexivity|]). apply Forall2_nil. Qed.
Lemma C1_sum : forall e c, Rabs e <= 1 / 10 -> Rabs c <= 1 -> asum (map (fun t => xev t [e; c]) (C1x (X 0))) <= 56 / 100 * Rabs e.
Proof.
  intros e c HE HC. assert (G : forall cs qs, Forall2 (fun t q => small_check 1 1 t (1 # 10) [1%Q] q = true) cs qs ->
    asum (map (fun t => xev t [e; c]) cs) <= fold_right (fun q acc => Q2R q + acc) 0 qs * Rabs e).
  { intros cs qs H. induction H as [|t q cs qs H _ IH]; [cbn [map asum fold_right]; lra|]. cbn [map asum fold_right].
    pose proof (small 1 1 _ _ _ _ e [c] H eq_refl) as S. rewrite q2r in S. specialize (S HE).
    assert (F : Forall2 (fun x q => Rabs x <= Q2R q) [c] [1%Q]) by f2. specialize (S F). rewrite pow_1 in S. lra. }
  eapply Rle_trans; [apply (G _ _ C1_check)|]. cbn [fold_right]. rewrite !q2r. right. field.
Qed.
(** The arc of a distance: the series of the distance gives the distance back. *)
Lemma revert : forall e t, Rabs e <= 1 / 10 -> let s := t + sines 0 (C1p e) t in
  Rabs (s + sines 0 (C1 e) s - t) <= 600 * Rabs e ^ 7 /\ Rabs (s - t) <= 2 / 3 * Rabs e.
Proof.
  intros e t HE s. set (c := cos (2 * t)). set (env := [e; c]).
  assert (HC : Rabs c <= 1) by (apply Rabs_le; pose proof (COS_bound (2 * t)); unfold c; lra).
  assert (F : Forall2 (fun x q => Rabs x <= Q2R q) [c] [1%Q]) by f2.
  assert (SB : Rabs (sin (2 * t)) <= 1) by (apply Rabs_le; pose proof (SIN_bound (2 * t)); lra).
  assert (DE : sines 0 (C1p e) t = sin (2 * t) * xev shiftx env).
  { change (C1p e) with (C1p (xev (X 0) env)). rewrite <- C1px_spec. apply (sines_poly _ (X 1) env t eq_refl). }
  assert (DB : Rabs (sin (2 * t) * xev shiftx env) <= 2 / 3 * Rabs e).
  { pose proof (small 1 1 _ _ _ _ e [c] shift_check eq_refl) as S. rewrite q2r in S. specialize (S HE F). rewrite pow_1, q2r in S. fold env in S.
    rewrite Rabs_mult. pose proof (Rabs_pos (sin (2 * t))). pose proof (Rabs_pos (xev shiftx env)). nra. }
  unfold s. rewrite DE. set (del := sin (2 * t) * xev shiftx env) in *.
  split; [|replace (t + del - t) with del by ring; exact DB].
  set (w := (1 - c ^ 2) * xev shiftx env ^ 2). set (vals := [e; c; xev shiftx env; w; w ^ 2; w ^ 3]).
  assert (PW : powers (X 1) (X 2) (X 3) (X 4) (X 5) vals) by (split; [reflexivity|split; reflexivity]).
  pose proof (comp_error (X 1) (X 2) (X 3) (X 4) (X 5) vals t (8 * Rabs e) 6 eq_refl PW) as CE. cbv zeta in CE.
  change (xev (X 2) vals) with (xev shiftx env) in CE. fold del in CE.
  replace (INR 6) with 6 in CE by (cbn; ring).
  specialize (CE ltac:(lra) ltac:(lra) (C1x (X 0)) 0%nat ltac:(cbn; lia)).
  rewrite C1x_spec in CE. change (xev (X 0) vals) with e in CE.
  assert (RE : Rabs (xev revx vals) <= 274 / 1 * Rabs e ^ 7).
  { assert (FB : Forall2 (fun x q => Rabs x <= Q2R q) (e :: [c]) [1 # 10; 1%Q]) by (apply Forall2_cons; [rewrite q2r; exact HE|exact F]).
    assert (OX : forall i v, (i < 2)%nat -> v = xev (X i) (e :: [c]) -> tm_ok 1 7 e [c] v (xp 2 (X i), 0%Q)).
    { intros i v Li ->. apply (xp_ok 1 7 e [c] eq_refl). apply Nat.ltb_lt. exact Li. }
    assert (O0 : tm_ok 1 7 e [c] e (xp 2 (X 0), 0%Q)) by (apply OX; [lia|reflexivity]).
    assert (O1 : tm_ok 1 7 e [c] c (xp 2 (X 1), 0%Q)) by (apply OX; [lia|reflexivity]).
    pose proof (rev_check) as RC. cbv zeta in RC. apply andb_prop in RC. destruct RC as [Z1 Z2].
    assert (OK : tm_ok 1 7 e [c] (xev revx vals) rev_tm).
    { unfold rev_tm. cbv zeta.
      assert (O2 := xt_ok 1 7 e [c] [1 # 10; 1%Q] eq_refl FB _ _ (Forall2_cons _ _ O0 (Forall2_cons _ _ O1 (Forall2_nil _))) shiftx).
      assert (O3 := xt_ok 1 7 e [c] [1 # 10; 1%Q] eq_refl FB _ _ (Forall2_cons _ _ O0 (Forall2_cons _ _ O1 (Forall2_cons _ _ O2 (Forall2_nil _)))) wx).
      assert (O4 := xt_ok 1 7 e [c] [1 # 10; 1%Q] eq_refl FB _ _ (Forall2_cons _ _ O3 (Forall2_nil _)) (Pow (X 0) 2)).
      assert (O5 := xt_ok 1 7 e [c] [1 # 10; 1%Q] eq_refl FB _ _ (Forall2_cons _ _ O3 (Forall2_nil _)) (Pow (X 0) 3)).
      assert (EW : xev wx [e; c; xev shiftx [e; c]] = w).
      { unfold wx, one, w, env. cbn [xev nth]. field. }
      apply (xt_ok 1 7 e [c] [1 # 10; 1%Q] eq_refl FB vals).
      unfold vals, env. rewrite EW in O3, O4, O5.
      apply Forall2_cons; [exact O0|]. apply Forall2_cons; [exact O1|]. apply Forall2_cons; [exact O2|].
      apply Forall2_cons; [exact O3|]. apply Forall2_cons; [exact O4|]. apply Forall2_cons; [exact O5|]. apply Forall2_nil. }
    pose proof (cut_small 1 7 e [c] _ _ 274 OK Z1 Z2) as RE. rewrite q2r in RE. exact RE. }
  unfold revx in RE. cbn [xev] in RE. change (nth 2 vals 0) with (xev shiftx env) in RE.
  set (cx := xev (compx 0 (X 1) (X 2) (X 3) (X 4) (X 5) (C1x (X 0))) vals) in *.
  replace (t + del + sines 0 (C1 e) (t + del) - t) with (sin (2 * t) * (xev shiftx env + cx) + (sines 0 (C1 e) (t + del) - sin (2 * t) * cx)) by (unfold del; ring).
  eapply Rle_trans; [apply Rabs_triang|]. rewrite Rabs_mult.
  pose proof (C1_sum e c HE HC) as AS. rewrite C1x_spec in AS. fold env in AS. change (xev (X 0) env) with e in AS.
  replace ((8 * Rabs e) ^ 7) with (2097152 * Rabs e ^ 7) in CE by ring.
  pose proof (pow_le (Rabs e) 7 (Rabs_pos e)) as P7. set (z := Rabs e ^ 7) in *.
  pose proof (Rabs_pos (sin (2 * t))) as S0. pose proof (Rabs_pos (xev shiftx env + cx)) as S1.
  assert (Q1 : Rabs (sin (2 * t)) * Rabs (xev shiftx env + cx) <= 1 * (274 / 1 * z)) by (apply Rmult_le_compat; assumption).
  assert (Q2 : 2097152 * z / 4000 * asum (C1 e) <= 2097152 * z / 4000 * (56 / 1000)).
  { apply Rmult_le_compat_l; [lra|]. lra. }
  lra.
Qed.
