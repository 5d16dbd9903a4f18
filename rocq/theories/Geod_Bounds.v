(** Bounds for the errors of the truncated series. *)
From Coq Require Import List ZArith QArith Qreals Reals Lra Lia Bool.
From Coquelicot Require Import Coquelicot.
From Verif Require Import Geod_Model Geod_Spec Geod_Poly Geod_Forward Geod_Series.
Import ListNotations.
Open Scope R_scope.

(* ---- the coefficients as expressions *)
Definition mx (a : Z) (b : positive) (e : ex) (n : nat) : ex := Mul (K a b) (Pow e n).
Definition one : ex := K 1 1.
Definition A1x (e : ex) : ex := Add (Add (Add one (mx 1 4 e 2)) (mx 1 64 e 4)) (mx 1 256 e 6).
Definition C1x (e : ex) : list ex :=
  [Add (Add (mx (-1) 2 e 1) (mx 3 16 e 3)) (mx (-1) 32 e 5);
   Add (Add (mx (-1) 16 e 2) (mx 1 32 e 4)) (mx (-9) 2048 e 6);
   Add (mx (-1) 48 e 3) (mx 3 256 e 5);
   Add (mx (-5) 512 e 4) (mx 3 512 e 6);
   mx (-7) 1280 e 5;
   mx (-7) 2048 e 6].
Definition C1px (e : ex) : list ex :=
  [Add (Add (mx 1 2 e 1) (mx (-9) 32 e 3)) (mx 205 1536 e 5);
   Add (Add (mx 5 16 e 2) (mx (-37) 96 e 4)) (mx 1335 4096 e 6);
   Add (mx 29 96 e 3) (mx (-75) 128 e 5);
   Add (mx 539 1536 e 4) (mx (-2391) 2560 e 6);
   mx 3467 7680 e 5;
   mx 38081 61440 e 6].
Definition A2x (e : ex) : ex := Add (Add (Add one (mx 1 4 e 2)) (mx 9 64 e 4)) (mx 25 256 e 6).
Definition C2x (e : ex) : list ex :=
  [Add (Add (mx 1 2 e 1) (mx 1 16 e 3)) (mx 1 32 e 5);
   Add (Add (mx 3 16 e 2) (mx 1 32 e 4)) (mx 35 2048 e 6);
   Add (mx 5 48 e 3) (mx 5 256 e 5);
   Add (mx 35 512 e 4) (mx 7 512 e 6);
   mx 63 1280 e 5;
   mx 77 2048 e 6].
(** a + b n + c n^2 *)
Definition qx (n : ex) (a b c : Z * positive) : ex :=
  Add (K (fst a) (snd a)) (Add (mx (fst b) (snd b) n 1) (mx (fst c) (snd c) n 2)).
Definition tx (n e : ex) (a b c : Z * positive) (k : nat) : ex := Mul (qx n a b c) (Pow e k).
Definition o : Z * positive := (0%Z, 1%positive).
Definition A3x (n e : ex) : ex :=
  Add one (Add (tx n e ((-1)%Z, 2%positive) (1%Z, 2%positive) o 1)
   (Add (tx n e ((-1)%Z, 4%positive) ((-1)%Z, 8%positive) (3%Z, 8%positive) 2)
   (Add (tx n e ((-1)%Z, 16%positive) ((-3)%Z, 16%positive) ((-1)%Z, 16%positive) 3)
   (Add (tx n e ((-3)%Z, 64%positive) ((-1)%Z, 32%positive) o 4) (tx n e ((-3)%Z, 128%positive) o o 5))))).
Definition C3x (n e : ex) : list ex :=
  [Add (tx n e (1%Z, 4%positive) ((-1)%Z, 4%positive) o 1)
   (Add (tx n e (1%Z, 8%positive) o ((-1)%Z, 8%positive) 2)
   (Add (tx n e (3%Z, 64%positive) (3%Z, 64%positive) ((-1)%Z, 64%positive) 3)
   (Add (tx n e (5%Z, 128%positive) (1%Z, 64%positive) o 4) (tx n e (3%Z, 128%positive) o o 5))));
   Add (tx n e (1%Z, 16%positive) ((-3)%Z, 32%positive) (1%Z, 32%positive) 2)
   (Add (tx n e (3%Z, 64%positive) ((-1)%Z, 32%positive) ((-3)%Z, 64%positive) 3)
   (Add (tx n e (3%Z, 128%positive) (1%Z, 128%positive) o 4) (tx n e (5%Z, 256%positive) o o 5)));
   Add (tx n e (5%Z, 192%positive) ((-3)%Z, 64%positive) (5%Z, 192%positive) 3)
   (Add (tx n e (3%Z, 128%positive) ((-5)%Z, 192%positive) o 4) (tx n e (7%Z, 512%positive) o o 5));
   Add (tx n e (7%Z, 512%positive) ((-7)%Z, 256%positive) o 4) (tx n e (7%Z, 512%positive) o o 5);
   tx n e (21%Z, 2560%positive) o o 5].

Ltac same := repeat (apply f_equal2; [cbn [xev fst snd]; field|]); reflexivity.
Lemma A1x_spec : forall e env, xev (A1x e) env = (1 - xev e env) * A1 (xev e env) \/ xev e env = 1.
Proof.
  intros e env. destruct (Req_dec (xev e env) 1); [right; assumption|left]. unfold A1x, A1, one, mx. cbn [xev]. field. lra.
Qed.
Lemma C1x_spec : forall e env, map (fun t => xev t env) (C1x e) = C1 (xev e env).
Proof. intros e env. unfold C1x, C1, mx. cbn [map]. same. Qed.
Lemma C1px_spec : forall e env, map (fun t => xev t env) (C1px e) = C1p (xev e env).
Proof. intros e env. unfold C1px, C1p, mx. cbn [map]. same. Qed.
Lemma A2x_spec : forall e env, (1 - xev e env) * xev (A2x e) env = A2 (xev e env).
Proof. intros e env. unfold A2x, A2, one, mx. cbn [xev]. field. Qed.
Lemma C2x_spec : forall e env, map (fun t => xev t env) (C2x e) = C2 (xev e env).
Proof. intros e env. unfold C2x, C2, mx. cbn [map]. same. Qed.
Lemma A3x_spec : forall n e env, xev (A3x n e) env = A3 (xev n env) (xev e env).
Proof. intros n e env. unfold A3x, A3, one, tx, qx, mx, o. cbn [xev fst snd]. field. Qed.
Lemma C3x_spec : forall n e env, map (fun t => xev t env) (C3x n e) = C3 (xev n env) (xev e env).
Proof. intros n e env. unfold C3x, C3, tx, qx, mx, o. cbn [map]. same. Qed.

(* ---- the length of a geodesic *)
Definition P1x (e c : ex) : ex := Mul (A1x e) (Add one (dsumx 0 c (C1x e))).
Definition rootx (e c : ex) : ex := Add (Sub one (Mul (Mul (K 2 1) e) c)) (Pow e 2).
Lemma P1_check : small_check 1 7 (Sub (Pow (P1x (X 0) (X 1)) 2) (rootx (X 0) (X 1))) (1 # 10) [1%Q] 21 = true.
Proof. vm_compute. reflexivity. Qed.
Lemma P1_bound : bound_check 2 (Sub (P1x (X 0) (X 1)) one) [1 # 10; 1%Q] (1 # 2) = true.
Proof. vm_compute. reflexivity. Qed.
Lemma q2r : forall a b, Q2R (a # b) = IZR a / IZR (Zpos b). Proof. reflexivity. Qed.
Ltac f2 := repeat (apply Forall2_cons; [rewrite ?q2r; lra|]); apply Forall2_nil.
Lemma P1_root : forall e c, Rabs e <= 1 / 10 -> Rabs c <= 1 -> let p := xev (P1x (X 0) (X 1)) [e; c] in
  Rabs (p - root e c) <= 15 * Rabs e ^ 7 /\ 1 / 2 <= p <= 3 / 2.
Proof.
  intros e c HE HC p. destruct (root_pos e c HE HC) as (R1 & R2 & _).
  assert (B : 1 / 2 <= p <= 3 / 2).
  { pose proof (bounded 2 _ _ _ [e; c] P1_bound eq_refl) as B. cbn [xev] in B. fold p in B. rewrite q2r in B.
    assert (X : Rabs (p - xev one [e; c]) <= 1 / 2). { apply B. f2. }
    unfold one in X. cbn [xev] in X. apply Rabs_le_between in X. lra. }
  split; [|exact B].
  pose proof (small 1 7 _ _ _ _ e [c] P1_check eq_refl) as S. rewrite q2r in S. specialize (S HE).
  assert (F : Forall2 (fun x q => Rabs x <= Q2R q) [c] [1%Q]) by f2. specialize (S F).
  cbn [xev] in S. fold p in S. unfold rootx, one in S. cbn [xev nth] in S.
  replace (IZR 1 / IZR 1 - IZR 2 / IZR 1 * e * c + e ^ 2) with (root e c * root e c) in S by (rewrite R2; field).
  replace (p ^ 2 - root e c * root e c) with ((p - root e c) * (p + root e c)) in S by ring.
  rewrite Rabs_mult, (Rabs_right (p + root e c)) in S by lra. rewrite q2r in S.
  pose proof (pow_le (Rabs e) 7 (Rabs_pos e)). pose proof (Rabs_pos (p - root e c)). nra.
Qed.
(** The derivative of the series. *)
Lemma I1_derive : forall e s, is_derive (I1 e) s (A1 e * (1 + dsines 0 (C1 e) s)).
Proof.
  intros e s. unfold I1. apply is_derive_scal.
  apply (is_derive_plus (K := R_AbsRing) (V := R_NormedModule)); [apply (is_derive_id (K := R_AbsRing))|apply sines_derive].
Qed.
Lemma I1_speed : forall a b C s, 0 < a -> 0 < b -> C ^ 2 <= 1 -> Rabs (third a b) <= 1 / 10 -> let e := epsilon a b C in
  Rabs (b * (A1 e * (1 + dsines 0 (C1 e) s)) - speed a b C s) <= 17 * b * Rabs e ^ 7.
Proof.
  intros a b C s PA PB HC HT e. destruct (epsilon_spec a b C PA PB HC) as (E1 & E2 & _). fold e in E1, E2.
  rewrite (speed_root a b C s PA PB HC). fold e.
  assert (HE : Rabs e <= 1 / 10) by lra. assert (HK : Rabs (cos (2 * s)) <= 1) by (apply Rabs_le; pose proof (COS_bound (2 * s)); lra).
  destruct (P1_root e (cos (2 * s)) HE HK) as [B _]. cbv zeta in B. set (env := [e; cos (2 * s)]) in *.
  assert (PE : xev (P1x (X 0) (X 1)) env = (1 - e) * (A1 e * (1 + dsines 0 (C1 e) s))).
  { unfold P1x. cbn [xev]. rewrite <- (dsines_poly (C1x (X 0)) (X 1) env s eq_refl), C1x_spec.
    destruct (A1x_spec (X 0) env) as [->|Z]; [|exfalso; change (e = 1) in Z; lra]. unfold one, env. cbn [xev nth]. field. }
  rewrite PE in B.
  replace (b * (A1 e * (1 + dsines 0 (C1 e) s)) - b * root e (cos (2 * s)) / (1 - e))
    with (b / (1 - e) * ((1 - e) * (A1 e * (1 + dsines 0 (C1 e) s)) - root e (cos (2 * s)))) by (field; lra).
  rewrite Rabs_mult. apply Rabs_le_between in HE.
  assert (Q : 0 < / (1 - e) <= 10 / 9).
  { split; [apply Rinv_0_lt_compat; lra|]. replace (10 / 9) with (/ (9 / 10)) by field. apply Rinv_le_contravar; lra. }
  unfold Rdiv. rewrite (Rabs_right (b * / (1 - e))) by (apply Rle_ge, Rmult_le_pos; lra).
  pose proof (pow_le (Rabs e) 7 (Rabs_pos e)) as P7. set (z := Rabs e ^ 7) in *. set (t := Rabs ((1 - e) * _ - _)) in *.
  assert (0 <= t) by apply Rabs_pos. 
  apply Rle_trans with (b * (10 / 9) * (15 * z)); [|nra].
  apply Rmult_le_compat; [apply Rmult_le_pos; lra|assumption|apply Rmult_le_compat_l; lra|assumption].
Qed.

(* ---- the longitude *)
Lemma P1x_val : forall ee ec env s, xev ec env = cos (2 * s) -> xev ee env <> 1 ->
  xev (P1x ee ec) env = (1 - xev ee env) * (A1 (xev ee env) * (1 + dsines 0 (C1 (xev ee env)) s)).
Proof.
  intros ee ec env s HC HE. unfold P1x. cbn [xev]. rewrite <- (dsines_poly (C1x ee) ec env s HC), C1x_spec.
  destruct (A1x_spec ee env) as [->|Z]; [|exfalso; exact (HE Z)]. unfold one. cbn [xev]. field.
Qed.
Definition P3x (n e c : ex) : ex := Mul (A3x n e) (Add one (dsumx 0 c (C3x n e))).
Lemma P3x_val : forall en ee ec env s, xev ec env = cos (2 * s) ->
  xev (P3x en ee ec) env = A3 (xev en env) (xev ee env) * (1 + dsines 0 (C3 (xev en env) (xev ee env)) s).
Proof.
  intros en ee ec env s HC. unfold P3x. cbn [xev]. rewrite <- (dsines_poly (C3x en ee) ec env s HC), C3x_spec, A3x_spec.
  unfold one. cbn [xev]. field.
Qed.
Definition lagx (n e c : ex) : ex :=
  Sub (Mul (P3x n e c) (Add (Mul (Add one n) (Sub one e)) (Mul (Sub one n) (P1x e c)))) (Mul (K 2 1) (Sub one e)).
Lemma P3_check : small_check 2 6 (lagx (X 0) (Mul (X 0) (X 1)) (X 2)) (1 # 10) [1%Q; 1%Q] 53 = true.
Proof. vm_compute. reflexivity. Qed.
Lemma P3_bound : bound_check 3 (Sub (P3x (X 0) (Mul (X 0) (X 1)) (X 2)) one) [1 # 10; 1%Q; 1%Q] (1 # 4) = true.
Proof. vm_compute. reflexivity. Qed.
Lemma I3_derive : forall n e s, is_derive (I3 n e) s (A3 n e * (1 + dsines 0 (C3 n e) s)).
Proof.
  intros n e s. unfold I3. apply is_derive_scal.
  apply (is_derive_plus (K := R_AbsRing) (V := R_NormedModule)); [apply (is_derive_id (K := R_AbsRing))|apply sines_derive].
Qed.
Lemma ratio : forall n e, Rabs e <= Rabs n -> exists u, e = n * u /\ Rabs u <= 1.
Proof.
  intros n e H. destruct (Req_dec n 0) as [Z|Z].
  - exists 0. rewrite Rabs_R0. subst. rewrite Rabs_R0 in H. split; [|lra]. pose proof (Rabs_pos e).
    assert (Rabs e = 0) by lra. destruct (Req_dec e 0) as [->|N]; [ring|]. exfalso. apply (Rabs_no_R0 e N). assumption.
  - exists (e / n). split; [field; exact Z|]. unfold Rdiv. rewrite Rabs_mult, Rabs_inv by exact Z.
    pose proof (Rabs_pos_lt n Z) as P. apply (Rmult_le_reg_r (Rabs n)); [exact P|].
    replace (Rabs e * / Rabs n * Rabs n) with (Rabs e) by (field; lra). lra.
Qed.
Lemma I3_lag : forall a b C s, 0 < a -> 0 < b -> C ^ 2 <= 1 -> Rabs (third a b) <= 1 / 10 ->
  let e := epsilon a b C in let n := third a b in
  Rabs (A3 n e * (1 + dsines 0 (C3 n e) s) - (a + b) / (a + speed a b C s)) <= 35 * Rabs n ^ 6.
Proof.
  intros a b C s PA PB HC HT e n. destruct (epsilon_spec a b C PA PB HC) as (E1 & E2 & _). fold e in E1, E2. fold n in E2, HT.
  set (c := cos (2 * s)).
  assert (HE : Rabs e <= 1 / 10) by lra. assert (HK : Rabs c <= 1) by (apply Rabs_le; pose proof (COS_bound (2 * s)); unfold c; lra).
  destruct (ratio n e E2) as (u & EU & HU). destruct (root_pos e c HE HK) as (R1 & R2 & R3).
  set (q := root e c) in *. set (d := (1 + n) * (1 - e) + (1 - n) * q).
  assert (TE : (a + b) / (a + speed a b C s) = 2 * (1 - e) / d).
  { rewrite (speed_root a b C s PA PB HC). fold e. fold c. fold q. unfold d, n, third.
    assert (0 < b * q) by nra. assert (0 < a * (1 - e)) by nra. field. split; [|split]; [|lra|lra].
    replace ((a + b + (a - b)) * (1 - e) + (a + b - (a - b)) * q) with (2 * (a * (1 - e) + b * q)) by ring. lra. }
  rewrite TE. set (env := [n; u; c]).
  set (P3 := A3 n e * (1 + dsines 0 (C3 n e) s)). set (P1 := (1 - e) * (A1 e * (1 + dsines 0 (C1 e) s))).
  assert (EE : xev (Mul (X 0) (X 1)) env = e) by (unfold env; cbn [xev nth]; lra).
  assert (EC : xev (X 2) env = c) by reflexivity. assert (EN : xev (X 0) env = n) by reflexivity.
  assert (V1 : xev (P1x (Mul (X 0) (X 1)) (X 2)) env = P1).
  { rewrite (P1x_val _ _ env s EC), EE by (rewrite EE; lra). reflexivity. }
  assert (V3 : xev (P3x (X 0) (Mul (X 0) (X 1)) (X 2)) env = P3).
  { rewrite (P3x_val _ _ _ env s EC), EE, EN. reflexivity. }
  assert (B1 : Rabs (P1 - q) <= 15 * Rabs e ^ 7).
  { destruct (P1_root e c HE HK) as [B _]. cbv zeta in B. rewrite (P1x_val (X 0) (X 1) [e; c] s eq_refl) in B by (cbn [xev nth]; lra).
    cbn [xev nth] in B. exact B. }
  assert (B3 : Rabs P3 <= 5 / 4).
  { pose proof (bounded 3 _ _ _ env P3_bound eq_refl) as B. cbn [xev] in B. rewrite V3 in B. unfold one in B. cbn [xev] in B. rewrite q2r in B.
    assert (W : Rabs (P3 - 1 / 1) <= 1 / 4). { apply B. unfold env. f2. }
    apply Rabs_le_between in W. apply Rabs_le. lra. }
  assert (BL : Rabs (P3 * ((1 + n) * (1 - e) + (1 - n) * P1) - 2 * (1 - e)) <= 53 * Rabs n ^ 6).
  { pose proof (small 2 6 _ _ _ _ n [u; c] P3_check eq_refl) as B. rewrite !q2r in B. specialize (B HT).
    assert (F : Forall2 (fun x q => Rabs x <= Q2R q) [u; c] [1%Q; 1%Q]) by f2. specialize (B F).
    fold env in B. unfold lagx in B. cbn [xev] in B. rewrite V1, V3 in B. unfold one in B. cbn [xev] in B.
    change (nth 0 env 0 * nth 1 env 0) with (n * u) in B. change (nth 0 env 0) with n in B. rewrite <- EU in B.
    replace (53 * Rabs n ^ 6) with (53 / 1 * Rabs n ^ 6) by field. eapply Rle_trans; [|exact B]. right. f_equal. field. }
  apply Rabs_le_between in HT. apply Rabs_le_between in HE.
  assert (PD : 162 / 100 <= d) by (unfold d; nra).
  assert (N7 : Rabs e ^ 7 <= 1 / 10 * Rabs n ^ 6).
  { change (Rabs e ^ 7) with (Rabs e * Rabs e ^ 6). pose proof (Rabs_pos e). pose proof (Rabs_pos n).
    apply Rmult_le_compat; [assumption|apply pow_le; assumption|apply Rabs_le; lra|apply pow_incr; split; assumption]. }
  assert (KEY : Rabs (P3 * d - 2 * (1 - e)) <= 56 * Rabs n ^ 6).
  { replace (P3 * d - 2 * (1 - e)) with (P3 * ((1 + n) * (1 - e) + (1 - n) * P1) - 2 * (1 - e) - P3 * ((1 - n) * (P1 - q))) by (unfold d; ring).
    eapply Rle_trans; [apply Rabs_triang|]. rewrite Rabs_Ropp, !Rabs_mult, (Rabs_right (1 - n)) by lra.
    set (z := Rabs n ^ 6) in *. assert (0 <= z) by (apply pow_le, Rabs_pos).
    assert (Rabs P3 * ((1 - n) * Rabs (P1 - q)) <= 5 / 4 * (11 / 10 * (15 * (1 / 10 * z)))); [|lra].
    pose proof (Rabs_pos (P1 - q)).
    apply Rmult_le_compat; [apply Rabs_pos|apply Rmult_le_pos; lra|exact B3|].
    apply Rmult_le_compat; lra. }
  replace (P3 - 2 * (1 - e) / d) with ((P3 * d - 2 * (1 - e)) / d) by (field; lra).
  unfold Rdiv. rewrite Rabs_mult, (Rabs_right (/ d)) by (apply Rle_ge, Rlt_le, Rinv_0_lt_compat; lra).
  assert (Q : 0 < / d <= 100 / 162).
  { split; [apply Rinv_0_lt_compat; lra|]. replace (100 / 162) with (/ (162 / 100)) by field. apply Rinv_le_contravar; lra. }
  set (z := Rabs n ^ 6) in *. assert (0 <= z) by (apply pow_le, Rabs_pos). pose proof (Rabs_pos (P3 * d - 2 * (1 - e))). nra.
Qed.

(* ---- integrals *)
Lemma integral_error : forall (F dF g : R -> R) M s1 s2, (forall s, is_derive F s (dF s)) -> (forall s, continuous g s) ->
  (forall s, Rabs (dF s - g s) <= M) -> Rabs (F s2 - F s1 - RInt g s1 s2) <= M * Rabs (s2 - s1).
Proof.
  intros F dF g M s1 s2 HF HG B.
  assert (EX : forall x y, ex_RInt g x y) by (intros x y; apply (ex_RInt_continuous (V := R_CompleteNormedModule)); intros; apply HG).
  assert (HD : forall s, is_derive (fun s => F s - RInt g s1 s) s (dF s - g s)).
  { intros s. apply (is_derive_minus (K := R_AbsRing) (V := R_NormedModule)); [apply HF|].
    apply (is_derive_RInt g (fun s => RInt g s1 s) s1 s); [|apply HG].
    apply filter_forall. intros y. apply (RInt_correct g). apply EX. }
  destruct (MVT_gen (fun s => F s - RInt g s1 s) s1 s2 (fun s => dF s - g s)) as (c & _ & E).
  - intros x _. apply HD.
  - intros x _. apply continuity_pt_filterlim. apply (ex_derive_continuous (K := R_AbsRing) (V := R_NormedModule) (fun s => F s - RInt g s1 s)). eexists. apply HD.
  - cbv beta in E. rewrite RInt_point in E. change (zero : R) with 0 in E.
    replace (F s2 - F s1 - RInt g s1 s2) with (F s2 - RInt g s1 s2 - (F s1 - 0)) by ring. rewrite E, Rabs_mult.
    apply Rmult_le_compat_r; [apply Rabs_pos|apply B].
Qed.
Lemma speed_pos : forall a b C s, 0 < a -> 0 < b -> C ^ 2 <= 1 -> 0 < b ^ 2 + (a ^ 2 - b ^ 2) * C ^ 2 * sin s ^ 2.
Proof.
  intros a b C s PA PB HC. pose proof (sc s) as X. pose proof (pow2_ge_0 C) as C0. pose proof (pow2_ge_0 (sin s)) as S0.
  assert (S1 : sin s ^ 2 <= 1) by (rewrite sq2; pose proof (Rle_0_sqr (cos s)); unfold Rsqr in *; lra).
  set (z := C ^ 2 * sin s ^ 2). assert (Z : 0 <= z <= 1) by (unfold z; split; nra).
  replace (b ^ 2 + (a ^ 2 - b ^ 2) * C ^ 2 * sin s ^ 2) with (a ^ 2 * z + b ^ 2 * (1 - z)) by (unfold z; ring).
  pose proof (pow_lt a 2 PA). pose proof (pow_lt b 2 PB). destruct (Req_dec z 0) as [->|]; [lra|].
  assert (0 < a ^ 2 * z) by nra. nra.
Qed.
Lemma speed_continuous : forall a b C s, 0 < a -> 0 < b -> C ^ 2 <= 1 -> continuous (speed a b C) s.
Proof.
  intros a b C s PA PB HC. apply (ex_derive_continuous (K := R_AbsRing) (V := R_NormedModule)). unfold speed.
  auto_derive. pose proof (speed_pos a b C s PA PB HC) as P. exact P.
Qed.
Lemma lag_continuous : forall a b S C s, 0 < a -> 0 < b -> C ^ 2 <= 1 -> continuous (lag a b S C) s.
Proof.
  intros a b S C s PA PB HC. apply (ex_derive_continuous (K := R_AbsRing) (V := R_NormedModule)). unfold lag, speed.
  auto_derive. pose proof (speed_pos a b C s PA PB HC) as P.
  split; [exact P|]. split; [|exact Logic.I]. apply Rgt_not_eq, Rmult_lt_0_compat; [exact PA|]. apply Rplus_lt_0_compat; [exact PA|exact (sqrt_lt_R0 _ P)].
Qed.
Lemma length_error : forall a b C s1 s2, 0 < a -> 0 < b -> C ^ 2 <= 1 -> Rabs (third a b) <= 1 / 10 -> let e := epsilon a b C in
  Rabs (I1 e s2 * b - I1 e s1 * b - geodesic_length a b C s1 s2) <= 17 * b * Rabs e ^ 7 * Rabs (s2 - s1).
Proof.
  intros a b C s1 s2 PA PB HC HT e. unfold geodesic_length.
  pose proof (integral_error (fun s => b * I1 e s) (fun s => b * (A1 e * (1 + dsines 0 (C1 e) s))) (speed a b C) (17 * b * Rabs e ^ 7) s1 s2) as H.
  cbv beta in H. replace (I1 e s2 * b - I1 e s1 * b) with (b * I1 e s2 - b * I1 e s1) by ring. apply H.
  - intros s. apply is_derive_scal, I1_derive.
  - intros s. apply speed_continuous; assumption.
  - intros s. apply (I1_speed a b C s); assumption.
Qed.
Lemma lag_error : forall a b S C s1 s2, 0 < a -> 0 < b -> S ^ 2 + C ^ 2 = 1 -> Rabs (third a b) <= 1 / 10 ->
  let e := epsilon a b C in let n := third a b in let f := flattening a b in
  Rabs (f * S * (I3 n e s2 - I3 n e s1) - RInt (lag a b S C) s1 s2) <= 35 * Rabs f * Rabs S * Rabs n ^ 6 * Rabs (s2 - s1).
Proof.
  intros a b S C s1 s2 PA PB HN HT e n f. assert (HC : C ^ 2 <= 1) by (pose proof (pow2_ge_0 S); lra).
  pose proof (integral_error (fun s => f * S * I3 n e s) (fun s => f * S * (A3 n e * (1 + dsines 0 (C3 n e) s))) (lag a b S C)
    (35 * Rabs f * Rabs S * Rabs n ^ 6) s1 s2) as H.
  cbv beta in H. replace (f * S * (I3 n e s2 - I3 n e s1)) with (f * S * I3 n e s2 - f * S * I3 n e s1) by ring. apply H.
  - intros s. apply is_derive_scal, I3_derive.
  - intros s. apply lag_continuous; assumption.
  - intros s. assert (E : lag a b S C s = f * S * ((a + b) / (a + speed a b C s))).
    { unfold lag, f, flattening. pose proof (sqrt_pos (b ^ 2 + (a ^ 2 - b ^ 2) * C ^ 2 * sin s ^ 2)) as P. unfold speed. field. split; lra. }
    rewrite E, <- Rmult_minus_distr_l, !Rabs_mult. pose proof (I3_lag a b C s PA PB HC HT) as L. cbv zeta in L. fold e in L. fold n in L.
    pose proof (Rabs_pos f). pose proof (Rabs_pos S). set (z := Rabs (A3 n e * _ - _)) in *.
    replace (35 * Rabs f * Rabs S * Rabs n ^ 6) with (Rabs f * Rabs S * (35 * Rabs n ^ 6)) by ring.
    apply Rmult_le_compat_l; [apply Rmult_le_pos; assumption|exact L].
Qed.
