(** Polynomials in several variables with rational coefficients, computed by the kernel:
    enough to show that a polynomial has no terms of low order and to bound the rest. *)
From Coq Require Import List ZArith QArith Qreals Reals Lra Lia Bool.
Import ListNotations.
Open Scope R_scope.

(** Polynomials of [n] variables; the outermost list is by powers of the first one. *)
Fixpoint poly (n : nat) : Type := match n with O => Q | S m => list (poly m) end.
Fixpoint ev (n : nat) : poly n -> list R -> R :=
  match n with
  | O => fun p _ => Q2R p
  | S m => fun p env => match env with [] => 0 | x :: env' => fold_right (fun a acc => ev m a env' + x * acc) 0 p end
  end.
Fixpoint zipadd {A} (f : A -> A -> A) (p q : list A) : list A :=
  match p, q with [], _ => q | _, [] => p | a :: p', b :: q' => f a b :: zipadd f p' q' end.
Fixpoint padd (n : nat) : poly n -> poly n -> poly n :=
  match n with O => fun p q => Qred (p + q)%Q | S m => fun p q => zipadd (padd m) p q end.
Fixpoint pconst (n : nat) (c : Q) : poly n := match n with O => c | S m => [pconst m c] end.
Fixpoint pmul (n : nat) : poly n -> poly n -> poly n :=
  match n with
  | O => fun p q => Qred (p * q)%Q
  | S m => fun p q => fold_right (fun a acc => zipadd (padd m) (map (pmul m a) q) (pconst m 0 :: acc)) [] p
  end.
Fixpoint pvar (n i : nat) : poly n :=
  match n with
  | O => 0%Q
  | S m => match i with O => [pconst m 0; pconst m 1] | S j => [pvar m j] end
  end.
Fixpoint iszero (n : nat) : poly n -> bool :=
  match n with O => fun p => Qeq_bool p 0 | S m => fun p => forallb (iszero m) p end.
(** The value with all coefficients made positive, at bounds for the variables. *)
Fixpoint bound (n : nat) : poly n -> list Q -> Q :=
  match n with
  | O => fun p _ => Qabs.Qabs p
  | S m => fun p env => match env with [] => 0%Q | x :: env' => fold_right (fun a acc => Qred (bound m a env' + x * acc)%Q) 0%Q p end
  end.

Lemma ev_nil : forall m p, ev (S m) p [] = 0. Proof. reflexivity. Qed.
Lemma ev_cons : forall m a p x env, ev (S m) (a :: p) (x :: env) = ev m a env + x * ev (S m) p (x :: env). Proof. reflexivity. Qed.
Lemma Q2R_red : forall q, Q2R (Qred q) = Q2R q. Proof. intros q. apply Qeq_eqR, Qred_correct. Qed.
Lemma ev_zipadd : forall m, (forall p q env, ev m (padd m p q) env = ev m p env + ev m q env) ->
  forall p q x env, ev (S m) (zipadd (padd m) p q) (x :: env) = ev (S m) p (x :: env) + ev (S m) q (x :: env).
Proof.
  intros m H. induction p as [|a p IH]; intros [|b q] x env; cbn [zipadd];
    [cbn [ev fold_right]; ring|cbn [ev fold_right]; ring|cbn [ev fold_right]; ring|].
  rewrite !ev_cons, IH, H. ring.
Qed.
Lemma ev_add : forall n p q env, ev n (padd n p q) env = ev n p env + ev n q env.
Proof.
  induction n as [|m IH]; intros p q env.
  - cbn [ev padd]. rewrite Q2R_red. apply Q2R_plus.
  - destruct env as [|x env]; [rewrite !ev_nil; ring|]. cbn [padd]. apply ev_zipadd, IH.
Qed.
Lemma ev_const : forall n c env, length env = n -> ev n (pconst n c) env = Q2R c.
Proof.
  induction n as [|m IH]; intros c env L; [reflexivity|]. destruct env as [|x env]; [discriminate|].
  cbn [pconst]. rewrite ev_cons. cbn [ev fold_right]. rewrite IH by (cbn [length] in L; lia). ring.
Qed.
Lemma Q2R_0 : Q2R 0 = 0. Proof. unfold Q2R. cbn [Qnum Qden]. lra. Qed.
Lemma Q2R_1 : Q2R 1 = 1. Proof. unfold Q2R. cbn [Qnum Qden]. lra. Qed.
Lemma ev_mul : forall n p q env, length env = n -> ev n (pmul n p q) env = ev n p env * ev n q env.
Proof.
  induction n as [|m IH]; intros p q env L.
  - cbn [ev pmul]. rewrite Q2R_red. apply Q2R_mult.
  - destruct env as [|x env]; [discriminate|]. assert (L' : length env = m) by (cbn [length] in L; lia).
    cbn [pmul]. induction p as [|a p IHp].
    + cbn [fold_right ev]. ring.
    + cbn [fold_right]. rewrite (ev_zipadd m (ev_add m)), !ev_cons, IHp, (ev_const m 0 env L'), Q2R_0.
      assert (E : ev (S m) (map (pmul m a) q) (x :: env) = ev m a env * ev (S m) q (x :: env)).
      { clear - IH L'. induction q as [|b q IHq]; [cbn [map ev fold_right]; ring|]. cbn [map]. rewrite !ev_cons, IHq, IH by exact L'. ring. }
      rewrite E. ring.
Qed.
Lemma ev_var : forall n i env, length env = n -> (i < n)%nat -> ev n (pvar n i) env = nth i env 0.
Proof.
  induction n as [|m IH]; intros i env L H; [lia|]. destruct env as [|x env]; [discriminate|]. cbn [length] in L.
  destruct i as [|j]; cbn [pvar nth].
  - rewrite !ev_cons. cbn [ev fold_right]. rewrite !ev_const by lia. rewrite Q2R_0, Q2R_1. ring.
  - rewrite ev_cons. cbn [ev fold_right]. rewrite IH by lia. ring.
Qed.
Lemma ev_zero : forall n p env, iszero n p = true -> ev n p env = 0.
Proof.
  induction n as [|m IH]; intros p env H.
  - cbn [iszero] in H. cbn [ev]. apply Qeq_bool_iff in H. rewrite (Qeq_eqR _ _ H). apply Q2R_0.
  - destruct env as [|x env]; [reflexivity|]. cbn [iszero] in H. induction p as [|a p IHp]; [reflexivity|].
    cbn [forallb] in H. apply andb_prop in H as [A B]. rewrite ev_cons, IH, IHp by assumption. ring.
Qed.
Lemma ev_skip : forall m k p x env, forallb (iszero m) (firstn k p) = true ->
  ev (S m) p (x :: env) = x ^ k * ev (S m) (skipn k p) (x :: env).
Proof.
  intros m. induction k as [|k IH]; intros p x env H; [cbn [skipn pow]; ring|].
  destruct p as [|a p]; [cbn [skipn ev fold_right]; ring|]. cbn [firstn forallb] in H. apply andb_prop in H as [A B].
  rewrite ev_cons, (ev_zero m a env A), (IH p x env B). cbn [skipn pow]. ring.
Qed.
Lemma Q2R_abs : forall q, Q2R (Qabs.Qabs q) = Rabs (Q2R q).
Proof.
  intros [a b]. unfold Q2R. cbn [Qabs.Qabs Qnum Qden]. rewrite Rabs_mult, abs_IZR. f_equal.
  symmetry. apply Rabs_right. apply Rle_ge, Rlt_le, Rinv_0_lt_compat, IZR_lt. reflexivity.
Qed.
Lemma bound_spec : forall n p env B, Forall2 (fun x c => Rabs x <= Q2R c) env B -> Rabs (ev n p env) <= Q2R (bound n p B).
Proof.
  induction n as [|m IH]; intros p env B H.
  - cbn [ev bound]. rewrite Q2R_abs. lra.
  - destruct H as [|x c env B HX H]; [cbn [ev bound]; rewrite Rabs_R0, Q2R_0; lra|].
    induction p as [|a p IHp]; [cbn [ev bound fold_right]; rewrite Rabs_R0, Q2R_0; lra|].
    rewrite ev_cons. cbn [bound fold_right]. rewrite Q2R_red, Q2R_plus, Q2R_mult.
    fold (bound (S m) p (c :: B)) in *. pose proof (IH a env B H) as HA.
    eapply Rle_trans; [apply Rabs_triang|]. rewrite Rabs_mult.
    pose proof (Rabs_pos x). pose proof (Rabs_pos (ev (S m) p (x :: env))).
    cbn [bound] in IHp. apply Rplus_le_compat; [exact HA|]. apply Rmult_le_compat; try assumption.
Qed.
Lemma low_order : forall m k p x env X B K, forallb (iszero m) (firstn k p) = true ->
  Rabs x <= Q2R X -> Forall2 (fun x c => Rabs x <= Q2R c) env B -> Qle_bool (bound (S m) (skipn k p) (X :: B)) K = true ->
  Rabs (ev (S m) p (x :: env)) <= Q2R K * Rabs x ^ k.
Proof.
  intros m k p x env X B K Z HX H L. rewrite (ev_skip m k p x env Z), Rabs_mult, <- RPow_abs, Rmult_comm.
  apply Rmult_le_compat_r; [apply pow_le, Rabs_pos|]. apply Qle_bool_iff in L. apply Qle_Rle in L.
  eapply Rle_trans; [|exact L]. apply bound_spec. constructor; assumption.
Qed.

(* ---- expressions *)
Inductive ex := X (i : nat) | K (a : Z) (b : positive) | Add (e f : ex) | Sub (e f : ex) | Mul (e f : ex) | Pow (e : ex) (n : nat).
Fixpoint xev (e : ex) (env : list R) : R :=
  match e with
  | X i => nth i env 0
  | K a b => IZR a / IZR (Zpos b)
  | Add e f => xev e env + xev f env
  | Sub e f => xev e env - xev f env
  | Mul e f => xev e env * xev f env
  | Pow e n => xev e env ^ n
  end.
Fixpoint ppow (n : nat) (p : poly n) (k : nat) : poly n :=
  match k with O => pconst n 1 | S j => pmul n p (ppow n p j) end.
Fixpoint xp (n : nat) (e : ex) : poly n :=
  match e with
  | X i => pvar n i
  | K a b => pconst n (a # b)
  | Add e f => padd n (xp n e) (xp n f)
  | Sub e f => padd n (xp n e) (pmul n (pconst n (-1)) (xp n f))
  | Mul e f => pmul n (xp n e) (xp n f)
  | Pow e k => ppow n (xp n e) k
  end.
Fixpoint closed (n : nat) (e : ex) : bool :=
  match e with
  | X i => Nat.ltb i n
  | K _ _ => true
  | Add e f | Sub e f | Mul e f => closed n e && closed n f
  | Pow e _ => closed n e
  end.
Lemma xp_spec : forall n e env, length env = n -> closed n e = true -> ev n (xp n e) env = xev e env.
Proof.
  intros n e env L. induction e as [i|a b|e IHe f IHf|e IHe f IHf|e IHe f IHf|e IHe k]; cbn [closed xp xev]; intros H.
  - apply ev_var; [exact L|]. apply Nat.ltb_lt, H.
  - rewrite ev_const by exact L. reflexivity.
  - apply andb_prop in H as [A B]. rewrite ev_add, IHe, IHf by assumption. reflexivity.
  - apply andb_prop in H as [A B]. rewrite ev_add, ev_mul, ev_const, IHe, IHf by assumption. unfold Q2R. cbn [Qnum Qden]. lra.
  - apply andb_prop in H as [A B]. rewrite ev_mul, IHe, IHf by assumption. reflexivity.
  - induction k as [|k IHk]; cbn [ppow pow]; [rewrite ev_const by exact L; apply Q2R_1|].
    rewrite ev_mul, IHk, IHe by assumption. reflexivity.
Qed.
(** The check that an expression is of order [k] in its first variable, with the constant [C]. *)
Definition small_check (m k : nat) (e : ex) (Xb : Q) (B : list Q) (C : Q) : bool :=
  closed (S m) e && (let p := xp (S m) e in forallb (iszero m) (firstn k p) && Qle_bool (bound (S m) (skipn k p) (Xb :: B)) C).
Lemma small : forall m k e Xb B C x env, small_check m k e Xb B C = true -> length env = m ->
  Rabs x <= Q2R Xb -> Forall2 (fun x c => Rabs x <= Q2R c) env B -> Rabs (xev e (x :: env)) <= Q2R C * Rabs x ^ k.
Proof.
  intros m k e Xb B C x env H L HX HB. unfold small_check in H. apply andb_prop in H as [H1 H]. cbv zeta in H. apply andb_prop in H as [H2 H3].
  rewrite <- (xp_spec (S m)) by (cbn [length]; auto). apply (low_order m k _ x env Xb B C); assumption.
Qed.
(** A bound for a polynomial. *)
Definition bound_check (m : nat) (e : ex) (B : list Q) (C : Q) : bool :=
  closed m e && Qle_bool (bound m (xp m e) B) C.
Lemma bounded : forall m e B C env, bound_check m e B C = true -> length env = m ->
  Forall2 (fun x c => Rabs x <= Q2R c) env B -> Rabs (xev e env) <= Q2R C.
Proof.
  intros m e B C env H L HB. unfold bound_check in H. apply andb_prop in H as [H1 H2].
  rewrite <- (xp_spec m) by assumption. apply Qle_bool_iff in H2. apply Qle_Rle in H2.
  eapply Rle_trans; [|exact H2]. apply bound_spec, HB.
Qed.

(* ---- polynomials cut off at a power of the first variable, with a bound for the rest *)
Definition tm (m : nat) : Type := (poly (S m) * Q)%type.
Definition tm_ok (m N : nat) (x : R) (env : list R) (v : R) (t : tm m) : Prop :=
  Rabs (v - ev (S m) (fst t) (x :: env)) <= Q2R (snd t) * Rabs x ^ N.
Definition tadd (m : nat) (s t : tm m) : tm m := (padd (S m) (fst s) (fst t), Qred (snd s + snd t)).
Definition tsub (m : nat) (s t : tm m) : tm m := (padd (S m) (fst s) (pmul (S m) (pconst (S m) (-1)) (fst t)), Qred (snd s + snd t)).
(** The power of the bound of the first variable. *)
Fixpoint qpw (q : Q) (n : nat) : Q := match n with O => 1%Q | S k => Qred (q * qpw q k) end.
Definition headp (B : list Q) (n : nat) : Q := match B with [] => 1%Q | q :: _ => qpw q n end.
Lemma qpw_spec : forall q n, Q2R (qpw q n) = Q2R q ^ n.
Proof. intros q. induction n as [|n IH]; cbn [qpw pow]; [unfold Q2R; cbn; lra|]. rewrite Q2R_red, Q2R_mult, IH. reflexivity. Qed.
Definition tmul (m N : nat) (B : list Q) (s t : tm m) : tm m :=
  let p := pmul (S m) (fst s) (fst t) in
  (firstn N p, Qred (bound (S m) (skipn N p) B + bound (S m) (fst s) B * snd t + bound (S m) (fst t) B * snd s + snd s * snd t * headp B N)).
Fixpoint tpow (m N : nat) (B : list Q) (t : tm m) (k : nat) : tm m :=
  match k with O => (pconst (S m) 1, 0%Q) | S j => tmul m N B t (tpow m N B t j) end.
(** The variables stand for polynomials cut off in the same way. *)
Fixpoint xt (m N : nat) (B : list Q) (vs : list (tm m)) (e : ex) : tm m :=
  match e with
  | X i => nth i vs (pconst (S m) 0, 0%Q)
  | K a b => (pconst (S m) (a # b), 0%Q)
  | Add e f => tadd m (xt m N B vs e) (xt m N B vs f)
  | Sub e f => tsub m (xt m N B vs e) (xt m N B vs f)
  | Mul e f => tmul m N B (xt m N B vs e) (xt m N B vs f)
  | Pow e k => tpow m N B (xt m N B vs e) k
  end.
Lemma ev_cut : forall m k p x env, ev (S m) p (x :: env) = ev (S m) (firstn k p) (x :: env) + x ^ k * ev (S m) (skipn k p) (x :: env).
Proof.
  intros m. induction k as [|k IH]; intros p x env; [cbn [firstn skipn pow ev fold_right]; ring|].
  destruct p as [|a p]; [cbn [firstn skipn ev fold_right]; ring|]. cbn [firstn skipn pow]. rewrite !ev_cons, (IH p x env). ring.
Qed.
Section Cut.
  Variables (m N : nat) (x : R) (env : list R) (B : list Q).
  Hypothesis HL : length env = m.
  Hypothesis HB : Forall2 (fun x c => Rabs x <= Q2R c) (x :: env) B.
  Let ok := tm_ok m N x env.
  Lemma pow_one : 0 <= Rabs x ^ N <= Q2R (headp B N).
  Proof.
    split; [apply pow_le, Rabs_pos|]. inversion HB as [|a q l l' H1 H2 E1 E2]. subst. cbn [headp]. rewrite qpw_spec.
    apply pow_incr. split; [apply Rabs_pos|exact H1].
  Qed.
  Lemma tadd_ok : forall u v s t, ok u s -> ok v t -> ok (u + v) (tadd m s t).
  Proof.
    unfold ok, tm_ok, tadd. intros u v s t H1 H2. cbn [fst snd]. rewrite ev_add, Q2R_red, Q2R_plus.
    replace (u + v - (ev (S m) (fst s) (x :: env) + ev (S m) (fst t) (x :: env))) with ((u - ev (S m) (fst s) (x :: env)) + (v - ev (S m) (fst t) (x :: env))) by ring.
    eapply Rle_trans; [apply Rabs_triang|]. lra.
  Qed.
  Lemma tsub_ok : forall u v s t, ok u s -> ok v t -> ok (u - v) (tsub m s t).
  Proof.
    unfold ok, tm_ok, tsub. intros u v s t H1 H2. cbn [fst snd]. rewrite ev_add, ev_mul, ev_const, Q2R_red, Q2R_plus by (cbn [length]; auto).
    replace (Q2R (-1)) with (-1) by (unfold Q2R; cbn [Qnum Qden]; lra).
    replace (u - v - (ev (S m) (fst s) (x :: env) + -1 * ev (S m) (fst t) (x :: env))) with ((u - ev (S m) (fst s) (x :: env)) + - (v - ev (S m) (fst t) (x :: env))) by ring.
    eapply Rle_trans; [apply Rabs_triang|]. rewrite Rabs_Ropp. lra.
  Qed.
  Lemma tmul_ok : forall u v s t, ok u s -> ok v t -> ok (u * v) (tmul m N B s t).
  Proof.
    unfold ok, tm_ok, tmul. intros u v s t H1 H2. cbn [fst snd]. set (p := pmul (S m) (fst s) (fst t)).
    assert (E : ev (S m) p (x :: env) = ev (S m) (fst s) (x :: env) * ev (S m) (fst t) (x :: env)) by (apply ev_mul; cbn [length]; auto).
    pose proof (ev_cut m N p x env) as C. rewrite E in C.
    pose proof (bound_spec (S m) (skipn N p) (x :: env) B HB) as B0. pose proof (bound_spec (S m) (fst s) (x :: env) B HB) as B1.
    pose proof (bound_spec (S m) (fst t) (x :: env) B HB) as B2. rewrite Q2R_red, !Q2R_plus, !Q2R_mult.
    set (ps := ev (S m) (fst s) (x :: env)) in *. set (pt := ev (S m) (fst t) (x :: env)) in *.
    set (rs := Q2R (snd s)) in *. set (rt := Q2R (snd t)) in *. set (c := ev (S m) (skipn N p) (x :: env)) in *.
    set (b0 := Q2R (bound (S m) (skipn N p) B)) in *. set (b1 := Q2R (bound (S m) (fst s) B)) in *. set (b2 := Q2R (bound (S m) (fst t) B)) in *.
    replace (u * v - ev (S m) (firstn N p) (x :: env)) with (x ^ N * c + ps * (v - pt) + pt * (u - ps) + (u - ps) * (v - pt)) by lra.
    pose proof pow_one as PZ. set (z := Rabs x ^ N) in *.
    assert (T : forall w y r k, Rabs w <= k -> Rabs y <= r * z -> Rabs (w * y) <= k * r * z).
    { intros w y r k W Y. rewrite Rabs_mult, Rmult_assoc. apply Rmult_le_compat; auto using Rabs_pos. }
    assert (R1 : 0 <= rs * z) by (eapply Rle_trans; [apply Rabs_pos|exact H1]). assert (R2 : 0 <= rt * z) by (eapply Rle_trans; [apply Rabs_pos|exact H2]).
    assert (Q0 : Rabs (x ^ N * c) <= b0 * z).
    { rewrite Rabs_mult, <- RPow_abs. fold z. rewrite Rmult_comm. apply Rmult_le_compat_r; [lra|exact B0]. }
    assert (Q1 : Rabs (ps * (v - pt)) <= b1 * rt * z) by (apply T; assumption).
    assert (Q2 : Rabs (pt * (u - ps)) <= b2 * rs * z) by (apply T; assumption).
    assert (Q3 : Rabs ((u - ps) * (v - pt)) <= rs * rt * Q2R (headp B N) * z).
    { rewrite Rabs_mult. apply Rle_trans with ((rs * z) * (rt * z)); [apply Rmult_le_compat; auto using Rabs_pos|].
      destruct (Req_dec z 0) as [->|NZ]; [lra|]. assert (0 < z) by lra.
      assert (P1 : 0 <= rs) by (apply Rmult_le_reg_r with z; lra). assert (P2 : 0 <= rt) by (apply Rmult_le_reg_r with z; lra).
      pose proof (Rmult_le_pos _ _ P1 P2) as P3. replace (rs * z * (rt * z)) with (rs * rt * (z * z)) by ring. rewrite (Rmult_assoc (rs * rt) (Q2R (headp B N)) z). apply Rmult_le_compat_l; [exact P3|]. apply Rmult_le_compat_r; lra. }
    rewrite !Rmult_plus_distr_r.
    eapply Rle_trans; [apply Rabs_triang|]. apply Rplus_le_compat; [|assumption].
    eapply Rle_trans; [apply Rabs_triang|]. apply Rplus_le_compat; [|assumption].
    eapply Rle_trans; [apply Rabs_triang|]. apply Rplus_le_compat; assumption.
  Qed.
  Lemma tconst_ok : forall c, ok (Q2R c) (pconst (S m) c, 0%Q).
  Proof. intros c. unfold ok, tm_ok. cbn [fst snd]. rewrite ev_const by (cbn [length]; auto). rewrite Q2R_0, Rminus_diag_eq, Rabs_R0 by reflexivity. lra. Qed.
  Lemma xt_ok : forall vals vs, Forall2 ok vals vs -> forall e, ok (xev e vals) (xt m N B vs e).
  Proof.
    intros vals vs H. induction e as [i|a b|e IHe f IHf|e IHe f IHf|e IHe f IHf|e IHe k]; cbn [xt xev].
    - revert i. induction H as [|v t vals vs V _ IH]; intros i.
      + pose proof (tconst_ok 0) as T. rewrite Q2R_0 in T. destruct i; exact T.
      + destruct i as [|i]; [exact V|apply IH].
    - exact (tconst_ok (a # b)).
    - apply tadd_ok; assumption.
    - apply tsub_ok; assumption.
    - apply tmul_ok; assumption.
    - induction k as [|k IHk]; cbn [tpow pow]; [pose proof (tconst_ok 1) as T; rewrite Q2R_1 in T; exact T|]. apply tmul_ok; assumption.
  Qed.
  Lemma xp_ok : forall e, closed (S m) e = true -> ok (xev e (x :: env)) (xp (S m) e, 0%Q).
  Proof.
    intros e H. unfold ok, tm_ok. cbn [fst snd]. rewrite xp_spec by (cbn [length]; auto). rewrite Q2R_0, Rminus_diag_eq, Rabs_R0 by reflexivity. lra.
  Qed.
  (** No terms of low order, and the rest is bounded. *)
  Lemma cut_small : forall v t C, ok v t -> forallb (iszero m) (fst t) = true -> Qle_bool (snd t) C = true -> Rabs v <= Q2R C * Rabs x ^ N.
  Proof.
    intros v t C H Z L. unfold ok, tm_ok in H. pose proof (ev_zero (S m) (fst t) (x :: env) Z) as E. rewrite E, Rminus_0_r in H.
    apply Qle_bool_iff in L. apply Qle_Rle in L. eapply Rle_trans; [exact H|]. apply Rmult_le_compat_r; [apply pow_le, Rabs_pos|exact L].
  Qed.
End Cut.
