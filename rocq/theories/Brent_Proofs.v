(** Proofs about the bracketing root finder. *)
From Coq Require Import Reals Ranalysis5 Bool Arith Lia Lra.
From Verif Require Import Sphere_Model Sphere_Proofs Brent_Model.
Open Scope R_scope.

Definition inside (lo hi x : R) : Prop := lo <= x <= hi.
Record inv (f : R -> R) (lo hi : R) (st : brent_state) : Prop := Inv
  { inv_a : inside lo hi (st_a st); inv_b : inside lo hi (st_b st);
    inv_sign : f (st_a st) * f (st_b st) < 0; inv_val : st_fa st * st_fb st < 0 }.

Lemma neg_ne : forall x y, x * y < 0 -> x <> 0 /\ y <> 0 /\ x <> y.
Proof. intros x y H. repeat split; intros ->; nra. Qed.
Lemma trial_some : forall f st, st_fa st * st_fb st < 0 -> exists s, trial f st = Some s.
Proof.
  intros f st H. destruct (neg_ne _ _ H) as (A & B & D). unfold trial.
  destruct (req (st_fa st) (f (st_c st))) eqn:E1; cbn [negb andb].
  - rewrite (proj2 (req_f _ _)) by lra. eauto.
  - apply req_f in E1. destruct (req (st_fb st) (f (st_c st))) eqn:E2; cbn [negb].
    + rewrite (proj2 (req_f _ _)) by lra. eauto.
    + apply req_f in E2. rewrite !(proj2 (req_f _ _)); [cbn [orb]; eauto| | |]; apply Rmult_integral_contrapositive; split; lra.
Qed.
(** An accepted trial point, or the midpoint, is inside the bracket. *)
Definition next_point (st : brent_state) (s0 : R) : R :=
  if rejected st s0 then 5 / 10 * (st_a st + st_b st) else s0.
Lemma accepted_between : forall st s, rejected st s = false ->
  (1 / 4 * (3 * st_a st + st_b st) < s < st_b st) \/ (st_b st < s < 1 / 4 * (3 * st_a st + st_b st)).
Proof.
  intros st s H. unfold rejected in H. rewrite !orb_false_iff in H. destruct H as ((((H & _) & _) & _) & _).
  apply andb_false_iff in H. rewrite !negb_false_iff, !andb_true_iff, !rlt_t in H. destruct H; [left|right]; lra.
Qed.
Lemma next_inside : forall lo hi st s0, inside lo hi (st_a st) -> inside lo hi (st_b st) -> inside lo hi (next_point st s0).
Proof.
  intros lo hi st s0 A B. unfold inside, next_point in *. destruct (rejected st s0) eqn:E; [lra|].
  apply accepted_between in E. lra.
Qed.

(** What one pass leaves. *)
Definition good (f : R -> R) (lo hi tol : R) (r : brent_result) : Prop :=
  match r with
  | Root x => inside lo hi x /\ (f x = 0 \/ exists y, inside lo hi y /\ Rabs (x - y) < tol /\ f x * f y < 0)
  | TooManyIterations => True
  | _ => False
  end.
Lemma step_good : forall f lo hi tol st, inv f lo hi st ->
  match brent_step f tol st with inl r => good f lo hi tol r | inr st' => inv f lo hi st' end.
Proof.
  intros f lo hi tol st [A B SG V]. unfold brent_step. destruct (trial_some f st V) as (s0 & ->).
  pose proof (next_inside lo hi st s0 A B) as N. unfold next_point in N.
  set (s := if rejected st s0 then 5 / 10 * (st_a st + st_b st) else s0) in *.
  destruct (neg_ne _ _ SG) as (A0 & B0 & _).
  destruct (rlt (f (st_a st) * f s) 0) eqn:E.
  - apply rlt_t in E. destruct (neg_ne _ _ E) as (_ & S0 & _).
    destruct (rlt (Rabs (f (st_a st))) (Rabs (f s))).
    + rewrite (proj2 (req_f _ _)) by exact A0. rewrite (proj2 (req_f _ _)) by exact S0.
      destruct (rlt (Rabs (st_a st - s)) tol) eqn:E2.
      * apply rlt_t in E2. split; [exact A|]. right. exists s. auto.
      * split; cbn [st_a st_b st_fa st_fb]; auto; rewrite Rmult_comm; exact E.
    + rewrite (proj2 (req_f _ _)) by exact S0.
      destruct (rlt (Rabs (s - st_a st)) tol) eqn:E2.
      * apply rlt_t in E2. split; [exact N|]. right. exists (st_a st). rewrite Rmult_comm. auto.
      * split; cbn [st_a st_b st_fa st_fb]; auto.
  - apply rlt_f in E.
    destruct (req (f s) 0) eqn:F.
    + apply req_t in F. destruct (rlt (Rabs (f s)) (Rabs (f (st_b st)))) eqn:E2.
      * rewrite (proj2 (req_t _ _)) by exact F. split; [exact N|]. left. exact F.
      * rewrite (proj2 (req_f _ _)) by exact B0. split; [exact N|]. left. exact F.
    + apply req_f in F. assert (f s * f (st_b st) < 0) as P.
      { destruct (Rlt_le_dec 0 (f (st_a st))), (Rlt_le_dec 0 (f s)); nra. }
      destruct (rlt (Rabs (f s)) (Rabs (f (st_b st)))).
      * rewrite (proj2 (req_f _ _)) by exact F. destruct (rlt (Rabs (s - st_b st)) tol) eqn:E2.
        -- apply rlt_t in E2. split; [exact N|]. right. exists (st_b st). auto.
        -- split; cbn [st_a st_b st_fa st_fb]; auto; rewrite Rmult_comm; exact P.
      * rewrite (proj2 (req_f _ _)) by exact B0. destruct (rlt (Rabs (st_b st - s)) tol) eqn:E2.
        -- apply rlt_t in E2. split; [exact B|]. right. exists s. rewrite Rmult_comm. auto.
        -- split; cbn [st_a st_b st_fa st_fb]; auto.
Qed.
Lemma loop_good : forall f lo hi tol n st, inv f lo hi st -> good f lo hi tol (brent_loop f tol n st).
Proof.
  intros f lo hi tol. induction n as [|n IH]; intros st I; cbn [brent_loop]; [exact Logic.I|].
  pose proof (step_good f lo hi tol st I) as G. destruct (brent_step f tol st); auto.
Qed.
Lemma start_inv : forall f a b, f a * f b < 0 -> inv f (Rmin a b) (Rmax a b) (brent_start f a b).
Proof.
  intros f a b H. pose proof (Rmin_l a b). pose proof (Rmin_r a b). pose proof (Rmax_l a b). pose proof (Rmax_r a b).
  unfold brent_start. destruct (rlt (Rabs (f a)) (Rabs (f b))); split; unfold inside; cbn [st_a st_b st_fa st_fb]; try lra.
Qed.
Lemma brent_cases : forall f a b tol,
  match fzero_brent a b f tol with
  | NotBracketed => 0 < f a * f b
  | r => f a * f b <= 0 /\ good f (Rmin a b) (Rmax a b) tol r
  end.
Proof.
  intros f a b tol. unfold fzero_brent.
  pose proof (Rmin_l a b). pose proof (Rmin_r a b). pose proof (Rmax_l a b). pose proof (Rmax_r a b).
  destruct (req (f a) 0) eqn:E1.
  { apply req_t in E1. split; [rewrite E1; lra|]. unfold good, inside. split; [lra|auto]. }
  destruct (req (f b) 0) eqn:E2.
  { apply req_t in E2. split; [rewrite E2; lra|]. unfold good, inside. split; [lra|auto]. }
  destruct (rlt 0 (f a * f b)) eqn:E3.
  { apply rlt_t in E3. exact E3. }
  apply rlt_f in E3. apply req_f in E1. apply req_f in E2.
  assert (f a * f b < 0) as P.
  { destruct E3 as [?|E]; [assumption|]. apply Rmult_integral in E. destruct E; contradiction. }
  pose proof (loop_good f _ _ tol 1000 _ (start_inv f a b P)) as G.
  destruct (brent_loop f tol 1000 (brent_start f a b)); try (split; [exact E3|exact G]); contradiction.
Qed.
Lemma brent_not_bracketed : forall f a b tol, fzero_brent a b f tol = NotBracketed <-> 0 < f a * f b.
Proof.
  intros f a b tol. pose proof (brent_cases f a b tol) as G. split; intros H.
  - rewrite H in G. exact G.
  - destruct (fzero_brent a b f tol); try reflexivity; destruct G; lra.
Qed.
Lemma brent_no_division : forall f a b tol, fzero_brent a b f tol <> ZeroDivision.
Proof. intros f a b tol H. pose proof (brent_cases f a b tol) as G. rewrite H in G. exact (proj2 G). Qed.
Lemma brent_sound : forall f a b tol x, fzero_brent a b f tol = Root x ->
  Rmin a b <= x <= Rmax a b /\
  (f x = 0 \/ exists y, Rmin a b <= y <= Rmax a b /\ Rabs (x - y) < tol /\ f x * f y < 0).
Proof. intros f a b tol x H. pose proof (brent_cases f a b tol) as G. rewrite H in G. exact (proj2 G). Qed.
Lemma ivt_between : forall f x y, (forall z, Rmin x y <= z <= Rmax x y -> continuity_pt f z) -> f x * f y < 0 ->
  exists z, Rmin x y <= z <= Rmax x y /\ f z = 0.
Proof.
  intros f x y C N.
  assert (forall f x y, x < y -> (forall z, x <= z <= y -> continuity_pt f z) -> f x * f y < 0 ->
    exists z, x <= z <= y /\ f z = 0) as W.
  { clear. intros f x y L C N. destruct (Rlt_le_dec (f x) 0).
    - destruct (IVT_interv f x y C L) as (z & Z & E); [assumption|nra|]. exists z. auto.
    - assert (0 < f x) by (destruct (Rtotal_order (f x) 0) as [?|[E|?]]; [lra| |assumption]; rewrite E in N; lra).
      destruct (IVT_interv (fun t => - f t) x y) as (z & Z & E); [|exact L|lra|nra|].
      + intros t T. apply (continuity_pt_opp f t). auto.
      + exists z. split; [exact Z|lra]. }
  destruct (Rtotal_order x y) as [L|[L|L]].
  - rewrite Rmin_left, Rmax_right in * by lra. apply W; assumption.
  - exfalso. subst. nra.
  - rewrite Rmin_right, Rmax_left in * by lra. apply W; [assumption|assumption|lra].
Qed.
Lemma brent_continuous : forall f a b tol x, (forall z, Rmin a b <= z <= Rmax a b -> continuity_pt f z) ->
  fzero_brent a b f tol = Root x -> exists z, Rmin a b <= z <= Rmax a b /\ f z = 0 /\ (x = z \/ Rabs (x - z) < tol).
Proof.
  intros f a b tol x C H. destruct (brent_sound f a b tol x H) as (X & [E|(y & Y & D & N)]).
  - exists x. auto.
  - destruct (ivt_between f x y) as (z & Z & E); [|exact N|].
    + intros z Z. apply C. destruct Z as [Z1 Z2]. pose proof (Rmin_glb x y (Rmin a b)) as M. pose proof (Rmax_lub x y (Rmax a b)) as M2.
      specialize (M ltac:(lra) ltac:(lra)). specialize (M2 ltac:(lra) ltac:(lra)). lra.
    + exists z. assert (Rmin a b <= z <= Rmax a b) as Z'.
      { destruct Z as [Z1 Z2]. pose proof (Rmin_glb x y (Rmin a b) ltac:(lra) ltac:(lra)). pose proof (Rmax_lub x y (Rmax a b) ltac:(lra) ltac:(lra)). lra. }
      split; [exact Z'|]. split; [exact E|]. right. revert Z D. unfold Rmin, Rmax, Rabs.
      destruct (Rle_dec x y), (Rcase_abs (x - y)), (Rcase_abs (x - z)); lra.
Qed.
