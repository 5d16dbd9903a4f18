(** The root finder returns within its passes for monotone functions. *)
From Coq Require Import Reals Bool Arith Lia Lra.
From Verif Require Import Sphere_Model Sphere_Proofs Brent_Model Brent_Spec Brent_Proofs.
Open Scope R_scope.

Definition width (st : brent_state) : R := Rabs (st_b st - st_a st).
Definition delta : R := 1 / 10000000000.

Lemma mono_between : forall f lo hi a b s, monotone_on f lo hi -> inside lo hi a -> inside lo hi b ->
  a <= s <= b \/ b <= s <= a -> f a * f s < 0 -> Rabs (f s) <= Rabs (f b).
Proof.
  intros f lo hi a b s M A B W N. unfold inside in *.
  assert ((f a <= f s <= f b) \/ (f b <= f s <= f a)) as V.
  { destruct M as [M|M], W as [W|W].
    - left. split; apply M; lra.
    - right. split; apply M; lra.
    - right. split; apply M; lra.
    - left. split; apply M; lra. }
  destruct (Rlt_le_dec 0 (f s)).
  - assert (f a < 0) by nra. rewrite !Rabs_pos_eq by lra. lra.
  - destruct (neg_ne _ _ N) as (_ & S0 & _). assert (f s < 0) by lra. assert (0 < f a) by nra. rewrite !Rabs_left by lra. lra.
Qed.

(** One pass either cuts the bracket to three quarters or moves b by an accepted step. *)
Lemma step_cases : forall f lo hi tol st, inv f lo hi st -> monotone_on f lo hi -> Rabs (f (st_b st)) <= Rabs (f (st_a st)) ->
  match brent_step f tol st with
  | inl r => exists x, r = Root x
  | inr st' => Rabs (f (st_b st')) <= Rabs (f (st_a st')) /\ tol <= width st' /\ width st' <= width st /\
      st_d st' = Some (st_c st) /\ st_c st' = st_b st /\
      (width st' <= 3 / 4 * width st \/
       rejected st (st_b st') = false)
  end.
Proof.
  intros f lo hi tol st I M O. pose proof I as [A B SG V]. unfold brent_step. destruct (trial_some f st V) as (s0 & ->).
  pose proof (next_inside lo hi st s0 A B) as N. unfold next_point in N.
  set (s := if rejected st s0 then 5 / 10 * (st_a st + st_b st) else s0) in *.
  assert (st_a st <= s <= st_b st \/ st_b st <= s <= st_a st) as W.
  { unfold s. destruct (rejected st s0) eqn:E; [lra|]. apply accepted_between in E. lra. }
  assert (rejected st s = false \/ s = 5 / 10 * (st_a st + st_b st)) as K.
  { unfold s. destruct (rejected st s0) eqn:E; auto. }
  assert (Rabs (st_b st - s) <= 3 / 4 * width st) as Q3.
  { unfold width. unfold s. destruct (rejected st s0) eqn:E; [|apply accepted_between in E]; unfold Rabs;
      destruct (Rcase_abs _), (Rcase_abs _); lra. }
  assert (Rabs (s - st_a st) <= width st) as Q4.
  { clear - W. unfold width. clearbody s. unfold Rabs. destruct (Rcase_abs _), (Rcase_abs _); lra. }
  clearbody s. destruct (neg_ne _ _ SG) as (A0 & B0 & _).
  destruct (rlt (f (st_a st) * f s) 0) eqn:E.
  - apply rlt_t in E. destruct (neg_ne _ _ E) as (_ & S0 & _).
    pose proof (mono_between f lo hi _ _ _ M A B W E) as L.
    rewrite (proj2 (rlt_f _ _)) by lra.
    rewrite (proj2 (req_f _ _)) by exact S0.
    destruct (rlt (Rabs (s - st_a st)) tol) eqn:E2; [eauto|]. apply rlt_f in E2.
    cbn [st_a st_b st_c st_d]. unfold width at 1 2 4. cbn [st_a st_b st_c st_d].
    split; [lra|]. split; [lra|]. split; [lra|]. split; [reflexivity|]. split; [reflexivity|].
    destruct K as [K|K]; [right; exact K|left]. subst s. unfold width, Rabs. destruct (Rcase_abs _), (Rcase_abs _); lra.
  - destruct (rlt (Rabs (f s)) (Rabs (f (st_b st)))) eqn:E3.
    + apply rlt_t in E3. destruct (req (f s) 0); [eauto|].
      destruct (rlt (Rabs (s - st_b st)) tol) eqn:E2; [eauto|]. apply rlt_f in E2.
      cbn [st_a st_b st_c st_d]. unfold width at 1 2 4. cbn [st_a st_b st_c st_d].
      rewrite Rabs_minus_sym in Q3. pose proof (Rabs_pos (st_b st - st_a st)). unfold width in *.
      split; [lra|]. split; [lra|]. split; [lra|]. split; [reflexivity|]. split; [reflexivity|]. left. lra.
    + apply rlt_f in E3. destruct (req (f (st_b st)) 0); [eauto|]. destruct (req (f s) 0); [eauto|].
      destruct (rlt (Rabs (st_b st - s)) tol) eqn:E2; [eauto|]. apply rlt_f in E2.
      cbn [st_a st_b st_c st_d]. unfold width at 1 2 4. cbn [st_a st_b st_c st_d].
      pose proof (Rabs_pos (st_b st - st_a st)). unfold width in *.
      split; [lra|]. split; [lra|]. split; [lra|]. split; [reflexivity|]. split; [reflexivity|]. left. lra.
Qed.
Lemma accepted_run : forall st s d, st_d st = Some d -> rejected st s = false ->
  Rabs (s - st_b st) < 1 / 2 * Rabs (st_c st - d) /\ delta <= Rabs (st_c st - d).
Proof.
  intros st s d D H. unfold rejected in H. rewrite !orb_false_iff, D in H. cbn [cmp_d] in H.
  destruct H as ((((_ & _) & H1) & _) & H2). rewrite rle_f in H1. rewrite rlt_f in H2.
  unfold delta. rewrite (Rabs_pos_eq (1 / 10000000000)) in H2 by lra. lra.
Qed.
Lemma inside_dist : forall lo hi x y, inside lo hi x -> inside lo hi y -> Rabs (x - y) <= hi - lo.
Proof. intros lo hi x y X Y. unfold inside, Rabs in *. destruct (Rcase_abs _); lra. Qed.
Lemma width_pos : forall st, 0 <= width st. Proof. intros. apply Rabs_pos. Qed.

Lemma loop_term : forall f lo hi tol j, monotone_on f lo hi -> hi - lo < 2 ^ j * delta ->
  forall n m i i' st, inv f lo hi st -> Rabs (f (st_b st)) <= Rabs (f (st_a st)) -> inside lo hi (st_c st) ->
  (forall d, st_d st = Some d -> inside lo hi d /\
     Rabs (st_c st - d) < 2 ^ i * delta /\ Rabs (st_b st - st_c st) < 2 ^ i' * delta) ->
  (st_d st = None -> (i + i' = S (j + j))%nat) ->
  (3 / 4) ^ m * width st < tol -> (m * (j + j + 1) + (i + i') + 1 <= n)%nat ->
  exists x, brent_loop f tol n st = Root x.
Proof.
  intros f lo hi tol j M H. induction n as [|n IH]; intros m i i' st I O C D D0 T N; [lia|].
  cbn [brent_loop]. pose proof (step_good f lo hi tol st I) as G. pose proof (step_cases f lo hi tol st I M O) as K.
  destruct (brent_step f tol st) as [r|st']; [exact K|].
  destruct K as (O' & W1 & W2 & Ed & Ec & K). pose proof (inv_a _ _ _ _ G) as GA. pose proof (inv_b _ _ _ _ G) as GB.
  pose proof (inv_b _ _ _ _ I) as IB. pose proof (width_pos st) as WP.
  destruct m as [|m].
  { exfalso. cbn [pow] in T. lra. }
  destruct K as [K|K].
  - apply (IH m j j st' G O').
    + rewrite Ec. exact IB.
    + intros d E. rewrite Ed in E. injection E as <-. split; [exact C|]. rewrite Ec. split.
      * pose proof (inside_dist lo hi _ _ IB C). lra.
      * pose proof (inside_dist lo hi _ _ GB IB). lra.
    + rewrite Ed. discriminate.
    + cbn [pow] in T. pose proof (pow_le (3 / 4) m ltac:(lra)). nra.
    + lia.
  - assert (exists k k', (k + k' < i + i')%nat /\ Rabs (st_b st - st_c st) < 2 ^ k * delta /\ Rabs (st_b st' - st_b st) < 2 ^ k' * delta) as (k & k' & L & K1 & K2).
    { destruct (st_d st) as [d|] eqn:E.
      - destruct (D d eq_refl) as (Dd & D1 & D2). destruct (accepted_run st _ d E K) as (R1 & R2).
        destruct i as [|i]; [exfalso; cbn [pow] in D1; lra|].
        exists i', i. split; [lia|]. split; [exact D2|]. cbn [pow] in D1. lra.
      - specialize (D0 eq_refl). exists j, j. split; [lia|].
        pose proof (inside_dist lo hi _ _ IB C). pose proof (inside_dist lo hi _ _ GB IB). lra. }
    apply (IH (S m) k k' st' G O').
    + rewrite Ec. exact IB.
    + intros d E. rewrite Ed in E. injection E as <-. split; [exact C|]. rewrite Ec. split; assumption.
    + rewrite Ed. discriminate.
    + pose proof (pow_le (3 / 4) (S m) ltac:(lra)). nra.
    + lia.
Qed.
Lemma brent_returns : forall f a b tol j m, monotone_on f (Rmin a b) (Rmax a b) -> f a * f b <= 0 ->
  Rabs (b - a) < 2 ^ j * delta -> (3 / 4) ^ m * Rabs (b - a) < tol -> ((m + 1) * (2 * j + 1) + 1 <= 1000)%nat ->
  exists x, fzero_brent a b f tol = Root x.
Proof.
  intros f a b tol j m M P W T N. unfold fzero_brent.
  destruct (req (f a) 0) eqn:E1; [eauto|]. destruct (req (f b) 0) eqn:E2; [eauto|].
  rewrite (proj2 (rlt_f _ _)) by exact P. apply req_f in E1. apply req_f in E2.
  assert (f a * f b < 0) as Q.
  { destruct P as [?|E]; [assumption|]. apply Rmult_integral in E. destruct E; contradiction. }
  pose proof (start_inv f a b Q) as I.
  assert (Rmax a b - Rmin a b = Rabs (b - a)) as HW.
  { unfold Rmax, Rmin, Rabs. destruct (Rle_dec a b), (Rcase_abs (b - a)); lra. }
  apply (loop_term f (Rmin a b) (Rmax a b) tol j M) with (m := m) (i := S j) (i' := j).
  - rewrite HW. exact W.
  - exact I.
  - unfold brent_start. destruct (rlt (Rabs (f a)) (Rabs (f b))) eqn:E; cbn [st_a st_b].
    + apply rlt_t in E. lra.
    + apply rlt_f in E. lra.
  - destruct I as [I1 I2 _ _]. unfold brent_start in *. destruct (rlt (Rabs (f a)) (Rabs (f b))); exact I1.
  - unfold brent_start. destruct (rlt (Rabs (f a)) (Rabs (f b))); discriminate.
  - intros _. lia.
  - unfold brent_start. destruct (rlt (Rabs (f a)) (Rabs (f b))); unfold width; cbn [st_a st_b]; [rewrite Rabs_minus_sym|]; exact T.
  - lia.
Qed.

(** Without a root and without a tolerance it never returns. *)
Lemma step_no_root : forall f lo hi tol st, inv f lo hi st -> tol <= 0 -> (forall x, f x <> 0) ->
  exists st', brent_step f tol st = inr st' /\ inv f lo hi st'.
Proof.
  intros f lo hi tol st I T Z. pose proof (step_good f lo hi tol st I) as G.
  destruct (brent_step f tol st) as [r|st'] eqn:E; [|eauto]. exfalso. destruct r as [x| | |]; cbn [good] in G; try contradiction.
  - destruct G as (_ & [G|(y & _ & G & _)]); [exact (Z x G)|]. pose proof (Rabs_pos (x - y)). lra.
  - unfold brent_step in E. destruct (trial f st); [|discriminate E].
    cbv zeta in E. revert E. repeat (match goal with |- context [if ?c then _ else _] => destruct c end); discriminate.
Qed.
Lemma brent_exhausted : forall f a b tol, tol <= 0 -> (forall x, f x <> 0) -> f a * f b < 0 -> fzero_brent a b f tol = TooManyIterations.
Proof.
  intros f a b tol T Z N. unfold fzero_brent. rewrite (proj2 (req_f _ _)) by apply Z. rewrite (proj2 (req_f _ _)) by apply Z.
  rewrite (proj2 (rlt_f _ _)) by lra. pose proof (start_inv f a b N) as I. generalize (brent_start f a b), I. clear I.
  generalize 1000%nat. induction n as [|n IH]; intros st I; [reflexivity|]. cbn [brent_loop].
  destruct (step_no_root f _ _ tol st I T Z) as (st' & -> & I'). auto.
Qed.

Lemma square_root_example : exists x, fzero_brent 0 2 (fun x => x * x - 2) (1 / 10) = Root x /\ Rabs (x - sqrt 2) < 1 / 10.
Proof.
  assert (Rmin 0 2 = 0) as E0 by (apply Rmin_left; lra). assert (Rmax 0 2 = 2) as E2 by (apply Rmax_right; lra).
  destruct (brent_returns (fun x => x * x - 2) 0 2 (1 / 10) 35 11) as (x & X).
  - left. rewrite E0, E2. intros x y X Y Z. nra.
  - lra.
  - rewrite Rabs_pos_eq by lra. unfold delta. lra.
  - rewrite Rabs_pos_eq by lra. lra.
  - lia.
  - exists x. split; [exact X|]. destruct (brent_continuous (fun x => x * x - 2) 0 2 (1 / 10) x) as (z & Z & F & K); [|exact X|].
    + intros z _. apply derivable_continuous_pt. reg.
    + rewrite E0, E2 in Z. assert (z = sqrt 2) as -> by (symmetry; apply sqrt_lem_1; lra).
      destruct K as [->|K]; [|exact K]. rewrite Rminus_diag_eq, Rabs_R0 by reflexivity. lra.
Qed.
