(** The hull of vertices on the sphere (proofs). *)
From Coq Require Import List Bool Arith Reals Lra Lia Permutation Sorted.
From Verif Require Import GeomR_Model Sphere_Model Sphere_Spec Sphere_Proofs Hull_Model Hull_Spec Hull_SphereSpec Hull_SphereScan Hull_Sphere.
From Verif Require Hull_Proofs Hull_Main.
Import ListNotations.
Open Scope R_scope.

Notation xlt := (fun a b : rpt => rlt (fst a) (fst b)).
Notation xeq := (fun a b : rpt => req (fst a) (fst b)).
Notation yup := (fun a b : rpt => rlt (snd b) (snd a)).
Notation rat := (at_ rpt (0, 0)).
Notation rleft := (leftmost rpt (0, 0) xlt xeq yup).
Definition akey (p q : rpt) : R := PI / 2 - az p q.
Notation rple := (pair_le R rlt req).
Notation rinsert := (insert R rlt req).
Notation rsort := (sort R rlt req).
Notation rby := (by_azimuth rpt R (0, 0) akey rlt req).
Notation rfar := (fun p a b : rpt => rlt (dist_sph p b) (dist_sph p a)).
Notation rdrop := (drop_duplicates rpt R (0, 0) req rfar).

(* ---- the westernmost vertex *)
Definition half (p q : rpt) : Prop := fst p < fst q \/ (fst p = fst q /\ snd q <= snd p).
Lemma half_refl : forall p, half p p. Proof. intros. right. split; lra. Qed.
Lemma half_trans : forall a b c, half a b -> half b c -> half a c.
Proof. unfold half. intros a b c [H | [H H']] [K | [K K']]; [left | left | left | right; split]; lra. Qed.
Lemma leftmost_fold : forall vs is l, let f := fun l i => if xlt (rat vs i) (rat vs l) then i else if xeq (rat vs i) (rat vs l) && yup (rat vs i) (rat vs l) then i else l in
  In (fold_left f is l) (l :: is) /\ (forall i, In i (l :: is) -> half (rat vs (fold_left f is l)) (rat vs i)).
Proof.
  intros vs is. induction is as [| i is IH]; intros l f; cbn [fold_left].
  - split; [left; reflexivity |]. intros i [<- | []]. apply half_refl.
  - destruct (IH (f l i)) as [I1 I2].
    assert ((f l i = i \/ f l i = l) /\ half (rat vs (f l i)) (rat vs i) /\ half (rat vs (f l i)) (rat vs l)) as (C & Hi & Hl).
    { unfold f. destruct (xlt (rat vs i) (rat vs l)) eqn:E; [apply rlt_t in E; repeat split; [auto | apply half_refl | left; exact E] |].
      apply rlt_f in E. destruct (xeq (rat vs i) (rat vs l)) eqn:E2; cbn [andb].
      - apply req_t in E2. destruct (yup (rat vs i) (rat vs l)) eqn:E3.
        + apply rlt_t in E3. repeat split; [auto | apply half_refl | right; split; lra].
        + apply rlt_f in E3. repeat split; [auto | right; split; lra | apply half_refl].
      - apply req_f in E2. repeat split; [auto | left; lra | apply half_refl]. }
    split.
    + destruct I1 as [I1 | I1]; [| right; right; exact I1]. fold f in I1. rewrite <- I1. destruct C as [-> | ->]; [right; left | left]; reflexivity.
    + intros x X. fold f in I2.
      assert (half (rat vs (fold_left f is (f l i))) (rat vs (f l i))) as HF by (apply I2; left; reflexivity).
      destruct X as [<- | [<- | X]]; [eapply half_trans; eassumption | eapply half_trans; eassumption | apply I2; right; exact X].
Qed.
Lemma leftmost_ok : forall vs, vs <> [] -> (rleft vs < length vs)%nat /\ (forall i, (i < length vs)%nat -> half (rat vs (rleft vs)) (rat vs i)).
Proof.
  intros vs N. destruct (leftmost_fold vs (seq 1 (length vs - 1)) 0) as [I1 I2]. cbn zeta in I1, I2.
  assert (0 < length vs)%nat by (destruct vs; [congruence | cbn; lia]). split.
  - unfold leftmost. destruct I1 as [I1 | I1]; [rewrite <- I1; assumption |]. apply in_seq in I1. lia.
  - intros i L. apply I2. destruct i; [left; reflexivity | right; apply in_seq; lia].
Qed.

(* ---- the sorted list *)
Definition le2 (a b : R * nat) : Prop := fst a <= fst b.
Lemma ple_le : forall a b, rple a b = true -> le2 a b.
Proof. intros a b H. unfold le2. unfold pair_le in H. apply orb_true_iff in H. destruct H as [H | H]; [apply rlt_t in H; lra |]. apply andb_true_iff in H. destruct H as [H _]. apply req_t in H. lra. Qed.
Lemma ple_ge : forall a b, rple a b = false -> le2 b a.
Proof. intros a b H. unfold pair_le in H. apply orb_false_iff in H. destruct H as [H _]. apply rlt_f in H. exact H. Qed.
Lemma insert_perm : forall a l, Permutation (rinsert a l) (a :: l).
Proof. intros a l. induction l as [| b l IH]; cbn; [reflexivity |]. destruct (rple a b); [reflexivity |]. rewrite IH. apply perm_swap. Qed.
Lemma insert_sorted : forall a l, StronglySorted le2 l -> StronglySorted le2 (rinsert a l).
Proof.
  intros a l S. induction S as [| b l S IH F]; cbn; [repeat constructor |]. destruct (rple a b) eqn:E.
  - apply ple_le in E. constructor; [constructor; assumption |]. constructor; [exact E |]. eapply Forall_impl; [| exact F]. unfold le2 in *. intros c C. lra.
  - apply ple_ge in E. constructor; [exact IH |]. apply Forall_forall. intros c C. apply (Permutation_in _ (insert_perm a l)) in C.
    destruct C as [<- | C]; [exact E |]. rewrite Forall_forall in F. apply F, C.
Qed.
Lemma sort_ok : forall l, Permutation (rsort l) l /\ StronglySorted le2 (rsort l).
Proof.
  intros l. induction l as [| a l [P S]]; cbn; [split; constructor |]. split; [rewrite insert_perm, P; reflexivity | apply insert_sorted, S].
Qed.
Lemma by_ok : forall vs l, let s := rby vs l in StronglySorted le2 s /\
  (forall e, In e s -> fst e = akey (rat vs l) (rat vs (snd e)) /\ (snd e < length vs)%nat /\ snd e <> l) /\
  (forall i, (i < length vs)%nat -> i <> l -> In (akey (rat vs l) (rat vs i), i) s) /\ NoDup (map snd s).
Proof.
  intros vs l s. unfold s, by_azimuth. set (xs := map _ _). destruct (sort_ok xs) as [P S].
  split; [exact S |]. split; [| split].
  - intros e I. apply (Permutation_in _ P) in I. unfold xs in I. apply in_map_iff in I. destruct I as (i & <- & I). cbn [fst snd].
    apply filter_In in I. destruct I as [I N]. apply in_seq in I. apply negb_true_iff, Nat.eqb_neq in N. repeat split; [lia | exact N].
  - intros i I N. apply (Permutation_in _ (Permutation_sym P)). unfold xs. apply in_map_iff. exists i. split; [reflexivity |].
    apply filter_In. split; [apply in_seq; lia | apply negb_true_iff, Nat.eqb_neq, N].
  - eapply Permutation_NoDup; [apply Permutation_map, Permutation_sym, P |]. unfold xs. rewrite map_map. cbn [snd]. rewrite map_id. apply NoDup_filter, seq_NoDup.
Qed.

(* ---- dropping duplicates *)
Lemma drop_ne : forall vs p0 s i klast lastpt prev acc, Forall (fun e => fst e <> klast) s ->
  rdrop vs p0 s i klast lastpt prev acc = rev acc ++ prev :: map snd s.
Proof.
  intros vs p0 s. induction s as [| [k j] s IH]; intros i klast lastpt prev acc F; cbn [drop_duplicates].
  - cbn [rev map]. reflexivity.
  - inversion F as [| ? ? E F']; subst. cbn [fst] in E. apply req_f in E. rewrite E. rewrite IH; [| exact F']. cbn [rev map snd]. rewrite <- app_assoc. reflexivity.
Qed.
Lemma drop_eq : forall vs p0 eqs ne i klast lastpt prev acc, Forall (fun e => fst e = klast) eqs ->
  exists i' lastpt' prev', In prev' (prev :: map snd eqs) /\
    rdrop vs p0 (eqs ++ ne) i klast lastpt prev acc = rdrop vs p0 ne i' klast lastpt' prev' acc.
Proof.
  intros vs p0 eqs. induction eqs as [| [k j] eqs IH]; intros ne i klast lastpt prev acc F.
  - exists i, lastpt, prev. split; [left; reflexivity | reflexivity].
  - inversion F as [| ? ? E F']; subst. cbn [fst] in *. cbn [app drop_duplicates].
    replace (req k k) with true by (symmetry; apply req_t; reflexivity).
    destruct (rlt (dist_sph p0 lastpt) (dist_sph p0 (rat vs j))).
    + destruct (IH ne (S i) k (rat vs i) j acc F') as (i' & l' & q & B & C). exists i', l', q. split; [right; exact B | exact C].
    + destruct (IH ne (S i) k lastpt prev acc F') as (i' & l' & q & B & C). exists i', l', q. split; [destruct B as [B | B]; [left; exact B | right; right; exact B] | exact C].
Qed.
Lemma split_first : forall k0 s, StronglySorted le2 s -> Forall (fun e => k0 <= fst e) s ->
  exists eqs ne, s = eqs ++ ne /\ Forall (fun e => fst e = k0) eqs /\ Forall (fun e => k0 < fst e) ne.
Proof.
  intros k0 s S. induction S as [| e s S IH F]; intros A; [exists [], []; repeat split; constructor |].
  inversion A as [| ? ? A1 A2]; subst. destruct (Rlt_le_dec k0 (fst e)) as [E | E].
  - exists [], (e :: s). split; [reflexivity |]. split; [constructor |]. constructor; [exact E |]. eapply Forall_impl; [| exact F]. unfold le2. intros x X. lra.
  - destruct (IH A2) as (eqs & ne & -> & P & Q). exists (e :: eqs), ne. split; [reflexivity |]. split; [constructor; [lra | exact P] | exact Q].
Qed.

Lemma nodup_r : forall (A : Type) (l m : list A), NoDup (l ++ m) -> NoDup m.
Proof. intros A l. induction l as [| x l IH]; intros m H; [exact H |]. inversion H. auto. Qed.
(* ---- vertices of the list *)
Section Vertices.
Variable vs : list rpt.
Hypothesis wh : within_half vs.
Lemma v_lat : forall v, In v vs -> lat_ok v. Proof. apply wh. Qed.
Lemma v_near : forall a b, In a vs -> In b vs -> near a b.
Proof. intros a b A B. destruct wh as (_ & _ & W). pose proof (W a b A B). pose proof (W b a B A). unfold near. lra. Qed.
Lemma rat_in : forall i, (i < length vs)%nat -> In (rat vs i) vs. Proof. intros. apply nth_In. assumption. Qed.
Lemma in_rat : forall v, In v vs -> exists i, (i < length vs)%nat /\ rat vs i = v.
Proof. intros v I. apply (In_nth vs v (0, 0)) in I. exact I. Qed.
Lemma rat_inj : forall i j, (i < length vs)%nat -> (j < length vs)%nat -> i <> j -> rat vs i <> rat vs j.
Proof. intros i j LI LJ D E. apply D. destruct wh as (ND & _). apply (proj1 (NoDup_nth vs (0, 0)) ND); assumption. Qed.

Lemma pops_map : forall st i, NoDup (i :: st) -> (forall x, In x (i :: st) -> (x < length vs)%nat) ->
  match pops rpt (0, 0) isleft_sphere vs st i with
  | Ok r => pops_pt rpt turn (map (rat vs) st) (rat vs i) = Ok (map (rat vs) r)
  | Raise e => pops_pt rpt turn (map (rat vs) st) (rat vs i) = Raise e end.
Proof.
  intros st i. induction st as [| b st IH]; intros ND B; [reflexivity |]. destruct st as [| a st]; [reflexivity |].
  change (pops rpt (0, 0) isleft_sphere vs (b :: a :: st) i) with (if isleft_sphere (rat vs a) (rat vs b) (rat vs i) then Ok (b :: a :: st) else pops rpt (0, 0) isleft_sphere vs (a :: st) i).
  change (pops_pt rpt turn (map (rat vs) (b :: a :: st)) (rat vs i)) with (if Rlt_dec 0 (turn (rat vs a) (rat vs b) (rat vs i)) then Ok (map (rat vs) (b :: a :: st)) else pops_pt rpt turn (map (rat vs) (a :: st)) (rat vs i)).
  assert (forall x, In x (i :: b :: a :: st) -> In (rat vs x) vs) as IV by (intros x X; apply rat_in, B, X).
  assert (isleft_sphere (rat vs a) (rat vs b) (rat vs i) = true <-> 0 < turn (rat vs a) (rat vs b) (rat vs i)) as L.
  { assert (In (rat vs a) vs) as A1 by (apply IV; cbn; auto). assert (In (rat vs b) vs) as B1 by (apply IV; cbn; auto). assert (In (rat vs i) vs) as C1 by (apply IV; cbn; auto).
    apply isleft_turn; try (apply v_lat; assumption); try (apply v_near; assumption).
    - apply rat_inj; [apply B; cbn; auto | apply B; cbn; auto |]. intros ->. inversion ND as [| ? ? _ ND']. inversion ND' as [| ? ? N _]. apply N. left. reflexivity.
    - apply rat_inj; [apply B; cbn; auto | apply B; cbn; auto |]. intros ->. inversion ND as [| ? ? N _]. apply N. left. reflexivity. }
  destruct (isleft_sphere (rat vs a) (rat vs b) (rat vs i)); destruct (Rlt_dec 0 (turn (rat vs a) (rat vs b) (rat vs i))) as [X | X].
  - reflexivity.
  - exfalso. apply X, L. reflexivity.
  - exfalso. apply L in X. discriminate.
  - apply IH.
    + inversion ND as [| ? ? N ND']. inversion ND'. subst. constructor; [intros Y; apply N; right; exact Y | assumption].
    + intros x [<- | Y]; apply B; [left; reflexivity | right; right; exact Y].
Qed.
Lemma pops_incl : forall st i r, pops rpt (0, 0) isleft_sphere vs st i = Ok r -> exists m, st = m ++ r.
Proof.
  intros st i. induction st as [| b st IH]; intros r H; [discriminate |]. destruct st as [| a st]; [discriminate |].
  change ((if isleft_sphere (rat vs a) (rat vs b) (rat vs i) then Ok (b :: a :: st) else pops rpt (0, 0) isleft_sphere vs (a :: st) i) = Ok r) in H.
  destruct (isleft_sphere _ _ _); [injection H as <-; exists []; reflexivity |]. destruct (IH r H) as [m E]. exists (b :: m). rewrite E. reflexivity.
Qed.
Lemma scan_map : forall is st, NoDup (rev is ++ st) -> (forall x, In x (rev is ++ st) -> (x < length vs)%nat) ->
  match scan rpt (0, 0) isleft_sphere vs st is with
  | Ok r => scan_pt rpt turn (map (rat vs) st) (map (rat vs) is) = Ok (map (rat vs) r)
  | Raise e => scan_pt rpt turn (map (rat vs) st) (map (rat vs) is) = Raise e end.
Proof.
  intros is. induction is as [| i is IH]; intros st ND B; cbn [scan scan_pt map].
  - rewrite map_rev. reflexivity.
  - cbn [rev] in ND, B. rewrite <- app_assoc in ND, B. cbn [app] in ND, B.
    assert (NoDup (i :: st)) as ND1 by (apply nodup_r in ND; exact ND).
    assert (forall x, In x (i :: st) -> (x < length vs)%nat) as B1 by (intros x X; apply B, in_or_app; right; exact X).
    pose proof (pops_map st i ND1 B1) as P. destruct (pops rpt (0, 0) isleft_sphere vs st i) as [r | e] eqn:PE; rewrite P; [| reflexivity].
    apply pops_incl in PE. destruct PE as [m ->]. apply (IH (i :: r)).
    + assert (Permutation (rev is ++ i :: m ++ r) (m ++ (rev is ++ i :: r))) as PM.
      { rewrite (Permutation_app_comm (rev is) (i :: m ++ r)). cbn [app]. rewrite (Permutation_app_comm (rev is) (i :: r)). cbn [app].
        rewrite <- Permutation_middle. rewrite <- app_assoc. reflexivity. }
      apply (Permutation_NoDup PM) in ND. apply nodup_r in ND. exact ND.
    + intros x X. apply B. apply in_app_or in X. apply in_or_app. destruct X as [X | [X | X]]; [left; exact X | right; left; exact X | right; right; apply in_or_app; right; exact X].
Qed.

(* ---- the ring *)
Lemma inv_enclosed : forall V p s1 st dn, inv rpt turn V p s1 st dn -> forall q, edges_left rpt turn st q ->
  match st with t :: _ => 0 <= turn p q t | [] => True end -> enclosed_on_sphere (rev st) q.
Proof.
  intros W p s1 st dn VV q E T a b I. destruct (i_bottom _ _ _ _ _ _ _ VV) as [m EB]. subst st.
  rewrite rev_app_distr in I. cbn [rev app] in I. unfold ring_edges in I. apply Hull_Proofs.combine_next in I.
  assert (p :: s1 :: rev m = rev (m ++ [s1; p])) as RR by (rewrite rev_app_distr; reflexivity). rewrite RR in I.
  destruct I as [(l1 & l2 & X) | (l1 & X & ->)]; apply (f_equal (@rev rpt)) in X; rewrite rev_involutive in X.
  - rewrite rev_app_distr in X. cbn [rev] in X. rewrite <- !app_assoc in X. cbn [app] in X. rewrite X in E. apply edges_suffix in E. apply E.
  - rewrite rev_app_distr in X. cbn [rev app] in X. rewrite X in T. rewrite turn_rot. exact T.
Qed.
Lemma triples_convex : forall st, triples rpt turn st -> convex_on_sphere (rev st).
Proof.
  intros st T i j k a b c IJ JK EA EB EC. destruct (Hull_Proofs.nth_split3 _ _ _ _ _ _ _ _ IJ JK EA EB EC) as (l1 & l2 & l3 & l4 & E).
  apply (f_equal (@rev rpt)) in E. rewrite rev_involutive in E. subst st.
  rewrite rev_app_distr in T. cbn [rev] in T. rewrite rev_app_distr in T. cbn [rev] in T. rewrite rev_app_distr in T. cbn [rev] in T. rewrite <- !app_assoc in T. cbn [app] in T.
  apply triples_suffix in T. destruct T as [T _]. apply pairs_suffix in T. destruct T as [T _]. rewrite Forall_forall in T. apply T.
  apply in_or_app. right. left. reflexivity.
Qed.

(* ---- seen from p *)
Section From.
Variable p : rpt.
Hypothesis p_in : In p vs.
Hypothesis p_west : forall v, In v vs -> half p v.
Lemma v_west : forall v, In v vs -> west p v.
Proof.
  intros v I. destruct (p_west v I) as [H | [H H']]; destruct wh as (_ & _ & W); pose proof (W p v p_in I); unfold west; split; try lra.
Qed.
Lemma key_turn : forall a b, In a vs -> In b vs -> a <> p -> b <> p -> (0 < turn p a b <-> akey p a < akey p b).
Proof.
  intros a b A B DA DB. rewrite (turn_key p a b); auto using v_lat, v_west. unfold akey. split; intros; lra.
Qed.
Lemma key_turn0 : forall a b, In a vs -> In b vs -> a <> p -> b <> p -> (akey p a <= akey p b <-> 0 <= turn p a b).
Proof.
  intros a b A B DA DB. pose proof (key_turn b a B A DB DA) as K. assert (turn p a b = - turn p b a) as S by (apply (D_swap23 rpt turn turn_rot turn_swap)).
  rewrite S. split; intros X.
  - destruct (Rlt_le_dec 0 (turn p b a)) as [Y | Y]; [apply K in Y; lra | lra].
  - destruct (Rlt_le_dec (akey p b) (akey p a)) as [Y | Y]; [apply K in Y; lra | lra].
Qed.
Lemma from_half_line : forall a b c, In a vs -> In b vs -> In c vs -> c <> p -> 0 < turn p a b -> 0 <= turn p b c -> turn p a c <> 0.
Proof.
  intros a b c A B C DC AB BC Z.
  assert (a <> p) as DA by (intros ->; rewrite (D_same12 rpt turn turn_swap) in AB; lra).
  assert (b <> p) as DB by (intros ->; rewrite (D_same13 rpt turn turn_rot turn_swap) in AB; lra).
  apply key_turn in AB; auto. apply key_turn0 in BC; auto.
  assert (akey p a < akey p c) as X by lra. apply key_turn in X; auto. lra.
Qed.
Lemma from_line : forall z a b, In a vs -> a <> p -> turn p z a = 0 -> turn p a b = 0 -> turn z a b = 0.
Proof. intros z a b A D. apply turn_line; auto using v_lat, v_near. Qed.
Lemma from_plucker : forall z a b c, turn p a b * turn z a c = turn p z a * turn a b c + turn p a c * turn z a b.
Proof. intros. apply turn_plucker. Qed.

Lemma sorted_next : forall s1 ne dn, StronglySorted le2 ne ->
  Forall (fun e => fst e = akey p (rat vs (snd e)) /\ In (rat vs (snd e)) vs /\ rat vs (snd e) <> p /\ 0 < turn p s1 (rat vs (snd e))) ne ->
  Forall (fun q => forall e, In e ne -> 0 <= turn p q (rat vs (snd e))) dn ->
  sorted_after rpt turn (fun v => In v vs) p s1 dn (map (rat vs) (map snd ne)).
Proof.
  intros s1 ne dn S F. revert dn. induction S as [| e ne S IH G]; intros dn A; [exact I |].
  inversion F as [| ? ? (K & H & DE & C) F']; subst x l. cbn [map]. split.
  - split; [exact H |]. split; [| exact C]. eapply Forall_impl; [| exact A]. intros q Q. apply Q. left. reflexivity.
  - apply IH; [exact F' |]. constructor.
    + intros e' I. rewrite Forall_forall in F', G. destruct (F' e' I) as (K' & H' & DE' & _). apply key_turn0; auto. rewrite <- K, <- K'. apply G, I.
    + eapply Forall_impl; [| exact A]. intros q Q e' I. apply Q. right. exact I.
Qed.
End From.
End Vertices.

Lemma circle_area : forall vs, within_half vs -> forall p s a b c, In p vs -> (forall v, In v vs -> half p v) -> In s vs -> s <> p ->
  turn p s a = 0 -> turn p s b = 0 -> turn p s c = 0 -> turn a b c = 0.
Proof.
  intros vs W p s a b c P H S D A B C. rewrite turn_local in A, B, C. rewrite (turn_frame p a b c).
  assert (forall x y, E_ p s * N_ p x - N_ p s * E_ p x = 0 -> E_ p s * N_ p y - N_ p s * E_ p y = 0 -> E_ p x * N_ p y - N_ p x * E_ p y = 0) as G.
  { intros x y X Y. destruct (local_ne p s) as [Z | Z]; [apply (v_lat vs W), P | apply (v_lat vs W), S | apply (v_near vs W); assumption | exact D | |].
    - apply (Rmult_eq_reg_l (E_ p s)); [| exact Z]. rewrite Rmult_0_r.
      transitivity (E_ p x * (E_ p s * N_ p y) - (E_ p s * N_ p x) * E_ p y); [ring |].
      replace (E_ p s * N_ p y) with (N_ p s * E_ p y) by lra. replace (E_ p s * N_ p x) with (N_ p s * E_ p x) by lra. ring.
    - apply (Rmult_eq_reg_l (N_ p s)); [| exact Z]. rewrite Rmult_0_r.
      transitivity ((N_ p s * E_ p x) * N_ p y - N_ p x * (N_ p s * E_ p y)); [ring |].
      replace (N_ p s * E_ p y) with (E_ p s * N_ p y) by lra. replace (N_ p s * E_ p x) with (E_ p s * N_ p x) by lra. ring. }
  pose proof (G a b A B) as AB. pose proof (G b c B C) as BC. pose proof (G a c A C) as AC.
  transitivity ((E_ p a * N_ p b - N_ p a * E_ p b) * U_ p c - (E_ p a * N_ p c - N_ p a * E_ p c) * U_ p b + U_ p a * (E_ p b * N_ p c - N_ p b * E_ p c)); [ring |].
  rewrite AB, BC, AC. ring.
Qed.

Theorem sphere_main : forall vs, within_half vs -> not_one_circle vs -> exists p s1 r, sphere_hull vs = Ok (p :: s1 :: r) /\
  incl (p :: s1 :: r) vs /\ westmost_of vs p /\ convex_on_sphere (p :: s1 :: r) /\
  (forall v, In v vs -> enclosed_on_sphere (p :: s1 :: r) v \/ beyond_on_sphere p s1 v) /\
  ((forall a b, ~ two_on_first_arc vs p a b) -> forall v, In v vs -> enclosed_on_sphere (p :: s1 :: r) v).
Proof.
  intros vs W (ca & cb & cc & IA & IB & IC & NC).
  assert (vs <> []) as NE by (intros ->; contradiction).
  destruct (leftmost_ok vs NE) as [LL LH]. set (l := rleft vs) in *. set (p := rat vs l) in *.
  destruct (by_ok vs l) as (SS & SE & SA & SN). cbn zeta in SS, SE, SA, SN. fold p in SE, SA.
  assert (In p vs) as IP by (apply rat_in, LL).
  assert (forall v, In v vs -> half p v) as HV by (intros v I; destruct (in_rat vs v I) as (i & L & <-); apply LH, L).
  assert (forall i, (i < length vs)%nat -> i <> l -> rat vs i <> p) as NP0 by (intros i L D; apply rat_inj; assumption).
  destruct (rby vs l) as [| [k j] s] eqn:BY.
  { exfalso. apply NC. assert (forall v, In v vs -> v = p) as AP by (intros v I; destruct (in_rat vs v I) as (i & L & <-); destruct (Nat.eq_dec i l) as [-> | X]; [reflexivity | destruct (SA i L X)]).
    rewrite (AP ca IA), (AP cb IB). apply (D_same12 rpt turn turn_swap). }
  inversion SS as [| ? ? SS' SF]; subst a l0.
  destruct (SE (k, j) (or_introl eq_refl)) as (EK & JL & JN). cbn [fst snd] in EK, JL, JN.
  destruct (split_first k s SS') as (eqs & ne & -> & FE & FN); [exact SF |].
  assert (forall i, (i < length vs)%nat -> i = l \/ i = j \/ (exists e, In e eqs /\ snd e = i) \/ (exists e, In e ne /\ snd e = i)) as CV.
  { intros i L. destruct (Nat.eq_dec i l) as [X | X]; [left; exact X |]. right. destruct (SA i L X) as [Y | Y]; [left; injection Y as _ Y; congruence |]. right.
    apply in_app_or in Y. destruct Y; [left | right]; (eexists; split; [eassumption | reflexivity]). }
  assert (forall e, In e eqs -> fst e = akey p (rat vs (snd e)) /\ (snd e < length vs)%nat /\ snd e <> l) as EE by (intros e I; apply SE; right; apply in_or_app; left; exact I).
  assert (forall e, In e ne -> fst e = akey p (rat vs (snd e)) /\ (snd e < length vs)%nat /\ snd e <> l) as NEe by (intros e I; apply SE; right; apply in_or_app; right; exact I).
  rewrite Forall_forall in FE, FN.
  (* the second vertex *)
  destruct (drop_eq vs p eqs ne 1 k p j []) as (i' & l' & j1 & J1 & DE); [apply Forall_forall; exact FE |].
  rewrite (drop_ne vs p ne) in DE.
  2:{ apply Forall_forall. intros e I. specialize (FN e I). cbn beta in FN. lra. }
  cbn [rev app] in DE.
  assert ((j1 < length vs)%nat /\ j1 <> l /\ akey p (rat vs j1) = k) as (L1 & N1 & A1).
  { destruct J1 as [<- | J1]; [repeat split; auto |].
    apply in_map_iff in J1. destruct J1 as (e & <- & I). destruct (EE e I) as (E1 & E2 & E3). repeat split; auto. rewrite <- E1. apply FE, I. }
  assert (~ In j1 (map snd ne) /\ NoDup (map snd ne)) as [J1N NDN].
  { cbn [map snd] in SN. rewrite map_app in SN. inversion SN as [| ? ? NJ ND']; subst x l0. split; [| apply nodup_r in ND'; exact ND'].
    destruct J1 as [<- | J1]; [intros X; apply NJ, in_or_app; right; exact X |].
    intros X. clear - J1 X ND'. induction eqs as [| e eqs IH]; [contradiction |]. cbn in J1, ND'. inversion ND' as [| ? ? NI ND2]; subst.
    destruct J1 as [<- | J1]; [apply NI, in_or_app; right; exact X | apply IH; assumption]. }
  set (s1 := rat vs j1) in *.
  assert (In s1 vs) as I1 by (apply rat_in, L1).
  assert (s1 <> p) as NS1 by (apply NP0; assumption).
  assert (forall e, In e ne -> In (rat vs (snd e)) vs /\ rat vs (snd e) <> p /\ 0 < turn p s1 (rat vs (snd e))) as NP.
  { intros e I. destruct (NEe e I) as (E1 & E2 & E3). split; [apply rat_in, E2 |]. split; [apply NP0; assumption |].
    apply (key_turn vs W p IP HV); auto using rat_in. rewrite A1, <- E1. apply FN, I. }
  assert (forall v, In v vs -> (v = p \/ (v <> p /\ akey p v = k)) \/ (exists e, In e ne /\ v = rat vs (snd e))) as CW.
  { intros v I. destruct (in_rat vs v I) as (i & L & <-). destruct (CV i L) as [-> | [-> | [(e & Y & <-) | (e & Y & <-)]]].
    - left. left. reflexivity.
    - left. right. split; [apply NP0; assumption | congruence].
    - left. right. destruct (EE e Y) as (E1 & E2 & E3). split; [apply NP0; assumption | rewrite <- E1; apply FE, Y].
    - right. exists e. split; [exact Y | reflexivity]. }
  assert (forall v, In v vs -> v <> p -> akey p v = k -> turn p s1 v = 0) as ZR.
  { intros v I D E. assert (0 <= turn p s1 v) as X1 by (apply (key_turn0 vs W p IP HV); auto; lra). assert (0 <= turn p v s1) as X2 by (apply (key_turn0 vs W p IP HV); auto; lra).
    rewrite (D_swap23 rpt turn turn_rot turn_swap) in X2. lra. }
  (* the third vertex *)
  destruct ne as [| e1 ne'].
  { exfalso. apply NC. assert (forall v, In v vs -> turn p s1 v = 0) as AZ.
    { intros v I. destruct (CW v I) as [[-> | [D E]] | (e & [] & _)]; [apply (D_same13 rpt turn turn_rot turn_swap) | apply ZR; auto]. }
    apply (circle_area vs W p s1); auto. }
  destruct (NP e1 (or_introl eq_refl)) as (IQ1 & NQ1 & P1).
  assert (StronglySorted le2 (e1 :: ne')) as SO by (clear - SS'; induction eqs; [exact SS' | apply IHeqs; inversion SS'; assumption]).
  set (q1 := rat vs (snd e1)) in *.
  pose proof (D_same12 rpt turn turn_swap) as S12. pose proof (D_same23 rpt turn turn_rot turn_swap) as S23. pose proof (D_same13 rpt turn turn_rot turn_swap) as S13.
  assert (inv rpt turn (fun v => In v vs) p s1 [q1; s1; p] [q1; s1; p]) as V0.
  { constructor.
    - exists [q1]. reflexivity.
    - split; [exact P1 | exact I].
    - split; [| split; [split; [constructor | exact I] | split; exact I]]. split; [constructor; [lra | constructor] | split; [constructor | exact I]].
    - split; [constructor; [lra | constructor; [rewrite S12; lra | constructor]] |]. split; [constructor; [rewrite S12; lra | constructor] |]. split; [constructor | exact I].
    - apply incl_refl.
    - apply Forall_forall. intros x [<- | [<- | [<- | []]]]; auto.
    - apply Forall_forall. intros x X. cbn [edges_left]. destruct X as [<- | [<- | [<- | []]]]; (split; [| split; [| exact I]]); rewrite ?S13, ?S23; try lra. rewrite <- turn_rot. lra.
    - apply Forall_forall. intros x [<- | [<- | [<- | []]]]; rewrite ?S12, ?S23; lra.
    - apply Forall_forall. intros x [<- | [<- | [<- | []]]]; [right; right; exact P1 | right; left; reflexivity | left; reflexivity]. }
  destruct (scan_ok rpt turn (fun v => In v vs) p turn_rot turn_swap (from_plucker p) (from_half_line vs W p IP HV) (from_line vs W p IP) s1
              (map (rat vs) (map snd ne')) [q1; s1; p] [q1; s1; p] V0) as (st & ES & V).
  { inversion SO as [| ? ? SO' SG]; subst a l0. rewrite Forall_forall in SG. apply (sorted_next vs W p IP HV s1); [exact SO' | |].
    - apply Forall_forall. intros e I. destruct (NEe e (or_intror I)) as (E1 & _). destruct (NP e (or_intror I)) as (X & Y & Z). repeat split; assumption.
    - constructor; [| constructor; [| constructor; [| constructor]]]; intros e I; destruct (NEe e (or_intror I)) as (E1 & E2 & _); destruct (NP e (or_intror I)) as (X & Y & Z).
      + apply (key_turn0 vs W p IP HV); auto. destruct (NEe e1 (or_introl eq_refl)) as (E0 & _). unfold q1. rewrite <- E0, <- E1. apply SG, I.
      + lra.
      + rewrite S12. lra. }
  destruct (i_bottom _ _ _ _ _ _ _ V) as [m EB].
  assert (rev st = p :: s1 :: rev m) as RS by (rewrite EB, rev_app_distr; reflexivity).
  (* the answer *)
  assert (sphere_hull vs = Ok (rev st)) as PH.
  { unfold sphere_hull, hull, hull_indices. rewrite Hull_Main.match_ne by exact NE. cbn zeta. fold l.
    change (fun p0 q : rpt => PI / 2 - sphere_azimuth (fst p0) (snd p0) (fst q) (snd q)) with akey. rewrite BY. fold p. rewrite DE. cbn [map].
    assert (NoDup (rev (map snd ne') ++ [snd e1; j1; l])) as ND3.
    { cbn [map] in NDN, J1N. inversion NDN as [| ? ? NI ND']; subst x l0.
      apply (Permutation_NoDup (l := l :: j1 :: snd e1 :: map snd ne')).
      - transitivity ([snd e1; j1; l] ++ map snd ne'); [apply (Permutation_app_tail (map snd ne') (Permutation_rev [l; j1; snd e1])) |].
        rewrite Permutation_app_comm. apply Permutation_app_tail, Permutation_rev.
      - constructor; [| constructor; [exact J1N | exact NDN]]. intros [X | X]; [congruence |].
        change (snd e1 :: map snd ne') with (map snd (e1 :: ne')) in X. apply in_map_iff in X. destruct X as (e & X & Y). destruct (NEe e Y) as (_ & _ & Z). congruence. }
    assert (forall x, In x (rev (map snd ne') ++ [snd e1; j1; l]) -> (x < length vs)%nat) as BD.
    { intros x X. apply in_app_or in X. destruct X as [X | [<- | [<- | [<- | []]]]]; [| apply NEe; left; reflexivity | exact L1 | exact LL].
      apply in_rev in X. apply in_map_iff in X. destruct X as (e & <- & X). apply NEe. right. exact X. }
    pose proof (scan_map vs W (map snd ne') [snd e1; j1; l] ND3 BD) as SM. cbn [map] in SM. fold q1 s1 p in SM. rewrite ES in SM.
    destruct (scan rpt (0, 0) isleft_sphere vs [snd e1; j1; l] (map snd ne')) as [is |]; [| discriminate]. injection SM as SM. rewrite SM. reflexivity. }
  rewrite RS in PH. exists p, s1, (rev m). split; [exact PH |].
  assert (forall v, In v (rev (map (rat vs) (map snd ne')) ++ [q1; s1; p]) -> enclosed_on_sphere (p :: s1 :: rev m) v) as ENC.
  { intros v I. rewrite <- RS. apply (inv_enclosed (fun v => In v vs) p s1 st _ V).
    - pose proof (i_edges _ _ _ _ _ _ _ V) as X. rewrite Forall_forall in X. apply X, I.
    - pose proof (i_top _ _ _ _ _ _ _ V) as X. destruct st; [contradiction |]. rewrite Forall_forall in X. apply X, I. }
  assert (forall e, In e (e1 :: ne') -> enclosed_on_sphere (p :: s1 :: rev m) (rat vs (snd e))) as ENE.
  { intros e I. apply ENC. destruct I as [<- | I]; [apply in_or_app; right; left; reflexivity |]. apply in_or_app. left. apply -> in_rev. apply in_map, in_map, I. }
  assert (enclosed_on_sphere (p :: s1 :: rev m) p) as EP by (apply ENC, in_or_app; right; right; right; left; reflexivity).
  assert (enclosed_on_sphere (p :: s1 :: rev m) s1) as E1 by (apply ENC, in_or_app; right; right; left; reflexivity).
  split; [| split; [| split; [| split]]].
  - intros v I. rewrite <- RS in I. apply in_rev in I. apply (i_in _ _ _ _ _ _ _ V) in I. apply in_app_or in I. destruct I as [I | I].
    + apply in_rev in I. apply in_map_iff in I. destruct I as (i & <- & I). apply in_map_iff in I. destruct I as (e & <- & I). apply NP. right. exact I.
    + destruct I as [<- | [<- | [<- | []]]]; assumption.
  - split; [exact IP |]. intros v I. apply HV, I.
  - rewrite <- RS. apply triples_convex. apply V.
  - intros v I. destruct (CW v I) as [[-> | [D E]] | (e & IE & ->)]; [left; exact EP | | left; apply ENE, IE].
    assert (az p s1 = az p v) as AE by (unfold akey in *; lra).
    destruct (ray p s1 v) as (c & t & T & PV); auto using (v_lat vs W), (v_near vs W).
    destruct (Rlt_le_dec c 0) as [C | C].
    + right. exists (- c), t. rewrite Ropp_involutive. repeat split; [lra | exact T | exact PV].
    + left. intros a b AB. rewrite (turn_ray p s1 v a b c t PV). pose proof (EP a b AB). pose proof (E1 a b AB). nra.
  - intros NO v I. destruct (CW v I) as [[-> | [D E]] | (e & IE & ->)]; [exact EP | | apply ENE, IE].
    assert (v = s1 \/ v <> s1) as [-> | DV].
    { destruct v as [x y], s1 as [x' y']. destruct (Req_EM_T x x') as [-> | X]; [destruct (Req_EM_T y y') as [-> | Y] |]; [left; reflexivity | right; congruence | right; congruence]. }
    { exact E1. }
    exfalso. apply (NO v s1). split; [exact I |]. split; [exact I1 |]. split; [exact D |]. split; [exact NS1 |]. split; [exact DV |]. split.
    + rewrite (D_swap23 rpt turn turn_rot turn_swap), (ZR v I D E). ring.
    + intros w IW. assert (w = p \/ w <> p) as [-> | DW].
      { destruct w as [x y], p as [x' y']. destruct (Req_EM_T x x') as [-> | X]; [destruct (Req_EM_T y y') as [-> | Y] |]; [left; reflexivity | right; congruence | right; congruence]. }
      { rewrite S13. lra. }
      apply (key_turn0 vs W p IP HV); auto. rewrite E. destruct (CW w IW) as [[-> | [_ EW]] | (e & IE & ->)]; [congruence | lra |].
      destruct (NEe e IE) as (X1 & _). rewrite <- X1. specialize (FN e IE). cbn beta in FN. lra.
Qed.
Theorem sphere_clear : forall vs, within_half vs -> not_one_circle vs -> (forall p a b, westmost_of vs p -> ~ two_on_first_arc vs p a b) ->
  exists hs, sphere_hull vs = Ok hs /\ incl hs vs /\ convex_on_sphere hs /\ forall v, In v vs -> enclosed_on_sphere hs v.
Proof.
  intros vs W N C. destruct (sphere_main vs W N) as (p & s1 & r & H & I & L & X & _ & E). exists (p :: s1 :: r). repeat split; auto.
Qed.
