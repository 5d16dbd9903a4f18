(** Proofs on convex hulls in the plane. *)
From Coq Require Import List Bool Arith QArith Lqa Lia Permutation Sorted.
From Verif Require Import Hull_Model Hull_Spec Hull_Scan.
Import ListNotations.
Open Scope Q_scope.

Notation xlt := (fun a b : qpt => qlt (fst a) (fst b)).
Notation xeq := (fun a b : qpt => Qeq_bool (fst a) (fst b)).
Notation yup := (fun a b : qpt => qlt (snd b) (snd a)).
Notation pat := (at_ qpt (0, 0)).
Notation pleft := (leftmost qpt (0, 0) xlt xeq yup).
Notation ple := (pair_le angle angle_lt angle_eq).
Notation pinsert := (insert angle angle_lt angle_eq).
Notation psort := (sort angle angle_lt angle_eq).
Notation pby := (by_azimuth qpt angle (0, 0) angle_of angle_lt angle_eq).
Notation far := (fun p a b : qpt => qlt (dist2sq p b) (dist2sq p a)).
Notation pdrop := (drop_duplicates qpt angle (0, 0) angle_eq far).

(* ---- the leftmost vertex *)
Lemma half_refl : forall p, half p p. Proof. intros. right. split; [reflexivity | apply Qle_refl]. Qed.
Lemma half_trans : forall a b c, half a b -> half b c -> half a c.
Proof. unfold half. intros a b c [H | [H H']] [K | [K K']]; [left | left | left | right; split]; lra. Qed.
Lemma leftmost_fold : forall vs is l, let f := fun l i => if xlt (pat vs i) (pat vs l) then i else if xeq (pat vs i) (pat vs l) && yup (pat vs i) (pat vs l) then i else l in
  In (fold_left f is l) (l :: is) /\ (forall i, In i (l :: is) -> half (pat vs (fold_left f is l)) (pat vs i)).
Proof.
  intros vs is. induction is as [| i is IH]; intros l f; cbn [fold_left].
  - split; [left; reflexivity |]. intros i [<- | []]. apply half_refl.
  - destruct (IH (f l i)) as [I1 I2].
    assert ((f l i = i \/ f l i = l) /\ half (pat vs (f l i)) (pat vs i) /\ half (pat vs (f l i)) (pat vs l)) as (C & Hi & Hl).
    { unfold f. destruct (xlt (pat vs i) (pat vs l)) eqn:E; [apply qlt_iff in E; repeat split; [auto | apply half_refl | left; exact E] |].
      apply qlt_false in E. destruct (xeq (pat vs i) (pat vs l)) eqn:E2; cbn [andb].
      - apply Qeq_bool_iff in E2. destruct (yup (pat vs i) (pat vs l)) eqn:E3.
        + apply qlt_iff in E3. repeat split; [auto | apply half_refl | right; split; lra].
        + apply qlt_false in E3. repeat split; [auto | right; split; lra | apply half_refl].
      - assert (~ fst (pat vs i) == fst (pat vs l)) by (intros X; apply Qeq_bool_iff in X; congruence).
        repeat split; [auto | left; lra | apply half_refl]. }
    split.
    + destruct I1 as [I1 | I1]; [| right; right; exact I1]. change (fold_left (fun l i => f l i) is (f l i)) with (fold_left f is (f l i)) in I1 |- *.
      fold f in I1. rewrite <- I1. destruct C as [-> | ->]; [right; left | left]; reflexivity.
    + intros x X. fold f in I2.
      assert (half (pat vs (fold_left f is (f l i))) (pat vs (f l i))) as HF by (apply I2; left; reflexivity).
      destruct X as [<- | [<- | X]]; [eapply half_trans; eassumption | eapply half_trans; eassumption | apply I2; right; exact X].
Qed.
Lemma leftmost_ok : forall vs, vs <> [] -> (pleft vs < length vs)%nat /\ (forall i, (i < length vs)%nat -> half (pat vs (pleft vs)) (pat vs i)).
Proof.
  intros vs N. destruct (leftmost_fold vs (seq 1 (length vs - 1)) 0) as [I1 I2]. cbn zeta in I1, I2.
  assert (0 < length vs)%nat by (destruct vs; [congruence | cbn; lia]). split.
  - unfold leftmost. destruct I1 as [I1 | I1]; [rewrite <- I1; assumption |]. apply in_seq in I1. lia.
  - intros i L. apply I2. destruct i; [left; reflexivity | right; apply in_seq; lia].
Qed.

(* ---- angles *)
Lemma angle_lt_irr : forall a, angle_lt a a = false.
Proof. intros [| t |]; cbn; auto. apply qlt_false, Qle_refl. Qed.
Definition ale (a b : angle) : Prop := angle_lt b a = false.
Lemma ale_trans : forall a b c, ale a b -> ale b c -> ale a c.
Proof.
  unfold ale. intros [| s |] [| t |] [| u |]; cbn; auto; try discriminate. rewrite !qlt_false. intros; lra.
Qed.
Lemma ale_cases : forall a b, angle_lt a b = false -> ale b a. Proof. auto. Qed.
Lemma lt_ale : forall a b, angle_lt a b = true -> ale a b.
Proof. unfold ale. intros [| s |] [| t |]; cbn; auto; try discriminate. rewrite qlt_iff, qlt_false. intros; lra. Qed.
Lemma eq_ale : forall a b, angle_eq a b = true -> ale a b /\ ale b a.
Proof. unfold ale. intros [| s |] [| t |]; cbn; auto; try discriminate. rewrite Qeq_bool_iff, !qlt_false. intros; lra. Qed.
Lemma ale_eq : forall a b, ale a b -> ale b a -> angle_eq a b = true.
Proof. unfold ale. intros [| s |] [| t |]; cbn; auto; try discriminate. rewrite Qeq_bool_iff, !qlt_false. intros; lra. Qed.
Lemma angle_eq_sym : forall a b, angle_eq a b = true -> angle_eq b a = true.
Proof. intros a b H. apply eq_ale in H. apply ale_eq; apply H. Qed.
Lemma angle_eq_trans : forall a b c, angle_eq a b = true -> angle_eq b c = true -> angle_eq a c = true.
Proof. intros a b c H K. apply eq_ale in H, K. apply ale_eq; eapply ale_trans; (apply H || apply K). Qed.

(** The angle and the side. *)
Lemma angle_D : forall p a b, half p a -> half p b -> ale (angle_of p a) (angle_of p b) -> 0 <= D p a b.
Proof.
  intros p a b HA HB. unfold ale, angle_of. unfold half, orient in *.
  set (u := fst a - fst p) in *. set (v := snd a - snd p) in *. set (x := fst b - fst p) in *. set (y := snd b - snd p) in *.
  assert (0 < u \/ (u == 0 /\ v <= 0)) as HA' by (unfold u, v; destruct HA as [? | [? ?]]; [left; lra | right; split; lra]).
  assert (0 < x \/ (x == 0 /\ y <= 0)) as HB' by (unfold x, y; destruct HB as [? | [? ?]]; [left; lra | right; split; lra]).
  clearbody u v x y. cbn zeta.
  destruct (qlt 0 u) eqn:U; [apply qlt_iff in U | apply qlt_false in U].
  - destruct (qlt 0 x) eqn:X; [apply qlt_iff in X | apply qlt_false in X].
    + cbn [angle_lt]. rewrite qlt_false. intros H. assert (v / u * (x * u) <= y / x * (x * u)) as K by (apply Qmult_le_compat_r; nra).
      setoid_replace (v / u * (x * u)) with (v * x) in K by (field; lra). setoid_replace (y / x * (x * u)) with (y * u) in K by (field; lra). lra.
    + destruct HB' as [HB' | [HB1 HB2]]; [lra |]. destruct (qlt y 0) eqn:Y; cbn [angle_lt]; [discriminate |]. apply qlt_false in Y. intros _. nra.
  - destruct HA' as [HA' | [HA1 HA2]]; [lra |]. destruct (qlt v 0) eqn:V; [apply qlt_iff in V | apply qlt_false in V].
    + intros _. nra.
    + assert (v == 0) as V0 by lra. intros _. rewrite V0, HA1. lra.
Qed.
Lemma angle_D_lt : forall p a b, half p a -> half p b -> angle_lt (angle_of p a) (angle_of p b) = true -> same b p \/ 0 < D p a b.
Proof.
  intros p a b HA HB. unfold angle_of. unfold half, orient, same in *.
  set (u := fst a - fst p) in *. set (v := snd a - snd p) in *. set (x := fst b - fst p) in *. set (y := snd b - snd p) in *.
  assert (0 < u \/ (u == 0 /\ v <= 0)) as HA' by (unfold u, v; destruct HA as [? | [? ?]]; [left; lra | right; split; lra]).
  assert (0 < x \/ (x == 0 /\ y <= 0)) as HB' by (unfold x, y; destruct HB as [? | [? ?]]; [left; lra | right; split; lra]).
  assert (x == 0 -> y == 0 -> fst b == fst p /\ snd b == snd p) as SP by (unfold x, y; intros; split; lra).
  clearbody u v x y. cbn zeta.
  destruct (qlt 0 u) eqn:U; [apply qlt_iff in U | apply qlt_false in U].
  - destruct (qlt 0 x) eqn:X; [apply qlt_iff in X | apply qlt_false in X].
    + cbn [angle_lt]. rewrite qlt_iff. intros H. right. assert (v / u * (x * u) < y / x * (x * u)) as K by (apply Qmult_lt_compat_r; nra).
      setoid_replace (v / u * (x * u)) with (v * x) in K by (field; lra). setoid_replace (y / x * (x * u)) with (y * u) in K by (field; lra). lra.
    + destruct HB' as [HB' | [HB1 HB2]]; [lra |]. destruct (qlt y 0) eqn:Y; cbn [angle_lt]; [discriminate |]. apply qlt_false in Y. intros _. left. apply SP; lra.
  - destruct HA' as [HA' | [HA1 HA2]]; [lra |]. destruct (qlt v 0) eqn:V; [apply qlt_iff in V | discriminate].
    destruct (qlt 0 x) eqn:X; [apply qlt_iff in X; intros _; right; nra | apply qlt_false in X].
    destruct HB' as [HB' | [HB1 HB2]]; [lra |]. destruct (qlt y 0) eqn:Y; cbn [angle_lt]; [discriminate |]. apply qlt_false in Y. intros _. left. apply SP; lra.
Qed.
Lemma angle_up : forall p a, half p a -> (angle_of p a = Up <-> same a p).
Proof.
  intros p a H. unfold angle_of, same, half in *. cbn zeta. destruct (qlt 0 (fst a - fst p)) eqn:X; [apply qlt_iff in X | apply qlt_false in X].
  - split; [discriminate | intros [? ?]; lra].
  - destruct (qlt (snd a - snd p) 0) eqn:Y; [apply qlt_iff in Y | apply qlt_false in Y].
    + split; [discriminate | intros [? ?]; lra].
    + split; [intros _; destruct H as [H | [H H']]; [lra | split; lra] | auto].
Qed.
(** Two vertices at the same angle, seen from p. *)
Lemma angle_ray : forall p a b, half p a -> half p b -> ~ same a p -> angle_eq (angle_of p a) (angle_of p b) = true ->
  exists t, 0 < t /\ fst b == fst p + t * (fst a - fst p) /\ snd b == snd p + t * (snd a - snd p).
Proof.
  intros p a b HA HB NA. unfold angle_of, half, same in *.
  set (u := fst a - fst p) in *. set (v := snd a - snd p) in *. set (x := fst b - fst p) in *. set (y := snd b - snd p) in *.
  assert (fst b == fst p + x) as BX by (unfold x; ring). assert (snd b == snd p + y) as BY by (unfold y; ring).
  assert (0 < u \/ (u == 0 /\ v <= 0)) as HA' by (unfold u, v; destruct HA as [? | [? ?]]; [left; lra | right; split; lra]).
  assert (0 < x \/ (x == 0 /\ y <= 0)) as HB' by (unfold x, y; destruct HB as [? | [? ?]]; [left; lra | right; split; lra]).
  assert (u == 0 -> v == 0 -> False) as SP by (unfold u, v; intros; apply NA; split; lra).
  clearbody u v x y. cbn zeta.
  enough (angle_eq (if qlt 0 u then Slope (v / u) else if qlt v 0 then Down else Up) (if qlt 0 x then Slope (y / x) else if qlt y 0 then Down else Up) = true -> exists t, 0 < t /\ x == t * u /\ y == t * v) as G.
  { intros H. destruct (G H) as (t & T & X & Y). exists t. split; [exact T |]. rewrite BX, BY, X, Y. split; reflexivity. }
  destruct (qlt 0 u) eqn:U; [apply qlt_iff in U | apply qlt_false in U].
  - destruct (qlt 0 x) eqn:X; [apply qlt_iff in X | destruct (qlt y 0); discriminate].
    cbn [angle_eq]. rewrite Qeq_bool_iff. intros H. exists (x / u). split; [| split].
    + apply Qlt_shift_div_l; lra.
    + assert (x / u * u == x) as E by (field; lra). rewrite E. reflexivity.
    + assert (y == y / x * x) as E by (field; lra). rewrite <- H in E. assert (x / u * v == v / u * x) as E2 by (field; lra). rewrite E2, <- E. reflexivity.
  - destruct HA' as [HA' | [HA1 HA2]]; [lra |]. destruct (qlt v 0) eqn:V; [apply qlt_iff in V | apply qlt_false in V; exfalso; apply SP; lra].
    destruct (qlt 0 x) eqn:X; [discriminate | apply qlt_false in X]. destruct HB' as [HB' | [HB1 HB2]]; [lra |].
    destruct (qlt y 0) eqn:Y; [apply qlt_iff in Y | discriminate]. intros _. exists (y / v). split; [| split].
    + setoid_replace (y / v) with ((- y) / (- v)) by (field; lra). apply Qlt_shift_div_l; lra.
    + rewrite HA1, HB1. ring.
    + assert (y / v * v == y) as E by (field; lra). rewrite E. reflexivity.
Qed.

(* ---- the sorted list *)
Definition le2 (a b : angle * nat) : Prop := ale (fst a) (fst b).
Lemma ple_le : forall a b, ple a b = true -> le2 a b.
Proof. intros a b H. unfold pair_le in H. apply orb_true_iff in H. destruct H as [H | H]; [apply lt_ale, H |]. apply andb_true_iff in H. destruct H as [H _]. apply eq_ale in H. apply H. Qed.
Lemma ple_ge : forall a b, ple a b = false -> le2 b a.
Proof. intros a b H. unfold pair_le in H. apply orb_false_iff in H. destruct H as [H _]. exact H. Qed.
Lemma insert_perm : forall a l, Permutation (pinsert a l) (a :: l).
Proof. intros a l. induction l as [| b l IH]; cbn; [reflexivity |]. destruct (ple a b); [reflexivity |]. rewrite IH. apply perm_swap. Qed.
Lemma insert_sorted : forall a l, StronglySorted le2 l -> StronglySorted le2 (pinsert a l).
Proof.
  intros a l S. induction S as [| b l S IH F]; cbn; [repeat constructor |]. destruct (ple a b) eqn:E.
  - apply ple_le in E. constructor; [constructor; assumption |]. constructor; [exact E |]. eapply Forall_impl; [| exact F]. intros c C. eapply ale_trans; eassumption.
  - apply ple_ge in E. constructor; [exact IH |]. apply Forall_forall. intros c C. apply (Permutation_in _ (insert_perm a l)) in C.
    destruct C as [<- | C]; [exact E |]. rewrite Forall_forall in F. apply F, C.
Qed.
Lemma sort_ok : forall l, Permutation (psort l) l /\ StronglySorted le2 (psort l).
Proof.
  intros l. induction l as [| a l [P S]]; cbn; [split; constructor |]. split; [rewrite insert_perm, P; reflexivity | apply insert_sorted, S].
Qed.
Lemma by_ok : forall vs l, let s := pby vs l in StronglySorted le2 s /\
  (forall e, In e s -> fst e = angle_of (pat vs l) (pat vs (snd e)) /\ (snd e < length vs)%nat /\ snd e <> l) /\
  (forall i, (i < length vs)%nat -> i <> l -> In (angle_of (pat vs l) (pat vs i), i) s) /\ NoDup (map snd s).
Proof.
  intros vs l s. unfold s, by_azimuth. set (xs := map _ _). destruct (sort_ok xs) as [P S].
  split; [exact S |]. split; [| split].
  - intros e I. apply (Permutation_in _ P) in I. unfold xs in I. apply in_map_iff in I. destruct I as (i & <- & I). cbn [fst snd].
    apply filter_In in I. destruct I as [I N]. apply in_seq in I. apply negb_true_iff, Nat.eqb_neq in N. repeat split; [lia | exact N].
  - intros i I N. apply (Permutation_in _ (Permutation_sym P)). unfold xs. apply in_map_iff. exists i. split; [reflexivity |].
    apply filter_In. split; [apply in_seq; lia | apply negb_true_iff, Nat.eqb_neq, N].
  - eapply Permutation_NoDup; [apply Permutation_map, Permutation_sym, P |]. unfold xs. rewrite map_map. cbn [snd]. rewrite map_id. apply NoDup_filter, seq_NoDup.
Qed.

(* ---- dropping duplicates *)
Lemma drop_ne : forall vs p0 s i klast lastpt prev acc, Forall (fun e => angle_eq (fst e) klast = false) s ->
  pdrop vs p0 s i klast lastpt prev acc = rev acc ++ prev :: map snd s.
Proof.
  intros vs p0 s. induction s as [| [k j] s IH]; intros i klast lastpt prev acc F; cbn [drop_duplicates].
  - cbn [rev map]. reflexivity.
  - inversion F as [| ? ? E F']; subst. cbn [fst] in E. rewrite E. rewrite IH; [| exact F']. cbn [rev map snd]. rewrite <- app_assoc. reflexivity.
Qed.
Lemma drop_eq : forall vs p0 eqs ne k0 i klast lastpt prev acc, angle_eq klast k0 = true -> Forall (fun e => angle_eq (fst e) k0 = true) eqs ->
  exists i' klast' lastpt' prev', angle_eq klast' k0 = true /\ In prev' (prev :: map snd eqs) /\
    pdrop vs p0 (eqs ++ ne) i klast lastpt prev acc = pdrop vs p0 ne i' klast' lastpt' prev' acc.
Proof.
  intros vs p0 eqs. induction eqs as [| [k j] eqs IH]; intros ne k0 i klast lastpt prev acc K F.
  - exists i, klast, lastpt, prev. repeat split; [exact K | left; reflexivity].
  - inversion F as [| ? ? E F']; subst. cbn [fst] in E. cbn [app drop_duplicates].
    rewrite (angle_eq_trans k k0 klast E (angle_eq_sym _ _ K)).
    destruct (far p0 (pat vs j) lastpt).
    + destruct (IH ne k0 (S i) k (pat vs i) j acc E F') as (i' & k' & l' & q & A & B & C). exists i', k', l', q. repeat split; [exact A | right; exact B | exact C].
    + destruct (IH ne k0 (S i) klast lastpt prev acc K F') as (i' & k' & l' & q & A & B & C). exists i', k', l', q. repeat split; [exact A | destruct B as [B | B]; [left; exact B | right; right; exact B] | exact C].
Qed.
Lemma split_first : forall k0 s, StronglySorted le2 s -> Forall (fun e => ale k0 (fst e)) s ->
  exists eqs ne, s = eqs ++ ne /\ Forall (fun e => angle_eq (fst e) k0 = true) eqs /\ Forall (fun e => angle_lt k0 (fst e) = true) ne.
Proof.
  intros k0 s S. induction S as [| e s S IH F]; intros A; [exists [], []; repeat split; constructor |].
  inversion A as [| ? ? A1 A2]; subst. destruct (angle_lt k0 (fst e)) eqn:E.
  - exists [], (e :: s). split; [reflexivity |]. split; [constructor |]. constructor; [exact E |]. apply Forall_forall. intros x X. rewrite Forall_forall in F.
    specialize (F x X). destruct (angle_lt k0 (fst x)) eqn:G; [reflexivity |].
    unfold le2 in F. assert (ale (fst e) k0) by (eapply ale_trans; [exact F | exact G]). unfold ale in H. congruence.
  - destruct (IH A2) as (eqs & ne & -> & P & R). exists (e :: eqs), ne. split; [reflexivity |]. split; [constructor; [apply ale_eq; assumption | exact P] | exact R].
Qed.

(* ---- indices and vertices *)
Lemma pops_map : forall vs st i, match pops qpt (0, 0) isleft_plane vs st i with
  | Ok r => pops_pt (map (pat vs) st) (pat vs i) = Ok (map (pat vs) r)
  | Raise e => pops_pt (map (pat vs) st) (pat vs i) = Raise e end.
Proof.
  intros vs st i. induction st as [| b st IH]; [reflexivity |]. destruct st as [| a st]; [reflexivity |].
  change (pops qpt (0, 0) isleft_plane vs (b :: a :: st) i) with (if isleft_plane (pat vs a) (pat vs b) (pat vs i) then Ok (b :: a :: st) else pops qpt (0, 0) isleft_plane vs (a :: st) i).
  change (pops_pt (map (pat vs) (b :: a :: st)) (pat vs i)) with (if isleft_plane (pat vs a) (pat vs b) (pat vs i) then Ok (map (pat vs) (b :: a :: st)) else pops_pt (map (pat vs) (a :: st)) (pat vs i)).
  destruct (isleft_plane _ _ _); [reflexivity | exact IH].
Qed.
Lemma scan_map : forall vs is st, match scan qpt (0, 0) isleft_plane vs st is with
  | Ok r => scan_pt (map (pat vs) st) (map (pat vs) is) = Ok (map (pat vs) r)
  | Raise e => scan_pt (map (pat vs) st) (map (pat vs) is) = Raise e end.
Proof.
  intros vs is. induction is as [| i is IH]; intros st; cbn [scan scan_pt map].
  - rewrite map_rev. reflexivity.
  - pose proof (pops_map vs st i) as P. destruct (pops qpt (0, 0) isleft_plane vs st i) as [r | e]; rewrite P; [| reflexivity]. apply (IH (i :: r)).
Qed.

(* ---- the ring *)
Lemma combine_next : forall (A : Type) (t : list A) h x a b, In (a, b) (combine (h :: t) (t ++ [x])) ->
  (exists l1 l2, h :: t = l1 ++ a :: b :: l2) \/ (exists l1, h :: t = l1 ++ [a] /\ b = x).
Proof.
  intros A t. induction t as [| y t IH]; intros h x a b I; cbn in I.
  - destruct I as [I | []]. injection I as -> ->. right. exists []. split; reflexivity.
  - destruct I as [I | I].
    + injection I as -> ->. left. exists [], t. reflexivity.
    + destruct (IH y x a b I) as [(l1 & l2 & E) | (l1 & E & ->)].
      * left. exists (h :: l1), l2. rewrite E. reflexivity.
      * right. exists (h :: l1). rewrite E. split; reflexivity.
Qed.
Lemma inv_enclosed : forall p s1 st dn, inv p s1 st dn -> forall q, edges_left st q -> match st with t :: _ => 0 <= D p q t | [] => True end -> enclosed (rev st) q.
Proof.
  intros p s1 st dn V q E T a b I. destruct (i_bottom _ _ _ _ V) as [m EB]. subst st.
  rewrite rev_app_distr in I. cbn [rev app] in I. unfold ring_edges in I. apply combine_next in I.
  assert (p :: s1 :: rev m = rev (m ++ [s1; p])) as R by (rewrite rev_app_distr; reflexivity). rewrite R in I.
  destruct I as [(l1 & l2 & X) | (l1 & X & ->)]; apply (f_equal (@rev qpt)) in X; rewrite rev_involutive in X.
  - rewrite rev_app_distr in X. cbn [rev] in X. rewrite <- !app_assoc in X. cbn [app] in X. rewrite X in E. apply edges_suffix in E. apply E.
  - rewrite rev_app_distr in X. cbn [rev app] in X. rewrite X in T. rewrite D_rot. exact T.
Qed.
Lemma nth_split3 : forall (A : Type) (l : list A) i j k a b c, (i < j)%nat -> (j < k)%nat -> nth_error l i = Some a -> nth_error l j = Some b -> nth_error l k = Some c ->
  exists l1 l2 l3 l4, l = l1 ++ a :: l2 ++ b :: l3 ++ c :: l4.
Proof.
  intros A l i j k a b c IJ JK EA EB EC.
  apply nth_error_split in EA. destruct EA as (l1 & r1 & -> & L1). rewrite <- L1 in *.
  rewrite nth_error_app2 in EB, EC by lia. destruct (j - length l1)%nat as [| j'] eqn:EJ; [lia |]. destruct (k - length l1)%nat as [| k'] eqn:EK; [lia |].
  cbn in EB, EC. apply nth_error_split in EB. destruct EB as (l2 & r2 & -> & L2).
  rewrite nth_error_app2 in EC by lia. destruct (k' - length l2)%nat as [| k''] eqn:EK2; [lia |].
  cbn in EC. apply nth_error_split in EC. destruct EC as (l3 & r3 & -> & L3). exists l1, l2, l3, r3. reflexivity.
Qed.
Lemma triples_convex : forall st, triples st -> convex (rev st).
Proof.
  intros st T i j k a b c IJ JK EA EB EC. destruct (nth_split3 _ _ _ _ _ _ _ _ IJ JK EA EB EC) as (l1 & l2 & l3 & l4 & E).
  apply (f_equal (@rev qpt)) in E. rewrite rev_involutive in E. subst st.
  rewrite rev_app_distr in T. cbn [rev] in T. rewrite rev_app_distr in T. cbn [rev] in T. rewrite rev_app_distr in T. cbn [rev] in T. rewrite <- !app_assoc in T. cbn [app] in T.
  apply triples_suffix in T. destruct T as [T _]. apply pairs_suffix in T. destruct T as [T _]. rewrite Forall_forall in T. apply T.
  apply in_or_app. right. left. reflexivity.
Qed.
