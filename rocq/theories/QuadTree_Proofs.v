From Coq Require Import List ZArith Bool QArith Lia Permutation.
From Verif Require Import QuadTree_Model QuadTree_Spec.
Import ListNotations.

Section Proofs.
Context {num : Type} (ltb eqb : num -> num -> bool) (mid : num -> num -> num).
Hypothesis L : coordinate_laws ltb eqb mid.

Notation le a b := (ltb b a = false).
Notation bboxn := (bbox num).
Notation treen := (tree num).
Notation posn := (position num).
Notation getq := (get_quadrant ltb mid).
Notation cbb := (child_bbox mid).
Notation distr := (distribute ltb mid).
Notation linkq := (link_quadrant ltb mid).

Lemma le_refl a : le a a.
Proof. apply (law_irrefl _ _ _ L). Qed.

Lemma lt_le a b : ltb a b = true -> le a b.
Proof.
  intros H. destruct (ltb b a) eqn:E; [|reflexivity].
  pose proof (law_trans _ _ _ L _ _ _ H E) as K.
  rewrite (law_irrefl _ _ _ L) in K; discriminate.
Qed.

Lemma le_lt_trans a b c : le a b -> ltb b c = true -> ltb a c = true.
Proof.
  intros H1 H2. destruct (law_cotrans _ _ _ L b a c H2) as [K|K]; congruence.
Qed.

Lemma lt_le_trans a b c : ltb a b = true -> le b c -> ltb a c = true.
Proof.
  intros H1 H2. destruct (law_cotrans _ _ _ L a c b H1) as [K|K]; congruence.
Qed.

Lemma le_trans a b c : le a b -> le b c -> le a c.
Proof.
  intros H1 H2. destruct (ltb c a) eqn:E; [|reflexivity].
  destruct (law_cotrans _ _ _ L _ b _ E) as [K|K]; congruence.
Qed.

Definition same (p q : num * num) : Prop :=
  le (fst p) (fst q) /\ le (fst q) (fst p) /\
  le (snd p) (snd q) /\ le (snd q) (snd p).

Definition pxy (p : posn) : num * num := (px p, py p).

Lemma same_sym p q : same p q -> same q p.
Proof. unfold same; tauto. Qed.

Lemma same_refl p : same p p.
Proof. unfold same; repeat split; apply le_refl. Qed.

Lemma same_trans p q r : same p q -> same q r -> same p r.
Proof.
  unfold same; intros (A&B&C&D) (E&F&G&H).
  repeat split; eapply le_trans; eassumption.
Qed.

Lemma ltb_congr a a' b b' :
  le a a' -> le a' a -> le b b' -> le b' b -> ltb a b = ltb a' b'.
Proof.
  intros A B C D. destruct (ltb a b) eqn:E, (ltb a' b') eqn:F; try reflexivity.
  - pose proof (le_lt_trans _ _ _ B E) as K1.
    pose proof (lt_le_trans _ _ _ K1 C). congruence.
  - pose proof (le_lt_trans _ _ _ A F) as K1.
    pose proof (lt_le_trans _ _ _ K1 D). congruence.
Qed.

Lemma getq_same bb p q : same (pxy p) (pxy q) ->
  getq bb (px p) (py p) = getq bb (px q) (py q).
Proof.
  unfold same, pxy; cbn; intros (A&B&C&D). unfold get_quadrant.
  rewrite (ltb_congr (px p) (px q) _ _ A B (le_refl _) (le_refl _)).
  rewrite (ltb_congr (py p) (py q) _ _ C D (le_refl _) (le_refl _)).
  reflexivity.
Qed.

Lemma iswithin_same bb p q : same (pxy p) (pxy q) ->
  iswithin ltb bb p = iswithin ltb bb q.
Proof.
  unfold same, pxy; cbn; intros (A&B&C&D). unfold iswithin.
  rewrite (ltb_congr (xmin bb) (xmin bb) (px p) (px q)) by (auto using le_refl).
  rewrite (ltb_congr (px p) (px q) (xmax bb) (xmax bb)) by (auto using le_refl).
  rewrite (ltb_congr (ymin bb) (ymin bb) (py p) (py q)) by (auto using le_refl).
  rewrite (ltb_congr (py p) (py q) (ymax bb) (ymax bb)) by (auto using le_refl).
  reflexivity.
Qed.

Definition in_bb (bb : bboxn) (p : posn) : Prop :=
  le (xmin bb) (px p) /\ le (px p) (xmax bb) /\
  le (ymin bb) (py p) /\ le (py p) (ymax bb).

Definition wf_bb (bb : bboxn) : Prop :=
  le (xmin bb) (xmax bb) /\ le (ymin bb) (ymax bb).

Lemma wf_child bb q : wf_bb bb -> wf_bb (cbb bb q).
Proof.
  intros (A&B). destruct q; split; cbn;
    first [apply (law_mid_lo _ _ _ L); assumption
          |apply (law_mid_hi _ _ _ L); assumption].
Qed.

Lemma quadrant_eqb_eq a b : quadrant_eqb a b = true <-> a = b.
Proof. destruct a, b; cbn; split; congruence. Qed.

Lemma in_child bb p : in_bb bb p -> in_bb (cbb bb (getq bb (px p) (py p))) p.
Proof.
  intros (A&B&C&D). unfold get_quadrant.
  destruct (ltb (px p) (mid (xmin bb) (xmax bb))) eqn:E1;
    destruct (ltb (py p) (mid (ymin bb) (ymax bb))) eqn:E2;
    repeat split; cbn; auto using lt_le.
Qed.

Lemma link_ok bb q p : wf_bb bb -> in_bb bb p -> getq bb (px p) (py p) = q ->
  linkq bb (cbb bb q) = q.
Proof.
  intros (W1&W2) (A&B&C&D) H. subst q. unfold link_quadrant, get_quadrant.
  destruct (ltb (px p) (mid (xmin bb) (xmax bb))) eqn:E1;
    destruct (ltb (py p) (mid (ymin bb) (ymax bb))) eqn:E2; cbn.
  - rewrite (law_mid_strict _ _ _ L) by (eapply le_lt_trans; eassumption).
    rewrite (law_mid_strict _ _ _ L) by (eapply le_lt_trans; eassumption).
    reflexivity.
  - rewrite (law_mid_strict _ _ _ L) by (eapply le_lt_trans; eassumption).
    rewrite (law_mid_lo _ _ _ L (mid (ymin bb) (ymax bb))).
    + reflexivity.
    + apply (law_mid_hi _ _ _ L). assumption.
  - rewrite (law_mid_strict _ _ _ L (ymin bb)) by (eapply le_lt_trans; eassumption).
    rewrite (law_mid_lo _ _ _ L (mid (xmin bb) (xmax bb))).
    + reflexivity.
    + apply (law_mid_hi _ _ _ L). assumption.
  - rewrite (law_mid_lo _ _ _ L (mid (xmin bb) (xmax bb)))
      by (apply (law_mid_hi _ _ _ L); assumption).
    rewrite (law_mid_lo _ _ _ L (mid (ymin bb) (ymax bb)))
      by (apply (law_mid_hi _ _ _ L); assumption).
    reflexivity.
Qed.

(** All positions stored in a tree. *)
Fixpoint positions (t : treen) : list posn :=
  match t with
  | Leaf _ ps => ps
  | Node _ ul ur ll lr =>
      positions ul ++ positions ur ++ positions ll ++ positions lr
  end.

Fixpoint Inv (t : treen) : Prop :=
  wf_bb (tree_bbox t) /\
  match t with
  | Leaf bb ps => Forall (in_bb bb) ps
  | Node bb ul ur ll lr =>
      (forall q, tree_bbox (get_child ul ur ll lr q) = cbb bb q) /\
      (forall q p, In p (positions (get_child ul ur ll lr q)) ->
                   in_bb bb p /\ getq bb (px p) (py p) = q) /\
      Inv ul /\ Inv ur /\ Inv ll /\ Inv lr
  end.

Lemma Inv_wf t : Inv t -> wf_bb (tree_bbox t).
Proof. destruct t; cbn; tauto. Qed.

Lemma Inv_in t : Inv t -> forall p, In p (positions t) -> in_bb (tree_bbox t) p.
Proof.
  destruct t as [bb ps|bb ul ur ll lr]; cbn.
  - intros (_&H) p Hp. rewrite Forall_forall in H; auto.
  - intros (_&_&H&_) p Hp. rewrite !in_app_iff in Hp.
    destruct Hp as [Hp|[Hp|[Hp|Hp]]].
    + apply (H UPPERLEFT p Hp).
    + apply (H UPPERRIGHT p Hp).
    + apply (H LOWERLEFT p Hp).
    + apply (H LOWERRIGHT p Hp).
Qed.

Lemma Inv_child bb ul ur ll lr q :
  Inv (Node bb ul ur ll lr) -> Inv (get_child ul ur ll lr q).
Proof. cbn. intros (_&_&_&A&B&C&D). destruct q; assumption. Qed.

(** The four quadrants partition the positions. *)
Lemma distribute_cons bb p ps q :
  distr bb (p :: ps) q =
  if quadrant_eqb (getq bb (px p) (py p)) q then p :: distr bb ps q
  else distr bb ps q.
Proof. reflexivity. Qed.

Lemma distribute_perm bb ps :
  Permutation (distr bb ps UPPERLEFT ++ distr bb ps UPPERRIGHT ++
               distr bb ps LOWERLEFT ++ distr bb ps LOWERRIGHT) ps.
Proof.
  induction ps as [|p ps IH]; [constructor|].
  rewrite !distribute_cons.
  generalize dependent (distr bb ps UPPERLEFT). intros A.
  generalize (distr bb ps UPPERRIGHT). intros B.
  generalize (distr bb ps LOWERLEFT). intros C.
  generalize (distr bb ps LOWERRIGHT). intros D IH.
  destruct (getq bb (px p) (py p)); cbn [quadrant_eqb].
  - cbn. now constructor.
  - cbn. rewrite <- Permutation_middle. now constructor.
  - rewrite (app_assoc A B). cbn. rewrite <- Permutation_middle.
    rewrite <- app_assoc. now constructor.
  - rewrite (app_assoc B C), (app_assoc A). rewrite <- Permutation_middle.
    rewrite <- !app_assoc. now constructor.
Qed.

Lemma distribute_In bb ps q p :
  In p (distr bb ps q) <-> In p ps /\ getq bb (px p) (py p) = q.
Proof. unfold distribute. rewrite filter_In, quadrant_eqb_eq. tauto. Qed.

Lemma distribute_length bb ps :
  (length (distr bb ps UPPERLEFT) + length (distr bb ps UPPERRIGHT) +
   length (distr bb ps LOWERLEFT) + length (distr bb ps LOWERRIGHT)
   = length ps)%nat.
Proof.
  rewrite <- (Permutation_length (distribute_perm bb ps)).
  rewrite !app_length. lia.
Qed.

Definition plain_node bb ps : treen :=
  Node bb (Leaf (cbb bb UPPERLEFT) (distr bb ps UPPERLEFT))
          (Leaf (cbb bb UPPERRIGHT) (distr bb ps UPPERRIGHT))
          (Leaf (cbb bb LOWERLEFT) (distr bb ps LOWERLEFT))
          (Leaf (cbb bb LOWERRIGHT) (distr bb ps LOWERRIGHT)).

Lemma plain_node_Inv bb ps : wf_bb bb -> Forall (in_bb bb) ps ->
  Inv (plain_node bb ps).
Proof.
  intros W F. rewrite Forall_forall in F. unfold plain_node.
  assert (K : forall q, Inv (Leaf (cbb bb q) (distr bb ps q))).
  { intros q. cbn. split; [apply wf_child; assumption|].
    apply Forall_forall. intros p Hp. apply distribute_In in Hp as (Hp&E).
    subst q. apply in_child; auto. }
  cbn. split; [assumption|]. split; [intros []; reflexivity|].
  split.
  - intros q p Hp.
    assert (In p (distr bb ps q)) as Hp' by (destruct q; exact Hp).
    apply distribute_In in Hp' as (Hp'&E). split; auto.
  - split; [apply (K UPPERLEFT)|]. split; [apply (K UPPERRIGHT)|].
    split; [apply (K LOWERLEFT)|apply (K LOWERRIGHT)].
Qed.

Lemma set_child_Inv bb ul ur ll lr q c :
  Inv (Node bb ul ur ll lr) -> Inv c -> tree_bbox c = cbb bb q ->
  (forall p, In p (positions c) -> in_bb bb p /\ getq bb (px p) (py p) = q) ->
  Inv (set_child (Node bb ul ur ll lr) q c).
Proof.
  intros (W&B&P&I1&I2&I3&I4) Ic Bc Pc.
  destruct q; cbn; (split; [exact W|]); (split; [intros [];
      first [exact Bc|exact (B UPPERLEFT)|exact (B UPPERRIGHT)
            |exact (B LOWERLEFT)|exact (B LOWERRIGHT)]|]);
    (split; [intros [] p Hp;
      first [exact (Pc p Hp)|exact (P UPPERLEFT p Hp)|exact (P UPPERRIGHT p Hp)
            |exact (P LOWERLEFT p Hp)|exact (P LOWERRIGHT p Hp)]|]);
    auto.
Qed.

Lemma set_child_perm bb ul ur ll lr q c extra :
  Permutation (positions c) (extra ++ positions (get_child ul ur ll lr q)) ->
  Permutation (positions (set_child (Node bb ul ur ll lr) q c))
              (extra ++ positions (Node bb ul ur ll lr)).
Proof.
  intros H. destruct q; cbn in *; rewrite H; rewrite <- ?app_assoc.
  - reflexivity.
  - apply Permutation_app_swap_app.
  - rewrite (Permutation_app_swap_app (positions ur)).
    apply Permutation_app_swap_app.
  - rewrite (Permutation_app_swap_app (positions ll)).
    rewrite (Permutation_app_swap_app (positions ur)).
    apply Permutation_app_swap_app.
Qed.

Lemma set_child_twice (t : treen) q a b :
  set_child (set_child t q a) q b = set_child t q b.
Proof. destruct t, q; reflexivity. Qed.

Definition split_ok cap bb ps (r : res treen) : Prop :=
  match r with
  | Ok t => Inv t /\ tree_bbox t = bb /\ Permutation (positions t) ps /\
            (exists ul ur ll lr, t = Node bb ul ur ll lr) /\
            (Z.of_nat (length ps) = cap -> leaves_below cap t)
  | OutOfFuel => True
  | _ => False
  end.

Lemma full_nonempty cap (ps : list posn) : (1 <= cap)%Z -> full cap ps = true ->
  exists p, In p ps.
Proof.
  unfold full. intros H1 H2. destruct ps as [|p ps]; cbn in H2.
  - apply Z.leb_le in H2. lia.
  - exists p; now left.
Qed.

Lemma resplit_ok fuel cap bb ps q :
  (1 <= cap)%Z -> wf_bb bb -> Forall (in_bb bb) ps ->
  (forall bb' ps', wf_bb bb' -> Forall (in_bb bb') ps' ->
     split_ok cap bb' ps' (qt_split ltb mid fuel cap bb' ps')) ->
  full cap (distr bb ps q) = true ->
  split_ok cap bb ps
    (bind (qt_split ltb mid fuel cap (cbb bb q) (distr bb ps q))
       (fun sub => Ok (set_child (set_child (plain_node bb ps)
                         (linkq bb (cbb bb q)) sub) q sub))).
Proof.
  intros Hcap W F IH Hfull.
  destruct (full_nonempty _ _ Hcap Hfull) as (p0&Hp0).
  pose proof (proj1 (distribute_In _ _ _ _) Hp0) as (Hp1&Hq).
  assert (Fin := F). rewrite Forall_forall in Fin.
  assert (Fq : Forall (in_bb (cbb bb q)) (distr bb ps q)).
  { apply Forall_forall. intros p Hp. apply distribute_In in Hp as (Hp&E).
    rewrite <- E. apply in_child; auto. }
  specialize (IH _ _ (wf_child bb q W) Fq).
  destruct (qt_split ltb mid fuel cap (cbb bb q) (distr bb ps q)) as [sub| | |];
    cbn [bind split_ok] in *; auto.
  destruct IH as (I&B&P&_&LB).
  rewrite (link_ok bb q p0 W (Fin _ Hp1) Hq). rewrite set_child_twice.
  assert (PN := plain_node_Inv bb ps W F).
  assert (Psub : forall p, In p (positions sub) ->
            in_bb bb p /\ getq bb (px p) (py p) = q).
  { intros p Hp. apply (Permutation_in _ P) in Hp.
    apply distribute_In in Hp as (Hp&E). split; auto. }
  split; [unfold plain_node in *; apply set_child_Inv; auto|].
  split; [destruct q; reflexivity|]. split.
  - unfold plain_node. rewrite (set_child_perm _ _ _ _ _ _ _ []).
    + cbn. apply distribute_perm.
    + destruct q; exact P.
  - split; [destruct q; cbn; do 4 eexists; reflexivity|].
    intros HL. pose proof (distribute_length bb ps) as DL.
    unfold full in Hfull. apply Z.leb_le in Hfull.
    destruct q; cbn; repeat split; first [apply LB; lia | lia].
Qed.

Lemma split_spec fuel cap bb ps :
  (1 <= cap)%Z -> wf_bb bb -> Forall (in_bb bb) ps ->
  split_ok cap bb ps (qt_split ltb mid fuel cap bb ps).
Proof.
  intros Hcap. revert bb ps. induction fuel as [|fuel IH]; intros bb ps W F;
    [exact I|].
  cbn [qt_split].
  change (Node bb _ _ _ _) with (plain_node bb ps).
  destruct (full cap (distr bb ps UPPERLEFT)) eqn:E1;
    [apply resplit_ok; auto|].
  destruct (full cap (distr bb ps UPPERRIGHT)) eqn:E2;
    [apply resplit_ok; auto|].
  destruct (full cap (distr bb ps LOWERLEFT)) eqn:E3;
    [apply resplit_ok; auto|].
  destruct (full cap (distr bb ps LOWERRIGHT)) eqn:E4;
    [apply resplit_ok; auto|].
  unfold full in *. apply Z.leb_gt in E1, E2, E3, E4.
  cbn [split_ok]. split; [apply plain_node_Inv; auto|].
  split; [reflexivity|]. split; [apply distribute_perm|].
  split; [unfold plain_node; do 4 eexists; reflexivity|].
  intros _. cbn. auto.
Qed.

Lemma isduplicate_Some ps p i : isduplicate eqb ps p = Some i ->
  exists q, In q ps /\ pid q = i /\ same (pxy p) (pxy q).
Proof.
  induction ps as [|a ps IH]; cbn; [discriminate|].
  destruct (eqb (px p) (px a)) eqn:E1; destruct (eqb (py p) (py a)) eqn:E2; cbn.
  - intros [= <-]. exists a. split; [now left|]. split; [reflexivity|].
    apply (law_eqb _ _ _ L) in E1, E2. unfold same; cbn; tauto.
  - intros H; destruct (IH H) as (q&?&?&?); exists q; auto.
  - intros H; destruct (IH H) as (q&?&?&?); exists q; auto.
  - intros H; destruct (IH H) as (q&?&?&?); exists q; auto.
Qed.

Lemma isduplicate_None ps p : isduplicate eqb ps p = None ->
  forall q, In q ps -> ~ same (pxy p) (pxy q).
Proof.
  induction ps as [|a ps IH]; cbn; [tauto|].
  destruct (eqb (px p) (px a) && eqb (py p) (py a)) eqn:E; [discriminate|].
  intros H q [<-|Hq]; [|auto].
  unfold same, pxy; cbn. intros (A&B&C&D).
  apply andb_false_iff in E as [E|E];
    apply not_true_iff_false in E; apply E; apply (law_eqb _ _ _ L); tauto.
Qed.

Definition insert_ok cap t p (r : res (treen * option nat)) : Prop :=
  match r with
  | Ok (t', Some i) =>
      t' = t /\ exists q, In q (positions t) /\ pid q = i /\ same (pxy p) (pxy q)
  | Ok (t', None) =>
      Inv t' /\ tree_bbox t' = tree_bbox t /\
      Permutation (positions t') (p :: positions t) /\
      (forall q, In q (positions t) -> ~ same (pxy p) (pxy q)) /\
      (leaves_below cap t -> leaves_below cap t')
  | OutOfFuel => True
  | _ => False
  end.

Lemma insert_spec fuel cap t p :
  (1 <= cap)%Z -> Inv t -> in_bb (tree_bbox t) p ->
  insert_ok cap t p (qt_insert ltb eqb mid fuel cap t p).
Proof.
  intros Hcap. revert p.
  assert (STEP : forall bb ul ur ll lr q p,
    Inv (Node bb ul ur ll lr) -> in_bb bb p -> getq bb (px p) (py p) = q ->
    insert_ok cap (get_child ul ur ll lr q) p
      (qt_insert ltb eqb mid fuel cap (get_child ul ur ll lr q) p) ->
    insert_ok cap (Node bb ul ur ll lr) p
      (bind (qt_insert ltb eqb mid fuel cap (get_child ul ur ll lr q) p)
         (fun r => match get_child ul ur ll lr q, fst r with
                   | Leaf cb _, Node _ _ _ _ _ =>
                       if quadrant_eqb (linkq bb cb) q
                       then Ok (set_child (Node bb ul ur ll lr) q (fst r), snd r)
                       else DanglingPointer
                   | _, _ => Ok (set_child (Node bb ul ur ll lr) q (fst r), snd r)
                   end))).
  { intros bb ul ur ll lr q p HI Hin Hq IH.
    pose proof (Inv_wf _ HI) as W; cbn in W.
    assert (LINK : linkq bb (tree_bbox (get_child ul ur ll lr q)) = q).
    { pose proof HI as (_&B&_). rewrite B. eapply link_ok; eauto. }
    destruct (qt_insert ltb eqb mid fuel cap (get_child ul ur ll lr q) p)
      as [[c o]| | |]; cbn [insert_ok bind fst snd] in *; auto.
    assert (GOAL : insert_ok cap (Node bb ul ur ll lr) p
              (Ok (set_child (Node bb ul ur ll lr) q c, o))).
    { cbn [insert_ok]. destruct o as [i|].
      - destruct IH as (->&r&Hr&Hi&Hs). split; [destruct q; reflexivity|].
        exists r. split; [|auto]. cbn. rewrite !in_app_iff.
        destruct q; cbn in Hr; auto.
      - destruct IH as (I&B&P&N&LB).
        assert (HIc := HI). destruct HIc as (_&Bc&Pc&_).
        assert (Psub : forall r, In r (positions c) ->
                  in_bb bb r /\ getq bb (px r) (py r) = q).
        { intros r Hr. apply (Permutation_in _ P) in Hr as [<-|Hr]; auto. }
        split; [apply set_child_Inv; auto; rewrite B; apply Bc|].
        split; [destruct q; reflexivity|]. split.
        + apply (set_child_perm bb ul ur ll lr q c [p]). cbn. exact P.
        + split.
          * intros r Hr S. 
            assert (Hrq : In r (positions (get_child ul ur ll lr (getq bb (px r) (py r))))).
            { assert (exists q', In r (positions (get_child ul ur ll lr q'))) as (q'&Hq').
              { cbn in Hr. rewrite !in_app_iff in Hr.
                destruct Hr as [Hr|[Hr|[Hr|Hr]]];
                [exists UPPERLEFT|exists UPPERRIGHT|exists LOWERLEFT|exists LOWERRIGHT];
                exact Hr. }
              destruct (Pc _ _ Hq') as (_&E). rewrite E; exact Hq'. }
            rewrite <- (getq_same bb p r S), Hq in Hrq. exact (N r Hrq S).
          * cbn. intros (L1&L2&L3&L4). destruct q; cbn in *; auto. }
    destruct (get_child ul ur ll lr q) as [cb cps|]; destruct c as [|]; auto.
    cbn in LINK. rewrite LINK.
    replace (quadrant_eqb q q) with true by (destruct q; reflexivity).
    exact GOAL. }
  induction t as [bb ps|bb ul IH1 ur IH2 ll IH3 lr IH4]; intros p HI Hin.
  - cbn [qt_insert]. destruct (isduplicate eqb ps p) as [i|] eqn:ED.
    + cbn. split; [reflexivity|]. apply isduplicate_Some in ED. exact ED.
    + pose proof (isduplicate_None _ _ ED) as ND.
      destruct HI as (W&F).
      assert (F' : Forall (in_bb bb) (ps ++ [p])).
      { apply Forall_app. split; [exact F|]. repeat constructor; apply Hin. }
      assert (PP : Permutation (ps ++ [p]) (p :: ps)).
      { rewrite Permutation_app_comm. reflexivity. }
      destruct (full cap (ps ++ [p])) eqn:EF.
      * pose proof (split_spec fuel cap bb (ps ++ [p]) Hcap W F') as S.
        destruct (qt_split ltb mid fuel cap bb (ps ++ [p])) as [t'| | |];
          cbn in *; auto.
        destruct S as (I&B&P&_&LB). split; [exact I|]. split; [exact B|].
        split; [rewrite P; exact PP|]. split; [exact ND|].
        intros Hlt. apply LB. unfold full in EF. apply Z.leb_le in EF.
        rewrite app_length in *. cbn in *. lia.
      * cbn. split; [split; [exact W|exact F']|]. split; [reflexivity|].
        split; [exact PP|]. split; [exact ND|].
        intros Hlt. unfold full in EF. apply Z.leb_gt in EF. exact EF.
  - cbn in Hin. pose proof (fun q => Inv_child _ _ _ _ _ q HI) as IC.
    assert (HB := proj1 (proj2 HI)).
    pose proof (in_child bb p Hin) as Hc.
    cbn [qt_insert].
    destruct (getq bb (px p) (py p)) eqn:EQ.
    + apply (STEP bb ul ur ll lr UPPERLEFT p HI Hin EQ). cbn.
      apply IH1; [exact (IC UPPERLEFT)|].
      rewrite (HB UPPERLEFT : tree_bbox ul = _). exact Hc.
    + apply (STEP bb ul ur ll lr UPPERRIGHT p HI Hin EQ). cbn.
      apply IH2; [exact (IC UPPERRIGHT)|].
      rewrite (HB UPPERRIGHT : tree_bbox ur = _). exact Hc.
    + apply (STEP bb ul ur ll lr LOWERLEFT p HI Hin EQ). cbn.
      apply IH3; [exact (IC LOWERLEFT)|].
      rewrite (HB LOWERLEFT : tree_bbox ll = _). exact Hc.
    + apply (STEP bb ul ur ll lr LOWERRIGHT p HI Hin EQ). cbn.
      apply IH4; [exact (IC LOWERRIGHT)|].
      rewrite (HB LOWERRIGHT : tree_bbox lr = _). exact Hc.
Qed.

(** Search visits exactly the stored positions inside the query box. *)
Lemma le_fmin a b c : le a b -> le a c -> le a (fmin ltb b c).
Proof. unfold fmin. destruct (ltb c b); auto. Qed.
Lemma fmax_le a b c : le b a -> le c a -> le (fmax ltb b c) a.
Proof. unfold fmax. destruct (ltb b c); auto. Qed.

Lemma overlaps_of_point q bb p :
  iswithin ltb q p = true -> in_bb bb p -> overlaps ltb q bb = true.
Proof.
  unfold iswithin, overlaps, geb. intros H (A&B&C&D).
  rewrite !andb_true_iff in H. destruct H as (((H1&H2)&H3)&H4).
  apply lt_le in H1, H2, H3, H4.
  apply andb_true_iff; split; apply negb_true_iff;
    (eapply le_trans; [apply fmax_le|apply le_fmin]); eassumption.
Qed.

Lemma visit_perm q c :
  Inv c -> Permutation (qt_search_within ltb c q)
                       (map pid (filter (iswithin ltb q) (positions c))) ->
  Permutation (if overlaps ltb q (tree_bbox c) then qt_search_within ltb c q else [])
              (map pid (filter (iswithin ltb q) (positions c))).
Proof.
  intros HI H. destruct (overlaps ltb q (tree_bbox c)) eqn:E; [exact H|].
  replace (filter (iswithin ltb q) (positions c)) with (@nil posn); [constructor|].
  symmetry. destruct (filter (iswithin ltb q) (positions c)) as [|p l] eqn:EF;
    [reflexivity|].
  assert (In p (filter (iswithin ltb q) (positions c))) as Hp
    by (rewrite EF; now left).
  apply filter_In in Hp as (Hp&Hw).
  rewrite (overlaps_of_point q _ p Hw (Inv_in _ HI p Hp)) in E. discriminate.
Qed.

Lemma search_perm q t : Inv t ->
  Permutation (qt_search_within ltb t q)
              (map pid (filter (iswithin ltb q) (positions t))).
Proof.
  induction t as [bb ps|bb ul IH1 ur IH2 ll IH3 lr IH4]; intros HI.
  - reflexivity.
  - cbn [qt_search_within positions].
    destruct HI as (_&_&_&I1&I2&I3&I4).
    rewrite (visit_perm q ul I1 (IH1 I1)), (visit_perm q ur I2 (IH2 I2)),
      (visit_perm q ll I3 (IH3 I3)), (visit_perm q lr I4 (IH4 I4)).
    rewrite !filter_app, !map_app.
    set (A := map pid (filter _ (positions ul))).
    set (B := map pid (filter _ (positions ur))).
    set (C := map pid (filter _ (positions ll))).
    set (D := map pid (filter _ (positions lr))).
    rewrite (Permutation_app_comm D). rewrite <- !app_assoc.
    rewrite (Permutation_app_comm C). rewrite <- !app_assoc.
    rewrite (Permutation_app_comm B). rewrite <- !app_assoc.
    apply Permutation_app_head. rewrite app_assoc.
    rewrite (Permutation_app_comm (D ++ C)).
    apply Permutation_app_head, Permutation_app_comm.
Qed.

(** Duplicates dictionary. *)
Definition group (d : dups) (i : nat) : list nat :=
  match dup_get d i with Some l => l ++ [i] | None => [i] end.

Lemma dup_get_add d k i j :
  dup_get (dup_add d k i) j =
  if Nat.eqb j k
  then Some (match dup_get d k with Some l => l ++ [i] | None => [i] end)
  else dup_get d j.
Proof.
  induction d as [|[k' v] d IH]; cbn.
  - destruct (Nat.eqb_spec j k); reflexivity.
  - destruct (Nat.eqb_spec k k') as [->|N]; cbn.
    + destruct (Nat.eqb_spec j k'); reflexivity.
    + destruct (Nat.eqb_spec j k') as [->|N2].
      * destruct (Nat.eqb_spec k' k); [congruence|]. reflexivity.
      * exact IH.
Qed.

Lemma group_add_same d k i : Permutation (group (dup_add d k i) k) (i :: group d k).
Proof.
  unfold group. rewrite dup_get_add, Nat.eqb_refl.
  destruct (dup_get d k) as [l|]; cbn.
  - rewrite <- app_assoc.
    rewrite (Permutation_app_comm l). cbn.
    constructor. apply (Permutation_app_comm [k]).
  - apply Permutation_refl.
Qed.

Lemma group_add_other d k i j : j <> k -> group (dup_add d k i) j = group d j.
Proof.
  unfold group. intros N. rewrite dup_get_add.
  destruct (Nat.eqb_spec j k); [congruence|reflexivity].
Qed.

Lemma flat_map_group_add d k i ids : NoDup ids -> In k ids ->
  Permutation (flat_map (group (dup_add d k i)) ids) (i :: flat_map (group d) ids).
Proof.
  induction ids as [|a ids IH]; [intros _ []|].
  intros ND [->|Hk]; inversion ND as [|? ? Hn ND']; subst; cbn [flat_map].
  - assert (E : flat_map (group (dup_add d k i)) ids = flat_map (group d) ids).
    { clear IH ND ND'. induction ids as [|b ids IHb]; [reflexivity|]. cbn.
      rewrite group_add_other by (intros ->; apply Hn; now left).
      rewrite IHb; [reflexivity|]. intros Hk; apply Hn; now right. }
    rewrite E. rewrite (group_add_same d k i). reflexivity.
  - rewrite group_add_other by (intros ->; contradiction).
    rewrite (IH ND' Hk). symmetry. apply Permutation_middle.
Qed.

Lemma flat_map_group_fresh d k ids : dup_get d k = None ->
  flat_map (group d) (k :: ids) = k :: flat_map (group d) ids.
Proof. intros H. cbn. unfold group at 1. rewrite H. reflexivity. Qed.

(** State of the build loop after the points numbered below [i]. *)
Definition has_point (pts : list (num * num)) (i : nat) (xy : num * num) : Prop :=
  exists r, nth_error pts i = Some r /\ same xy r.

Record BInv (bb : bboxn) (cap : Z) (pts : list (num * num)) (i : nat)
    (t : treen) (d : dups) : Prop := {
  bi_inv : Inv t;
  bi_bb : tree_bbox t = bb;
  bi_ids : NoDup (map pid (positions t));
  bi_lt : forall p, In p (positions t) -> (pid p < i)%nat;
  bi_grp : forall p j, In p (positions t) -> In j (group d (pid p)) ->
             has_point pts j (pxy p);
  bi_keys : forall k, dup_get d k <> None -> In k (map pid (positions t));
  bi_perm : Permutation (flat_map (group d) (map pid (positions t))) (seq 0 i);
  bi_leaves : leaves_below cap t;
  bi_sep : forall p q, In p (positions t) -> In q (positions t) ->
             same (pxy p) (pxy q) -> pid p = pid q
}.

Lemma group_In_self d i : In i (group d i).
Proof. unfold group. destruct (dup_get d i); [apply in_or_app; right|]; now left. Qed.

Lemma BInv_step_dup bb cap pts i t d x y j :
  nth_error pts i = Some (x, y) -> BInv bb cap pts i t d ->
  (exists q, In q (positions t) /\ pid q = j /\ same (pxy (mkPos i x y)) (pxy q)) ->
  BInv bb cap pts (S i) t (dup_add d j i).
Proof.
  intros Hi BI (q&Hq&Hj&Hs).
  destruct BI as [B1 B2 B3 B4 B5 B6 B7 B8 B9]. constructor; auto.
  - intros p Hp. specialize (B4 p Hp). lia.
  - intros p k Hp Hk. destruct (Nat.eq_dec (pid p) j) as [E|N].
    + rewrite E in Hk. apply (Permutation_in _ (group_add_same d j i)) in Hk.
      destruct Hk as [<-|Hk].
      * exists (x, y). split; [exact Hi|].
        assert (p = q) as ->.
        { assert (In (pid p) (map pid (positions t))) by (apply in_map; auto).
          clear - B3 Hp Hq E Hj. subst j.
          induction (positions t) as [|a l IHl]; [destruct Hp|].
          cbn in B3. inversion B3 as [|? ? Hn ND]; subst.
          destruct Hp as [->|Hp], Hq as [->|Hq]; auto.
          - exfalso; apply Hn. rewrite E. apply in_map; auto.
          - exfalso; apply Hn. rewrite <- E. apply in_map; auto. }
        apply same_sym. exact Hs.
      * apply B5; auto. rewrite E; exact Hk.
    + rewrite group_add_other in Hk by assumption. auto.
  - intros k Hk. rewrite dup_get_add in Hk.
    destruct (Nat.eqb_spec k j) as [E|N]; [|auto].
    rewrite E, <- Hj. apply in_map; exact Hq.
  - rewrite flat_map_group_add; [|exact B3|rewrite <- Hj; apply in_map; exact Hq].
    rewrite B7. rewrite seq_S. cbn. apply Permutation_cons_append.
Qed.

Lemma BInv_step_new bb cap pts i t t' d x y :
  nth_error pts i = Some (x, y) -> BInv bb cap pts i t d ->
  Inv t' -> tree_bbox t' = tree_bbox t ->
  Permutation (positions t') (mkPos i x y :: positions t) ->
  (forall q, In q (positions t) -> ~ same (pxy (mkPos i x y)) (pxy q)) ->
  (leaves_below cap t -> leaves_below cap t') ->
  BInv bb cap pts (S i) t' d.
Proof.
  intros Hi BI I' BB' P' N' LB'.
  destruct BI as [B1 B2 B3 B4 B5 B6 B7 B8 B9].
  assert (Hfresh : ~ In i (map pid (positions t))).
  { intros H. apply in_map_iff in H as (p&E&Hp). specialize (B4 p Hp). lia. }
  assert (Hnone : dup_get d i = None).
  { destruct (dup_get d i) eqn:E; [|reflexivity].
    exfalso; apply Hfresh, B6. rewrite E; discriminate. }
  constructor; auto.
  - congruence.
  - rewrite (Permutation_map pid P'). cbn. constructor; assumption.
  - intros p Hp. apply (Permutation_in _ P') in Hp as [<-|Hp]; cbn; [lia|].
    specialize (B4 p Hp). lia.
  - intros p k Hp Hk. apply (Permutation_in _ P') in Hp as [<-|Hp]; [|auto].
    cbn in Hk. unfold group in Hk. rewrite Hnone in Hk.
    destruct Hk as [<-|[]]. exists (x, y). split; [exact Hi|apply same_refl].
  - intros k Hk. rewrite (Permutation_map pid P'). cbn. right. auto.
  - rewrite (Permutation_flat_map (group d) (Permutation_map pid P')).
    cbn [map]. cbn [pid]. rewrite flat_map_group_fresh by exact Hnone.
    rewrite B7. rewrite seq_S. cbn. apply Permutation_cons_append.
  - intros p q Hp Hq Hs.
    apply (Permutation_in _ P') in Hp as [<-|Hp];
      apply (Permutation_in _ P') in Hq as [<-|Hq]; auto.
    + exfalso; exact (N' _ Hq Hs).
    + exfalso; exact (N' _ Hp (same_sym _ _ Hs)).
Qed.

Lemma build_loop_spec fuel cap bb pts i rest t d :
  (1 <= cap)%Z ->
  (forall k, nth_error pts (i + k)%nat = nth_error rest k) ->
  length pts = (i + length rest)%nat ->
  encloses ltb bb pts ->
  BInv bb cap pts i t d ->
  match build_loop ltb eqb mid fuel cap i (numbers rest) t d with
  | Ok qt => count qt = length pts /\
             BInv bb cap pts (length pts) (root qt) (duplicates qt)
  | OutOfFuel => True
  | _ => False
  end.
Proof.
  intros Hcap. revert i t d. induction rest as [|[x y] rest IH];
    intros i t d Hnth Hlen Henc BI; cbn [numbers map build_loop fst snd].
  - cbn in Hlen. rewrite Nat.add_0_r in Hlen. cbn. rewrite Hlen. auto.
  - assert (Hi : nth_error pts i = Some (x, y)).
    { specialize (Hnth 0%nat). rewrite Nat.add_0_r in Hnth. exact Hnth. }
    assert (Hin : in_bb (tree_bbox t) (mkPos i x y)).
    { rewrite (bi_bb _ _ _ _ _ _ BI).
      destruct (Henc x y (nth_error_In _ _ Hi)) as (A&B&C&D).
      repeat split; assumption. }
    pose proof (insert_spec fuel cap t (mkPos i x y) Hcap (bi_inv _ _ _ _ _ _ BI) Hin) as SP.
    destruct (qt_insert ltb eqb mid fuel cap t (mkPos i x y)) as [[t' o]| | |];
      cbn [insert_ok bind fst snd] in *; auto.
    assert (Hnth' : forall k, nth_error pts (S i + k)%nat = nth_error rest k).
    { intros k. specialize (Hnth (S k)). rewrite Nat.add_succ_r in Hnth. exact Hnth. }
    assert (Hlen' : length pts = (S i + length rest)%nat) by (cbn in Hlen; lia).
    destruct o as [j|].
    + apply IH; auto. eapply BInv_step_dup; eauto. apply SP.
    + apply IH; auto. eapply BInv_step_new; eauto; apply SP.
Qed.

Lemma BInv_init bb cap pts : (1 <= cap)%Z -> wf_bb bb ->
  BInv bb cap pts 0 (Leaf bb []) [].
Proof.
  intros Hcap W. constructor; cbn; try tauto; try lia; try constructor; auto.
Qed.

Lemma build_ok fuel cap bb pts qt :
  (1 <= cap)%Z -> encloses ltb bb pts -> wf_bb bb ->
  build ltb eqb mid fuel cap bb (numbers pts) = Ok qt ->
  count qt = length pts /\
  BInv bb cap pts (length pts) (root qt) (duplicates qt).
Proof.
  intros Hcap Henc W H.
  pose proof (build_loop_spec fuel cap bb pts 0 pts (Leaf bb []) [] Hcap
                (fun k => eq_refl) eq_refl Henc) as S.
  unfold build in H. rewrite H in S. apply S. now apply BInv_init.
Qed.

(** Main lemma: the search result as a permutation of the matching indices. *)
Definition matchb (pts : list (num * num)) (q : bboxn) (i : nat) : bool :=
  match nth_error pts i with
  | Some (x, y) => iswithin ltb q (mkPos i x y)
  | None => false
  end.

Lemma matchb_spec pts q i : matchb pts q i = true <-> strictly_inside ltb pts q i.
Proof.
  unfold matchb, strictly_inside, iswithin.
  destruct (nth_error pts i) as [[x y]|].
  - cbn. rewrite !andb_true_iff. split.
    + intros (((A&B)&C)&D). exists x, y. auto.
    + intros (x'&y'&[= <- <-]&A&B&C&D). auto.
  - split; [discriminate|]. intros (x&y&[=]&_).
Qed.

Lemma flat_map_filter_group {A} (f : A -> list nat) (g : A -> bool) (m : nat -> bool) l :
  (forall a, In a l -> forall j, In j (f a) -> m j = g a) ->
  flat_map f (filter g l) = filter m (flat_map f l).
Proof.
  induction l as [|a l IH]; [reflexivity|]. intros H. cbn [filter flat_map].
  rewrite filter_app. rewrite <- IH by (intros b Hb; apply H; now right).
  assert (Ha := H a (or_introl eq_refl)).
  destruct (g a).
  - cbn. f_equal. clear - Ha. induction (f a) as [|j l IHl]; [reflexivity|].
    cbn. rewrite (Ha j) by now left. f_equal. apply IHl. intros; apply Ha; now right.
  - replace (filter m (f a)) with (@nil nat); [reflexivity|].
    clear - Ha. induction (f a) as [|j l IHl]; [reflexivity|].
    cbn. rewrite (Ha j) by now left. apply IHl. intros; apply Ha; now right.
Qed.

Lemma flat_map_map {A B C} (f : B -> list C) (g : A -> B) l :
  flat_map f (map g l) = flat_map (fun a => f (g a)) l.
Proof. induction l as [|a l IH]; cbn; congruence. Qed.

Lemma search_exact_perm fuel cap bb pts qt q :
  (1 <= cap)%Z -> encloses ltb bb pts -> wf_bb bb ->
  build ltb eqb mid fuel cap bb (numbers pts) = Ok qt ->
  Permutation (search_within ltb qt q)
              (filter (matchb pts q) (seq 0 (length pts))).
Proof.
  intros Hcap Henc W H.
  destruct (build_ok _ _ _ _ _ Hcap Henc W H) as (_&BI).
  destruct BI as [B1 B2 B3 B4 B5 B6 B7 B8 B9].
  unfold search_within, expand.
  change (fun i : nat => match dup_get (duplicates qt) i with
                         | Some l => l ++ [i] | None => [i] end)
    with (group (duplicates qt)).
  rewrite (Permutation_flat_map _ (Permutation_sym (Permutation_rev _))).
  rewrite (Permutation_flat_map _ (search_perm q _ B1)).
  rewrite flat_map_map.
  rewrite (flat_map_filter_group _ _ (matchb pts q)).
  - rewrite <- flat_map_map with (f := group (duplicates qt)) (g := pid).
    clear - B7.
    remember (flat_map (group (duplicates qt)) (map pid (positions (root qt)))) as l1.
    remember (seq 0 (length pts)) as l2. clear - B7.
    induction B7; cbn.
    + constructor.
    + destruct (matchb pts q x); [now constructor|assumption].
    + destruct (matchb pts q x), (matchb pts q y);
        try apply perm_swap; apply Permutation_refl.
    + etransitivity; eassumption.
  - intros p Hp j Hj. destruct (B5 p j Hp Hj) as ([x y]&E&S).
    unfold matchb. rewrite E. apply iswithin_same. apply same_sym. exact S.
Qed.

Lemma search_exact fuel cap bb pts qt q :
  (1 <= cap)%Z -> encloses ltb bb pts -> wf_bb bb ->
  build ltb eqb mid fuel cap bb (numbers pts) = Ok qt ->
  NoDup (search_within ltb qt q) /\
  forall i, In i (search_within ltb qt q) <-> strictly_inside ltb pts q i.
Proof.
  intros Hcap Henc W H.
  pose proof (search_exact_perm _ _ _ _ _ q Hcap Henc W H) as P. split.
  - eapply Permutation_NoDup; [symmetry; exact P|].
    apply NoDup_filter, seq_NoDup.
  - intros i. split.
    + intros Hi. apply (Permutation_in _ P) in Hi. apply filter_In in Hi as (_&Hi).
      now apply matchb_spec.
    + intros Hi. apply (Permutation_in _ (Permutation_sym P)).
      apply filter_In. split; [|now apply matchb_spec].
      destruct Hi as (x&y&E&_). apply in_seq.
      assert (nth_error pts i <> None) as K by congruence.
      apply nth_error_Some in K. lia.
Qed.

(** The build loop never touches freed memory nor raises. *)
Lemma build_safe fuel cap bb pts :
  (1 <= cap)%Z -> encloses ltb bb pts -> wf_bb bb ->
  build ltb eqb mid fuel cap bb (numbers pts) = OutOfFuel \/
  exists qt, build ltb eqb mid fuel cap bb (numbers pts) = Ok qt.
Proof.
  intros Hcap Henc W.
  pose proof (build_loop_spec fuel cap bb pts 0 pts (Leaf bb []) [] Hcap
                (fun k => eq_refl) eq_refl Henc) as S.
  unfold build. destruct (build_loop _ _ _ _ _ _ _ _ _) as [qt| | |]; eauto.
  - exfalso. apply S. now apply BInv_init.
  - exfalso. apply S. now apply BInv_init.
Qed.

(** Without points the box is never looked at. *)
Lemma build_nil fuel cap bb :
  build ltb eqb mid fuel cap bb (numbers []) = Ok (mkQT (Leaf bb []) [] 0).
Proof. reflexivity. Qed.

Lemma encloses_wf bb pts : encloses ltb bb pts -> pts <> [] -> wf_bb bb.
Proof.
  intros H N. destruct pts as [|[x y] pts]; [congruence|].
  destruct (H x y (or_introl eq_refl)) as (A&B&C&D).
  split; eapply le_trans; eassumption.
Qed.

(** Capacities below two never return once there is a point. *)
Lemma split_low_cap fuel cap bb ps :
  (cap <= 1)%Z -> ps <> [] \/ (cap <= 0)%Z ->
  qt_split ltb mid fuel cap bb ps = OutOfFuel.
Proof.
  intros Hcap. revert bb ps. induction fuel as [|fuel IH]; intros bb ps H;
    [reflexivity|]. cbn [qt_split].
  assert (K : forall q, full cap (distr bb ps q) = true ->
                distr bb ps q <> [] \/ (cap <= 0)%Z).
  { intros q Hf. unfold full in Hf. apply Z.leb_le in Hf.
    destruct (distr bb ps q); [right; cbn in Hf; lia|left; discriminate]. }
  destruct (full cap (distr bb ps UPPERLEFT)) eqn:E1;
    [rewrite IH; auto|].
  destruct (full cap (distr bb ps UPPERRIGHT)) eqn:E2;
    [rewrite IH; auto|].
  destruct (full cap (distr bb ps LOWERLEFT)) eqn:E3;
    [rewrite IH; auto|].
  destruct (full cap (distr bb ps LOWERRIGHT)) eqn:E4;
    [rewrite IH; auto|].
  exfalso. unfold full in *. apply Z.leb_gt in E1, E2, E3, E4.
  pose proof (distribute_length bb ps) as DL.
  destruct H as [H|H]; [|lia]. destruct ps; [congruence|cbn [length] in DL; lia].
Qed.

Lemma build_low_cap fuel cap bb pts :
  (cap <= 1)%Z -> pts <> [] ->
  build ltb eqb mid fuel cap bb (numbers pts) = OutOfFuel.
Proof.
  intros Hcap N. destruct pts as [|[x y] pts]; [congruence|].
  unfold build. cbn [numbers map build_loop fst snd qt_insert isduplicate app].
  unfold full. replace (cap <=? Z.of_nat (length [mkPos 0 x y]))%Z with true.
  - rewrite split_low_cap; [reflexivity|assumption|left; discriminate].
  - symmetry; apply Z.leb_le. cbn. lia.
Qed.

Lemma build_Ok_cap fuel cap bb pts qt :
  build ltb eqb mid fuel cap bb (numbers pts) = Ok qt -> pts = [] \/ (2 <= cap)%Z.
Proof.
  intros H. destruct pts as [|p pts]; [now left|right].
  destruct (Z_le_gt_dec cap 1) as [K|K]; [|lia].
  rewrite build_low_cap in H; [discriminate|assumption|discriminate].
Qed.

Lemma search_exact_any fuel cap bb pts qt q :
  encloses ltb bb pts ->
  build ltb eqb mid fuel cap bb (numbers pts) = Ok qt ->
  NoDup (search_within ltb qt q) /\
  forall i, In i (search_within ltb qt q) <-> strictly_inside ltb pts q i.
Proof.
  intros Henc H. destruct (build_Ok_cap _ _ _ _ _ H) as [->|Hcap].
  - rewrite build_nil in H. injection H as <-. cbn. split; [constructor|].
    intros i. split; [tauto|]. intros (x&y&E&_). destruct i; discriminate.
  - destruct pts as [|p pts].
    + rewrite build_nil in H. injection H as <-. cbn. split; [constructor|].
      intros i. split; [tauto|]. intros (x&y&E&_). destruct i; discriminate.
    + eapply search_exact; eauto; [lia|].
      eapply encloses_wf; eauto; discriminate.
Qed.

Lemma build_observe fuel cap bb pts qt :
  encloses ltb bb pts ->
  build ltb eqb mid fuel cap bb (numbers pts) = Ok qt ->
  qt_len qt = length pts /\ qt_bbox qt = bb.
Proof.
  intros Henc H. destruct pts as [|p pts].
  - rewrite build_nil in H. injection H as <-. split; reflexivity.
  - destruct (build_Ok_cap _ _ _ _ _ H) as [K|Hcap]; [discriminate|].
    destruct (build_ok _ _ _ _ _ (ltac:(lia) : (1 <= cap)%Z) Henc
                (encloses_wf _ _ Henc ltac:(discriminate)) H) as (A&B).
    split; [exact A|]. apply (bi_bb _ _ _ _ _ _ B).
Qed.

Lemma build_leaves fuel cap bb pts qt :
  encloses ltb bb pts -> (2 <= cap)%Z ->
  build ltb eqb mid fuel cap bb (numbers pts) = Ok qt ->
  leaves_below cap (root qt).
Proof.
  intros Henc Hcap H. destruct pts as [|p pts].
  - rewrite build_nil in H. injection H as <-. cbn. lia.
  - destruct (build_ok _ _ _ _ _ (ltac:(lia) : (1 <= cap)%Z) Henc
                (encloses_wf _ _ Henc ltac:(discriminate)) H) as (A&B).
    apply (bi_leaves _ _ _ _ _ _ B).
Qed.

(** NaN. *)
Lemma build_loop_nan fuel cap i pre rest t d x y :
  x = PNaN \/ y = PNaN ->
  match build_loop ltb eqb mid fuel cap i (numbers pre ++ (x, y) :: rest) t d with
  | Ok _ => False
  | ValueErrorNaN k => k = (i + length pre)%nat
  | _ => True
  end.
Proof.
  intros Hn. revert i t d. induction pre as [|[a b] pre IH]; intros i t d.
  - cbn. rewrite Nat.add_0_r.
    destruct Hn as [-> | ->]; [reflexivity|]. destruct x; reflexivity.
  - change (numbers ((a, b) :: pre) ++ (x, y) :: rest)
      with ((PNum a, PNum b) :: (numbers pre ++ (x, y) :: rest)).
    cbn [build_loop].
    destruct (qt_insert ltb eqb mid fuel cap t (mkPos i a b)) as [[t' [j|]]| | |] eqn:E;
      cbn [bind fst snd]; auto.
    + specialize (IH (S i) t (dup_add d j i)).
      destruct (build_loop _ _ _ _ _ _ _ _ _); auto. cbn [length]. lia.
    + specialize (IH (S i) t' d).
      destruct (build_loop _ _ _ _ _ _ _ _ _); auto. cbn [length]. lia.
    + exfalso. clear IH. revert E. induction t as [bb ps|bb ul IH1 ur IH2 ll IH3 lr IH4].
      * cbn. destruct (isduplicate eqb ps _); [discriminate|].
        destruct (full cap _); [|discriminate].
        assert (forall f bb ps, match qt_split ltb mid f cap bb ps with
                  ValueErrorNaN _ => False | _ => True end) as K.
        { clear. induction f as [|f IHf]; intros; [exact I|]. cbn [qt_split].
          assert (BD : forall q (k : treen -> treen),
            match bind (qt_split ltb mid f cap (cbb bb q) (distr bb ps q))
                       (fun s => Ok (k s)) with
              ValueErrorNaN _ => False | _ => True end).
          { intros q k. specialize (IHf (cbb bb q) (distr bb ps q)).
            destruct (qt_split ltb mid f cap (cbb bb q) (distr bb ps q)); auto. }
          destruct (full cap _); [apply (BD UPPERLEFT)|].
          destruct (full cap _); [apply (BD UPPERRIGHT)|].
          destruct (full cap _); [apply (BD LOWERLEFT)|].
          destruct (full cap _); [apply (BD LOWERRIGHT)|]. exact I. }
        specialize (K fuel bb (ps ++ [mkPos i a b])).
        destruct (qt_split _ _ _ _ _ _); cbn; congruence.
      * cbn [qt_insert px py]. destruct (getq bb a b).
        all: match goal with |- context [qt_insert _ _ _ _ _ ?c _] =>
               destruct (qt_insert ltb eqb mid fuel cap c (mkPos i a b)) as [[c' o]| | |]
             end; cbn [bind fst snd]; try discriminate.
        all: try (intros K; injection K as K; subst; auto; fail).
        all: match goal with |- context [match ?c with _ => _ end] => destruct c end;
             destruct c'; try discriminate;
             destruct (quadrant_eqb _ _); discriminate.
Qed.

(** The recursive search and the explicit stack loop of the C code agree. *)
Definition stack_out (q : bboxn) (stk : list treen) : list nat :=
  flat_map (fun t => qt_search_within ltb t q) stk.

Fixpoint size (t : treen) : nat :=
  match t with
  | Leaf _ _ => 1
  | Node _ a b c d => S (size a + size b + size c + size d)
  end.

Definition stack_size (stk : list treen) : nat := list_sum (map size stk).

Lemma stack_size_cons t stk : stack_size (t :: stk) = (size t + stack_size stk)%nat.
Proof. reflexivity. Qed.

Lemma search_loop_correct q fuel stk acc :
  (stack_size stk <= fuel)%nat ->
  search_loop ltb fuel q (stk, acc) = Some (acc ++ stack_out q stk).
Proof.
  revert stk acc. induction fuel as [|fuel IH]; intros stk acc H.
  - destruct stk as [|t stk]; [cbn; now rewrite app_nil_r|].
    rewrite stack_size_cons in H. destruct t; cbn in H; lia.
  - destruct stk as [|t stk]; [cbn; now rewrite app_nil_r|].
    rewrite stack_size_cons in H. cbn [search_loop fst].
    destruct t as [bb ps|bb a b c d]; cbn [search_step].
    + rewrite IH by (cbn in H; lia). cbn. now rewrite <- app_assoc.
    + cbn [size] in H. rewrite IH.
      * f_equal. f_equal. unfold stack_out. cbn [flat_map qt_search_within].
        destruct (overlaps ltb q (tree_bbox a)), (overlaps ltb q (tree_bbox b)),
          (overlaps ltb q (tree_bbox c)), (overlaps ltb q (tree_bbox d));
        cbn [flat_map]; rewrite ?app_nil_r; rewrite ?app_nil_l, <- ?app_assoc;
        reflexivity.
      * destruct (overlaps ltb q (tree_bbox a)), (overlaps ltb q (tree_bbox b)),
          (overlaps ltb q (tree_bbox c)), (overlaps ltb q (tree_bbox d));
        rewrite ?stack_size_cons; lia.
Qed.

End Proofs.
