(** Termination of the quadtree construction over exact rationals. *)
From Coq Require Import List ZArith Bool QArith Qabs Lia Lqa Permutation.
From Verif Require Import QuadTree_Model QuadTree_Spec QuadTree_Proofs.
Import ListNotations.

Lemma Qltb_true a b : Qltb a b = true <-> (a < b)%Q.
Proof.
  unfold Qltb. rewrite negb_true_iff. split.
  - intros H. apply Qnot_le_lt. intros K. apply Qle_bool_iff in K. congruence.
  - intros H. apply not_true_iff_false. intros K. apply Qle_bool_iff in K. lra.
Qed.

Lemma Qltb_false a b : Qltb a b = false <-> (b <= a)%Q.
Proof. unfold Qltb. rewrite negb_false_iff. apply Qle_bool_iff. Qed.

Lemma Q_laws : coordinate_laws Qltb Qeq_bool Qmid.
Proof.
  constructor; unfold Qmid.
  - intros. apply Qltb_false. lra.
  - intros a b c. rewrite !Qltb_true. lra.
  - intros a b c. rewrite !Qltb_true. intros.
    destruct (Qlt_le_dec a b); [left|right]; lra.
  - intros a b. rewrite Qeq_bool_iff, !Qltb_false. lra.
  - intros a b. rewrite !Qltb_false. lra.
  - intros a b. rewrite !Qltb_false. lra.
  - intros a b. rewrite !Qltb_true. lra.
Qed.

Local Notation bb_t := (bbox Q).
Local Notation pos_t := (position Q).
Local Notation QI := (Inv Qltb Qmid).
Local Notation Qin := (in_bb Qltb).
Local Notation Qcb := (child_bbox Qmid).
Local Notation Qdist := (distribute Qltb Qmid).
Local Notation Qsplit := (qt_split Qltb Qmid).
Local Notation Qinsert := (qt_insert Qltb Qeq_bool Qmid).

Definition apart (e : Q) (p q : pos_t) : Prop :=
  (e <= px p - px q \/ e <= px q - px p \/ e <= py p - py q \/ e <= py q - py p)%Q.

Definition separated (e : Q) (ps : list pos_t) : Prop :=
  NoDup ps /\ forall p q, In p ps -> In q ps -> p = q \/ apart e p q.

Lemma nodup_app_l {A} (l l' : list A) : NoDup (l ++ l') -> NoDup l'.
Proof.
  induction l as [|a l IH]; cbn; [auto|]. intros H. inversion H; auto.
Qed.

Lemma nodup_app_r {A} (l l' : list A) : NoDup (l ++ l') -> NoDup l.
Proof.
  intros H. apply (nodup_app_l l'). eapply Permutation_NoDup; [|exact H].
  apply Permutation_app_comm.
Qed.

Lemma separated_filter e f ps : separated e ps -> separated e (filter f ps).
Proof.
  intros (A&B). split; [apply NoDup_filter; assumption|].
  intros p q Hp Hq. apply filter_In in Hp, Hq. apply B; tauto.
Qed.

Lemma in_bb_Q bb p : Qin bb p <->
  (xmin bb <= px p /\ px p <= xmax bb /\ ymin bb <= py p /\ py p <= ymax bb)%Q.
Proof. unfold in_bb. rewrite !Qltb_false. tauto. Qed.

Lemma small_box e bb ps :
  separated e ps -> Forall (Qin bb) ps ->
  (xmax bb - xmin bb < e)%Q -> (ymax bb - ymin bb < e)%Q -> (length ps <= 1)%nat.
Proof.
  intros (ND&S) F W H. rewrite Forall_forall in F.
  destruct ps as [|p [|q ps]]; cbn; try lia. exfalso.
  pose proof (F p (or_introl eq_refl)) as Fp.
  pose proof (F q (or_intror (or_introl eq_refl))) as Fq.
  apply in_bb_Q in Fp, Fq.
  destruct (S p q) as [E|E]; [now left|right; now left| |].
  - subst. inversion ND as [|? ? N _]; subst. apply N; now left.
  - unfold apart in E. destruct E as [E|[E|[E|E]]]; lra.
Qed.

Lemma Qdist_in bb ps q : Forall (Qin bb) ps -> Forall (Qin (Qcb bb q)) (Qdist bb ps q).
Proof.
  intros F. rewrite Forall_forall in *. intros p Hp.
  apply (distribute_In Qltb Qmid) in Hp as (Hp&E). rewrite <- E.
  apply (in_child Qltb Qeq_bool Qmid Q_laws). auto.
Qed.

Definition pow2 (n : nat) : Q := inject_Z (2 ^ Z.of_nat n).

Lemma pow2_S n : (pow2 (S n) == 2 * pow2 n)%Q.
Proof.
  unfold pow2. rewrite Nat2Z.inj_succ, Z.pow_succ_r by lia.
  rewrite inject_Z_mult. reflexivity.
Qed.

Lemma pow2_0 : (pow2 0 == 1)%Q.
Proof. reflexivity. Qed.

Lemma split_terminates e cap n : (2 <= cap)%Z -> (0 < e)%Q ->
  forall bb ps fuel, separated e ps -> Forall (Qin bb) ps ->
  (xmax bb - xmin bb < e * pow2 n)%Q -> (ymax bb - ymin bb < e * pow2 n)%Q ->
  (n < fuel)%nat -> exists t, Qsplit fuel cap bb ps = Ok t.
Proof.
  intros Hcap He. induction n as [|n IH]; intros bb ps fuel S F W H Hf.
  - rewrite pow2_0 in W, H.
    assert (length ps <= 1)%nat as L1 by (eapply (small_box e bb); eauto; lra).
    destruct fuel as [|fuel]; [lia|]. cbn [qt_split].
    pose proof (distribute_length Qltb Qmid bb ps) as DL.
    assert (K : forall q, full cap (Qdist bb ps q) = false).
    { intros q. unfold full. apply Z.leb_gt. destruct q; lia. }
    rewrite !K. eexists; reflexivity.
  - rewrite pow2_S in W, H. destruct fuel as [|fuel]; [lia|].
    assert (SUB : forall q, exists t, Qsplit fuel cap (Qcb bb q) (Qdist bb ps q) = Ok t).
    { intros q. apply IH; [apply separated_filter; assumption|apply Qdist_in; assumption
        | | |lia]; destruct q; cbn; unfold Qmid; lra. }
    destruct (SUB UPPERLEFT) as (t1&E1). destruct (SUB UPPERRIGHT) as (t2&E2).
    destruct (SUB LOWERLEFT) as (t3&E3). destruct (SUB LOWERRIGHT) as (t4&E4).
    cbn [qt_split]. rewrite E1, E2, E3, E4. cbn [bind].
    repeat match goal with |- context [if ?c then _ else _] => destruct c end;
      eexists; reflexivity.
Qed.

Definition narrow (w : Q) (bb : bb_t) : Prop :=
  (xmax bb - xmin bb < w /\ ymax bb - ymin bb < w)%Q.

Lemma narrow_child w bb q : wf_bb Qltb bb -> narrow w bb -> narrow w (Qcb bb q).
Proof.
  intros (A&B) (C&D). rewrite Qltb_false in A, B.
  destruct q; split; cbn; unfold Qmid; lra.
Qed.

(** [p] is not stored and is equal to, or apart from, each stored position. *)
Definition new_point (e : Q) (p : pos_t) (ps : list pos_t) : Prop :=
  separated e ps /\ ~ In p ps /\
  forall q, In q ps -> same Qltb (pxy p) (pxy q) \/ (apart e p q /\ apart e q p).

Lemma new_point_sub e p ps ps' :
  NoDup ps' -> (forall q, In q ps' -> In q ps) -> new_point e p ps -> new_point e p ps'.
Proof.
  intros ND H ((_&A)&B&C). split; [split; auto|]. split; auto.
Qed.

Lemma insert_terminates e cap n fuel p t :
  (2 <= cap)%Z -> (0 < e)%Q -> (n < fuel)%nat ->
  QI t -> Qin (tree_bbox t) p -> narrow (e * pow2 n) (tree_bbox t) ->
  new_point e p (positions t) ->
  Qinsert fuel cap t p <> OutOfFuel.
Proof.
  intros Hcap He Hf. induction t as [bb ps|bb ul IH1 ur IH2 ll IH3 lr IH4];
    intros HI Hin Hn Hs.
  - cbn [qt_insert]. destruct (isduplicate _ _ _) eqn:ED; [discriminate|].
    pose proof (isduplicate_None Qltb Qeq_bool Qmid Q_laws _ _ ED) as NS.
    destruct (full _ _); [|discriminate].
    destruct (split_terminates e cap n Hcap He bb (ps ++ [p]) fuel) as (t&E);
      try assumption.
    + destruct Hs as ((ND&S)&NI&AP). split.
      * eapply Permutation_NoDup; [apply Permutation_cons_append|].
        constructor; assumption.
      * intros a b Ha Hb.
        apply in_app_or in Ha as [Ha|[<-|[]]]; apply in_app_or in Hb as [Hb|[<-|[]]]; auto.
        -- right. destruct (AP a Ha) as [K|K]; [exfalso; exact (NS a Ha K)|tauto].
        -- right. destruct (AP b Hb) as [K|K]; [exfalso; exact (NS b Hb K)|tauto].
    + apply Forall_app. split; [apply HI|]. repeat constructor; apply Hin.
    + apply Hn.
    + apply Hn.
    + rewrite E. discriminate.
  - assert (STEP : forall q c,
      get_child ul ur ll lr q = c -> get_quadrant Qltb Qmid bb (px p) (py p) = q ->
      (QI c -> Qin (tree_bbox c) p -> narrow (e * pow2 n) (tree_bbox c) ->
       new_point e p (positions c) -> Qinsert fuel cap c p <> OutOfFuel) ->
      Qinsert fuel cap c p <> OutOfFuel).
    { intros q c Hc Hq IH. subst c.
      pose proof (proj1 (proj2 HI)) as HB.
      apply IH.
      - eapply Inv_child; eassumption.
      - rewrite HB, <- Hq. apply (in_child Qltb Qeq_bool Qmid Q_laws). exact Hin.
      - rewrite HB. apply narrow_child; [apply (Inv_wf Qltb Qmid _ HI)|exact Hn].
      - eapply new_point_sub; [| |exact Hs].
        + destruct Hs as ((ND&_)&_). cbn in ND.
          apply nodup_app_l in ND as ND3.
          destruct q; cbn.
          * apply nodup_app_r in ND. exact ND.
          * apply nodup_app_r in ND3. exact ND3.
          * apply nodup_app_l in ND3. apply nodup_app_r in ND3. exact ND3.
          * apply nodup_app_l in ND3. apply nodup_app_l in ND3. exact ND3.
        + intros r Hr. cbn. rewrite !in_app_iff. destruct q; cbn in Hr; auto. }
    cbn [qt_insert].
    destruct (get_quadrant Qltb Qmid bb (px p) (py p)) eqn:EQ;
    match goal with |- context [Qinsert fuel cap ?c p] =>
      assert (Qinsert fuel cap c p <> OutOfFuel) as K by
        first [apply (STEP UPPERLEFT c); auto; fail
              |apply (STEP UPPERRIGHT c); auto; fail
              |apply (STEP LOWERLEFT c); auto; fail
              |apply (STEP LOWERRIGHT c); auto];
      destruct (Qinsert fuel cap c p) as [[c' o]| | |]; cbn [bind fst snd];
      try discriminate; try congruence;
      destruct c; destruct c'; try discriminate;
      destruct (quadrant_eqb _ _); discriminate
    end.
Qed.

(** A positive separation of finitely many points. *)
Definition apart_xy (e : Q) (p q : Q * Q) : Prop :=
  (e <= fst p - fst q \/ e <= fst q - fst p \/
   e <= snd p - snd q \/ e <= snd q - snd p)%Q.

Lemma apart_or_same (p q : Q * Q) :
  same Qltb p q \/ exists e, (0 < e)%Q /\ apart_xy e p q.
Proof.
  destruct p as [a b], q as [c d]. unfold same, apart_xy; cbn.
  repeat setoid_rewrite Qltb_false.
  destruct (Qlt_le_dec a c).
  { right. exists (c - a)%Q. split; lra. }
  destruct (Qlt_le_dec c a).
  { right. exists (a - c)%Q. split; lra. }
  destruct (Qlt_le_dec b d).
  { right. exists (d - b)%Q. split; lra. }
  destruct (Qlt_le_dec d b).
  { right. exists (b - d)%Q. split; lra. }
  left. lra.
Qed.

Lemma separation_pairs (l : list ((Q * Q) * (Q * Q))) :
  exists e, (0 < e)%Q /\ forall p q, In (p, q) l -> same Qltb p q \/ apart_xy e p q.
Proof.
  induction l as [|[a b] l (e&He&IH)].
  - exists 1%Q. split; [lra|]. intros p q [].
  - destruct (apart_or_same a b) as [S|(e'&He'&A)].
    + exists e. split; [exact He|]. intros p q [[= <- <-]|H]; auto.
    + exists (if Qlt_le_dec e e' then e else e').
      split; [destruct (Qlt_le_dec e e'); lra|].
      intros p q [[= <- <-]|H].
      * right. unfold apart_xy in *. destruct (Qlt_le_dec e e'); lra.
      * destruct (IH p q H) as [S|B]; [now left|right].
        unfold apart_xy in *. destruct (Qlt_le_dec e e'); lra.
Qed.

Lemma separation (pts : list (Q * Q)) :
  exists e, (0 < e)%Q /\ forall p q, In p pts -> In q pts ->
    same Qltb p q \/ apart_xy e p q.
Proof.
  destruct (separation_pairs (list_prod pts pts)) as (e&He&H).
  exists e. split; [exact He|]. intros p q Hp Hq. apply H. now apply in_prod.
Qed.

Lemma pow2_unbounded (e w : Q) : (0 < e)%Q -> exists n, (w < e * pow2 n)%Q.
Proof.
  intros He.
  assert (exists n, (w / e < pow2 n)%Q) as (n&H).
  { destruct (Qlt_le_dec (w / e) 0) as [K|K].
    - exists 0%nat. rewrite pow2_0. lra.
    - exists (Z.to_nat (Qnum (w / e) + 1)). unfold pow2.
      destruct (w / e)%Q as [a b]. unfold Qle in K. cbn in K. cbn [Qnum].
      unfold Qlt. cbn. rewrite Z2Nat.id by lia.
      assert (a + 1 <= 2 ^ (a + 1))%Z.
      { apply Z.lt_le_incl. apply Z.pow_gt_lin_r; lia. }
      nia. }
  exists n. apply Qlt_shift_div_l with (c := e) in H || idtac.
  assert (w == e * (w / e))%Q as -> by (field; lra).
  apply Qmult_lt_l; lra.
Qed.

Lemma build_loop_terminates e cap n fuel bb pts :
  (2 <= cap)%Z -> (0 < e)%Q -> (n < fuel)%nat ->
  narrow (e * pow2 n) bb -> encloses Qltb bb pts ->
  (forall p q, In p pts -> In q pts -> same Qltb p q \/ apart_xy e p q) ->
  forall rest i t d,
  (forall k, nth_error pts (i + k)%nat = nth_error rest k) ->
  length pts = (i + length rest)%nat ->
  BInv Qltb Qmid bb cap pts i t d ->
  build_loop Qltb Qeq_bool Qmid fuel cap i (numbers rest) t d <> OutOfFuel.
Proof.
  intros Hcap He Hf Hn Henc Hsep. induction rest as [|[x y] rest IH];
    intros i t d Hnth Hlen BI.
  - cbn. discriminate.
  - assert (Hi : nth_error pts i = Some (x, y)).
    { specialize (Hnth 0%nat). rewrite Nat.add_0_r in Hnth. exact Hnth. }
    assert (Hin : Qin (tree_bbox t) (mkPos i x y)).
    { rewrite (bi_bb _ _ _ _ _ _ _ _ BI).
      destruct (Henc x y (nth_error_In _ _ Hi)) as (A&B&C&D).
      repeat split; assumption. }
    assert (FRESH : ~ In (mkPos i x y) (positions t)).
    { intros H. pose proof (bi_lt _ _ _ _ _ _ _ _ BI _ H). cbn in *. lia. }
    assert (PT : forall p, In p (positions t) -> exists r, In r pts /\ same Qltb (pxy p) r).
    { intros p Hp. destruct (bi_grp _ _ _ _ _ _ _ _ BI p (pid p) Hp
                       (group_In_self d (pid p))) as (r&E&S).
      exists r. split; [eapply nth_error_In; eassumption|exact S]. }
    assert (AP : forall p q, In p (positions t) ->
               In q (positions t) \/ q = mkPos i x y -> 
               same Qltb (pxy p) (pxy q) \/ (apart e p q /\ apart e q p)).
    { intros p q Hp Hq. destruct (PT p Hp) as (r&Hr&S).
      assert (exists r', In r' pts /\ same Qltb (pxy q) r') as (r'&Hr'&S').
      { destruct Hq as [Hq| ->]; [auto|]. exists (x, y).
        split; [eapply nth_error_In; eassumption|].
        apply (same_refl Qltb Qeq_bool Qmid Q_laws). }
      destruct (Hsep r r' Hr Hr') as [K|K].
      - left. eapply (same_trans Qltb Qeq_bool Qmid Q_laws); [exact S|].
        eapply (same_trans Qltb Qeq_bool Qmid Q_laws); [exact K|].
        now apply same_sym.
      - right. unfold same, pxy, apart_xy, apart in *. cbn in *.
        rewrite !Qltb_false in S, S'. lra. }
    destruct (qt_insert Qltb Qeq_bool Qmid fuel cap t (mkPos i x y)) as [[t' o]| | |] eqn:E.
    + pose proof (insert_spec Qltb Qeq_bool Qmid Q_laws fuel cap t (mkPos i x y)
        ltac:(lia) (bi_inv _ _ _ _ _ _ _ _ BI) Hin) as SP.
      change (numbers ((x, y) :: rest)) with ((PNum x, PNum y) :: numbers rest).
      cbn [build_loop]. rewrite E. cbn [bind fst snd].
      assert (Hnth' : forall k, nth_error pts (S i + k)%nat = nth_error rest k).
      { intros k. specialize (Hnth (S k)). rewrite Nat.add_succ_r in Hnth. exact Hnth. }
      assert (Hlen' : length pts = (S i + length rest)%nat) by (cbn in Hlen; lia).
      rewrite E in SP.
      destruct o as [j|].
      * apply IH; auto.
        eapply BInv_step_dup; eauto.
        destruct SP as (_&SP). exact SP.
      * apply IH; auto.
        eapply (BInv_step_new Qltb Qeq_bool Qmid Q_laws); eauto; apply SP.
    + exfalso. revert E. eapply insert_terminates; eauto.
      * apply (bi_inv _ _ _ _ _ _ _ _ BI).
      * rewrite (bi_bb _ _ _ _ _ _ _ _ BI). exact Hn.
      * split; [|split; [exact FRESH|]].
        -- split; [eapply NoDup_map_inv; apply (bi_ids _ _ _ _ _ _ _ _ BI)|].
           intros p q Hp Hq. destruct (AP p q Hp (or_introl Hq)) as [K|K]; [|tauto].
           left. pose proof (bi_sep _ _ _ _ _ _ _ _ BI p q Hp Hq K) as K2.
           pose proof (bi_ids _ _ _ _ _ _ _ _ BI) as ND.
           clear - K2 ND Hp Hq. induction (positions t) as [|a l IHl]; [destruct Hp|].
           cbn in ND. inversion ND as [|? ? Hn ND']; subst.
           destruct Hp as [->|Hp], Hq as [->|Hq]; auto.
           ++ exfalso; apply Hn. rewrite K2. apply in_map; auto.
           ++ exfalso; apply Hn. rewrite <- K2. apply in_map; auto.
        -- intros q Hq. destruct (AP q (mkPos i x y) Hq (or_intror eq_refl)) as [K|K];
             [left; apply same_sym; exact K|right; tauto].
    + change (numbers ((x, y) :: rest)) with ((PNum x, PNum y) :: numbers rest).
      cbn [build_loop]. rewrite E. discriminate.
    + change (numbers ((x, y) :: rest)) with ((PNum x, PNum y) :: numbers rest).
      cbn [build_loop]. rewrite E. discriminate.
Qed.

Lemma build_terminates cap bb pts :
  (2 <= cap)%Z -> encloses Qltb bb pts ->
  exists fuel0, forall fuel, (fuel0 <= fuel)%nat ->
    exists qt, Qbuild fuel cap bb (numbers pts) = Ok qt.
Proof.
  intros Hcap Henc. destruct pts as [|p pts'] eqn:EP.
  { exists 0%nat. intros fuel _. eexists. reflexivity. }
  rewrite <- EP in *. assert (N : pts <> []) by (rewrite EP; discriminate).
  clear EP. pose proof (encloses_wf Qltb Qeq_bool Qmid Q_laws _ _ Henc N) as W.
  destruct (separation pts) as (e&He&Hsep).
  destruct (pow2_unbounded e (xmax bb - xmin bb + (ymax bb - ymin bb)) He) as (n&Hn).
  exists (S n). intros fuel Hf.
  destruct (build_safe Qltb Qeq_bool Qmid Q_laws fuel cap bb pts ltac:(lia) Henc W)
    as [K|K]; [|exact K].
  exfalso. revert K. unfold build.
  eapply (build_loop_terminates e cap n fuel bb pts); eauto; try lia.
  - destruct W as (A&B). rewrite Qltb_false in A, B. split; lra.
  - apply BInv_init; [lia|exact W].
Qed.
