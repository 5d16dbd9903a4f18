(** The sweep of [intersects] finds every meeting of geometries in general position: the loop. *)
From Coq Require Import List ZArith QArith Qabs Lqa Lia Bool Arith Sorted.
From Verif Require Import Geom_Model Geom_Spec Geom_Proofs Inter_Model Inter_Spec Inter_Proofs Inter_Sweep Inter_Sweep2 Inter_Complete.
Import ListNotations.
Open Scope Q_scope.

(** The queue holds the events right of [x0]. *)
Record Tail (ss : list seg) (x0 : Q) (queue : list event) (q : list seg) : Prop := {
  tail_inv : Inv ss queue q;
  tail_gt : forall e, In e queue -> x0 < ex e;
  tail_all : forall e, In e (events ss) -> x0 < ex e -> In e queue
}.
Lemma events_all : forall ss s e, In s ss -> In e (seg_events s) -> In e (events ss).
Proof.
  intros ss s e I H. unfold events. destruct (events_fold (flat_map seg_events ss) [] (SSorted_nil _)) as (_ & _ & C).
  apply C. left. apply in_flat_map. eauto.
Qed.
Lemma right_event : forall ss s, In s ss -> ~ vertical s -> exists e, In e (events ss) /\ ekind e = Right /\ eseg e = s /\ ex e == xhi s.
Proof.
  intros ss s I V. assert (H : exists e, In e (seg_events s) /\ ekind e = Right).
  { unfold seg_events. destruct (Qeq_bool (sx0 s) (sx1 s)) eqn:E; [apply Qeqb_t in E; contradiction|].
    destruct (ltq _ _); eexists; (split; [right; left; reflexivity|reflexivity]). }
  destruct H as (e & He & K). exists e. split; [eapply events_all; eassumption|]. destruct (seg_events_good s e He) as [G E].
  unfold good_event in G. rewrite K in G. subst s. tauto.
Qed.
Lemma bottom_event : forall ss s, In s ss -> vertical s -> exists e, In e (events ss) /\ ekind e = Bottom /\ eseg e = s /\ ex e = sx0 s.
Proof.
  intros ss s I V. assert (H : In (mkEv (sx0 s) Bottom s) (seg_events s)).
  { unfold seg_events. destruct (Qeq_bool (sx0 s) (sx1 s)) eqn:E; [|apply Qeqb_f in E; contradiction].
    destruct (ltq _ _); [left|right; left]; reflexivity. }
  exists (mkEv (sx0 s) Bottom s). split; [eapply events_all; eassumption|]. auto.
Qed.
Lemma tail_member : forall ss x0 queue q s, Tail ss x0 queue q -> In s ss -> ~ vertical s -> xlo s <= x0 -> x0 < xhi s ->
  exists t, In t q /\ seg_eqb t s = true.
Proof.
  intros ss x0 queue q s T I V L H. apply cnt_pos. assert (N := inv_cnt _ _ _ (tail_inv _ _ _ _ T) s).
  destruct (right_event ss s I V) as (e & Ie & K & E & X).
  assert (R : (1 <= nev (is_right s) queue)%nat).
  { apply nev_in with e; [apply (tail_all _ _ _ _ T); [exact Ie|lra]|]. unfold is_right. rewrite E, seg_eqb_refl. rewrite (proj2 (of_kind_iff Right e) K). reflexivity. }
  enough (Z : nev (is_left s) queue = 0%nat) by lia. apply nev_zero. intros d Id. destruct (is_left s d) eqn:F; [|reflexivity]. exfalso.
  unfold is_left in F. apply andb_prop in F. destruct F as [F1 F2]. apply of_kind_iff in F1.
  destruct (inv_events _ _ _ (tail_inv _ _ _ _ T) d Id) as [G _]. unfold good_event in G. rewrite F1 in G. destruct G as [_ G].
  assert (D := tail_gt _ _ _ _ T d Id). rewrite (xlo_ext _ _ F2) in G. lra.
Qed.

Section Step.
Variables (ss : list seg) (fuel : nat) (x0 : Q) (e : event) (queue' : list event) (q : list seg) (evs rest : list event) (q' : list seg) (nb : list (option seg * option seg)).
Let queue := e :: queue'.
Let ending := map eseg (filter (of_kind Right) evs).
Hypothesis T0 : Tail ss x0 queue q.
Hypothesis T : take_same (ex e) queue = (evs, rest).
Hypothesis EE : end_segments fuel ending ending (enter evs q) = Ret (q', nb).
Let x := ex e.

Lemma next_tail : Tail ss x rest q'.
Proof.
  assert (I0 := tail_inv _ _ _ _ T0). destruct (step_split ss e queue' q evs rest I0 T) as (A & B & C & D & _). constructor.
  - apply (step_check ss fuel e queue' q evs rest I0 T q' nb EE).
  - exact C.
  - intros d Id X. assert (X0 : x0 < x) by (apply (tail_gt _ _ _ _ T0); left; reflexivity).
    assert (H : In d queue) by (apply (tail_all _ _ _ _ T0); [exact Id|lra]). unfold queue in H. rewrite A in H. apply in_app_or in H.
    destruct H as [H|H]; [|exact H]. apply B in H. unfold x in *. lra.
Qed.
Lemma nb_length : length nb = nev (of_kind Right) evs.
Proof.
  assert (I0 := tail_inv _ _ _ _ T0).
  assert (P := end_spec fuel ending ending (enter evs q) (fun s H => H) (step_ending ss e queue' q evs rest I0 T)). rewrite EE in P.
  destruct P as (_ & _ & P & _). rewrite P. apply length_filter.
Qed.
End Step.

(** A vertical segment and one that does not end over it (no general position needed). *)
Lemma sweep_vertical : forall ss fuel n x0 queue q, Tail ss x0 queue q -> (length queue <= n)%nat -> sweep fuel n queue q = Ret false ->
  forall v t y, In v ss -> In t ss -> vertical v -> ~ vertical t -> color v <> color t -> x0 < sx0 v -> sx0 v < xhi t ->
  on_seg (eseg_of v) (sx0 v, y) -> on_seg (eseg_of t) (sx0 v, y) -> False.
Proof.
  intros ss fuel. induction n as [|n IH]; intros x0 queue q TL L H v t y Iv It Vv Vt C X XH OV OT;
  (destruct (bottom_event ss v Iv Vv) as (b & Ib & Kb & Eb & Xb));
  (assert (Qb : In b queue) by (apply (tail_all _ _ _ _ TL); [exact Ib|rewrite Xb; exact X])).
  - destruct queue; [destruct Qb|cbn in L; lia].
  - destruct queue as [|e queue']; [destruct Qb|]. cbn [sweep] in H.
    destruct (take_same (ex e) (e :: queue')) as [evs rest] eqn:T. fold (enter evs q) in H.
    assert (I0 := tail_inv _ _ _ _ TL). destruct (step_split ss e queue' q evs rest I0 T) as (A & B & D & _ & E1).
    destruct (end_segments fuel _ _ (enter evs q)) as [[q' nb]| |] eqn:EE in H; cbn [obind fst snd] in H; try discriminate.
    assert (NT := next_tail ss fuel x0 e queue' q evs rest q' nb TL T EE). assert (NL := nb_length ss fuel x0 e queue' q evs rest q' nb TL T EE).
    destruct (check q' evs nb) as [[|]| |] eqn:CK; cbn [obind] in H; try discriminate.
    destruct (check_false q' evs nb CK NL) as (_ & _ & CV).
    rewrite A in Qb. apply in_app_or in Qb. destruct Qb as [Qb|Qb].
    + assert (Xe : ex b == ex e) by (apply B, Qb). rewrite Xb in Xe. specialize (CV b Qb Kb). rewrite Eb in CV.
      destruct (on_height t (sx0 v) y Vt OT) as [St Et]. apply spans_iff in St.
      destruct (tail_member ss (ex e) rest q' t NT It Vt) as (t' & It' & S'); [lra|lra|].
      assert (F : crosses_vertical q' v = true); [|congruence].
      unfold crosses_vertical. apply existsb_exists. exists t'. split; [exact It'|].
      rewrite (seq_color _ _ S'). destruct (Bool.eqb (color v) (color t)) eqn:EC; [apply eqb_prop in EC; contradiction|].
      fold (height t' (sx0 v)). assert (HH : height t' (sx0 v) == y) by (rewrite (seq_height _ _ _ S'); symmetry; exact Et).
      destruct OV as (k & K & _ & Y). cbn [fst snd along eseg_of] in Y.
      destruct (Qlt_le_dec (sy0 v) (sy1 v)) as [LY|LY].
      * rewrite (Qleb_i (sy0 v)), (Qleb_i _ (sy1 v)) by (rewrite HH, Y; nra). reflexivity.
      * rewrite (Qleb_i (sy1 v)), (Qleb_i _ (sy0 v)) by (rewrite HH, Y; nra). apply orb_true_r.
    + apply (IH (ex e) rest q' NT) with v t y; auto.
      * rewrite A, app_length in L. lia.
      * apply D in Qb. rewrite Xb in Qb. exact Qb.
Qed.

Section General.
Variable ss : list seg.
Hypothesis P : forall s t p, In s ss -> In t ss -> color s <> color t -> on_seg (eseg_of s) p -> on_seg (eseg_of t) p ->
  ~ end_of (eseg_of s) p /\ ~ end_of (eseg_of t) p.
Hypothesis S2 : forall s t p, In s ss -> In t ss -> color s = color t -> seg_eqb s t = false -> on_seg (eseg_of s) p -> on_seg (eseg_of t) p ->
  end_of (eseg_of s) p /\ end_of (eseg_of t) p.
Hypothesis S3 : forall s t u p, In s ss -> In t ss -> In u ss -> color s = color t -> color t = color u ->
  seg_eqb s t = false -> seg_eqb t u = false -> seg_eqb s u = false ->
  end_of (eseg_of s) p -> end_of (eseg_of t) p -> end_of (eseg_of u) p -> False.

Lemma in_two : forall {A} (l : list A) a b, In a l -> In b l -> a <> b -> (exists l1 l2 l3, l = l1 ++ a :: l2 ++ b :: l3) \/ (exists l1 l2 l3, l = l1 ++ b :: l2 ++ a :: l3).
Proof.
  intros A l a b Ia Ib N. apply in_split in Ia. destruct Ia as (l1 & l2 & ->). apply in_app_or in Ib. destruct Ib as [Ib|[Ib|Ib]]; [|congruence|].
  - apply in_split in Ib. destruct Ib as (m1 & m2 & ->). right. exists m1, m2, l2. rewrite <- app_assoc. reflexivity.
  - apply in_split in Ib. destruct Ib as (m1 & m2 & ->). left. exists l1, m1, m2. reflexivity.
Qed.
Lemma SS_two : forall {A} (R : A -> A -> Prop) l1 a l2 b l3, StronglySorted R (l1 ++ a :: l2 ++ b :: l3) -> R a b.
Proof.
  intros A R. induction l1 as [|c l1 IH]; intros a l2 b l3 S; cbn [app] in S; inversion S as [|? ? S1 SF]; subst.
  - rewrite Forall_forall in SF. apply SF. apply in_or_app. right. left. reflexivity.
  - eapply IH, S1.
Qed.

Lemma sweep_complete : forall fuel n x0 queue q, Tail ss x0 queue q -> (length queue <= n)%nat ->
  (forall u, (cnt u q + nev (is_left u) queue <= 1)%nat) -> (forall t, In t q -> xlo t <= x0) ->
  StronglySorted (lt_at x0) q -> adj_ok q -> sweep fuel n queue q = Ret false ->
  forall s t x, In s ss -> In t ss -> ~ vertical s -> ~ vertical t -> color s <> color t -> x0 < x -> spans s x -> spans t x ->
  height s x == height t x -> False.
Proof.
  intros fuel. induction n as [|n IH]; intros x0 queue q TL L HC HX O ADJ H s t x Is It Vs Vt C X Ss St EH;
  (destruct (right_event ss s Is Vs) as (re & Ire & _ & _ & Xre));
  (assert (Qre : In re queue) by (apply (tail_all _ _ _ _ TL); [exact Ire|apply spans_iff in Ss; lra])).
  - destruct queue; [destruct Qre|cbn in L; lia].
  - destruct queue as [|e queue']; [destruct Qre|]. cbn [sweep] in H.
    destruct (take_same (ex e) (e :: queue')) as [evs rest] eqn:T. fold (enter evs q) in H.
    assert (I0 := tail_inv _ _ _ _ TL). destruct (step_split ss e queue' q evs rest I0 T) as (A & B & D & _ & E1).
    set (ending := map eseg (filter (of_kind Right) evs)) in *.
    destruct (end_segments fuel ending ending (enter evs q)) as [[q' nb]| |] eqn:EE; cbn [obind fst snd] in H; try discriminate.
    assert (NT := next_tail ss fuel x0 e queue' q evs rest q' nb TL T EE). assert (NL := nb_length ss fuel x0 e queue' q evs rest q' nb TL T EE).
    destruct (check q' evs nb) as [[|]| |] eqn:CK; cbn [obind] in H; try discriminate.
    destruct (check_false q' evs nb CK NL) as (CL & CR & _).
    set (x' := ex e) in *. assert (X0 : x0 < x') by (apply (tail_gt _ _ _ _ TL); left; reflexivity).
    assert (SQ : simple q) by (intros u; specialize (HC u); lia).
    assert (HQ : forall u, In u q -> In u ss /\ ~ vertical u /\ xlo u <= x0 /\ x' <= xhi u).
    { intros u Iu. destruct (inv_q _ _ _ I0 u Iu) as (Iss & Vu & _). split; [exact Iss|]. split; [exact Vu|]. split; [auto|].
      assert (SP : spans u x') by (apply (step_q1 ss e queue' q evs rest I0 T); apply (enter_spec evs q); left; exact Iu). apply spans_iff in SP. apply SP. }
    destruct (Qlt_le_dec x' x) as [XX|XX].
    + (* later *)
      assert (Hev : forall d, In d evs -> good_event d /\ ex d == x' /\ In (eseg d) ss).
      { intros d Id. assert (In d (e :: queue')) by (rewrite A; apply in_or_app; left; exact Id). destruct (inv_events _ _ _ I0 d H0). auto. }
      destruct (enter_spec evs q) as (N & M & _).
      assert (SQ1 : simple (enter evs q)). { intros u. rewrite N. specialize (HC u). rewrite A, nev_app in HC. lia. }
      assert (V1 : StronglySorted (Vx x') (enter evs q)).
      { apply (enter_V ss P S2 S3); auto.
        - intros u. specialize (HC u). rewrite A, nev_app in HC. lia.
        - intros u Iu. destruct (HQ u Iu) as (? & ? & ? & ?). repeat split; auto. apply spans_iff. lra.
        - eapply SS_impl; [|apply (Z_sorted ss P S2 x0 x' q SQ HQ O ADJ X0)]. intros a b _ _. apply Zx_Vx. }
      assert (EQ' := end_filter fuel ending ending _ _ _ SQ1 EE).
      assert (SQ' : simple q') by (rewrite EQ'; apply simple_filter, SQ1).
      assert (NEnd : forall u, In u q' -> ~ xhi u == x').
      { intros u Iu Eu. rewrite EQ' in Iu. apply filter_In in Iu. destruct Iu as [Iu K]. unfold keep in K. apply negb_true_iff in K.
        destruct (step_q1 ss e queue' q evs rest I0 T u Iu) as (Iss & Vu & Su).
        destruct (right_event ss u Iss Vu) as (d & Id & Kd & Ed & Xd).
        assert (Qd : In d (e :: queue')) by (apply (tail_all _ _ _ _ TL); [exact Id|lra]). rewrite A in Qd. apply in_app_or in Qd.
        destruct Qd as [Qd|Qd]; [|apply D in Qd; unfold x' in *; lra].
        assert (existsb (seg_eqb u) ending = true); [|congruence]. apply existsb_exists. exists u. split; [|apply seg_eqb_refl].
        unfold ending. rewrite <- Ed. apply in_map. apply filter_In. split; [exact Qd|apply of_kind_iff, Kd]. }
      apply (IH x' rest q' NT) with s t x; auto.
      * rewrite A, app_length in L. lia.
      * intros u. assert (K : (cnt u q' <= cnt u (enter evs q))%nat) by (rewrite EQ'; clear; generalize (enter evs q); induction l as [|w l IH]; [reflexivity|]; cbn [filter]; destruct (keep ending w); cbn [cnt]; lia).
        rewrite N in K. specialize (HC u). rewrite A, nev_app in HC. lia.
      * intros u Iu. rewrite EQ' in Iu. apply filter_In in Iu. destruct Iu as [Iu _]. destruct (step_q1 ss e queue' q evs rest I0 T u Iu) as (_ & _ & Su). apply spans_iff in Su. apply Su.
      * apply SS_impl with (Vx x'); [|rewrite EQ'; apply SS_filter, V1]. intros a b Ia Ib [_ K]. apply K; apply NEnd; assumption.
      * (* neighbours have been compared *)
        intros l1 a b l2 Eq.
        assert (Ia : In a q') by (rewrite Eq; apply in_or_app; right; left; reflexivity). assert (Ib : In b q') by (rewrite Eq; apply in_or_app; right; right; left; reflexivity).
        assert (Ka : existsb (seg_eqb a) ending = false) by (rewrite EQ' in Ia; apply filter_In in Ia; destruct Ia as [_ Ia]; apply negb_true_iff, Ia).
        assert (Kb : existsb (seg_eqb b) ending = false) by (rewrite EQ' in Ib; apply filter_In in Ib; destruct Ib as [_ Ib]; apply negb_true_iff, Ib).
        destruct (existsb (fun d => of_kind Left d && (if seg_eqb (eseg d) a then true else seg_eqb (eseg d) b)) evs) eqn:NEW.
        -- apply existsb_exists in NEW. destruct NEW as (d & Id & K). apply andb_prop in K. destruct K as [K1 K2]. apply of_kind_iff in K1.
           assert (Iq1 : In (eseg d) (enter evs q)) by (apply M; right; exists d; auto).
           assert (SAME : forall w, In w q' -> seg_eqb (eseg d) w = true -> eseg d = w).
           { intros w Iw S. rewrite EQ' in Iw. apply filter_In in Iw. destruct Iw as [Iw _].
             assert (Dq := simple_distinct _ SQ1). destruct (In_nth_error _ _ Iq1) as (i & Ni). destruct (In_nth_error _ _ Iw) as (j & Nj).
             assert (X1 := index_exact _ _ _ SQ1 Ni). assert (X2 := index_exact _ _ _ SQ1 Nj). rewrite (index_seq _ _ _ S) in X1. assert (i = j) by congruence. congruence. }
           destruct (CL d Id K1) as (l & r & EL & ER & TL' & TR).
           destruct (seg_eqb (eseg d) a) eqn:DA.
           ++ rewrite (SAME a Ia DA) in *. rewrite Eq in ER, SQ'. rewrite rightof_mid in ER by exact SQ'. apply TR. congruence.
           ++ rewrite (SAME b Ib K2) in *. rewrite Eq in EL, SQ'. rewrite leftof_mid in EL by exact SQ'. apply TL'. congruence.
        -- assert (OLD : forall d, In d evs -> ekind d = Left -> eseg d <> a /\ eseg d <> b).
           { intros d Id Kd. assert (F : (of_kind Left d && (if seg_eqb (eseg d) a then true else seg_eqb (eseg d) b)) = false).
             { destruct (of_kind Left d && _) eqn:F; [|reflexivity]. rewrite <- NEW. symmetry. apply existsb_exists. exists d. auto. }
             rewrite (proj2 (of_kind_iff Left d) Kd) in F. cbn [andb] in F. destruct (seg_eqb (eseg d) a) eqn:F1; [discriminate|].
             split; intros Z; rewrite Z, seg_eqb_refl in *; discriminate. }
           rewrite EQ' in Eq. destruct (filter_adj _ _ _ _ _ _ Eq) as (p1 & mid & p2 & Eq1 & MID).
           destruct mid as [|w mid].
           ++ cbn [app] in Eq1. destruct (enter_adj evs q _ _ _ _ Eq1 OLD) as (r1 & r2 & EQ). exact (ADJ _ _ _ _ EQ).
           ++ apply CR. apply (end_nb fuel ending ending (enter evs q) q' nb p1 a (w :: mid) b p2); auto.
              ** intros u Iu. specialize (MID u Iu). unfold keep in MID. apply negb_false_iff in MID. exact MID.
              ** exists w. split; [left; reflexivity|]. specialize (MID w (or_introl eq_refl)). apply negb_false_iff in MID. exact MID.
    + (* between the previous event and this one *)
      assert (HL : forall u, In u ss -> ~ vertical u -> spans u x -> (forall y, on_seg (eseg_of u) (x, y) -> ~ end_of (eseg_of u) (x, y)) -> exists u', In u' q /\ seg_eqb u' u = true).
      { intros u Iu Vu Su NEu. assert (Su' := Su). apply spans_iff in Su'. assert (W := good_lt u Vu).
        assert (LX : xlo u < x). { destruct Su' as [Su' _]. apply Qle_lteq in Su'. destruct Su' as [Su'|Su']; [exact Su'|]. exfalso.
          apply (NEu (height u x)); [apply height_on; assumption|apply end_lo; [exact Vu|symmetry; exact Su']]. }
        apply (tail_member ss x0 (e :: queue') q u TL Iu Vu); [|lra].
        apply Qnot_lt_le. intros K.
        (* the left event of u would lie strictly before the first event *)
        assert (LE : exists d, In d (events ss) /\ ex d == xlo u).
        { assert (G : exists d, In d (seg_events u) /\ ekind d = Left).
          { unfold seg_events. destruct (Qeq_bool (sx0 u) (sx1 u)) eqn:EV; [apply Qeqb_t in EV; contradiction|]. destruct (ltq _ _); eexists; (split; [left; reflexivity|reflexivity]). }
          destruct G as (d & Gd & Kd). exists d. split; [eapply events_all; eassumption|]. destruct (seg_events_good u d Gd) as [GG GE]. unfold good_event in GG. rewrite Kd in GG. rewrite GE in GG. tauto. }
        destruct LE as (d & Id & Xd). assert (Qd : In d (e :: queue')) by (apply (tail_all _ _ _ _ TL); [exact Id|lra]).
        rewrite A in Qd. apply in_app_or in Qd. destruct Qd as [Qd|Qd]; [apply B in Qd|apply D in Qd]; unfold x' in *; lra. }
      destruct (meet_at s t x Vs Vt Ss St EH) as [MA MB].
      destruct (HL s Is Vs Ss) as (s' & Is' & S').
      { intros y Oy. destruct (on_height s x y Vs Oy) as [_ Ey]. apply (P s t (x, y) Is It C Oy). apply on_same with (x, height s x); [|exact MB]. split; [reflexivity|symmetry; exact Ey]. }
      destruct (HL t It Vt St) as (t' & It' & T').
      { intros y Oy. destruct (on_height t x y Vt Oy) as [_ Ey]. refine (proj2 (P s t (x, y) Is It C _ Oy)). apply on_same with (x, height s x); [|exact MA]. split; [reflexivity|cbn [snd]; lra]. }
      assert (EH' : height s' x == height t' x) by (rewrite (seq_height _ _ _ S'), (seq_height _ _ _ T'); exact EH).
      assert (C' : color s' <> color t') by (rewrite (seq_color _ _ S'), (seq_color _ _ T'); exact C).
      destruct (HQ s' Is') as (Jss & Js & _ & _). destruct (HQ t' It') as (Kss & Kt & _ & _).
      assert (SZ : StronglySorted (Zx x) q).
      { apply (Z_sorted ss P S2 x0 x q SQ); auto. intros u Iu. destruct (HQ u Iu) as (? & ? & ? & ?). repeat split; auto. lra. }
      assert (Ss' : spans s' x) by (apply spans_iff; rewrite (xlo_ext _ _ S'), (xhi_ext _ _ S'); apply spans_iff; exact Ss).
      assert (St' : spans t' x) by (apply spans_iff; rewrite (xlo_ext _ _ T'), (xhi_ext _ _ T'); apply spans_iff; exact St).
      destruct (meet_at s' t' x Js Kt Ss' St' EH') as [A' B'].
      destruct (in_two q s' t' Is' It') as [(l1 & l2 & l3 & Eq)|(l1 & l2 & l3 & Eq)]; [congruence| |];
      rewrite Eq in SZ; apply SS_two in SZ; destruct SZ as [Z|[_ Z]]; try lra.
      * apply (proj1 (P s' t' _ Jss Kss C' A' B')). apply end_hi; [exact Js|symmetry; exact Z].
      * apply (proj2 (P s' t' _ Jss Kss C' A' B')). apply end_same with (x, height t' x); [split; [reflexivity|symmetry; exact EH']|]. apply end_hi; [exact Kt|symmetry; exact Z].
Qed.
End General.

(* ---- from the geometries *)
Lemma start_tail : forall ss, exists x0, Tail ss x0 (events ss) [] /\ forall s, In s ss -> x0 < xlo s.
Proof.
  intros ss. assert (H : exists m, forall s, In s ss -> m < xlo s).
  { induction ss as [|s ss (m & IH)]; [exists 0; intros s []|]. exists (fmin m (xlo s - 1)). intros t [<- |I].
    - destruct (fmin_spec m (xlo s - 1)) as [[A B]|[A B]]; rewrite A; lra.
    - specialize (IH t I). destruct (fmin_spec m (xlo s - 1)) as [[A B]|[A B]]; rewrite A; lra. }
  destruct H as (m & H). exists m. split; [|exact H]. constructor.
  - apply intersects_inv.
  - intros e I. destruct (events_spec ss) as (_ & B & _). destruct (B e I) as [G Is]. specialize (H _ Is). unfold good_event in G. assert (xlo (eseg e) <= ex e).
    { unfold xlo, xhi, vertical in *. destruct (ekind e); destruct G as [G1 G2]; rewrite G2; destruct (fmin_spec (sx0 (eseg e)) (sx1 (eseg e))) as [[C D]|[C D]]; rewrite C;
      try destruct (fmax_spec (sx0 (eseg e)) (sx1 (eseg e))) as [[C' D']|[C' D']]; try rewrite C'; lra. }
    lra.
  - auto.
Qed.
Lemma segs_in : forall a ra b rb s, In s (segs a ra b rb) -> edge_of (if color s then b else a) (if color s then rb else ra) (eseg_of s).
Proof.
  intros a ra b rb s H. unfold segs in H. apply in_app_or in H. rewrite !in_map_iff in H.
  destruct H as [(e & <- & I)|(e & <- & I)]; cbn [color to_seg]; rewrite eseg_to_seg; apply edges_spec, I.
Qed.
Lemma segs_of : forall a ra b rb e c, edge_of (if c : bool then b else a) (if c then rb else ra) e -> In (to_seg c e) (segs a ra b rb).
Proof.
  intros a ra b rb e c H. unfold segs. apply in_or_app. destruct c; [right|left]; apply in_map, edges_spec, H.
Qed.
Lemma seg_index : forall a ra b rb s, In s (segs a ra b rb) -> exists i, edge_at (if color s then b else a) (if color s then rb else ra) i (eseg_of s).
Proof. intros. apply segs_in. assumption. Qed.
Lemma same_eqb : forall s t, color s = color t -> eseg_of s = eseg_of t -> seg_eqb s t = true.
Proof.
  intros [a b c d k] [a' b' c' d' k'] C E. unfold eseg_of in E. cbn in *. injection E as -> -> -> ->. subst k'. apply seg_eqb_refl.
Qed.
Lemma edge_at_fun : forall l ring i e f, edge_at l ring i e -> edge_at l ring i f -> e = f.
Proof. intros l ring i e f A B. apply edges_nth in A, B. congruence. Qed.

Section Geoms.
Variables (a : list pt) (ra : bool) (b : list pt) (rb : bool).
Hypothesis SA : simple_path a ra.
Hypothesis SB : simple_path b rb.
Hypothesis PR : proper a ra b rb.
Let ss := segs a ra b rb.
Lemma gp_P : forall s t p, In s ss -> In t ss -> color s <> color t -> on_seg (eseg_of s) p -> on_seg (eseg_of t) p ->
  ~ end_of (eseg_of s) p /\ ~ end_of (eseg_of t) p.
Proof.
  intros s t p Is It C A B. apply segs_in in Is, It. destruct (color s), (color t); try congruence.
  - destruct (PR _ _ p It Is B A). auto.
  - apply (PR _ _ p Is It A B).
Qed.
Lemma simple_c : forall c : bool, simple_path (if c then b else a) (if c then rb else ra).
Proof. intros []; assumption. Qed.
Lemma diff_index : forall s t i j, color s = color t -> seg_eqb s t = false -> edge_at (if color s then b else a) (if color s then rb else ra) i (eseg_of s) ->
  edge_at (if color t then b else a) (if color t then rb else ra) j (eseg_of t) -> i <> j.
Proof.
  intros s t i j C N A B ->. rewrite C in A. assert (E := edge_at_fun _ _ _ _ _ A B). rewrite (same_eqb s t C E) in N. discriminate.
Qed.
Lemma gp_S2 : forall s t p, In s ss -> In t ss -> color s = color t -> seg_eqb s t = false -> on_seg (eseg_of s) p -> on_seg (eseg_of t) p ->
  end_of (eseg_of s) p /\ end_of (eseg_of t) p.
Proof.
  intros s t p Is It C N A B. apply seg_index in Is, It. destruct Is as (i & Ii), It as (j & Jj).
  assert (D := diff_index s t i j C N Ii Jj). rewrite C in Ii. destruct (simple_c (color t)) as [H _]. eapply H; eassumption.
Qed.
Lemma gp_S3 : forall s t u p, In s ss -> In t ss -> In u ss -> color s = color t -> color t = color u ->
  seg_eqb s t = false -> seg_eqb t u = false -> seg_eqb s u = false ->
  end_of (eseg_of s) p -> end_of (eseg_of t) p -> end_of (eseg_of u) p -> False.
Proof.
  intros s t u p Is It Iu C1 C2 N1 N2 N3 A B D. apply seg_index in Is, It, Iu. destruct Is as (i & Ii), It as (j & Jj), Iu as (k & Kk).
  assert (D1 := diff_index s t i j C1 N1 Ii Jj). assert (D2 := diff_index t u j k C2 N2 Jj Kk). assert (D3 := diff_index s u i k ltac:(congruence) N3 Ii Kk).
  rewrite C1, C2 in Ii. rewrite C2 in Jj. destruct (simple_c (color u)) as [_ H]. exact (H i j k _ _ _ p Ii Jj Kk D1 D2 D3 A B D).
Qed.
Lemma simple_no_repeat : forall l ring, simple_path l ring -> no_repeat l ring.
Proof.
  intros l ring [H _] i j e f A B S U. destruct (Nat.eq_dec i j) as [E|E]; [exact E|]. exfalso.
  set (m := along (fst e) (snd e) (1 # 2)).
  assert (M : on_seg e m) by (exists (1 # 2); split; [lra|apply same_refl]).
  assert (M' : on_seg f m).
  { exists (1 # 2). split; [lra|]. destruct S as [[S1 S2] [S3 S4]]. unfold m, along, same. cbn [fst snd]. rewrite S1, S2, S3, S4. split; reflexivity. }
  destruct (H i j e f m A B E M M') as [[[F _]|[F _]] _]; unfold m, along in F; cbn [fst snd] in F; apply U; unfold upright; lra.
Qed.
Lemma gp_complete : forall fuel, intersects fuel a ra b rb = Ret false -> forall e f, edge_of a ra e -> edge_of b rb f -> ~ meet e f.
Proof.
  intros fuel H e f Ie If (p & A & B). unfold intersects in H. fold (segs a ra b rb) in H. fold ss in H.
  destruct (start_tail ss) as (x0 & TL & LO).
  assert (Is : In (to_seg false e) ss) by (apply segs_of; exact Ie). assert (It : In (to_seg true f) ss) by (apply segs_of; exact If).
  rewrite <- (eseg_to_seg false e) in A. rewrite <- (eseg_to_seg true f) in B.
  set (s := to_seg false e) in *. set (t := to_seg true f) in *. assert (C : color s <> color t) by (unfold s, t; cbn; discriminate). clearbody s t. clear Ie If e f.
  destruct (gp_P s t p Is It C A B) as [NA NB]. destruct p as [x y].
  assert (V : forall v w, In v ss -> In w ss -> color v <> color w -> vertical v -> ~ vertical w -> on_seg (eseg_of v) (x, y) -> on_seg (eseg_of w) (x, y) ->
    ~ end_of (eseg_of w) (x, y) -> False).
  { intros v w Iv Iw Cv Vv Vw Ov Ow Nw. assert (Xv : x == sx0 v).
    { destruct Ov as (k & _ & K & _). cbn [fst snd along eseg_of] in K. unfold vertical in Vv. rewrite K, <- Vv. ring. }
    apply (sweep_vertical ss fuel _ x0 (events ss) [] TL (Nat.le_refl _) H v w y); auto.
    - specialize (LO v Iv). unfold xlo in LO. destruct (fmin_spec (sx0 v) (sx1 v)) as [[D _]|[D _]]; rewrite D in LO; unfold vertical in Vv; lra.
    - destruct (on_height w x y Vw Ow) as [Sw Ew]. apply spans_iff in Sw. destruct Sw as [_ Sw]. apply Qle_lteq in Sw. destruct Sw as [Sw|Sw]; [lra|]. exfalso. apply Nw.
      apply end_same with (x, height w x); [split; [reflexivity|symmetry; exact Ew]|]. apply end_hi; assumption.
    - apply on_same with (x, y); [split; [exact Xv|reflexivity]|exact Ov].
    - apply on_same with (x, y); [split; [exact Xv|reflexivity]|exact Ow]. }
  destruct (Qeq_dec (sx0 s) (sx1 s)) as [Vs|Vs]; [destruct (Qeq_dec (sx0 t) (sx1 t)) as [Vt|Vt]|destruct (Qeq_dec (sx0 t) (sx1 t)) as [Vt|Vt]].
  - (* two vertical segments share an end of one of them *)
    assert (G : forall u w, In u ss -> In w ss -> color u <> color w -> sx0 u == sx1 u -> sx0 w == sx1 w -> on_seg (eseg_of u) (x, y) -> on_seg (eseg_of w) (x, y) ->
       fmin (sy0 w) (sy1 w) <= fmin (sy0 u) (sy1 u) -> False).
    { intros u w Iu Iw Cu Vu Vw (k & K & X1 & Y1) (k' & K' & X2 & Y2) LE. cbn [fst snd along eseg_of] in *.
      set (lo := fmin (sy0 u) (sy1 u)) in *.
      assert (LO1 : lo <= y). { unfold lo. destruct (fmin_spec (sy0 u) (sy1 u)) as [[D D']|[D D']]; rewrite D; rewrite Y1; nra. }
      assert (HI1 : lo <= sy0 w \/ lo <= sy1 w). { destruct (Qlt_le_dec (sy0 w) lo) as [Q1|Q1]; [|left; exact Q1]. destruct (Qlt_le_dec (sy1 w) lo) as [Q2|Q2]; [|right; exact Q2]. exfalso. destruct (Qlt_le_dec (sy0 w) (sy1 w)) as [Q3|Q3]; [assert (y <= sy1 w) by (rewrite Y2; nra)|assert (y <= sy0 w) by (rewrite Y2; nra)]; lra. }
      assert (EU : end_of (eseg_of u) (x, lo)).
      { unfold end_of, same, eseg_of. cbn [fst snd]. unfold lo. destruct (fmin_spec (sy0 u) (sy1 u)) as [[D _]|[D _]]; rewrite D; [left|right]; (split; [|reflexivity]); rewrite X1, Vu; ring. }
      assert (OU : on_seg (eseg_of u) (x, lo)).
      { destruct EU as [EU|EU]; [exists 0|exists 1]; (split; [lra|]); (eapply same_trans; [exact EU|]); unfold along, same; cbn [fst snd]; split; ring. }
      assert (OW : on_seg (eseg_of w) (x, lo)).
      { destruct (fmin_spec (sy0 w) (sy1 w)) as [[D D']|[D D']]; rewrite D in LE.
        - destruct (Qeq_dec (sy0 w) (sy1 w)) as [Z|Z].
          + exists 0. split; [lra|]. unfold along, same, eseg_of. cbn [fst snd]. split; [rewrite X2, Vw; ring|]. destruct HI1; lra.
          + exists ((lo - sy0 w) / (sy1 w - sy0 w)). split; [split; [apply Qle_shift_div_l|apply Qle_shift_div_r]; destruct HI1; lra|].
            unfold along, same, eseg_of. cbn [fst snd]. split; [rewrite X2, Vw; ring|field; lra].
        - destruct (Qeq_dec (sy0 w) (sy1 w)) as [Z|Z].
          + exists 0. split; [lra|]. unfold along, same, eseg_of. cbn [fst snd]. split; [rewrite X2, Vw; ring|]. destruct HI1; lra.
          + exists ((sy0 w - lo) / (sy0 w - sy1 w)). split; [split; [apply Qle_shift_div_l|apply Qle_shift_div_r]; destruct HI1; lra|].
            unfold along, same, eseg_of. cbn [fst snd]. split; [rewrite X2, Vw; ring|field; lra]. }
      apply (proj1 (gp_P u w _ Iu Iw Cu OU OW)), EU. }
    destruct (Qlt_le_dec (fmin (sy0 s) (sy1 s)) (fmin (sy0 t) (sy1 t))) as [L|L].
    + apply (G t s); auto. apply Qlt_le_weak, L.
    + apply (G s t); auto.
  - apply (V s t); auto.
  - apply (V t s); auto.
  - destruct (on_height s x y Vs A) as [Ss Es]. destruct (on_height t x y Vt B) as [St Et].
    apply (sweep_complete ss gp_P gp_S2 gp_S3 fuel _ x0 (events ss) [] TL (Nat.le_refl _)) with s t x; auto.
    + intros u. cbn [cnt Nat.add]. destruct (events_spec ss) as (_ & _ & CC). specialize (CC u). fold slanted in CC.
      assert (Xa := no_repeat_cnt false _ u (no_repeat_edges _ _ (simple_no_repeat _ _ SA))). assert (Xb := no_repeat_cnt true _ u (no_repeat_edges _ _ (simple_no_repeat _ _ SB))).
      unfold ss, segs in *. rewrite filter_app, cnt_app in CC. destruct (color u); cbn in Xa, Xb; lia.
    + intros u [].
    + constructor.
    + intros l1 u v l2 E. destruct l1; discriminate.
    + specialize (LO s Is). apply spans_iff in Ss. lra.
    + lra.
Qed.
Lemma gp_exact : exists w, (forall fuel, (2 * (length (edges a ra) + length (edges b rb)) + 1 < fuel)%nat -> intersects fuel a ra b rb = Ret w) /\
  (w = true <-> exists e f, edge_of a ra e /\ edge_of b rb f /\ meet e f).
Proof.
  destruct (intersects_answers a ra b rb (simple_no_repeat _ _ SA) (simple_no_repeat _ _ SB)) as (w & H). exists w. split; [exact H|].
  set (N := (2 * (length (edges a ra) + length (edges b rb)) + 2)%nat). assert (HN : intersects N a ra b rb = Ret w) by (apply H; unfold N; lia).
  destruct w; split; try discriminate; auto.
  - intros _. eapply intersects_sound, HN.
  - intros (e & f & Ie & If & M). exfalso. exact (gp_complete N HN e f Ie If M).
Qed.
End Geoms.
(** Without general position: a vertical edge against an edge that does not end there. *)
Lemma vertical_complete : forall fuel a ra b rb w, intersects fuel a ra b rb = Ret w ->
  forall e f x y, (edge_of a ra e /\ edge_of b rb f) \/ (edge_of b rb e /\ edge_of a ra f) -> upright e -> ~ upright f ->
  on_seg e (x, y) -> on_seg f (x, y) -> (x < fst (fst f) \/ x < fst (snd f)) -> w = true.
Proof.
  intros fuel a ra b rb w H e f x y HE Ue Uf Oe Of X. destruct w; [reflexivity|]. exfalso.
  unfold intersects in H. fold (segs a ra b rb) in H. destruct (start_tail (segs a ra b rb)) as (x0 & TL & LO).
  assert (G : exists v t, In v (segs a ra b rb) /\ In t (segs a ra b rb) /\ color v <> color t /\ eseg_of v = e /\ eseg_of t = f).
  { destruct HE as [[I J]|[I J]]; [exists (to_seg false e), (to_seg true f)|exists (to_seg true e), (to_seg false f)];
    (split; [apply segs_of; assumption|]); (split; [apply segs_of; assumption|]); rewrite !eseg_to_seg; (split; [cbn; discriminate|auto]). }
  destruct G as (v & t & Iv & It & C & <- & <-). unfold upright, eseg_of in Ue, Uf, X. cbn [fst snd] in Ue, Uf, X.
  assert (Xv : x == sx0 v). { destruct Oe as (k & _ & K & _). cbn [fst snd along eseg_of] in K. rewrite K, <- Ue. ring. }
  apply (sweep_vertical _ fuel _ x0 _ [] TL (Nat.le_refl _) H v t y); auto.
  - specialize (LO v Iv). unfold xlo in LO. destruct (fmin_spec (sx0 v) (sx1 v)) as [[D _]|[D _]]; rewrite D in LO; lra.
  - unfold xhi. destruct (fmax_spec (sx0 t) (sx1 t)) as [[D D']|[D D']]; rewrite D; lra.
  - apply on_same with (x, y); [split; [exact Xv|reflexivity]|exact Oe].
  - apply on_same with (x, y); [split; [exact Xv|reflexivity]|exact Of].
Qed.

(* ---- with the test of the boxes *)
Lemma edge_vertices : forall l ring e, edge_of l ring e -> In (fst e) l /\ In (snd e) l.
Proof.
  intros l ring e (i & [[A B]|(_ & _ & A & B)]); split; eapply nth_error_In; eassumption.
Qed.
Lemma covers_on : forall x0 y0 x1 y1 e p, covers x0 y0 x1 y1 (fst e) -> covers x0 y0 x1 y1 (snd e) -> on_seg e p -> covers x0 y0 x1 y1 p.
Proof.
  intros x0 y0 x1 y1 [[ax ay] [bx by_]] [px py] [A B] [C D] (t & T & E & F). unfold covers, along in *. cbn [fst snd] in *.
  split; [rewrite E|rewrite F]; clear E F; split; nra.
Qed.
Lemma bbox_meet : forall a ra b rb e f b0 b1, edge_of a ra e -> edge_of b rb f -> meet e f -> bbox_c a = Some b0 -> bbox_c b = Some b1 -> bboxes_overlap b0 b1 = true.
Proof.
  intros a ra b rb e f b0 b1 Ie If (p & A & B) E0 E1.
  destruct (edge_vertices _ _ _ Ie) as [Ia Ia']. destruct (edge_vertices _ _ _ If) as [Ib Ib'].
  assert (Na : a <> []) by (intros ->; destruct Ia). assert (Nb : b <> []) by (intros ->; destruct Ib).
  destruct (bbox_c_tight a Na) as (x0 & y0 & x1 & y1 & Ea & (Ca & _)). destruct (bbox_c_tight b Nb) as (x2 & y2 & x3 & y3 & Eb & (Cb & _)).
  rewrite Ea in E0. rewrite Eb in E1. injection E0 as <-. injection E1 as <-.
  assert (KA := covers_on _ _ _ _ _ _ (Ca _ Ia) (Ca _ Ia') A). assert (KB := covers_on _ _ _ _ _ _ (Cb _ Ib) (Cb _ Ib') B).
  destruct KA as [K1 K2], KB as [K3 K4]. apply bboxes_overlap_spec; try lra. exists p. repeat split; lra.
Qed.
Lemma geom_sound : forall fuel a ra b rb, geom_intersects fuel a ra b rb = Ret true -> exists e f, edge_of a ra e /\ edge_of b rb f /\ meet e f.
Proof.
  intros fuel a ra b rb H. unfold geom_intersects in H. destruct (bbox_c a); [destruct (bbox_c b); [destruct (bboxes_overlap _ _); [|discriminate]|]|]; eapply intersects_sound, H.
Qed.
Lemma geom_no_raise : forall fuel a ra b rb, geom_intersects fuel a ra b rb <> Raise.
Proof.
  intros fuel a ra b rb H. unfold geom_intersects in H. destruct (bbox_c a); [destruct (bbox_c b); [destruct (bboxes_overlap _ _); [|discriminate]|]|]; eapply intersects_no_raise, H.
Qed.
Lemma geom_answers : forall a ra b rb, no_repeat a ra -> no_repeat b rb ->
  exists w, forall fuel, (2 * (length a + length b) + 1 < fuel)%nat -> geom_intersects fuel a ra b rb = Ret w.
Proof.
  intros a ra b rb HA HB. destruct (intersects_answers a ra b rb HA HB) as (w & H).
  assert (LE : forall l ring, (length (edges l ring) <= length l)%nat).
  { intros l ring. unfold edges. destruct l as [|v l]; [reflexivity|]. unfold consecutive. destruct ring; rewrite combine_length; cbn [tl length app]; rewrite ?app_length; cbn [length]; lia. }
  assert (LA := LE a ra). assert (LB := LE b rb).
  unfold geom_intersects. destruct (bbox_c a); [destruct (bbox_c b); [destruct (bboxes_overlap _ _); [|exists false; reflexivity]|]|]; exists w; intros; apply H; lia.
Qed.
Lemma geom_exact : forall a ra b rb, simple_path a ra -> simple_path b rb -> proper a ra b rb ->
  exists w, (forall fuel, (2 * (length a + length b) + 1 < fuel)%nat -> geom_intersects fuel a ra b rb = Ret w) /\
  (w = true <-> exists e f, edge_of a ra e /\ edge_of b rb f /\ meet e f).
Proof.
  intros a ra b rb SA SB PR. destruct (geom_answers a ra b rb (simple_no_repeat _ _ SA) (simple_no_repeat _ _ SB)) as (w & H). exists w. split; [exact H|].
  specialize (H (2 * (length a + length b) + 2)%nat ltac:(lia)). split.
  - intros ->. eapply geom_sound, H.
  - intros (e & f & Ie & If & M). destruct w; [reflexivity|]. exfalso. unfold geom_intersects in H.
    destruct (bbox_c a) as [b0|] eqn:E0; [destruct (bbox_c b) as [b1|] eqn:E1|].
    + rewrite (bbox_meet a ra b rb e f b0 b1 Ie If M E0 E1) in H. exact (gp_complete a ra b rb SA SB PR _ H e f Ie If M).
    + exact (gp_complete a ra b rb SA SB PR _ H e f Ie If M).
    + exact (gp_complete a ra b rb SA SB PR _ H e f Ie If M).
Qed.
Lemma geom_vertical : forall fuel a ra b rb w, geom_intersects fuel a ra b rb = Ret w ->
  forall e f x y, (edge_of a ra e /\ edge_of b rb f) \/ (edge_of b rb e /\ edge_of a ra f) -> upright e -> ~ upright f ->
  on_seg e (x, y) -> on_seg f (x, y) -> (x < fst (fst f) \/ x < fst (snd f)) -> w = true.
Proof.
  intros fuel a ra b rb w H e f x y HE Ue Uf Oe Of X.
  assert (K : exists e' f', edge_of a ra e' /\ edge_of b rb f' /\ meet e' f').
  { destruct HE as [[I J]|[I J]]; [exists e, f|exists f, e]; (split; [assumption|]); (split; [assumption|]); exists (x, y); auto. }
  destruct K as (e' & f' & I & J & M). unfold geom_intersects in H.
  destruct (bbox_c a) as [b0|] eqn:E0; [destruct (bbox_c b) as [b1|] eqn:E1|]; [rewrite (bbox_meet a ra b rb e' f' b0 b1 I J M E0 E1) in H| |];
  eapply vertical_complete; eassumption.
Qed.
