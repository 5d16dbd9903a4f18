(** The sweep of [intersects]: the loop. *)
From Coq Require Import List ZArith QArith Qabs Lqa Lia Bool Arith Sorted.
From Verif Require Import Geom_Model Geom_Spec Geom_Proofs Inter_Model Inter_Spec Inter_Proofs Inter_Sweep.
Import ListNotations.
Open Scope Q_scope.

Definition simple (q : list seg) : Prop := forall u, (cnt u q <= 1)%nat.

Lemma skip_safe : forall fuel next ending (q : list seg),
  (forall t, (1 <= cnt t q)%nat -> exists o, next t = Some o /\ forall u, o = Some u -> In u q) ->
  forall s, (forall t, s = Some t -> In t q) ->
  match skip_ending fuel next ending s with
  | Raise => False | Loop => True | Ret o => forall u, o = Some u -> In u q
  end.
Proof.
  induction fuel as [|fuel IH]; intros next ending q N s Hs; cbn [skip_ending]; [exact I|].
  destruct s as [t|]; [|discriminate]. destruct (existsb (seg_eqb t) ending); [|exact Hs].
  destruct (N t (cnt_in t q (Hs t eq_refl))) as (o & E & Ho). rewrite E. apply IH; assumption.
Qed.
Lemma skip_safe' : forall fuel next ending (q : list seg),
  (forall t, (1 <= cnt t q)%nat -> exists o, next t = Some o /\ forall u, o = Some u -> In u q) ->
  forall s, (1 <= cnt s q)%nat -> In s ending ->
  match skip_ending fuel next ending (Some s) with
  | Raise => False | Loop => True | Ret o => forall u, o = Some u -> In u q
  end.
Proof.
  intros fuel next ending q N s Hs Is. destruct fuel as [|fuel]; cbn [skip_ending]; [exact I|].
  assert (E : existsb (seg_eqb s) ending = true) by (apply existsb_exists; exists s; split; [exact Is|apply seg_eqb_refl]).
  rewrite E. destruct (N s Hs) as (o & E' & Ho). rewrite E'. apply skip_safe; assumption.
Qed.
(** Termination of the walk to the left: the index decreases. *)
Lemma index_le : forall q t i, nth_error q i = Some t -> exists j, index q t = Some j /\ (j <= i)%nat.
Proof.
  induction q as [|u q IH]; intros t i H; [destruct i; discriminate|]. cbn [index]. destruct (seg_eqb u t) eqn:E; [exists 0%nat; split; [reflexivity|lia]|].
  destruct i as [|i]; cbn [nth_error] in H; [injection H as ->; rewrite seg_eqb_refl in E; discriminate|].
  destruct (IH t i H) as (j & A & B). exists (S j). rewrite A. split; [reflexivity|lia].
Qed.
Lemma index_exact : forall q t i, simple q -> nth_error q i = Some t -> index q t = Some i.
Proof.
  induction q as [|u q IH]; intros t i S H; [destruct i; discriminate|]. cbn [index]. destruct i as [|i]; cbn [nth_error] in H.
  - injection H as ->. rewrite seg_eqb_refl. reflexivity.
  - assert (C := S t). cbn [cnt] in C. assert (In t q) by (eapply nth_error_In; exact H). apply cnt_in in H0.
    destruct (seg_eqb u t); [lia|]. rewrite (IH t i); [reflexivity| |exact H]. intros v. specialize (S v). cbn [cnt] in S. lia.
Qed.
Lemma skip_left_ends : forall fuel q ending s,
  match s with None => True | Some t => exists i, index q t = Some i /\ (S i < fuel)%nat end -> (0 < fuel)%nat ->
  skip_ending fuel (leftof q) ending s <> Loop.
Proof.
  induction fuel as [|fuel IH]; intros q ending s H P; [lia|]. cbn [skip_ending]. destruct s as [t|]; [|discriminate].
  destruct (existsb (seg_eqb t) ending); [|discriminate]. destruct H as (i & E & L). unfold leftof. rewrite E.
  destruct i as [|i]; [apply IH; [exact I|lia]|]. destruct (nth_error q i) as [u|] eqn:N; [|apply IH; [exact I|lia]].
  apply IH; [|lia]. destruct (index_le q u i N) as (j & A & B). exists j. split; [exact A|lia].
Qed.
Lemma skip_right_ends : forall fuel q ending s, simple q ->
  match s with None => True | Some t => exists i, index q t = Some i /\ (length q - i < fuel)%nat end -> (0 < fuel)%nat ->
  skip_ending fuel (rightof q) ending s <> Loop.
Proof.
  induction fuel as [|fuel IH]; intros q ending s S H P; [lia|]. cbn [skip_ending]. destruct s as [t|]; [|discriminate].
  destruct (existsb (seg_eqb t) ending); [|discriminate]. destruct H as (i & E & L). unfold rightof. rewrite E.
  assert (B := index_lt q t i E).
  destruct (nth_error q (Datatypes.S i)) as [u|] eqn:N; [|apply IH; [exact S|exact I|lia]].
  apply IH; [exact S| |lia]. exists (Datatypes.S i). split; [apply index_exact; assumption|lia].
Qed.

Lemma end_spec : forall fuel ending todo q,
  (forall s, In s todo -> In s ending) -> (forall u, (cnt u todo <= cnt u q)%nat) ->
  match end_segments fuel ending todo q with
  | Raise => False
  | Loop => ~ (simple q /\ (length q + 1 < fuel)%nat)
  | Ret (q', nb) => (forall u, cnt u q = (cnt u todo + cnt u q')%nat) /\ (forall t, In t q' -> In t q) /\ length nb = length todo /\
      (forall l r, In (l, r) nb -> (forall t, l = Some t -> In t q) /\ (forall t, r = Some t -> In t q))
  end.
Proof.
  intros fuel ending. induction todo as [|s todo IH]; intros q HE HC; cbn [end_segments].
  - split; [intros; reflexivity|]. split; [auto|]. split; [reflexivity|]. intros l r [].
  - assert (Cs : (1 <= cnt s q)%nat).
    { specialize (HC s). cbn [cnt] in HC. rewrite seg_eqb_refl in HC. lia. }
    assert (Is : In s ending) by (apply HE; left; reflexivity).
    assert (L := skip_safe' fuel (leftof q) ending q (leftof_spec q) s Cs Is).
    assert (Rr := skip_safe' fuel (rightof q) ending q (rightof_spec q) s Cs Is).
    destruct (skip_ending fuel (leftof q) ending (Some s)) as [l| |] eqn:EL; cbn [obind]; [|destruct L|].
    2:{ intros [_ F]. apply (skip_left_ends fuel q ending (Some s)); [|lia|exact EL].
        destruct (index_some q s Cs) as (i & t & A & _). exists i. split; [exact A|]. apply index_lt in A. lia. }
    destruct (skip_ending fuel (rightof q) ending (Some s)) as [r| |] eqn:ER; cbn [obind]; [|destruct Rr|].
    2:{ intros [SQ F]. apply (skip_right_ends fuel q ending (Some s)); [exact SQ| |lia|exact ER].
        destruct (index_some q s Cs) as (i & t & A & _). exists i. split; [exact A|]. lia. }
    destruct (remove_spec q s Cs) as (q' & E & C & I' & LN). rewrite E.
    specialize (IH q' (fun t H => HE t (or_intror H))).
    assert (HC' : forall u, (cnt u todo <= cnt u q')%nat).
    { intros u. specialize (HC u). specialize (C u). cbn [cnt] in HC. lia. }
    specialize (IH HC'). destruct (end_segments fuel ending todo q') as [[q'' nb]| |]; cbn [obind fst snd]; [|destruct IH|].
    + destruct IH as (A & B & D & F). split; [|split; [|split]].
      * intros u. rewrite C, A. cbn [cnt]. lia.
      * auto.
      * cbn [length]. rewrite D. reflexivity.
      * intros l' r' [X|X]; [injection X as <- <-; split; assumption|]. destruct (F l' r' X) as [F1 F2]. split; intros t T; apply I'; auto.
    + intros [SQ F]. apply IH. split; [|lia]. intros u. specialize (SQ u). specialize (C u). lia.
Qed.

(** Two different geometries have edges that meet. *)
Definition found (ss : list seg) : Prop := exists s t, In s ss /\ In t ss /\ color s <> color t /\ meet (eseg_of s) (eseg_of t).

Lemma check_spec : forall ss x q evs nb,
  (forall t, In t q -> In t ss /\ ~ vertical t /\ spans t x) ->
  (forall l r, In (l, r) nb -> (forall t, l = Some t -> In t ss /\ ~ vertical t /\ spans t x) /\ (forall t, r = Some t -> In t ss /\ ~ vertical t /\ spans t x)) ->
  (forall e, In e evs -> good_event e /\ ex e == x /\ In (eseg e) ss) ->
  (forall e, In e evs -> ekind e = Left -> (1 <= cnt (eseg e) q)%nat) ->
  length nb = nev (of_kind Right) evs ->
  match check q evs nb with Raise => False | Loop => False | Ret b => b = true -> found ss end.
Proof.
  intros ss x q. induction evs as [|e evs IH]; intros nb Hq Hn He Hl Hc; cbn [check]; [discriminate|].
  assert (He' : forall d, In d evs -> good_event d /\ ex d == x /\ In (eseg d) ss) by (intros; apply He; right; assumption).
  assert (Hl' : forall d, In d evs -> ekind d = Left -> (1 <= cnt (eseg d) q)%nat) by (intros; apply Hl; [right|]; assumption).
  destruct (He e (or_introl eq_refl)) as (G & X & Ie). unfold good_event in G.
  cbn [nev] in Hc. unfold of_kind in Hc at 1.
  destruct (ekind e) eqn:K.
  - specialize (Hl e (or_introl eq_refl) K). destruct G as [NV EX].
    assert (SP : spans (eseg e) x). { apply spans_iff. rewrite <- X, EX. split; [lra|]. unfold xlo, xhi.
      destruct (fmin_spec (sx0 (eseg e)) (sx1 (eseg e))) as [[A B]|[A B]]; destruct (fmax_spec (sx0 (eseg e)) (sx1 (eseg e))) as [[C D]|[C D]]; rewrite A, C; lra. }
    destruct (leftof_spec q (eseg e) Hl) as (l & El & Ol). destruct (rightof_spec q (eseg e) Hl) as (r & Er & Or). rewrite El, Er.
    destruct (match l with Some t => intersects2 t (eseg e) | None => false end) eqn:E1.
    { intros _. destruct l as [t|]; [|discriminate]. destruct (Hq t (Ol t eq_refl)) as (It & Vt & St).
      destruct (intersects2_meet t (eseg e) x Vt NV St SP E1) as [C M]. exists t, (eseg e). auto. }
    destruct (match r with Some t => intersects2 (eseg e) t | None => false end) eqn:E2.
    { intros _. destruct r as [t|]; [|discriminate]. destruct (Hq t (Or t eq_refl)) as (It & Vt & St).
      destruct (intersects2_meet (eseg e) t x NV Vt SP St E2) as [C M]. exists (eseg e), t. auto. }
    apply IH; auto.
  - destruct nb as [|[l r] nb]; [discriminate|]. cbn [length] in Hc. injection Hc as Hc.
    assert (Hn' : forall l r, In (l, r) nb -> (forall t, l = Some t -> In t ss /\ ~ vertical t /\ spans t x) /\ (forall t, r = Some t -> In t ss /\ ~ vertical t /\ spans t x)) by (intros; apply Hn; right; assumption).
    specialize (IH nb Hq Hn' He' Hl' Hc). destruct (Hn l r (or_introl eq_refl)) as [N1 N2].
    destruct l as [l|]; [|exact IH]. destruct r as [r|]; [|exact IH]. destruct (intersects2 l r) eqn:E; [|exact IH].
    intros _. destruct (N1 l eq_refl) as (Il & Vl & Sl). destruct (N2 r eq_refl) as (Ir & Vr & Sr).
    destruct (intersects2_meet l r x Vl Vr Sl Sr E) as [C M]. exists l, r. auto.
  - destruct G as [V EX]. destruct (crosses_vertical q (eseg e)) eqn:E; [|apply IH; auto].
    intros _. destruct (crosses_vertical_meet q (eseg e) V) as (t & It & C & M).
    + intros t It. destruct (Hq t It) as (_ & Vt & St). split; [exact Vt|]. apply spans_iff. apply spans_iff in St. rewrite <- EX, X. exact St.
    + exact E.
    + exists (eseg e), t. split; [exact Ie|]. split; [apply Hq, It|]. auto.
  - apply IH; auto.
Qed.

(** State of the sweep line before the events of [queue]. *)
Record Inv (ss : list seg) (queue : list event) (q : list seg) : Prop := {
  inv_sorted : sortedx queue;
  inv_events : forall e, In e queue -> good_event e /\ In (eseg e) ss;
  inv_q : forall t, In t q -> In t ss /\ ~ vertical t /\ forall e, In e queue -> xlo t <= ex e;
  inv_cnt : forall u, (cnt u q + nev (is_left u) queue = nev (is_right u) queue)%nat
}.
Lemma nev_pos : forall f q, (1 <= nev f q)%nat -> exists e, In e q /\ f e = true.
Proof.
  induction q as [|t q IH]; intros H; cbn [nev] in H; [lia|]. destruct (f t) eqn:E; [exists t; split; [left; reflexivity|exact E]|].
  destruct IH as (u & I & U); [lia|]. exists u. split; [right; exact I|exact U].
Qed.
Lemma nev_zero : forall f q, (forall e, In e q -> f e = false) -> nev f q = 0%nat.
Proof. induction q as [|t q IH]; intros H; cbn [nev]; [reflexivity|]. rewrite (H t (or_introl eq_refl)), IH; auto. intros; apply H; right; assumption. Qed.
Lemma nev_in : forall f q e, In e q -> f e = true -> (1 <= nev f q)%nat.
Proof. induction q as [|t q IH]; intros e I H; [destruct I|]. cbn [nev]. destruct I as [-> |I]; [rewrite H; lia|]. specialize (IH e I H). lia. Qed.
Lemma of_kind_iff : forall k e, of_kind k e = true <-> ekind e = k.
Proof. intros k e. unfold of_kind. destruct k, (ekind e); split; congruence. Qed.
Lemma cnt_filter : forall u evs, cnt u (map eseg (filter (of_kind Right) evs)) = nev (is_right u) evs.
Proof.
  induction evs as [|e evs IH]; [reflexivity|]. cbn [filter nev]. unfold is_right at 1. destruct (of_kind Right e); cbn [map cnt andb]; rewrite IH; reflexivity.
Qed.
Lemma length_filter : forall evs, length (map eseg (filter (of_kind Right) evs)) = nev (of_kind Right) evs.
Proof. intros. rewrite map_length. induction evs as [|e evs IH]; [reflexivity|]. cbn [filter nev]. destruct (of_kind Right e); cbn [length]; rewrite IH; reflexivity. Qed.
Definition enter (evs : list event) (q : list seg) : list seg :=
  fold_left (fun q e => if of_kind Left e then sweep_insert q (eseg e) (ex e) else q) evs q.
Lemma enter_spec : forall evs q,
  (forall u, cnt u (enter evs q) = (cnt u q + nev (is_left u) evs)%nat) /\
  (forall t, In t (enter evs q) <-> In t q \/ exists e, In e evs /\ ekind e = Left /\ eseg e = t) /\
  length (enter evs q) = (length q + nev (of_kind Left) evs)%nat.
Proof.
  induction evs as [|e evs IH]; intros q; unfold enter; cbn [fold_left].
  - split; [intros; cbn; lia|]. split; [|cbn; lia]. intros t. split; [auto|]. intros [H|(e & [] & _)]. exact H.
  - fold (enter evs (if of_kind Left e then sweep_insert q (eseg e) (ex e) else q)).
    destruct (IH (if of_kind Left e then sweep_insert q (eseg e) (ex e) else q)) as (A & B & C). split; [|split].
    + intros u. rewrite A. cbn [nev]. unfold is_left at 2. destruct (of_kind Left e); cbn [andb]; [rewrite cnt_insert; destruct (seg_eqb (eseg e) u); lia|lia].
    + intros t. rewrite B. destruct (of_kind Left e) eqn:K.
      * apply of_kind_iff in K. rewrite insert_in. split.
        -- intros [[-> |H]|(d & I & H)]; [right; exists e; cbn; auto|left; exact H|right; exists d; cbn; tauto].
        -- intros [H|(d & [<- |I] & K' & <-)]; [auto|auto|right; exists d; auto].
      * split; [intros [H|(d & I & H)]; [auto|right; exists d; cbn; tauto]|].
        intros [H|(d & [<- |I] & K' & E)]; [auto| |right; exists d; auto]. apply of_kind_iff in K'. congruence.
    + rewrite C. cbn [nev]. destruct (of_kind Left e); [|reflexivity].
      replace (length (sweep_insert q (eseg e) (ex e))) with (S (length q)); [lia|]. clear. induction q as [|t q IH]; [reflexivity|]. cbn [sweep_insert].
      destruct (slope_height (eseg e) (ex e)). destruct (slope_height t (ex e)). destruct (_ || _); cbn [length]; [rewrite <- IH|]; reflexivity.
Qed.
Lemma good_lt : forall s, ~ vertical s -> xlo s < xhi s.
Proof.
  intros s V. unfold vertical in V. unfold xlo, xhi. destruct (fmin_spec (sx0 s) (sx1 s)) as [[A B]|[A B]]; destruct (fmax_spec (sx0 s) (sx1 s)) as [[C D]|[C D]];
  rewrite A, C; apply Qle_lteq in B; destruct B as [B|B]; try lra; exfalso; apply V; lra.
Qed.
Lemma xhi_ext : forall s t, seg_eqb s t = true -> xhi s == xhi t.
Proof.
  intros s t H. apply seg_eqb_iff in H. destruct H as (A & _ & B & _). unfold xhi.
  destruct (fmax_spec (sx0 s) (sx1 s)) as [[C D]|[C D]]; destruct (fmax_spec (sx0 t) (sx1 t)) as [[E F]|[E F]]; rewrite C, E; lra.
Qed.
Lemma xlo_ext : forall s t, seg_eqb s t = true -> xlo s == xlo t.
Proof.
  intros s t H. apply seg_eqb_iff in H. destruct H as (A & _ & B & _). unfold xlo.
  destruct (fmin_spec (sx0 s) (sx1 s)) as [[C D]|[C D]]; destruct (fmin_spec (sx0 t) (sx1 t)) as [[E F]|[E F]]; rewrite C, E; lra.
Qed.

Section Step.
Variables (ss : list seg) (fuel : nat) (e : event) (queue' : list event) (q : list seg) (evs rest : list event).
Let queue := e :: queue'.
Hypothesis I0 : Inv ss queue q.
Hypothesis T : take_same (ex e) queue = (evs, rest).
Let x := ex e.

Lemma step_split : queue = evs ++ rest /\ (forall d, In d evs -> ex d == x) /\ (forall d, In d rest -> x < ex d) /\ sortedx rest /\ (1 <= length evs)%nat.
Proof.
  assert (S := inv_sorted _ _ _ I0). assert (L : forall d, In d queue -> x <= ex d).
  { intros d [<- |H]; [apply Qle_refl|]. inversion S as [|? ? S1 S2]; subst. rewrite Forall_forall in S2. apply S2, H. }
  destruct (take_same_spec _ _ _ _ T S L) as (A & B & C & D). repeat split; auto.
  destruct evs; [|cbn; lia]. cbn [app] in A. exfalso. assert (In e rest) by (rewrite <- A; left; reflexivity). apply C in H. unfold x in H. lra.
Qed.
Lemma step_q1 : forall t, In t (enter evs q) -> In t ss /\ ~ vertical t /\ spans t x.
Proof.
  intros t H. destruct step_split as (A & B & C & D & _). destruct (enter_spec evs q) as (_ & M & _). apply M in H.
  assert (X : xlo t <= x /\ In t ss /\ ~ vertical t /\ x <= xhi t).
  { destruct H as [H|(d & Id & K & <-)].
    - destruct (inv_q _ _ _ I0 t H) as (Iss & V & L). split; [apply L; left; reflexivity|]. split; [exact Iss|]. split; [exact V|].
      assert (N := inv_cnt _ _ _ I0 t). apply cnt_in in H. destruct (nev_pos (is_right t) queue) as (d & Id & F); [lia|].
      unfold is_right in F. apply andb_prop in F. destruct F as [F1 F2]. apply of_kind_iff in F1.
      destruct (inv_events _ _ _ I0 d Id) as [G _]. unfold good_event in G. rewrite F1 in G. destruct G as [_ G].
      rewrite <- (xhi_ext _ _ F2), <- G. rewrite A in Id. apply in_app_or in Id. destruct Id as [Id|Id]; [rewrite (B d Id); apply Qle_refl|].
      apply Qlt_le_weak, C, Id.
    - assert (Id' : In d queue) by (rewrite A; apply in_or_app; left; exact Id). destruct (inv_events _ _ _ I0 d Id') as [G Iss].
      unfold good_event in G. rewrite K in G. destruct G as [V G]. specialize (B d Id). assert (W := good_lt _ V). rewrite <- B, G.
      split; [apply Qle_refl|]. split; [exact Iss|]. split; [exact V|]. lra. }
  destruct X as (X1 & X2 & X3 & X4). split; [exact X2|]. split; [exact X3|]. apply spans_iff. split; assumption.
Qed.
Lemma step_ending : forall u, (cnt u (map eseg (filter (of_kind Right) evs)) <= cnt u (enter evs q))%nat.
Proof.
  intros u. destruct step_split as (A & B & C & D & _). rewrite cnt_filter. destruct (enter_spec evs q) as (N & _ & _). rewrite N.
  assert (K := inv_cnt _ _ _ I0 u). rewrite A, !nev_app in K.
  destruct (Nat.eq_dec (nev (is_left u) rest) 0) as [Z|Z]; [lia|].
  (* u starts later, so it cannot end here *)
  destruct (nev_pos (is_left u) rest) as (d & Id & F); [lia|]. unfold is_left in F. apply andb_prop in F. destruct F as [F1 F2]. apply of_kind_iff in F1.
  assert (Id' : In d queue) by (rewrite A; apply in_or_app; right; exact Id). destruct (inv_events _ _ _ I0 d Id') as [G _].
  unfold good_event in G. rewrite F1 in G. destruct G as [V G]. specialize (C d Id).
  enough (Z0 : nev (is_right u) evs = 0%nat) by lia. apply nev_zero. intros c Ic. destruct (is_right u c) eqn:R; [|reflexivity]. exfalso.
  unfold is_right in R. apply andb_prop in R. destruct R as [R1 R2]. apply of_kind_iff in R1.
  assert (Ic' : In c queue) by (rewrite A; apply in_or_app; left; exact Ic). destruct (inv_events _ _ _ I0 c Ic') as [G' _].
  unfold good_event in G'. rewrite R1 in G'. destruct G' as [V' G']. specialize (B c Ic).
  assert (Y := xhi_ext _ _ R2). assert (Y' := xlo_ext _ _ F2). assert (W := good_lt _ V). assert (Y'' := xhi_ext _ _ F2). lra.
Qed.
Lemma step_check : forall q' nb, end_segments fuel (map eseg (filter (of_kind Right) evs)) (map eseg (filter (of_kind Right) evs)) (enter evs q) = Ret (q', nb) ->
  Inv ss rest q' /\ match check q' evs nb with Raise => False | Loop => False | Ret b => b = true -> found ss end.
Proof.
  intros q' nb E. set (ending := map eseg (filter (of_kind Right) evs)) in *.
  assert (P := end_spec fuel ending ending (enter evs q) (fun s H => H) step_ending). rewrite E in P. destruct P as (P1 & P2 & P3 & P4).
  destruct step_split as (A & B & C & D & _). destruct (enter_spec evs q) as (N & M & _). split.
  - constructor.
    + exact D.
    + intros d Id. apply (inv_events _ _ _ I0). rewrite A. apply in_or_app. right. exact Id.
    + intros t It. destruct (step_q1 t (P2 t It)) as (X & Y & Z). split; [exact X|]. split; [exact Y|]. intros d Id. apply spans_iff in Z. specialize (C d Id). lra.
    + intros u. specialize (P1 u). rewrite N in P1. unfold ending in P1. rewrite cnt_filter in P1. assert (K := inv_cnt _ _ _ I0 u). rewrite A, !nev_app in K. lia.
  - apply (check_spec ss x).
    + intros t It. apply step_q1, P2, It.
    + intros l r I. destruct (P4 l r I) as [L R]. split; intros t Et; apply step_q1; auto.
    + intros d Id. split; [|split; [apply B, Id|]]; apply (inv_events _ _ _ I0); rewrite A; apply in_or_app; left; exact Id.
    + intros d Id K. specialize (P1 (eseg d)). rewrite N in P1. unfold ending in P1. rewrite cnt_filter in P1.
      assert (L : (1 <= nev (is_left (eseg d)) evs)%nat).
      { apply nev_in with d; [exact Id|]. unfold is_left. apply andb_true_intro. split; [apply of_kind_iff, K|apply seg_eqb_refl]. }
      enough (Z0 : nev (is_right (eseg d)) evs = 0%nat) by lia. apply nev_zero. intros c Ic. destruct (is_right (eseg d) c) eqn:R; [|reflexivity]. exfalso.
      unfold is_right in R. apply andb_prop in R. destruct R as [R1 R2]. apply of_kind_iff in R1.
      assert (Ic' : In c queue) by (rewrite A; apply in_or_app; left; exact Ic). destruct (inv_events _ _ _ I0 c Ic') as [G' _].
      assert (Id' : In d queue) by (rewrite A; apply in_or_app; left; exact Id). destruct (inv_events _ _ _ I0 d Id') as [G _].
      unfold good_event in G, G'. rewrite R1 in G'. rewrite K in G. destruct G as [V G], G' as [V' G'].
      assert (B1 := B c Ic). assert (B2 := B d Id). assert (Y := xhi_ext _ _ R2). assert (W := good_lt _ V). lra.
    + rewrite P3. apply length_filter.
Qed.
End Step.

Lemma sweep_spec : forall ss fuel n queue q, Inv ss queue q -> (length queue <= n)%nat ->
  match sweep fuel n queue q with
  | Raise => False
  | Ret b => b = true -> found ss
  | Loop => ~ ((forall u, (cnt u q + nev (is_left u) queue <= 1)%nat) /\ (length q + length queue + 1 < fuel)%nat)
  end.
Proof.
  intros ss fuel. induction n as [|n IH]; intros queue q I0 L.
  - destruct queue; [|cbn in L; lia]. cbn. discriminate.
  - destruct queue as [|e queue']; [cbn; discriminate|]. cbn [sweep].
    destruct (take_same (ex e) (e :: queue')) as [evs rest] eqn:T. fold (enter evs q).
    destruct (step_split ss e queue' q evs rest I0 T) as (A & B & C & D & E1).
    assert (LQ : length (e :: queue') = (length evs + length rest)%nat) by (rewrite A, app_length; reflexivity).
    destruct (enter_spec evs q) as (N & M & LE).
    assert (NL : (nev (of_kind Left) evs <= length evs)%nat) by (clear; induction evs as [|d l IH]; cbn [nev length]; [lia|]; destruct (of_kind Left d); lia).
    set (ending := map eseg (filter (of_kind Right) evs)).
    assert (P := end_spec fuel ending ending (enter evs q) (fun s H => H) (step_ending ss e queue' q evs rest I0 T)).
    destruct (end_segments fuel ending ending (enter evs q)) as [[q' nb]| |] eqn:EE; cbn [obind fst snd]; [|exact P|].
    + destruct P as (P1 & P2 & P3 & P4). assert (LQ' : (length q' <= length (enter evs q))%nat).
      { (* removal shortens *) revert EE. clear. revert q' nb. generalize ending at 2. intros todo. generalize (enter evs q) as q0.
        induction todo as [|s todo IH]; intros q0 q' nb H; cbn [end_segments] in H; [injection H as -> _; lia|].
        destruct (skip_ending fuel (leftof q0) ending (Some s)); cbn [obind] in H; try discriminate.
        destruct (skip_ending fuel (rightof q0) ending (Some s)); cbn [obind] in H; try discriminate.
        destruct (remove q0 s) as [q1|] eqn:R; [|discriminate].
        destruct (end_segments fuel ending todo q1) as [[q2 nb2]| |] eqn:E2; cbn [obind fst snd] in H; try discriminate. injection H as -> _.
        apply IH in E2. unfold remove in R. destruct (index q0 s) as [i|]; [|discriminate]. assert (R' : q1 = firstn i q0 ++ skipn (S i) q0) by congruence. rewrite R' in E2. clear R R'.
        rewrite app_length, firstn_length, skipn_length in E2. lia. }
      destruct (step_check ss fuel e queue' q evs rest I0 T q' nb EE) as [I1 K].
      destruct (check q' evs nb) as [b| |]; cbn [obind]; [|destruct K|destruct K].
      destruct b; [intros _; apply K; reflexivity|]. specialize (IH rest q' I1). cbn [length] in *.
      assert (LR : (length rest <= n)%nat) by lia. specialize (IH LR). destruct (sweep fuel n rest q') as [b| |]; [exact IH|exact IH|].
      intros [H1 H2]. apply IH. split; [|lia]. intros u. specialize (H1 u). specialize (P1 u). rewrite N in P1. rewrite A, nev_app in H1. unfold ending in P1. lia.
    + intros [H1 H2]. apply P. split.
      * intros u. rewrite N. specialize (H1 u). rewrite A, nev_app in H1. lia.
      * cbn [length] in *. lia.
Qed.
Lemma intersects_inv : forall ss, Inv ss (events ss) [].
Proof.
  intros ss. destruct (events_spec ss) as (A & B & C). constructor; auto.
  - intros t [].
  - intros u. cbn. apply C.
Qed.
Definition segs (a : list pt) (ra : bool) (b : list pt) (rb : bool) : list seg :=
  map (to_seg false) (edges a ra) ++ map (to_seg true) (edges b rb).
Lemma eseg_to_seg : forall c e, eseg_of (to_seg c e) = e.
Proof. intros c [[x0 y0] [x1 y1]]. reflexivity. Qed.
Lemma found_edges : forall a ra b rb, found (segs a ra b rb) -> exists e f, edge_of a ra e /\ edge_of b rb f /\ meet e f.
Proof.
  intros a ra b rb (s & t & Is & It & C & M). unfold segs in Is, It. apply in_app_or in Is, It. rewrite !in_map_iff in Is, It.
  destruct Is as [(e & <- & Ie)|(e & <- & Ie)], It as [(f & <- & If)|(f & <- & If)]; cbn [color to_seg] in C; try congruence;
  rewrite !eseg_to_seg in M; apply edges_spec in Ie, If.
  - exists e, f. auto.
  - exists f, e. split; [exact If|]. split; [exact Ie|]. destruct M as (p & A & B). exists p. auto.
Qed.
Lemma intersects_sound : forall fuel a ra b rb, intersects fuel a ra b rb = Ret true -> exists e f, edge_of a ra e /\ edge_of b rb f /\ meet e f.
Proof.
  intros fuel a ra b rb H. unfold intersects in H. fold (segs a ra b rb) in H. apply found_edges.
  assert (P := sweep_spec (segs a ra b rb) fuel _ _ _ (intersects_inv _) (Nat.le_refl _)). rewrite H in P. apply P. reflexivity.
Qed.
Lemma intersects_no_raise : forall fuel a ra b rb, intersects fuel a ra b rb <> Raise.
Proof.
  intros fuel a ra b rb H. unfold intersects in H. fold (segs a ra b rb) in H.
  assert (P := sweep_spec (segs a ra b rb) fuel _ _ _ (intersects_inv _) (Nat.le_refl _)). rewrite H in P. exact P.
Qed.
Lemma same_edge_seq : forall c e f, seg_eqb (to_seg c e) (to_seg c f) = true <-> same_edge e f.
Proof.
  intros c [[x0 y0] [x1 y1]] [[x2 y2] [x3 y3]]. rewrite seg_eqb_iff. unfold seq, same_edge, same, to_seg. cbn. tauto.
Qed.
Definition slanted (s : seg) : bool := negb (Qeq_bool (sx0 s) (sx1 s)).
Lemma slanted_iff : forall s, slanted s = true <-> ~ vertical s.
Proof.
  intros s. unfold slanted, vertical. destruct (Qeq_bool (sx0 s) (sx1 s)) eqn:E; [apply Qeqb_t in E|apply Qeqb_f in E]; cbn; split; auto; try discriminate.
Qed.
Lemma no_repeat_cnt : forall c l u,
  (forall i j e f, nth_error l i = Some e -> nth_error l j = Some f -> same_edge e f -> ~ upright e -> i = j) ->
  (cnt u (filter slanted (map (to_seg c) l)) <= if Bool.eqb c (color u) then 1 else 0)%nat.
Proof.
  intros c l u. induction l as [|e l IH]; intros H; cbn [map filter cnt]; [lia|].
  assert (H' : forall i j e f, nth_error l i = Some e -> nth_error l j = Some f -> same_edge e f -> ~ upright e -> i = j).
  { intros i j e0 f A B E U. assert (S i = S j) by (eapply H; eassumption). lia. }
  specialize (IH H'). destruct (slanted (to_seg c e)) eqn:SL; [|exact IH]. cbn [cnt]. apply slanted_iff in SL.
  destruct (seg_eqb (to_seg c e) u) eqn:E; [|exact IH].
  assert (EC : Bool.eqb c (color u) = true). { apply seg_eqb_iff in E. destruct E as (_ & _ & _ & _ & E). cbn in E. subst c. apply eqb_reflx. }
  rewrite EC. enough (Z : cnt u (filter slanted (map (to_seg c) l)) = 0%nat) by lia.
  destruct (cnt u (filter slanted (map (to_seg c) l))) eqn:Z; [reflexivity|]. exfalso. destruct (cnt_pos u (filter slanted (map (to_seg c) l))) as (t & It & Et); [lia|].
  apply filter_In in It. destruct It as [It _].
  apply in_map_iff in It. destruct It as (f & <- & If). apply In_nth_error in If. destruct If as (j & J).
  assert (X : seg_eqb (to_seg c e) (to_seg c f) = true). { rewrite (seg_eqb_sym (to_seg c f) u) in Et. rewrite <- (seg_eqb_trans _ _ _ E). exact Et. }
  apply same_edge_seq in X. assert (0%nat = S j) by (eapply H; [reflexivity|exact J|exact X|exact SL]). discriminate.
Qed.
Lemma no_repeat_edges : forall l ring, no_repeat l ring ->
  forall i j e f, nth_error (edges l ring) i = Some e -> nth_error (edges l ring) j = Some f -> same_edge e f -> ~ upright e -> i = j.
Proof. intros l ring H i j e f A B. apply (H i j e f); apply edges_nth; assumption. Qed.
Lemma events_length : forall ss, length (events ss) = (2 * length ss)%nat.
Proof.
  intros ss. unfold events. assert (G : forall es q, length (fold_left (fun q e => push e q) es q) = (length es + length q)%nat).
  { induction es as [|e es IH]; intros q; [reflexivity|]. cbn [fold_left]. rewrite IH. cbn [length].
    replace (length (push e q)) with (S (length q)); [lia|]. clear. induction q as [|t q IH]; [reflexivity|]. cbn [push]. destruct (ev_cmp e t); cbn [length]; auto. }
  rewrite G. cbn [length]. induction ss as [|s ss IH]; [reflexivity|]. cbn [flat_map]. rewrite app_length. cbn [length].
  assert (length (seg_events s) = 2%nat) by (unfold seg_events; destruct (Qeq_bool _ _); destruct (ltq _ _); reflexivity). lia.
Qed.
(** More fuel gives the same answer. *)
Lemma skip_more : forall next ending k fuel s o, skip_ending fuel next ending s = Ret o -> skip_ending (fuel + k) next ending s = Ret o.
Proof.
  intros next ending k. induction fuel as [|fuel IH]; intros s o H; [discriminate|]. cbn [skip_ending Nat.add] in *.
  destruct s as [t|]; [|exact H]. destruct (existsb (seg_eqb t) ending); [|exact H]. destruct (next t); [|discriminate]. apply IH, H.
Qed.
Lemma end_more : forall ending k fuel todo q r, end_segments fuel ending todo q = Ret r -> end_segments (fuel + k) ending todo q = Ret r.
Proof.
  intros ending k fuel. induction todo as [|s todo IH]; intros q r H; cbn [end_segments] in *; [exact H|].
  destruct (skip_ending fuel (leftof q) ending (Some s)) as [l| |] eqn:E1; try discriminate. rewrite (skip_more _ _ k _ _ _ E1). cbn [obind] in *.
  destruct (skip_ending fuel (rightof q) ending (Some s)) as [r'| |] eqn:E2; try discriminate. rewrite (skip_more _ _ k _ _ _ E2). cbn [obind] in *.
  destruct (remove q s) as [q'|]; [|discriminate]. destruct (end_segments fuel ending todo q') as [p| |] eqn:E3; try discriminate. rewrite (IH _ _ E3). exact H.
Qed.
Lemma sweep_more : forall k fuel n queue q w, sweep fuel n queue q = Ret w -> sweep (fuel + k) n queue q = Ret w.
Proof.
  intros k fuel. induction n as [|n IH]; intros queue q w H; [destruct queue; [exact H|discriminate]|].
  destruct queue as [|e queue']; [exact H|]. cbn [sweep] in *. destruct (take_same (ex e) (e :: queue')) as [evs rest].
  destruct (end_segments fuel _ _ _) as [p| |] eqn:E in H; try discriminate. rewrite (end_more _ k _ _ _ _ E). cbn [obind] in *.
  destruct (check (fst p) evs (snd p)) as [[|]| |]; cbn [obind] in *; try exact H. apply IH, H.
Qed.
Lemma intersects_answers : forall a ra b rb, no_repeat a ra -> no_repeat b rb ->
  exists w, forall fuel, (2 * (length (edges a ra) + length (edges b rb)) + 1 < fuel)%nat -> intersects fuel a ra b rb = Ret w.
Proof.
  intros a ra b rb HA HB. set (N := (2 * (length (edges a ra) + length (edges b rb)) + 2)%nat).
  assert (G : exists w, intersects N a ra b rb = Ret w).
  { unfold intersects. fold (segs a ra b rb).
    assert (P := sweep_spec (segs a ra b rb) N _ _ _ (intersects_inv _) (Nat.le_refl _)).
    destruct (sweep N _ _ []) as [w| |]; [exists w; reflexivity|destruct P|]. exfalso. apply P. split.
    - intros u. cbn [cnt Nat.add]. destruct (events_spec (segs a ra b rb)) as (_ & _ & C). specialize (C u).
      assert (X := no_repeat_cnt false _ u (no_repeat_edges _ _ HA)). assert (Y := no_repeat_cnt true _ u (no_repeat_edges _ _ HB)). fold slanted in C. unfold segs in *. rewrite filter_app, cnt_app in C.
      destruct (color u); cbn in X, Y; lia.
    - rewrite events_length. unfold segs. rewrite app_length, !map_length. cbn [length]. unfold N. lia. }
  destruct G as [w G]. exists w. intros fuel F. replace fuel with (N + (fuel - N))%nat by (unfold N; lia). unfold intersects in *. apply sweep_more, G.
Qed.
