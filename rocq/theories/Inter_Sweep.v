(** The sweep of [intersects]: it never raises, answers when no edge is repeated,
    and answers True only if an edge of one meets an edge of the other. *)
From Coq Require Import List ZArith QArith Qabs Lqa Lia Bool Arith Sorted.
From Verif Require Import Geom_Model Geom_Spec Geom_Proofs Inter_Model Inter_Spec Inter_Proofs.
Import ListNotations.
Open Scope Q_scope.

Definition eseg_of (s : seg) : pt * pt := ((sx0 s, sy0 s), (sx1 s, sy1 s)).
Definition vertical (s : seg) : Prop := sx0 s == sx1 s.
Definition spans (s : seg) (x : Q) : Prop := (sx0 s <= x <= sx1 s) \/ (sx1 s <= x <= sx0 s).
Definition xlo (s : seg) : Q := fmin (sx0 s) (sx1 s).
Definition xhi (s : seg) : Q := fmax (sx0 s) (sx1 s).

Lemma spans_iff : forall s x, spans s x <-> xlo s <= x <= xhi s.
Proof.
  intros s x. unfold spans, xlo, xhi.
  destruct (fmin_spec (sx0 s) (sx1 s)) as [[A B]|[A B]]; destruct (fmax_spec (sx0 s) (sx1 s)) as [[C D]|[C D]]; rewrite A, C; lra.
Qed.
(** The height of a segment over [x]. *)
Definition height (s : seg) (x : Q) : Q := (sy1 s - sy0 s) / (sx1 s - sx0 s) * (x - sx0 s) + sy0 s.
Lemma height_on : forall s x, ~ vertical s -> spans s x -> on_seg (eseg_of s) (x, height s x).
Proof.
  intros s x V H. unfold vertical in V. assert (D : ~ sx1 s - sx0 s == 0) by lra.
  exists ((x - sx0 s) / (sx1 s - sx0 s)). split.
  - destruct H as [H|H].
    + assert (P : 0 < sx1 s - sx0 s) by (apply Qnot_le_lt; intros N; apply D; lra).
      split; [apply Qle_shift_div_l|apply Qle_shift_div_r]; lra.
    + assert (P : 0 < sx0 s - sx1 s) by (apply Qnot_le_lt; intros N; apply D; lra).
      assert (E : (x - sx0 s) / (sx1 s - sx0 s) == (sx0 s - x) / (sx0 s - sx1 s)) by (field; split; lra).
      rewrite E. split; [apply Qle_shift_div_l|apply Qle_shift_div_r]; lra.
  - unfold same, along, eseg_of, height. cbn [fst snd]. split; field; exact D.
Qed.
Lemma intersection_interx : forall s t,
  intersection (sx0 s) (sx1 s) (sx0 t) (sx1 t) (sy0 s) (sy1 s) (sy0 t) (sy1 t) = interx (eseg_of s) (eseg_of t).
Proof. reflexivity. Qed.
Lemma on_seg'_on : forall e p, on_seg' e p -> on_seg e p.
Proof. intros e p (t & T & H). exists t. split; [lra|exact H]. Qed.

Lemma iscollinear_meet : forall s t x, ~ vertical s -> ~ vertical t -> spans s x -> spans t x ->
  iscollinear (sx0 s) (sx1 s) (sx0 t) (sx1 t) (sy0 s) (sy1 s) (sy0 t) (sy1 t) = true -> meet (eseg_of s) (eseg_of t).
Proof.
  intros s t x Vs Vt Ss St H. unfold iscollinear, cross2 in H.
  destruct (Qeq_bool _ 0) eqn:E1 in H; [|discriminate]. destruct (Qeq_bool _ 0) eqn:E2 in H; [|discriminate]. clear H.
  apply Qeqb_t in E1, E2. exists (x, height s x). split; [apply height_on; assumption|].
  destruct (height_on t x Vt St) as (u & U & E). exists u. split; [exact U|].
  apply same_trans with (x, height t x); [|exact E]. split; [reflexivity|]. cbn [snd]. unfold height, vertical in *.
  assert (D1 : ~ sx1 s - sx0 s == 0) by lra. assert (D2 : ~ sx1 t - sx0 t == 0) by lra.
  set (dx := sx1 s - sx0 s) in *. set (dy := sy1 s - sy0 s) in *. set (ex_ := sx1 t - sx0 t) in *. set (ey := sy1 t - sy0 t) in *.
  assert (M : dy / dx == ey / ex_).
  { setoid_replace (ey / ex_) with (dx * ey / (dx * ex_)) by (field; split; assumption).
    setoid_replace (dx * ey) with (dy * ex_) by lra. field. split; assumption. }
  assert (Y : sy1 t - sy0 s == dy / dx * (sx1 t - sx0 s)).
  { setoid_replace (dy / dx * (sx1 t - sx0 s)) with (dy * (sx1 t - sx0 s) / dx) by (field; assumption).
    setoid_replace (dy * (sx1 t - sx0 s)) with (dx * (sy1 t - sy0 s)) by lra. field. assumption. }
  assert (Y' : ey == dy / dx * ex_) by (rewrite M; field; assumption).
  rewrite <- M. unfold ey, ex_ in Y'. set (m := dy / dx) in *. clearbody m. clear - Y Y'. 
  assert (sy0 t == sy1 t - m * (sx1 t - sx0 t)) by lra. rewrite H. assert (sy1 t == sy0 s + m * (sx1 t - sx0 s)) by lra. rewrite H0. ring.
Qed.
Lemma intersects2_meet : forall s t x, ~ vertical s -> ~ vertical t -> spans s x -> spans t x -> intersects2 s t = true ->
  color s <> color t /\ meet (eseg_of s) (eseg_of t).
Proof.
  intros s t x Vs Vt Ss St H. unfold intersects2 in H. destruct (Bool.eqb (color s) (color t)) eqn:C; [discriminate|].
  split; [intros E; rewrite E, eqb_reflx in C; discriminate|].
  destruct (iscollinear _ _ _ _ _ _ _ _) eqn:K; [eapply iscollinear_meet; eauto|].
  rewrite intersection_interx in H. destruct (interx (eseg_of s) (eseg_of t)) as [p|] eqn:E; [|discriminate].
  apply interx_some in E. destruct E as (_ & A & B). exists p. split; apply on_seg'_on; assumption.
Qed.
Lemma crosses_vertical_meet : forall q s, vertical s -> (forall t, In t q -> ~ vertical t /\ spans t (sx0 s)) -> crosses_vertical q s = true ->
  exists t, In t q /\ color s <> color t /\ meet (eseg_of s) (eseg_of t).
Proof.
  intros q s V Hq H. unfold crosses_vertical in H. apply existsb_exists in H. destruct H as (t & It & H).
  destruct (Bool.eqb (color s) (color t)) eqn:C; [discriminate|]. exists t. split; [exact It|].
  split; [intros E; rewrite E, eqb_reflx in C; discriminate|]. destruct (Hq t It) as [Vt St].
  fold (height t (sx0 s)) in H. set (y := height t (sx0 s)) in *. exists (sx0 s, y). split; [|apply height_on; assumption].
  assert (H' : (sy0 s <= y <= sy1 s) \/ (sy1 s <= y <= sy0 s)).
  { apply orb_prop in H. destruct H as [H|H]; apply andb_prop in H; destruct H as [A B]; apply Qleb_t in A, B; [left|right]; lra. }
  unfold vertical in V. clear - V H'. destruct (Qeq_dec (sy0 s) (sy1 s)) as [E|E].
  - exists 0. split; [lra|]. unfold same, along, eseg_of. cbn [fst snd]. split; [ring|]. lra.
  - exists ((y - sy0 s) / (sy1 s - sy0 s)). split.
    + destruct H' as [H|H].
      * split; [apply Qle_shift_div_l|apply Qle_shift_div_r]; try lra; apply Qnot_le_lt; intros N; apply E; lra.
      * assert (E' : (y - sy0 s) / (sy1 s - sy0 s) == (sy0 s - y) / (sy0 s - sy1 s)) by (field; split; lra).
        rewrite E'. split; [apply Qle_shift_div_l|apply Qle_shift_div_r]; try lra; apply Qnot_le_lt; intros N; apply E; lra.
    + unfold same, along, eseg_of. cbn [fst snd]. split; [rewrite <- V; ring|field; lra].
Qed.

(* ---- equality of tuples *)
Definition seq (s t : seg) : Prop := sx0 s == sx0 t /\ sy0 s == sy0 t /\ sx1 s == sx1 t /\ sy1 s == sy1 t /\ color s = color t.
Lemma seg_eqb_iff : forall s t, seg_eqb s t = true <-> seq s t.
Proof.
  intros s t. unfold seg_eqb, seq. rewrite !andb_true_iff, !Qeq_bool_iff, eqb_true_iff. tauto.
Qed.
Lemma seq_refl : forall s, seq s s. Proof. intros s. repeat split; reflexivity. Qed.
Lemma seq_sym : forall s t, seq s t -> seq t s. Proof. intros s t (A & B & C & D & E). repeat split; symmetry; assumption. Qed.
Lemma seq_trans : forall s t u, seq s t -> seq t u -> seq s u.
Proof. intros s t u (A & B & C & D & E) (A' & B' & C' & D' & E'). repeat split; etransitivity; eassumption. Qed.
Lemma seg_eqb_refl : forall s, seg_eqb s s = true. Proof. intros. apply seg_eqb_iff, seq_refl. Qed.
Lemma seg_eqb_trans : forall s t u, seg_eqb s t = true -> seg_eqb t u = seg_eqb s u.
Proof.
  intros s t u H. apply seg_eqb_iff in H. destruct (seg_eqb t u) eqn:E, (seg_eqb s u) eqn:F; try reflexivity.
  - apply seg_eqb_iff in E. assert (seg_eqb s u = true) by (apply seg_eqb_iff; eapply seq_trans; eassumption). congruence.
  - apply seg_eqb_iff in F. assert (seg_eqb t u = true) by (apply seg_eqb_iff; eapply seq_trans; [apply seq_sym|]; eassumption). congruence.
Qed.
Lemma seg_eqb_sym : forall s t, seg_eqb s t = seg_eqb t s.
Proof.
  intros s t. destruct (seg_eqb s t) eqn:E, (seg_eqb t s) eqn:F; try reflexivity;
  [apply seg_eqb_iff, seq_sym, seg_eqb_iff in E|apply seg_eqb_iff, seq_sym, seg_eqb_iff in F]; congruence.
Qed.

(** Number of members equal to [s]. *)
Fixpoint cnt (s : seg) (q : list seg) : nat :=
  match q with [] => 0 | t :: q' => (if seg_eqb t s then 1 else 0) + cnt s q' end%nat.
Lemma cnt_app : forall s q q', cnt s (q ++ q') = (cnt s q + cnt s q')%nat.
Proof. induction q as [|t q IH]; intros q'; cbn [cnt app]; [reflexivity|]. rewrite IH. lia. Qed.
Lemma cnt_in : forall s q, In s q -> (1 <= cnt s q)%nat.
Proof. induction q as [|t q IH]; intros H; [destruct H|]. cbn [cnt]. destruct H as [-> |H]; [rewrite seg_eqb_refl; lia|]. apply IH in H. lia. Qed.
Lemma cnt_pos : forall s q, (1 <= cnt s q)%nat -> exists t, In t q /\ seg_eqb t s = true.
Proof.
  induction q as [|t q IH]; intros H; cbn [cnt] in H; [lia|]. destruct (seg_eqb t s) eqn:E; [exists t; split; [left; reflexivity|exact E]|].
  destruct IH as (u & I & U); [lia|]. exists u. split; [right; exact I|exact U].
Qed.
Lemma cnt_insert : forall s u q x, cnt s (sweep_insert q u x) = ((if seg_eqb u s then 1 else 0) + cnt s q)%nat.
Proof.
  induction q as [|t q IH]; intros x; cbn [sweep_insert]; [reflexivity|].
  destruct (slope_height u x) as [m y]. destruct (slope_height t x) as [m' y'].
  destruct (_ || _); cbn [cnt]; [rewrite IH; lia|lia].
Qed.
Lemma insert_in : forall t u q x, In t (sweep_insert q u x) <-> t = u \/ In t q.
Proof.
  induction q as [|v q IH]; intros x; cbn [sweep_insert]; [cbn; intuition|].
  destruct (slope_height u x) as [m y]. destruct (slope_height v x) as [m' y'].
  destruct (_ || _); cbn [In]; [rewrite IH; intuition|intuition].
Qed.
Lemma index_some : forall q s, (1 <= cnt s q)%nat -> exists i t, index q s = Some i /\ nth_error q i = Some t /\ seg_eqb t s = true /\ cnt s (firstn i q) = 0%nat.
Proof.
  induction q as [|t q IH]; intros s H; cbn [cnt] in H; [lia|]. cbn [index]. destruct (seg_eqb t s) eqn:E.
  - exists 0%nat, t. auto.
  - destruct (IH s) as (i & u & A & B & C & D); [lia|]. exists (S i), u. rewrite A. cbn [option_map nth_error firstn cnt]. rewrite E. auto.
Qed.
Lemma index_lt : forall q s i, index q s = Some i -> (i < length q)%nat.
Proof.
  induction q as [|t q IH]; intros s i H; cbn [index] in H; [discriminate|]. destruct (seg_eqb t s); [injection H as <-; cbn; lia|].
  destruct (index q s) as [j|] eqn:E; [|discriminate]. injection H as <-. apply IH in E. cbn. lia.
Qed.
Lemma index_nth : forall q s i, index q s = Some i -> exists t, nth_error q i = Some t /\ seg_eqb t s = true /\ cnt s (firstn i q) = 0%nat.
Proof.
  intros q s i H. destruct (index_some q s) as (j & t & A & B & C & D).
  - revert i H. induction q as [|t q IH]; intros i H; cbn [index] in H; [discriminate|]. cbn [cnt]. destruct (seg_eqb t s); [lia|].
    destruct (index q s) as [j|] eqn:E; [|discriminate]. specialize (IH j eq_refl). lia.
  - rewrite H in A. injection A as <-. eauto.
Qed.
Lemma split_nth : forall {A} (q : list A) i t, nth_error q i = Some t -> q = firstn i q ++ t :: skipn (S i) q.
Proof.
  induction q as [|u q IH]; intros i t H; [destruct i; discriminate|]. destruct i as [|i]; [cbn in H; injection H as ->; reflexivity|].
  cbn [firstn app]. cbn [nth_error] in H. f_equal. apply IH, H.
Qed.
Lemma remove_spec : forall q s, (1 <= cnt s q)%nat -> exists q', remove q s = Some q' /\ (forall u, cnt u q = ((if seg_eqb s u then 1 else 0) + cnt u q')%nat) /\ (forall t, In t q' -> In t q) /\ S (length q') = length q.
Proof.
  intros q s H. destruct (index_some q s H) as (i & t & A & B & C & D). unfold remove. rewrite A. eexists. split; [reflexivity|].
  apply split_nth in B. split; [|split].
  - intros u. rewrite B at 1. rewrite !cnt_app. cbn [cnt]. rewrite (seg_eqb_trans t s u C). destruct (seg_eqb t u); lia.
  - intros u I. rewrite B. apply in_or_app. apply in_app_or in I. destruct I as [I|I]; [left; exact I|right; right; exact I].
  - rewrite B at 3. rewrite !app_length. cbn [length]. lia.
Qed.
Lemma leftof_spec : forall q s, (1 <= cnt s q)%nat -> exists o, leftof q s = Some o /\ (forall t, o = Some t -> In t q).
Proof.
  intros q s H. destruct (index_some q s H) as (i & t & A & B & C & D). unfold leftof. rewrite A. destruct i as [|i].
  - exists None. split; [reflexivity|discriminate].
  - eexists. split; [reflexivity|]. intros u E. eapply nth_error_In, E.
Qed.
Lemma rightof_spec : forall q s, (1 <= cnt s q)%nat -> exists o, rightof q s = Some o /\ (forall t, o = Some t -> In t q).
Proof.
  intros q s H. destruct (index_some q s H) as (i & t & A & B & C & D). unfold rightof. rewrite A.
  eexists. split; [reflexivity|]. intros u E. eapply nth_error_In, E.
Qed.

(* ---- the events *)
Definition is_left (s : seg) (e : event) : bool := of_kind Left e && seg_eqb (eseg e) s.
Definition is_right (s : seg) (e : event) : bool := of_kind Right e && seg_eqb (eseg e) s.
Fixpoint nev (f : event -> bool) (q : list event) : nat :=
  match q with [] => 0 | e :: q' => (if f e then 1 else 0) + nev f q' end%nat.
Lemma nev_app : forall f q q', nev f (q ++ q') = (nev f q + nev f q')%nat.
Proof. induction q as [|t q IH]; intros q'; cbn [nev app]; [reflexivity|]. rewrite IH. lia. Qed.
Lemma nev_push : forall f e q, nev f (push e q) = ((if f e then 1 else 0) + nev f q)%nat.
Proof.
  induction q as [|t q IH]; cbn [push]; [reflexivity|]. destruct (ev_cmp e t); cbn [nev]; try reflexivity. rewrite IH. lia.
Qed.
Lemma push_in : forall d e q, In d (push e q) <-> d = e \/ In d q.
Proof. induction q as [|t q IH]; cbn [push]; [cbn; intuition|]. destruct (ev_cmp e t); cbn [In]; rewrite ?IH; intuition. Qed.
Definition sortedx (q : list event) : Prop := StronglySorted (fun e f => ex e <= ex f) q.
Lemma push_sorted : forall e q, sortedx q -> sortedx (push e q).
Proof.
  unfold sortedx. induction q as [|t q IH]; intros H; cbn [push].
  - constructor; constructor.
  - assert (HT := H). inversion H as [|? ? H1 H2]; subst. unfold ev_cmp. destruct (ex e ?= ex t) eqn:C.
    + apply Qeq_alt in C. assert (L : StronglySorted (fun e0 f => ex e0 <= ex f) (e :: t :: q)).
      { constructor; [exact HT|]. constructor; [lra|]. eapply Forall_impl; [|exact H2]. cbn. intros. lra. }
      cbn [lex]. destruct (seg_cmp (eseg e) (eseg t)); try exact L.
      constructor; [apply IH, H1|]. apply Forall_forall. intros d I. apply push_in in I. rewrite Forall_forall in H2. destruct I as [-> |I]; [lra|auto].
    + apply Qlt_alt in C. cbn [lex]. constructor; [exact HT|]. constructor; [lra|]. eapply Forall_impl; [|exact H2]. cbn. intros. lra.
    + apply Qgt_alt in C. cbn [lex]. constructor; [apply IH, H1|]. apply Forall_forall. intros d I. apply push_in in I. rewrite Forall_forall in H2. destruct I as [-> |I]; [lra|auto].
Qed.
Lemma events_fold : forall es q, sortedx q ->
  let r := fold_left (fun q e => push e q) es q in
  sortedx r /\ (forall f, nev f r = (nev f es + nev f q)%nat) /\ (forall d, In d r <-> In d es \/ In d q).
Proof.
  induction es as [|e es IH]; intros q H; cbn [fold_left].
  - repeat split; auto. intros [[]|I]; exact I.
  - destruct (IH (push e q) (push_sorted e q H)) as (A & B & C). split; [exact A|]. split.
    + intros f. rewrite B, nev_push. cbn [nev]. lia.
    + intros d. rewrite C, push_in. cbn [In]. intuition.
Qed.
Definition good_event (e : event) : Prop :=
  match ekind e with
  | Left => ~ vertical (eseg e) /\ ex e == xlo (eseg e)
  | Right => ~ vertical (eseg e) /\ ex e == xhi (eseg e)
  | Bottom | Top => vertical (eseg e) /\ ex e == sx0 (eseg e)
  end.
Lemma seg_events_good : forall s e, In e (seg_events s) -> good_event e /\ eseg e = s.
Proof.
  intros s e. unfold seg_events. destruct (Qeq_bool (sx0 s) (sx1 s)) eqn:V.
  - apply Qeqb_t in V. destruct (ltq (sy0 s) (sy1 s)); intros [<- |[<- |[]]]; (split; [|reflexivity]); split; try exact V; cbn; reflexivity.
  - apply Qeqb_f in V. destruct (ltq (sx0 s) (sx1 s)) eqn:L; [apply ltq_t in L|apply ltq_f in L];
    intros [<- |[<- |[]]]; (split; [|reflexivity]); (split; [exact V|]); cbn [ex eseg]; unfold xlo, xhi;
    destruct (fmin_spec (sx0 s) (sx1 s)) as [[A B]|[A B]]; destruct (fmax_spec (sx0 s) (sx1 s)) as [[C D]|[C D]]; rewrite ?A, ?C; lra.
Qed.
Lemma seg_events_nev : forall s u, nev (is_left u) (seg_events s) = nev (is_right u) (seg_events s) /\
  (nev (is_left u) (seg_events s) <= if seg_eqb s u && negb (Qeq_bool (sx0 s) (sx1 s)) then 1 else 0)%nat.
Proof.
  intros s u. unfold seg_events. destruct (Qeq_bool (sx0 s) (sx1 s)); [destruct (ltq _ _); rewrite andb_false_r; cbn; lia|].
  destruct (ltq _ _); unfold is_left, is_right, of_kind; cbn [nev ekind eseg andb]; destruct (seg_eqb s u); cbn; lia.
Qed.
Lemma events_spec : forall ss,
  sortedx (events ss) /\ (forall e, In e (events ss) -> good_event e /\ In (eseg e) ss) /\
  (forall u, nev (is_left u) (events ss) = nev (is_right u) (events ss) /\ (nev (is_left u) (events ss) <= cnt u (filter (fun s => negb (Qeq_bool (sx0 s) (sx1 s))) ss))%nat).
Proof.
  intros ss. unfold events. destruct (events_fold (flat_map seg_events ss) [] (SSorted_nil _)) as (A & B & C). split; [exact A|]. split.
  - intros e I. apply C in I. destruct I as [I|[]]. apply in_flat_map in I. destruct I as (s & Is & I). apply seg_events_good in I.
    destruct I as [G <-]. auto.
  - intros u. rewrite !B. cbn [nev]. rewrite !Nat.add_0_r. clear. induction ss as [|s ss IH]; cbn [flat_map nev cnt filter]; [lia|].
    rewrite !nev_app. destruct (seg_events_nev s u) as [E L]. rewrite E in *. destruct IH as [E' L']. rewrite E' in *.
    destruct (negb (Qeq_bool (sx0 s) (sx1 s))); cbn [cnt]; destruct (seg_eqb s u); cbn [andb] in L; lia.
Qed.
Lemma take_same_spec : forall x q g r, take_same x q = (g, r) -> sortedx q -> (forall e, In e q -> x <= ex e) ->
  q = g ++ r /\ (forall e, In e g -> ex e == x) /\ (forall e, In e r -> x < ex e) /\ sortedx r.
Proof.
  induction q as [|f q IH]; intros g r H S L; cbn [take_same] in H.
  - injection H as <- <-. repeat split; try constructor; intros e [].
  - inversion S as [|? ? S1 S2]; subst. destruct (Qeq_bool x (ex f)) eqn:E.
    + apply Qeqb_t in E. destruct (take_same x q) as [g' r'] eqn:T. injection H as <- <-.
      destruct (IH g' r' eq_refl S1 ltac:(intros e I; apply L; right; exact I)) as (A & B & C & D). subst q.
      split; [reflexivity|]. split; [|auto]. intros e [<- |I]; [symmetry; exact E|auto].
    + apply Qeqb_f in E. injection H as <- <-. split; [reflexivity|]. split; [intros e []|]. split; [|exact S].
      assert (x < ex f). { assert (x <= ex f) by (apply L; left; reflexivity). apply Qle_lteq in H. destruct H as [H|H]; [exact H|contradiction]. }
      intros e [<- |I]; [exact H|]. rewrite Forall_forall in S2. specialize (S2 e I). cbn in S2. lra.
Qed.
