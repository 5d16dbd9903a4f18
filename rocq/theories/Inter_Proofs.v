(** Proofs about segment intersections and the sweep. *)
From Coq Require Import List ZArith QArith Qabs Lqa Lia Bool Arith.
From Verif Require Import Geom_Model Geom_Spec Geom_Proofs Inter_Model Inter_Spec.
Import ListNotations.
Open Scope Q_scope.

Lemma Qeqb_t : forall a b, Qeq_bool a b = true -> a == b. Proof. apply Qeq_bool_eq. Qed.
Lemma Qeqb_f : forall a b, Qeq_bool a b = false -> ~ a == b. Proof. intros a b H E. apply Qeq_bool_iff in E. congruence. Qed.
Lemma Qleb_t : forall a b, Qle_bool a b = true -> a <= b. Proof. apply Qle_bool_iff. Qed.
Lemma Qleb_f : forall a b, Qle_bool a b = false -> b < a.
Proof. intros a b H. destruct (Qlt_le_dec b a); [assumption|]. apply Qle_bool_iff in q. congruence. Qed.
Lemma ltq_t : forall a b, ltq a b = true -> a < b.
Proof. intros a b H. unfold ltq in H. apply negb_true_iff in H. apply Qleb_f, H. Qed.
Lemma ltq_f : forall a b, ltq a b = false -> b <= a.
Proof. intros a b H. unfold ltq in H. apply negb_false_iff in H. apply Qleb_t, H. Qed.
Lemma ltq_i : forall a b, a < b -> ltq a b = true.
Proof. intros a b H. destruct (ltq a b) eqn:E; [reflexivity|]. apply ltq_f in E. lra. Qed.
Lemma Qleb_i : forall a b, a <= b -> Qle_bool a b = true. Proof. intros. apply Qle_bool_iff. assumption. Qed.
Lemma same_refl : forall p, same p p. Proof. intros p. split; reflexivity. Qed.
Lemma same_sym : forall p q, same p q -> same q p. Proof. intros p q [A B]. split; symmetry; assumption. Qed.
Lemma same_trans : forall p q r, same p q -> same q r -> same p r.
Proof. intros p q r [A B] [C D]. split; [rewrite A|rewrite B]; assumption. Qed.

(* ---- two segments *)
Lemma interx_some : forall e f p, interx e f = Some p -> ~ parallel e f /\ on_seg' e p /\ on_seg' f p.
Proof.
  intros [[x0 y0] [x1 y1]] [[x2 y2] [x3 y3]] p. unfold interx, intersection, cross2.
  destruct (Qeq_bool _ 0) eqn:R; [discriminate|]. apply Qeqb_f in R.
  set (rxs := (x1 - x0) * (y3 - y2) - (y1 - y0) * (x3 - x2)) in *.
  set (t := ((x2 - x0) * (y3 - y2) - (y2 - y0) * (x3 - x2)) / rxs) in *.
  set (u := ((x2 - x0) * (y1 - y0) - (y2 - y0) * (x1 - x0)) / rxs) in *.
  destruct (ltq 0 t && Qle_bool t 1 && (ltq 0 u && Qle_bool u 1)) eqn:C; [|discriminate].
  intros E. injection E as <-. apply andb_prop in C. destruct C as [C1 C2].
  apply andb_prop in C1. apply andb_prop in C2. destruct C1 as [T0 T1], C2 as [U0 U1].
  apply ltq_t in T0, U0. apply Qleb_t in T1, U1.
  split; [|split].
  - unfold parallel, direction. cbn [fst snd]. intros P. apply R. unfold rxs. lra.
  - exists t. split; [split; assumption|]. apply same_refl.
  - exists u. split; [split; assumption|]. unfold same, along. cbn [fst snd].
    split; unfold t, u, rxs; field; exact R.
Qed.
Lemma interx_complete : forall e f p, ~ parallel e f -> on_seg' e p -> on_seg' f p -> exists q, interx e f = Some q /\ same q p.
Proof.
  intros [[x0 y0] [x1 y1]] [[x2 y2] [x3 y3]] [px py] NP (t & T & P1 & P2) (u & U & Q1 & Q2). cbn [fst snd along] in *.
  unfold interx, intersection, cross2.
  assert (R : ~ (x1 - x0) * (y3 - y2) - (y1 - y0) * (x3 - x2) == 0).
  { intros E. apply NP. unfold parallel, direction. cbn [fst snd]. lra. }
  destruct (Qeq_bool _ 0) eqn:RE; [apply Qeqb_t in RE; contradiction|]. clear RE.
  set (rxs := (x1 - x0) * (y3 - y2) - (y1 - y0) * (x3 - x2)) in *.
  assert (E1 : x2 - x0 == t * (x1 - x0) - u * (x3 - x2)) by lra.
  assert (E2 : y2 - y0 == t * (y1 - y0) - u * (y3 - y2)) by lra.
  assert (ET : ((x2 - x0) * (y3 - y2) - (y2 - y0) * (x3 - x2)) / rxs == t).
  { rewrite E1, E2. unfold rxs. field. exact R. }
  assert (EU : ((x2 - x0) * (y1 - y0) - (y2 - y0) * (x1 - x0)) / rxs == u).
  { rewrite E1, E2. unfold rxs. field. exact R. }
  set (t' := ((x2 - x0) * (y3 - y2) - (y2 - y0) * (x3 - x2)) / rxs) in *.
  set (u' := ((x2 - x0) * (y1 - y0) - (y2 - y0) * (x1 - x0)) / rxs) in *.
  rewrite (ltq_i 0 t'), (ltq_i 0 u'), (Qleb_i t' 1), (Qleb_i u' 1) by lra. cbn [andb].
  eexists. split; [reflexivity|]. split; cbn [fst snd]; rewrite ET; lra.
Qed.
Lemma parallel_sym : forall e f, parallel e f -> parallel f e.
Proof. unfold parallel. intros. lra. Qed.
Lemma interx_none : forall e f, interx e f = None <-> parallel e f \/ ~ exists p, on_seg' e p /\ on_seg' f p.
Proof.
  intros e f. split.
  - intros H. destruct (Qeq_dec (fst (direction e) * snd (direction f)) (snd (direction e) * fst (direction f))) as [P|P]; [left; exact P|].
    right. intros (p & A & B). destruct (interx_complete e f p P A B) as (q & E & _). congruence.
  - intros H. destruct (interx e f) as [p|] eqn:E; [|reflexivity]. exfalso. apply interx_some in E. destruct E as (P & A & B).
    destruct H as [H|H]; [auto|]. apply H. eauto.
Qed.
Lemma interx_unique : forall e f p q, ~ parallel e f -> on_seg e p -> on_seg f p -> on_seg e q -> on_seg f q -> same p q.
Proof.
  intros [[x0 y0] [x1 y1]] [[x2 y2] [x3 y3]] [px py] [qx qy] NP (t & T & A1 & A2) (u & U & B1 & B2) (t' & T' & C1 & C2) (u' & U' & D1 & D2).
  unfold parallel, direction, along, same in *. cbn [fst snd] in *.
  set (rx := x1 - x0) in *. set (ry := y1 - y0) in *. set (sx := x3 - x2) in *. set (sy := y3 - y2) in *.
  assert (E1 : (t - t') * rx == (u - u') * sx) by lra. assert (E2 : (t - t') * ry == (u - u') * sy) by lra.
  assert (E : (t - t') * (rx * sy - ry * sx) == 0).
  { transitivity ((t - t') * rx * sy - (t - t') * ry * sx); [ring|]. rewrite E1, E2. ring. }
  apply Qmult_integral in E. destruct E as [E|E]; [|exfalso; apply NP; lra].
  assert (t == t') by lra. split; rewrite ?A1, ?A2, ?C1, ?C2, H; reflexivity.
Qed.
Lemma interx_sym : forall e f p, interx e f = Some p -> exists q, interx f e = Some q /\ same q p.
Proof.
  intros e f p E. apply interx_some in E. destruct E as (P & A & B).
  apply interx_complete; auto. intros H. apply P, parallel_sym, H.
Qed.

(* ---- edges *)
Lemma consecutive_nth : forall {A} (l : list A) i a b, nth_error (consecutive l) i = Some (a, b) <-> path_edge l i a b.
Proof.
  unfold consecutive, path_edge. induction l as [|v l IH]; intros i a b.
  - cbn. destruct i; split; (discriminate || (intros [H _]; discriminate)).
  - destruct l as [|w l].
    + cbn [tl combine]. split; [destruct i; discriminate|]. intros [_ H]. destruct i; discriminate.
    + change (combine (v :: w :: l) (tl (v :: w :: l))) with ((v, w) :: combine (w :: l) (tl (w :: l))).
      destruct i as [|i]; cbn [nth_error]; [split; [intros E; injection E as -> ->; auto|intros [E F]; congruence]|]. apply (IH i a b).
Qed.
Lemma edges_nth : forall l ring i e, nth_error (edges l ring) i = Some e <-> edge_at l ring i e.
Proof.
  intros l ring i [a b]. unfold edges, edge_at. cbn [fst snd]. destruct l as [|v l].
  - split; [destruct i; discriminate|]. intros [[H _]|(_ & _ & H & _)]; destruct i; discriminate.
  - destruct ring.
    + rewrite consecutive_nth. unfold path_edge. split.
      * intros (A & B). assert (I : (S i < length ((v :: l) ++ [v]))%nat) by (apply nth_error_Some; congruence).
        rewrite app_length in I. cbn [length] in I.
        rewrite nth_error_app1 in A by (cbn; lia).
        destruct (Nat.eq_dec i (length l)) as [-> |N].
        -- right. split; [reflexivity|]. rewrite nth_error_app2 in B by (cbn; lia). cbn [length] in *.
           replace (S (length l) - S (length l))%nat with 0%nat in B by lia. auto.
        -- left. rewrite nth_error_app1 in B by (cbn; lia). auto.
      * intros [(A & B)|(_ & L & A & B)].
        -- assert (S i < length (v :: l))%nat by (apply nth_error_Some; congruence). rewrite !nth_error_app1 by lia. auto.
        -- cbn [length] in L. injection L as ->.
           rewrite nth_error_app1 by (cbn; lia). split; [exact A|]. rewrite nth_error_app2 by (cbn; lia). cbn [length].
           replace (S (length l) - S (length l))%nat with 0%nat by lia. exact B.
    + rewrite consecutive_nth. split; [auto|]. intros [H|(H & _)]; [exact H|discriminate].
Qed.
Lemma edges_spec : forall l ring e, In e (edges l ring) <-> edge_of l ring e.
Proof.
  intros l ring e. unfold edge_of. split.
  - intros H. apply In_nth_error in H. destruct H as (i & H). exists i. apply edges_nth, H.
  - intros (i & H). apply edges_nth in H. eapply nth_error_In, H.
Qed.
Lemma all_intersections_spec : forall a ra b rb p, In p (all_intersections a ra b rb) <->
  exists e f, edge_of a ra e /\ edge_of b rb f /\ interx e f = Some p.
Proof.
  intros a ra b rb p. unfold all_intersections. rewrite in_flat_map. split.
  - intros (e & Ie & H). apply in_flat_map in H. destruct H as (f & If & H). exists e, f. rewrite <- !edges_spec.
    destruct (interx e f); [|destruct H]. destruct H as [<- |[]]. auto.
  - intros (e & f & Ie & If & H). exists e. split; [apply edges_spec, Ie|]. apply in_flat_map. exists f.
    split; [apply edges_spec, If|]. rewrite H. left. reflexivity.
Qed.
Lemma all_intersections_points : forall a ra b rb,
  (forall p, In p (all_intersections a ra b rb) -> exists e f, edge_of a ra e /\ edge_of b rb f /\ ~ parallel e f /\ on_seg e p /\ on_seg f p) /\
  (forall e f p, edge_of a ra e -> edge_of b rb f -> ~ parallel e f -> on_seg' e p -> on_seg' f p ->
     exists q, In q (all_intersections a ra b rb) /\ same q p).
Proof.
  intros a ra b rb. split.
  - intros p H. apply all_intersections_spec in H. destruct H as (e & f & Ie & If & H). apply interx_some in H.
    destruct H as (P & (t & T & A) & (u & U & B)). exists e, f. repeat split; auto; [exists t|exists u]; split; auto; lra.
  - intros e f p Ie If P A B. destruct (interx_complete e f p P A B) as (q & E & S). exists q. split; [|exact S].
    apply all_intersections_spec. eauto.
Qed.

(* ---- boxes *)
Lemma bboxes_overlap_spec : forall xa ya xb yb xc yc xd yd, xa <= xb -> ya <= yb -> xc <= xd -> yc <= yd ->
  (bboxes_overlap (xa, ya, xb, yb) (xc, yc, xd, yd) = true <->
   exists p, covers xa ya xb yb p /\ covers xc yc xd yd p).
Proof.
  intros xa ya xb yb xc yc xd yd X Y X' Y'. unfold bboxes_overlap.
  set (dx := fmin xb xd - fmax xa xc). set (dy := fmin yb yd - fmax ya yc).
  assert (SX : 0 <= dx <-> exists x, xa <= x <= xb /\ xc <= x <= xd).
  { unfold dx. destruct (fmin_spec xb xd) as [[A B]|[A B]]; destruct (fmax_spec xa xc) as [[D E]|[D E]]; rewrite A, D; split.
    all: try (intros (x & H); lra).
    all: intros H; first [exists xa; lra|exists xc; lra]. }
  assert (SY : 0 <= dy <-> exists x, ya <= x <= yb /\ yc <= x <= yd).
  { unfold dy. destruct (fmin_spec yb yd) as [[A B]|[A B]]; destruct (fmax_spec ya yc) as [[D E]|[D E]]; rewrite A, D; split.
    all: try (intros (x & H); lra).
    all: intros H; first [exists ya; lra|exists yc; lra]. }
  assert (G : (exists p, covers xa ya xb yb p /\ covers xc yc xd yd p) <-> 0 <= dx /\ 0 <= dy).
  { rewrite SX, SY. unfold covers. split.
    - intros ([x y] & H). cbn [fst snd] in H. split; [exists x|exists y]; tauto.
    - intros ((x & H) & (y & H')). exists (x, y). cbn [fst snd]. tauto. }
  rewrite G. clearbody dx dy. clear.
  destruct (Qeq_bool dx 0) eqn:E1; [apply Qeqb_t in E1|apply Qeqb_f in E1; destruct (ltq dx 0) eqn:E2; [apply ltq_t in E2|apply ltq_f in E2]];
  (destruct (Qeq_bool dy 0) eqn:E3; [apply Qeqb_t in E3|apply Qeqb_f in E3; destruct (ltq dy 0) eqn:E4; [apply ltq_t in E4|apply ltq_f in E4]]);
  match goal with |- context [Qeq_bool ?e 0] => destruct (Qeq_bool e 0) eqn:E5; [apply Qeqb_t in E5|apply Qeqb_f in E5] end;
  try (split; [discriminate|intros; exfalso; nra]); try (split; [intros; lra|reflexivity]); try (exfalso; nra).
Qed.

(* ---- intersections without duplicates *)
Lemma pt_eqb_iff : forall p q, pt_eqb p q = true <-> same p q.
Proof. intros p q. unfold pt_eqb, same. rewrite andb_true_iff, !Qeq_bool_iff. tauto. Qed.
Lemma nub_in : forall l p, In p (nub l) -> In p l.
Proof. induction l as [|q l IH]; intros p H; [exact H|]. cbn [nub] in H. destruct (existsb (pt_eqb q) l); [right; auto|]. destruct H as [<- |H]; [left; reflexivity|right; auto]. Qed.
Lemma nub_same : forall l p, In p l -> exists q, In q (nub l) /\ same q p.
Proof.
  induction l as [|q l IH]; intros p H; [destruct H|]. cbn [nub]. destruct (existsb (pt_eqb q) l) eqn:E.
  - destruct H as [<- |H]; [|auto]. apply existsb_exists in E. destruct E as (r & I & R). apply pt_eqb_iff in R. destruct (IH r I) as (s & Is & S). exists s.
    split; [exact Is|]. eapply same_trans; [exact S|apply same_sym, R].
  - destruct H as [<- |H]; [exists q; split; [left; reflexivity|apply same_refl]|]. destruct (IH p H) as (s & Is & S). exists s. split; [right; exact Is|exact S].
Qed.
Lemma nub_once : forall l i j p q, nth_error (nub l) i = Some p -> nth_error (nub l) j = Some q -> same p q -> i = j.
Proof.
  induction l as [|a l IH]; intros i j p q A B S; [destruct i; discriminate|]. cbn [nub] in A, B. destruct (existsb (pt_eqb a) l) eqn:E; [eapply IH; eassumption|].
  assert (N : forall r, In r (nub l) -> ~ same a r).
  { intros r I K. apply nub_in in I. assert (existsb (pt_eqb a) l = true); [|congruence]. apply existsb_exists. exists r. split; [exact I|apply pt_eqb_iff, K]. }
  destruct i as [|i], j as [|j]; cbn [nth_error] in A, B; [reflexivity| | |f_equal; eapply IH; eassumption]; exfalso.
  - injection A as <-. apply (N q); [eapply nth_error_In; exact B|exact S].
  - injection B as <-. apply (N p); [eapply nth_error_In; exact A|apply same_sym, S].
Qed.
Lemma geom_intersections_spec : forall a ra b rb keep,
  (forall p, In p (geom_intersections a ra b rb keep) -> exists e f, edge_of a ra e /\ edge_of b rb f /\ ~ parallel e f /\ on_seg e p /\ on_seg f p) /\
  (forall e f p, edge_of a ra e -> edge_of b rb f -> ~ parallel e f -> on_seg' e p -> on_seg' f p ->
     exists q, In q (geom_intersections a ra b rb keep) /\ same q p) /\
  (keep = false -> forall i j p q, nth_error (geom_intersections a ra b rb keep) i = Some p ->
     nth_error (geom_intersections a ra b rb keep) j = Some q -> same p q -> i = j).
Proof.
  intros a ra b rb keep. destruct (all_intersections_points a ra b rb) as [A B]. unfold geom_intersections. split; [|split].
  - intros p H. apply A. destruct keep; [exact H|apply nub_in, H].
  - intros e f p Ie If N E F. destruct (B e f p Ie If N E F) as (q & I & S). destruct keep; [exists q; auto|].
    destruct (nub_same _ q I) as (r & Ir & R). exists r. split; [exact Ir|]. eapply same_trans; eassumption.
  - intros ->. apply nub_once.
Qed.
Lemma all_intersections_sym : forall a ra b rb p, In p (all_intersections a ra b rb) -> exists q, In q (all_intersections b rb a ra) /\ same q p.
Proof.
  intros a ra b rb p H. apply all_intersections_spec in H. destruct H as (e & f & Ie & If & H). apply interx_sym in H. destruct H as (q & H & S).
  exists q. split; [|exact S]. apply all_intersections_spec. exists f, e. auto.
Qed.
