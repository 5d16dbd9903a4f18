(** The scan of convexhull.pyx:75-82 (proofs). *)
From Coq Require Import List Bool Arith QArith Lqa Lia.
From Verif Require Import Hull_Model Hull_Spec.
Import ListNotations.
Open Scope Q_scope.

Notation D := orient.
Lemma qlt_iff : forall a b, qlt a b = true <-> a < b.
Proof. intros. unfold qlt. rewrite negb_true_iff. split; intros H. - apply Qnot_le_lt. intros X. apply Qle_bool_iff in X. congruence. - apply not_true_is_false. intros X. apply Qle_bool_iff in X. lra. Qed.
Lemma qlt_false : forall a b, qlt a b = false <-> b <= a.
Proof. intros. unfold qlt. rewrite negb_false_iff. apply Qle_bool_iff. Qed.
Lemma isleft_D : forall a b c, isleft_plane a b c = qlt 0 (D a b c).
Proof. reflexivity. Qed.

(** Two relations between the triangles of five points. *)
Lemma plucker : forall p z a b c, D p a b * D z a c == D p z a * D a b c + D p a c * D z a b.
Proof. intros. unfold orient. ring. Qed.
Lemma D_rot : forall a b c, D a b c == D b c a. Proof. intros. unfold orient. ring. Qed.
Lemma D_swap : forall a b c, D a b c == - D b a c. Proof. intros. unfold orient. ring. Qed.
Lemma D_swap23 : forall a b c, D a b c == - D a c b. Proof. intros. unfold orient. ring. Qed.
Lemma D_same12 : forall a b, D a a b == 0. Proof. intros. unfold orient. ring. Qed.
Lemma D_same23 : forall a b, D a b b == 0. Proof. intros. unfold orient. ring. Qed.
Lemma D_same13 : forall a b, D a b a == 0. Proof. intros. unfold orient. ring. Qed.

Definition same (a b : qpt) : Prop := fst a == fst b /\ snd a == snd b.
Lemma same_D3 : forall a b c c', same c c' -> D a b c == D a b c'.
Proof. intros a b c c' [X Y]. unfold orient. rewrite X, Y. reflexivity. Qed.

Lemma pos_of : forall x y, 0 <= x -> 0 < x * y -> 0 < y.
Proof. intros x y X H. destruct (Qlt_le_dec 0 y) as [P | N]; [exact P |]. exfalso. assert (x * y <= 0) by nra. lra. Qed.
Lemma nonneg_of : forall x y, 0 < x -> 0 <= x * y -> 0 <= y.
Proof. intros x y X H. destruct (Qlt_le_dec y 0) as [N | P]; [| exact P]. exfalso. assert (x * y < 0) by nra. lra. Qed.
Lemma zero_of : forall x y, 0 < y -> x * y == 0 -> x == 0.
Proof. intros x y Y H. destruct (Qmult_integral _ _ H) as [E | E]; [exact E | lra]. Qed.

(** Vertices seen from the leftmost (upper) one. *)
Definition half (p q : qpt) : Prop := fst p < fst q \/ (fst p == fst q /\ snd q <= snd p).

Section Pole.
Variable p : qpt.

(** On one line through p, on the same side of it. *)
Lemma half_line : forall a b c, half p a -> half p b -> half p c -> 0 < D p a b -> 0 <= D p b c -> D p a c == 0 -> same c p.
Proof.
  intros [ax ay] [bx by_] [cx cy] HA HB HC. unfold half, same, orient in *. cbn [fst snd] in *. destruct p as [px py]. cbn [fst snd] in *.
  intros AB BC AC.
  (* with coordinates relative to p *)
  set (u := ax - px) in *. set (v := ay - py) in *. set (s := bx - px) in *. set (t := by_ - py) in *. set (x := cx - px) in *. set (y := cy - py) in *.
  assert (cx == px + x) as -> by (unfold x; ring). assert (cy == py + y) as -> by (unfold y; ring).
  assert (0 < u \/ (u == 0 /\ v <= 0)) as HA' by (unfold u, v; destruct HA as [? | [? ?]]; [left; lra | right; split; lra]).
  assert (0 < x \/ (x == 0 /\ y <= 0)) as HC' by (unfold x, y; destruct HC as [? | [? ?]]; [left; lra | right; split; lra]).
  clearbody u v s t x y. clear HA HB HC.
  (* (x, y) = k (u, v) *)
  assert (x * (u * t - v * s) == - (s * y - t * x) * u) as E1 by (setoid_replace (x * (u * t - v * s)) with (- (s * y - t * x) * u + s * (u * y - v * x)) by ring; rewrite AC; ring).
  assert (y * (u * t - v * s) == - (s * y - t * x) * v) as E2 by (setoid_replace (y * (u * t - v * s)) with (- (s * y - t * x) * v + t * (u * y - v * x)) by ring; rewrite AC; ring).
  assert (x == 0 /\ y == 0) as [-> ->].
  { set (d := u * t - v * s) in *. set (e := s * y - t * x) in *. clearbody d e.
    destruct HC' as [X | [X Y]].
    - exfalso. destruct HA' as [U | [U V]]; nra.
    - split; [exact X |]. destruct HA' as [U | [U V]].
      + assert (e == 0) by nra. nra.
      + assert (v < 0 \/ v == 0) as [V' | V'] by (destruct (Qlt_le_dec v 0); [left | right]; lra); nra. }
  split; ring.
Qed.

Lemma D_line : forall z a b, ~ same a p -> D p z a == 0 -> D p a b == 0 -> D z a b == 0.
Proof.
  intros z a b N Z B.
  assert (fst a - fst p == 0 \/ ~ fst a - fst p == 0) as [X | X] by (destruct (Qeq_dec (fst a - fst p) 0); auto).
  - assert (~ snd a - snd p == 0) as Y by (intros Y; apply N; split; lra).
    assert ((snd a - snd p) * D z a b == (snd a - snd b) * D p z a + (snd a - snd z) * D p a b) as E by (unfold orient; ring).
    rewrite Z, B in E. assert ((snd a - snd p) * D z a b == 0) as E' by (rewrite E; ring). destruct (Qmult_integral _ _ E') as [K | K]; [contradiction | exact K].
  - assert ((fst a - fst p) * D z a b == (fst a - fst b) * D p z a + (fst a - fst z) * D p a b) as E by (unfold orient; ring).
    rewrite Z, B in E. assert ((fst a - fst p) * D z a b == 0) as E' by (rewrite E; ring). destruct (Qmult_integral _ _ E') as [K | K]; [contradiction | exact K].
Qed.

(** The last vertex but one of a left turn, a left turn later, is not on a line with p. *)
Lemma apart : forall z a b c, ~ same a p -> 0 <= D p z a -> 0 <= D p a b -> 0 <= D p a c -> 0 < D z a b -> 0 < D a b c -> 0 < D p a b.
Proof.
  intros z a b c N ZA AB AC T1 T2. destruct (Qlt_le_dec 0 (D p a b)) as [P | M]; [exact P |]. exfalso.
  assert (D p a b == 0) as E by lra. pose proof (plucker p z a b c) as PL. rewrite E in PL.
  assert (0 <= D p z a * D a b c) by nra. assert (0 <= D p a c * D z a b) by nra.
  assert (D p z a * D a b c == 0) as E1 by lra. apply zero_of in E1; [| exact T2].
  pose proof (D_line z a b N E1 E). lra.
Qed.
(** The same, with a vertex q strictly after a. *)
Lemma apart_q : forall z a b q, 0 <= D p z a -> 0 <= D p a b -> 0 < D p a q -> 0 < D z a b -> 0 <= D a b q -> 0 < D p a b.
Proof.
  intros z a b q ZA AB AQ T1 T2. destruct (Qlt_le_dec 0 (D p a b)) as [P | M]; [exact P |]. exfalso.
  assert (D p a b == 0) as E by lra. pose proof (plucker p z a b q) as PL. rewrite E in PL.
  assert (0 <= D p z a * D a b q) by nra. assert (0 < D p a q * D z a b) by nra. lra.
Qed.

(* ---- lists *)
(** The stack, last index first. *)
Fixpoint turns (st : list qpt) : Prop :=
  match st with c :: ((b :: ((a :: _) as r)) as r') => 0 < D a b c /\ turns r' | _ => True end.
Fixpoint pairs (R : qpt -> qpt -> Prop) (st : list qpt) : Prop := match st with [] => True | b :: r => Forall (R b) r /\ pairs R r end.
Fixpoint triples (st : list qpt) : Prop := match st with [] => True | c :: r => pairs (fun b a => 0 <= D a b c) r /\ triples r end.
Fixpoint edges_left (st : list qpt) (q : qpt) : Prop :=
  match st with b :: ((a :: _) as r) => 0 <= D a b q /\ edges_left r q | _ => True end.

Variable s1 : qpt.
(** [st] has p and s1 at its bottom. *)
Definition bottom (st : list qpt) : Prop := exists m, st = m ++ [s1; p].
Definition angular (st : list qpt) : Prop := pairs (fun b a => 0 <= D p a b) st.

Record inv (st dn : list qpt) : Prop := mkInv {
  i_bottom : bottom st;
  i_turns : turns st;
  i_triples : triples st;
  i_angular : angular st;
  i_in : incl st dn;
  i_half : Forall (half p) dn;
  i_edges : Forall (edges_left st) dn;
  i_top : match st with t :: _ => Forall (fun q => 0 <= D p q t) dn | [] => False end;
  i_first : Forall (fun q => same q p \/ q = s1 \/ 0 < D p s1 q) dn;
  i_s1 : ~ same s1 p
}.

Lemma pairs_tail : forall R b r, pairs R (b :: r) -> pairs R r. Proof. intros R b r H. apply H. Qed.
Lemma pairs_suffix : forall R m r, pairs R (m ++ r) -> pairs R r.
Proof. intros R m. induction m as [| x m IH]; cbn; intros r H; [exact H | apply IH, H]. Qed.
Lemma turns_suffix : forall m r, turns (m ++ r) -> turns r.
Proof.
  intros m. induction m as [| x m IH]; intros r H; [exact H |]. apply IH. cbn [app] in H.
  destruct (m ++ r) as [| b [| a r']]; [exact I | exact I | apply H].
Qed.
Lemma triples_suffix : forall m r, triples (m ++ r) -> triples r.
Proof. intros m. induction m as [| x m IH]; cbn; intros r H; [exact H | apply IH, H]. Qed.
Lemma edges_suffix : forall m r q, edges_left (m ++ r) q -> edges_left r q.
Proof.
  intros m. induction m as [| x m IH]; intros r q H; [exact H |]. apply IH. cbn [app] in H.
  destruct (m ++ r) as [| b r']; [exact I | apply H].
Qed.
Lemma bottom_suffix : forall m r, bottom (m ++ r) -> (2 <= length r)%nat -> bottom r.
Proof.
  intros m. induction m as [| x m IH]; intros r B L; [exact B |]. apply IH; [| exact L]. destruct B as [k E]. destruct k as [| y k].
  - cbn in E. injection E as -> E. destruct m as [| x' m]; cbn in E; [subst; cbn in L; lia | injection E as -> E]. destruct m; cbn in E; [subst; cbn in L; lia | discriminate].
  - cbn in E. injection E as -> E. exists k. exact E.
Qed.

(** A vertex where the chain turns is not at p. *)
Lemma not_pole : forall a b c, 0 < D a b c -> 0 <= D p a c -> ~ same b p.
Proof.
  intros a b c T A [X Y]. assert (D a b c == D a p c) as E by (unfold orient; rewrite X, Y; reflexivity).
  rewrite E, D_swap in T. lra.
Qed.

(* ---- the vertex c comes next *)
Section Step.
Variables (dn : list qpt) (c : qpt).
Hypothesis c_half : half p c.
Hypothesis c_after : Forall (fun q => 0 <= D p q c) dn.

(** Strictly left of all edges. *)
Fixpoint edges_strict (st : list qpt) (q : qpt) : Prop :=
  match st with b :: ((a :: _) as r) => 0 < D a b q /\ edges_strict r q | _ => True end.

Lemma edges_new : forall st, turns st -> angular st -> Forall (half p) st -> Forall (fun q => 0 <= D p q c) st -> ~ same c p ->
  match st with b :: a :: _ => 0 < D a b c | _ => True end -> edges_strict st c.
Proof.
  intros st. induction st as [| b st IH]; intros T A H F N L; [exact I |].
  destruct st as [| a st]; [exact I |]. change (0 < D a b c /\ edges_strict (a :: st) c). split; [exact L |].
  destruct st as [| z st]; [exact I |].
  inversion H as [| ? ? Hb H']. inversion F as [| ? ? Fb F']. subst. destruct T as [T1 T2]. destruct A as [A1 A2].
  apply IH; auto.
  inversion A1 as [| ? ? BA A1']. inversion A1' as [| ? ? BZ _]. subst. destruct A2 as [A2 _]. inversion A2 as [| ? ? AZ _]. subst.
  inversion H' as [| ? ? Ha H'']. inversion F' as [| ? ? Fa F'']. subst.
  assert (~ same a p) as NA by (apply (not_pole z a b); auto).
  assert (0 < D p a b) as B by (apply (apart z a b c); auto).
  pose proof (plucker p z a b c) as PL.
  destruct (Qlt_le_dec 0 (D p a c)) as [G | G].
  - apply (pos_of (D p a b)); [lra |]. rewrite PL. assert (0 <= D p z a * D a b c) by nra. assert (0 < D p a c * D z a b) by nra. lra.
  - exfalso. apply N. apply (half_line a b c); auto. lra.
Qed.
Lemma edges_pole : forall st, angular st -> same c p -> edges_left st c.
Proof.
  intros st A S. induction st as [| b st IH]; [exact I |]. destruct st as [| a st]; [exact I |].
  change (0 <= D a b c /\ edges_left (a :: st) c). destruct A as [A1 A2]. split; [| apply IH, A2].
  inversion A1; subst. rewrite (same_D3 a b c p S), <- D_rot. assumption.
Qed.
Lemma strict_left : forall st q, edges_strict st q -> edges_left st q.
Proof.
  intros st q. induction st as [| b st IH]; [auto |]. destruct st as [| a st]; [auto |]. intros [X Y]. split; [lra | apply IH, Y].
Qed.
Lemma edges_c : forall st, turns st -> angular st -> Forall (half p) st -> Forall (fun q => 0 <= D p q c) st ->
  match st with b :: a :: _ => 0 < D a b c | _ => True end -> edges_left st c.
Proof.
  intros st T A H F L. destruct (Qeq_dec (fst c) (fst p)) as [X | X]; [destruct (Qeq_dec (snd c) (snd p)) as [Y | Y] |].
  - apply edges_pole; [assumption | split; assumption].
  - apply strict_left, edges_new; auto. intros [? ?]. contradiction.
  - apply strict_left, edges_new; auto. intros [? ?]. contradiction.
Qed.
Lemma fan : forall a m b, D p m b * D a b c == D p a b * D m b c + D p b c * D a m b.
Proof. intros. unfold orient. ring. Qed.
Lemma triples_new : forall st, turns st -> angular st -> triples st -> Forall (half p) st -> Forall (fun q => 0 <= D p q c) st ->
  match st with b :: a :: _ => 0 < D a b c | _ => True end -> pairs (fun b a => 0 <= D a b c) st.
Proof.
  intros st T A TR H F L.
  assert (same c p \/ ~ same c p) as [S | N].
  { destruct (Qeq_dec (fst c) (fst p)); [destruct (Qeq_dec (snd c) (snd p)); [left; split; auto |] |]; right; intros [? ?]; contradiction. }
  - clear - A S. induction st as [| b st IH]; [exact I |]. destruct A as [A1 A2]. split; [| apply IH, A2].
    apply Forall_forall. intros a IA. rewrite Forall_forall in A1. rewrite (same_D3 a b c p S), <- D_rot. apply A1, IA.
  - assert (edges_strict st c) as ES by (apply edges_new; auto). clear L.
    induction st as [| b st IH]; [exact I |]. split.
    + destruct st as [| m st]; [constructor |]. destruct ES as [E1 ES]. constructor; [lra |].
      destruct st as [| z st]; [constructor |]. destruct T as [T1 T2]. destruct A as [A1 A2]. destruct TR as [TR1 TR2].
      inversion A1 as [| ? ? BM A1']. subst. destruct A2 as [A2 _]. inversion A2 as [| ? ? MZ _]. subst.
      inversion F as [| ? ? Fb F']. inversion F' as [| ? ? Fm _]. subst. inversion A1' as [| ? ? BZ _]. subst.
      assert (~ same m p) as NM by (apply (not_pole z m b); auto).
      assert (0 < D p m b) as B by (apply (apart z m b c); auto).
      destruct TR1 as [TR1 _]. rewrite Forall_forall in TR1, A1' |- *. intros a IA.
      specialize (TR1 a IA). specialize (A1' a IA). cbn beta in TR1, A1'.
      apply (nonneg_of (D p m b)); [exact B |]. rewrite fan. nra.
    + apply IH; [destruct st as [| m [| z st]]; [exact I | exact I | apply T] | apply A | apply TR | inversion H; assumption | inversion F; assumption |].
      destruct st as [| m st]; [exact I | apply ES].
Qed.
Lemma fan_low : forall a b q, D p a b * D b c q == D p b c * D a b q + D p q b * D a b c.
Proof. intros. unfold orient. ring. Qed.
Lemma fan_high : forall b t q, D p b t * D b c q == D p b c * D b t q - D p b q * D b t c.
Proof. intros. unfold orient. ring. Qed.

(** The vertices before c are left of the new edge. *)
Lemma old_left : forall pre a b r, inv (pre ++ b :: a :: r) dn -> 0 < D a b c ->
  (pre = [] \/ exists pre' t, pre = pre' ++ [t] /\ D b t c <= 0) -> forall q, In q dn -> 0 <= D b c q.
Proof.
  intros pre a b r [IB IT ITR IA II IH IE IP IF N1] L PR q IQ.
  assert (turns (b :: a :: r)) as T by (apply (turns_suffix pre); exact IT).
  assert (angular (b :: a :: r)) as A by (apply (pairs_suffix _ pre); exact IA).
  assert (forall x, In x (b :: a :: r) -> In x dn) as ID by (intros x X; apply II, in_or_app; right; exact X).
  rewrite Forall_forall in c_after, IE, IF, IH.
  assert (0 <= D p b c) as BC by (apply c_after, ID; left; reflexivity).
  assert (0 <= D p a c) as AC by (apply c_after, ID; right; left; reflexivity).
  assert (0 <= D a b q) as ABQ by (specialize (IE q IQ); apply edges_suffix in IE; apply IE).
  destruct A as [A1 A2]. inversion A1 as [| ? ? AB A1']. subst.
  assert (bottom (b :: a :: r)) as BO by (apply (bottom_suffix pre); [exact IB | cbn; lia]).
  destruct (Qlt_le_dec (D p q b) 0) as [QB | QB].
  - assert (0 < D p b q) as BQ by (rewrite D_swap23; lra).
    destruct PR as [-> | (pre' & t & -> & BT)].
    + cbn [app] in IP. rewrite Forall_forall in IP. specialize (IP q IQ). cbn beta in IP. lra.
    + rewrite <- app_assoc in IT, IA, IE. cbn [app] in IT, IA, IE.
      assert (turns (t :: b :: a :: r)) as [T3 _] by (apply (turns_suffix pre'); exact IT).
      assert (angular (t :: b :: a :: r)) as [A3 _] by (apply (pairs_suffix _ pre'); exact IA). inversion A3; subst.
      assert (0 <= D b t q) as BTQ by (specialize (IE q IQ); apply edges_suffix in IE; apply IE).
      assert (0 < D p b t) as P by (apply (apart_q a b t q); auto).
      apply (nonneg_of (D p b t)); [exact P |]. rewrite fan_high. nra.
  - destruct r as [| z r].
    + destruct BO as [m E]. destruct m as [| x [| y m]]; [| discriminate | destruct m; discriminate].
      cbn in E. injection E as -> ->. destruct (IF q IQ) as [S | [-> | S]].
      * rewrite (same_D3 s1 c q p S). rewrite <- D_rot. exact BC.
      * rewrite D_same13. lra.
      * rewrite D_swap23 in S. lra.
    + destruct A2 as [A2 _]. inversion A2 as [| ? ? AZ _]. subst. inversion A1' as [| ? ? BZ _]. subst. destruct T as [T1 _].
      assert (~ same a p) as NA by (apply (not_pole z a b); auto).
      assert (0 < D p a b) as P by (apply (apart z a b c); auto).
      apply (nonneg_of (D p a b)); [exact P |]. rewrite fan_low. nra.
Qed.

Hypothesis c_first : same c p \/ 0 < D p s1 c.
Lemma step_inv : forall pre a b r, inv (pre ++ b :: a :: r) dn -> 0 < D a b c ->
  (pre = [] \/ exists pre' t, pre = pre' ++ [t] /\ D b t c <= 0) -> inv (c :: b :: a :: r) (c :: dn).
Proof.
  intros pre a b r V L PR. pose proof (old_left pre a b r V L PR) as OL. destruct V as [IB IT ITR IA II IH IE IP IF N1].
  assert (turns (b :: a :: r)) as T by (apply (turns_suffix pre); exact IT).
  assert (angular (b :: a :: r)) as A by (apply (pairs_suffix _ pre); exact IA).
  assert (triples (b :: a :: r)) as TR by (apply (triples_suffix pre); exact ITR).
  assert (incl (b :: a :: r) dn) as ID by (intros x X; apply II, in_or_app; right; exact X).
  assert (Forall (half p) (b :: a :: r)) as HH by (apply Forall_forall; intros x X; rewrite Forall_forall in IH; apply IH, ID, X).
  assert (Forall (fun q => 0 <= D p q c) (b :: a :: r)) as CA by (apply Forall_forall; intros x X; rewrite Forall_forall in c_after; apply c_after, ID, X).
  constructor.
  - destruct (bottom_suffix pre (b :: a :: r) IB) as [m E]; [cbn; lia |]. exists (c :: m). rewrite E. reflexivity.
  - split; assumption.
  - split; [apply triples_new; auto | exact TR].
  - split; assumption.
  - intros x [<- | X]; [left; reflexivity | right; apply ID, X].
  - constructor; assumption.
  - constructor.
    + split; [rewrite D_same23; lra | apply edges_c; auto].
    + apply Forall_forall. intros q IQ. split; [apply OL, IQ |]. rewrite Forall_forall in IE. specialize (IE q IQ). apply edges_suffix in IE. exact IE.
  - constructor; [rewrite D_same23; lra | assumption].
  - constructor; [destruct c_first; auto | assumption].
  - assumption.
Qed.

(** The loop that removes the vertices that are not left turns. *)
Fixpoint pops_pt (st : list qpt) (x : qpt) : outcome (list qpt) :=
  match st with
  | b :: ((a :: _) as rest) => if isleft_plane a b x then Ok st else pops_pt rest x
  | _ => Raise IndexError
  end.
Lemma pops_shape : forall st r, pops_pt st c = Ok r -> exists pre a b r', r = b :: a :: r' /\ st = pre ++ r /\ 0 < D a b c /\
  (pre = [] \/ exists pre' t, pre = pre' ++ [t] /\ D b t c <= 0).
Proof.
  intros st. induction st as [| b st IH]; intros r H; [discriminate |]. destruct st as [| a st]; [discriminate |].
  change ((if isleft_plane a b c then Ok (b :: a :: st) else pops_pt (a :: st) c) = Ok r) in H. rewrite isleft_D in H.
  destruct (qlt 0 (D a b c)) eqn:E.
  - injection H as <-. exists [], a, b, st. apply qlt_iff in E. repeat split; auto.
  - apply qlt_false in E. destruct (IH r H) as (pre & a' & b' & r' & -> & S & L & PR). exists (b :: pre), a', b', r'.
    rewrite S. repeat split; auto. right. destruct PR as [-> | (pre' & t & -> & BT)].
    + cbn in S. injection S as -> ->. exists [], b. split; [reflexivity | exact E].
    + exists (b :: pre'), t. split; [reflexivity | exact BT].
Qed.
Lemma pops_ok : forall st, bottom st -> angular st -> turns st -> (0 < D p s1 c \/ (same c p /\ (3 <= length st)%nat)) -> exists r, pops_pt st c = Ok r.
Proof.
  intros st. induction st as [| b st IH]; intros B A T C.
  - destruct B as [m E]. destruct m; discriminate.
  - destruct st as [| a st]; [destruct B as [[| ? [| ? ?]] E]; discriminate |].
    change (exists r, (if isleft_plane a b c then Ok (b :: a :: st) else pops_pt (a :: st) c) = Ok r). rewrite isleft_D.
    destruct (qlt 0 (D a b c)) eqn:E; [eexists; reflexivity |]. apply qlt_false in E.
    destruct st as [| z st].
    + destruct B as [m EB]. destruct m as [| x [| y m]]; [| discriminate | destruct m; discriminate]. cbn in EB. injection EB as -> ->.
      destruct C as [C | [_ C]]; [lra | cbn in C; lia].
    + apply IH; [apply (bottom_suffix [b]); [exact B | cbn; lia] | apply A | apply T |].
      destruct C as [C | [S LN]]; [left; exact C |]. right. split; [exact S |]. destruct st as [| y st]; [| cbn; lia]. exfalso.
      (* b, a = s1, z = p *)
      destruct T as [T1 _]. rewrite (same_D3 a b c p S) in E.
      assert (z = p) as -> by (destruct B as [m EB]; destruct m as [| x [| x' m]]; [discriminate | cbn in EB; injection EB as -> -> ->; reflexivity | destruct m as [| ? [| ? ?]]; discriminate]).
      rewrite <- D_rot in E. lra.
Qed.
End Step.

Fixpoint scan_pt (st : list qpt) (l : list qpt) : outcome (list qpt) :=
  match l with
  | [] => Ok (rev st)
  | c :: l' => match pops_pt st c with Raise e => Raise e | Ok st' => scan_pt (c :: st') l' end
  end.
Definition next_ok (dn : list qpt) (c : qpt) : Prop := half p c /\ Forall (fun q => 0 <= D p q c) dn /\ (same c p \/ 0 < D p s1 c).
Fixpoint sorted_after (dn l : list qpt) : Prop := match l with [] => True | c :: l' => next_ok dn c /\ sorted_after (c :: dn) l' end.
Lemma scan_ok : forall l st dn, inv st dn -> (3 <= length st)%nat -> sorted_after dn l ->
  exists st', scan_pt st l = Ok (rev st') /\ inv st' (rev l ++ dn).
Proof.
  intros l. induction l as [| c l IH]; intros st dn V LN S; cbn [scan_pt rev app].
  - exists st. split; [reflexivity | exact V].
  - destruct S as [(H & A & F) S]. destruct (pops_ok c st) as [r P]; [apply V | apply V | apply V | destruct F; auto |].
    rewrite P. destruct (pops_shape c st r P) as (pre & a & b & r' & -> & -> & L & PR).
    destruct (IH (c :: b :: a :: r') (c :: dn)) as (st' & E & V').
    + apply (step_inv dn c H A F pre); auto.
    + cbn; lia.
    + exact S.
    + exists st'. split; [exact E |]. rewrite <- app_assoc. exact V'.
Qed.
End Pole.
