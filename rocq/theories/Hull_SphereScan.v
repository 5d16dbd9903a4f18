(** The scan of convexhull.pyx:141-148, for vertices at different places with any test of
    the side that satisfies the relations of determinants (proofs). *)
From Coq Require Import List Bool Arith Reals Lra Lia.
From Verif Require Import Hull_Model.
Import ListNotations.
Open Scope R_scope.

Lemma pos_of : forall x y, 0 <= x -> 0 < x * y -> 0 < y.
Proof. intros x y X H. destruct (Rlt_le_dec 0 y) as [P | N]; [exact P |]. exfalso. nra. Qed.
Lemma nonneg_of : forall x y, 0 < x -> 0 <= x * y -> 0 <= y.
Proof. intros x y X H. destruct (Rlt_le_dec y 0) as [N | P]; [| exact P]. exfalso. nra. Qed.
Lemma zero_of : forall x y, 0 < y -> x * y = 0 -> x = 0.
Proof. intros x y Y H. destruct (Rmult_integral _ _ H) as [E | E]; [exact E | lra]. Qed.

Section Scan.
Variable pt : Type.
Variable D : pt -> pt -> pt -> R.
(** The vertices. *)
Variable V : pt -> Prop.
Variable p : pt.
Hypothesis D_rot : forall a b c, D a b c = D b c a.
Hypothesis D_swap : forall a b c, D a b c = - D b a c.
Hypothesis plucker : forall z a b c, D p a b * D z a c = D p z a * D a b c + D p a c * D z a b.
Hypothesis half_line : forall a b c, V a -> V b -> V c -> c <> p -> 0 < D p a b -> 0 <= D p b c -> D p a c <> 0.
Hypothesis D_line : forall z a b, V a -> a <> p -> D p z a = 0 -> D p a b = 0 -> D z a b = 0.

Lemma D_swap23 : forall a b c, D a b c = - D a c b.
Proof. intros. rewrite D_rot, D_swap. f_equal. rewrite D_rot, D_rot. reflexivity. Qed.
Lemma D_same12 : forall a b, D a a b = 0. Proof. intros. pose proof (D_swap a a b). lra. Qed.
Lemma D_same23 : forall a b, D a b b = 0. Proof. intros. pose proof (D_swap23 a b b). lra. Qed.
Lemma D_same13 : forall a b, D a b a = 0. Proof. intros. rewrite D_rot. apply D_same23. Qed.

Lemma apart : forall z a b c, V a -> a <> p -> 0 <= D p z a -> 0 <= D p a b -> 0 <= D p a c -> 0 < D z a b -> 0 < D a b c -> 0 < D p a b.
Proof.
  intros z a b c VA N ZA AB AC T1 T2. destruct (Rlt_le_dec 0 (D p a b)) as [P | M]; [exact P |]. exfalso.
  assert (D p a b = 0) as E by lra. pose proof (plucker z a b c) as PL. rewrite E in PL.
  assert (0 <= D p z a * D a b c) by nra. assert (0 <= D p a c * D z a b) by nra.
  assert (D p z a * D a b c = 0) as E1 by lra. apply zero_of in E1; [| exact T2].
  pose proof (D_line z a b VA N E1 E). lra.
Qed.
Lemma apart_q : forall z a b q, 0 <= D p z a -> 0 <= D p a b -> 0 < D p a q -> 0 < D z a b -> 0 <= D a b q -> 0 < D p a b.
Proof.
  intros z a b q ZA AB AQ T1 T2. destruct (Rlt_le_dec 0 (D p a b)) as [P | M]; [exact P |]. exfalso.
  assert (D p a b = 0) as E by lra. pose proof (plucker z a b q) as PL. rewrite E in PL.
  assert (0 <= D p z a * D a b q) by nra. assert (0 < D p a q * D z a b) by nra. lra.
Qed.

(* ---- lists *)
(** The stack, last index first. *)
Fixpoint turns (st : list pt) : Prop :=
  match st with c :: ((b :: ((a :: _) as r)) as r') => 0 < D a b c /\ turns r' | _ => True end.
Fixpoint pairs (R : pt -> pt -> Prop) (st : list pt) : Prop := match st with [] => True | b :: r => Forall (R b) r /\ pairs R r end.
Fixpoint triples (st : list pt) : Prop := match st with [] => True | c :: r => pairs (fun b a => 0 <= D a b c) r /\ triples r end.
Fixpoint edges_left (st : list pt) (q : pt) : Prop :=
  match st with b :: ((a :: _) as r) => 0 <= D a b q /\ edges_left r q | _ => True end.

Variable s1 : pt.
Definition bottom (st : list pt) : Prop := exists m, st = m ++ [s1; p].
Definition angular (st : list pt) : Prop := pairs (fun b a => 0 <= D p a b) st.

Record inv (st dn : list pt) : Prop := mkInv {
  i_bottom : bottom st;
  i_turns : turns st;
  i_triples : triples st;
  i_angular : angular st;
  i_in : incl st dn;
  i_half : Forall V dn;
  i_edges : Forall (edges_left st) dn;
  i_top : match st with t :: _ => Forall (fun q => 0 <= D p q t) dn | [] => False end;
  i_first : Forall (fun q => q = p \/ q = s1 \/ 0 < D p s1 q) dn
}.

Lemma pairs_suffix : forall R m r, pairs R (m ++ r) -> pairs R r.
Proof. intros R m. induction m as [| x m IH]; cbn; intros r H; [exact H | apply IH, H]. Qed.
Lemma turns_suffix : forall m r, turns (m ++ r) -> turns r.
Proof.
  intros m. induction m as [| x m IH]; intros r H; [exact H |]. apply IH. cbn [app] in H.
  destruct (m ++ r) as [| b [| a r']]; [exact I | exact I | apply H].
Qed.
Lemma triples_suffix : forall m r, triples (m ++ r) -> triples r.
Proof. intros m. induction m as [| x m IH]; cbn; intros r H; [exact H | apply IH, H]. Qed.
Lemma edges_suffix : forall m r q, edges_left (m ++ r) q -> edges_left r q.
Proof.
  intros m. induction m as [| x m IH]; intros r q H; [exact H |]. apply IH. cbn [app] in H.
  destruct (m ++ r) as [| b r']; [exact I | apply H].
Qed.
Lemma bottom_suffix : forall m r, bottom (m ++ r) -> (2 <= length r)%nat -> bottom r.
Proof.
  intros m. induction m as [| x m IH]; intros r B L; [exact B |]. apply IH; [| exact L]. destruct B as [k E]. destruct k as [| y k].
  - cbn in E. injection E as -> E. destruct m as [| x' m]; cbn in E; [subst; cbn in L; lia | injection E as -> E]. destruct m; cbn in E; [subst; cbn in L; lia | discriminate].
  - cbn in E. injection E as -> E. exists k. exact E.
Qed.
Lemma not_pole : forall a b c, 0 < D a b c -> 0 <= D p a c -> b <> p.
Proof. intros a b c T A ->. rewrite D_swap in T. lra. Qed.

(* ---- the vertex c comes next *)
Section Step.
Variables (dn : list pt) (c : pt).
Hypothesis c_half : V c.
Hypothesis c_after : Forall (fun q => 0 <= D p q c) dn.
Hypothesis c_first : 0 < D p s1 c.
Lemma c_ne : c <> p. Proof. intros E. rewrite E, D_same13 in c_first. lra. Qed.

Fixpoint edges_strict (st : list pt) (q : pt) : Prop :=
  match st with b :: ((a :: _) as r) => 0 < D a b q /\ edges_strict r q | _ => True end.

Lemma edges_new : forall st, turns st -> angular st -> Forall V st -> Forall (fun q => 0 <= D p q c) st ->
  match st with b :: a :: _ => 0 < D a b c | _ => True end -> edges_strict st c.
Proof.
  intros st. induction st as [| b st IH]; intros T A H F L; [exact I |].
  destruct st as [| a st]; [exact I |]. change (0 < D a b c /\ edges_strict (a :: st) c). split; [exact L |].
  destruct st as [| z st]; [exact I |].
  inversion H as [| ? ? Hb H']. inversion F as [| ? ? Fb F']. subst. destruct T as [T1 T2]. destruct A as [A1 A2].
  apply IH; auto.
  inversion A1 as [| ? ? BA A1']. inversion A1' as [| ? ? BZ _]. subst. destruct A2 as [A2 _]. inversion A2 as [| ? ? AZ _]. subst.
  inversion H' as [| ? ? Ha H'']. inversion F' as [| ? ? Fa F'']. subst.
  assert (a <> p) as NA by (apply (not_pole z a b); auto).
  assert (0 < D p a b) as B by (apply (apart z a b c); auto).
  pose proof (plucker z a b c) as PL.
  destruct (Rlt_le_dec 0 (D p a c)) as [G | G].
  - apply (pos_of (D p a b)); [lra |]. rewrite PL. assert (0 <= D p z a * D a b c) by nra. assert (0 < D p a c * D z a b) by nra. lra.
  - exfalso. apply (half_line a b c); auto; [exact c_ne | lra].
Qed.
Lemma strict_left : forall st q, edges_strict st q -> edges_left st q.
Proof.
  intros st q. induction st as [| b st IH]; [auto |]. destruct st as [| a st]; [auto |]. intros [X Y]. split; [lra | apply IH, Y].
Qed.
Lemma fan : forall a m b, D p m b * D a b c = D p a b * D m b c + D p b c * D a m b.
Proof.
  intros. pose proof (plucker a b m c) as H. rewrite (D_swap23 p b m), (D_swap23 a b m), (D_swap b m c) in H. lra.
Qed.
Lemma triples_new : forall st, turns st -> angular st -> triples st -> Forall V st -> Forall (fun q => 0 <= D p q c) st ->
  match st with b :: a :: _ => 0 < D a b c | _ => True end -> pairs (fun b a => 0 <= D a b c) st.
Proof.
  intros st T A TR H F L.
  assert (edges_strict st c) as ES by (apply edges_new; auto). clear L.
  induction st as [| b st IH]; [exact I |]. split.
  + destruct st as [| m st]; [constructor |]. destruct ES as [E1 ES]. constructor; [lra |].
    destruct st as [| z st]; [constructor |]. destruct T as [T1 T2]. destruct A as [A1 A2]. destruct TR as [TR1 TR2].
    inversion A1 as [| ? ? BM A1']. subst. destruct A2 as [A2 _]. inversion A2 as [| ? ? MZ _]. subst.
    inversion F as [| ? ? Fb F']. inversion F' as [| ? ? Fm _]. subst. inversion A1' as [| ? ? BZ _]. subst.
    inversion H as [| ? ? _ H']. inversion H' as [| ? ? Hm _]. subst.
    assert (m <> p) as NM by (apply (not_pole z m b); auto).
    assert (0 < D p m b) as B by (apply (apart z m b c); auto).
    destruct TR1 as [TR1 _]. rewrite Forall_forall in TR1, A1' |- *. intros a IA.
    specialize (TR1 a IA). specialize (A1' a IA). cbn beta in TR1, A1'.
    apply (nonneg_of (D p m b)); [exact B |]. rewrite fan. nra.
  + apply IH; [destruct st as [| m [| z st]]; [exact I | exact I | apply T] | apply A | apply TR | inversion H; assumption | inversion F; assumption |].
    destruct st as [| m st]; [exact I | apply ES].
Qed.
Lemma fan_low : forall a b q, D p a b * D b c q = D p b c * D a b q + D p q b * D a b c.
Proof.
  intros. pose proof (plucker q b a c) as H. rewrite (D_swap23 p b a), (D_swap q b c), (D_rot b q c), (D_swap q c b), (D_rot c q b), (D_rot q b c), (D_rot b a c) in H.
  rewrite (D_rot q b a), (D_swap b a q) in H. rewrite (D_rot a c b), (D_swap c b a), (D_rot b c a), (D_rot c a b) in H. lra.
Qed.
Lemma fan_high : forall b t q, D p b t * D b c q = D p b c * D b t q - D p b q * D b t c.
Proof.
  intros. pose proof (plucker q b t c) as H. rewrite (D_swap23 p q b), (D_rot q b c), (D_rot q b t) in H. lra.
Qed.

(** The vertices before c are left of the new edge. *)
Lemma old_left : forall pre a b r, inv (pre ++ b :: a :: r) dn -> 0 < D a b c ->
  (pre = [] \/ exists pre' t, pre = pre' ++ [t] /\ D b t c <= 0) -> forall q, In q dn -> 0 <= D b c q.
Proof.
  intros pre a b r [IB IT ITR IA II IH IE IP IF] L PR q IQ.
  assert (turns (b :: a :: r)) as T by (apply (turns_suffix pre); exact IT).
  assert (angular (b :: a :: r)) as A by (apply (pairs_suffix _ pre); exact IA).
  assert (forall x, In x (b :: a :: r) -> In x dn) as ID by (intros x X; apply II, in_or_app; right; exact X).
  rewrite Forall_forall in c_after, IE, IF, IH.
  assert (0 <= D p b c) as BC by (apply c_after, ID; left; reflexivity).
  assert (0 <= D p a c) as AC by (apply c_after, ID; right; left; reflexivity).
  assert (0 <= D a b q) as ABQ by (specialize (IE q IQ); apply edges_suffix in IE; apply IE).
  destruct A as [A1 A2]. inversion A1 as [| ? ? AB A1']. subst.
  assert (bottom (b :: a :: r)) as BO by (apply (bottom_suffix pre); [exact IB | cbn; lia]).
  destruct (Rlt_le_dec (D p q b) 0) as [QB | QB].
  - assert (0 < D p b q) as BQ by (rewrite D_swap23; lra).
    destruct PR as [-> | (pre' & t & -> & BT)].
    + cbn [app] in IP. rewrite Forall_forall in IP. specialize (IP q IQ). cbn beta in IP. lra.
    + rewrite <- app_assoc in IT, IA, IE. cbn [app] in IT, IA, IE.
      assert (turns (t :: b :: a :: r)) as [T3 _] by (apply (turns_suffix pre'); exact IT).
      assert (angular (t :: b :: a :: r)) as [A3 _] by (apply (pairs_suffix _ pre'); exact IA). inversion A3; subst.
      assert (0 <= D b t q) as BTQ by (specialize (IE q IQ); apply edges_suffix in IE; apply IE).
      assert (0 < D p b t) as P by (apply (apart_q a b t q); auto).
      apply (nonneg_of (D p b t)); [exact P |]. rewrite fan_high. nra.
  - destruct r as [| z r].
    + destruct BO as [m E]. destruct m as [| x [| y m]]; [| discriminate | destruct m; discriminate].
      cbn in E. injection E as -> ->. destruct (IF q IQ) as [-> | [-> | S]].
      * rewrite <- D_rot. exact BC.
      * rewrite D_same13. lra.
      * rewrite D_swap23 in S. lra.
    + destruct A2 as [A2 _]. inversion A2 as [| ? ? AZ _]. subst. inversion A1' as [| ? ? BZ _]. subst. destruct T as [T1 _].
      assert (a <> p) as NA by (apply (not_pole z a b); auto).
      assert (0 < D p a b) as P by (apply (apart z a b c); auto; apply IH, ID; right; left; reflexivity).
      apply (nonneg_of (D p a b)); [exact P |]. rewrite fan_low. nra.
Qed.

Lemma step_inv : forall pre a b r, inv (pre ++ b :: a :: r) dn -> 0 < D a b c ->
  (pre = [] \/ exists pre' t, pre = pre' ++ [t] /\ D b t c <= 0) -> inv (c :: b :: a :: r) (c :: dn).
Proof.
  intros pre a b r VV L PR. pose proof (old_left pre a b r VV L PR) as OL. destruct VV as [IB IT ITR IA II IH IE IP IF].
  assert (turns (b :: a :: r)) as T by (apply (turns_suffix pre); exact IT).
  assert (angular (b :: a :: r)) as A by (apply (pairs_suffix _ pre); exact IA).
  assert (triples (b :: a :: r)) as TR by (apply (triples_suffix pre); exact ITR).
  assert (incl (b :: a :: r) dn) as ID by (intros x X; apply II, in_or_app; right; exact X).
  assert (Forall V (b :: a :: r)) as HH by (apply Forall_forall; intros x X; rewrite Forall_forall in IH; apply IH, ID, X).
  assert (Forall (fun q => 0 <= D p q c) (b :: a :: r)) as CA by (apply Forall_forall; intros x X; rewrite Forall_forall in c_after; apply c_after, ID, X).
  constructor.
  - destruct (bottom_suffix pre (b :: a :: r) IB) as [m E]; [cbn; lia |]. exists (c :: m). rewrite E. reflexivity.
  - split; assumption.
  - split; [apply triples_new; auto | exact TR].
  - split; assumption.
  - intros x [<- | X]; [left; reflexivity | right; apply ID, X].
  - constructor; assumption.
  - constructor.
    + split; [rewrite D_same23; lra | apply strict_left, edges_new; auto].
    + apply Forall_forall. intros q IQ. split; [apply OL, IQ |]. rewrite Forall_forall in IE. specialize (IE q IQ). apply edges_suffix in IE. exact IE.
  - constructor; [rewrite D_same23; lra | assumption].
  - constructor; [auto | assumption].
Qed.
End Step.

(** The loop that removes the vertices that are not left turns. *)
Fixpoint pops_pt (st : list pt) (x : pt) : outcome (list pt) :=
  match st with
  | b :: ((a :: _) as rest) => if Rlt_dec 0 (D a b x) then Ok st else pops_pt rest x
  | _ => Raise IndexError
  end.
Lemma pops_shape : forall c st r, pops_pt st c = Ok r -> exists pre a b r', r = b :: a :: r' /\ st = pre ++ r /\ 0 < D a b c /\
  (pre = [] \/ exists pre' t, pre = pre' ++ [t] /\ D b t c <= 0).
Proof.
  intros c st. induction st as [| b st IH]; intros r H; [discriminate |]. destruct st as [| a st]; [discriminate |].
  change ((if Rlt_dec 0 (D a b c) then Ok (b :: a :: st) else pops_pt (a :: st) c) = Ok r) in H.
  destruct (Rlt_dec 0 (D a b c)) as [E | E].
  - injection H as <-. exists [], a, b, st. repeat split; auto.
  - apply Rnot_lt_le in E. destruct (IH r H) as (pre & a' & b' & r' & -> & S & L & PR). exists (b :: pre), a', b', r'.
    rewrite S. repeat split; auto. right. destruct PR as [-> | (pre' & t & -> & BT)].
    + cbn in S. injection S as -> ->. exists [], b. split; [reflexivity | exact E].
    + exists (b :: pre'), t. split; [reflexivity | exact BT].
Qed.
Lemma pops_ok : forall c st, bottom st -> 0 < D p s1 c -> exists r, pops_pt st c = Ok r.
Proof.
  intros c st. induction st as [| b st IH]; intros B C.
  - destruct B as [m E]. destruct m; discriminate.
  - destruct st as [| a st]; [destruct B as [[| ? [| ? ?]] E]; discriminate |].
    change (exists r, (if Rlt_dec 0 (D a b c) then Ok (b :: a :: st) else pops_pt (a :: st) c) = Ok r).
    destruct (Rlt_dec 0 (D a b c)) as [E | E]; [eexists; reflexivity |].
    destruct st as [| z st].
    + destruct B as [m EB]. destruct m as [| x [| y m]]; [| discriminate | destruct m; discriminate]. cbn in EB. injection EB as -> ->. contradiction.
    + apply IH; [apply (bottom_suffix [b]); [exact B | cbn; lia] | exact C].
Qed.

Fixpoint scan_pt (st : list pt) (l : list pt) : outcome (list pt) :=
  match l with
  | [] => Ok (rev st)
  | c :: l' => match pops_pt st c with Raise e => Raise e | Ok st' => scan_pt (c :: st') l' end
  end.
Definition next_ok (dn : list pt) (c : pt) : Prop := V c /\ Forall (fun q => 0 <= D p q c) dn /\ 0 < D p s1 c.
Fixpoint sorted_after (dn l : list pt) : Prop := match l with [] => True | c :: l' => next_ok dn c /\ sorted_after (c :: dn) l' end.
Lemma scan_ok : forall l st dn, inv st dn -> sorted_after dn l ->
  exists st', scan_pt st l = Ok (rev st') /\ inv st' (rev l ++ dn).
Proof.
  intros l. induction l as [| c l IH]; intros st dn VV S; cbn [scan_pt rev app].
  - exists st. split; [reflexivity | exact VV].
  - destruct S as [(H & A & F) S]. destruct (pops_ok c st) as [r P]; [apply VV | exact F |].
    rewrite P. destruct (pops_shape c st r P) as (pre & a & b & r' & -> & -> & L & PR).
    destruct (IH (c :: b :: a :: r') (c :: dn)) as (st' & E & V').
    + apply (step_inv dn c H A F pre); auto.
    + exact S.
    + exists st'. split; [exact E |]. rewrite <- app_assoc. exact V'.
Qed.
End Scan.
