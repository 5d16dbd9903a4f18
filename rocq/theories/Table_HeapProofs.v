From Coq Require Import List String Bool Arith Lia.
From Verif Require Import Table_Model Table_HeapModel.
Import ListNotations.
Local Open Scope list_scope.
Local Notation length := List.length.

Section Heap.
Context {val : Type} (vnone : val).
Implicit Types h : heap val.
Implicit Types o : op val.
Notation step := (step vnone).
Notation run := (run vnone).
Notation expected := (expected vnone).

(** No two table objects share a list. *)
Definition unshared (h : heap val) : Prop :=
  NoDup (map snd (tabs h)) /\ forall l, In l (map snd (tabs h)) -> l < length (store h).

Lemma list_set_nth {A} (l : list A) i a l' : list_set l i a = Some l' ->
  length l' = length l /\ nth_error l' i = Some a /\
  forall k, k <> i -> nth_error l' k = nth_error l k.
Proof.
  revert i l'. induction l as [|b l IH]; intros i l' H; [discriminate|].
  destruct i as [|i]; cbn in H.
  - injection H as <-. cbn. split; [reflexivity|]. split; [reflexivity|].
    intros [|k] K; [congruence|reflexivity].
  - destruct (list_set l i a) as [l1|] eqn:E; [|discriminate]. injection H as <-.
    destruct (IH i l1 E) as (A1&A2&A3). cbn. split; [lia|]. split; [exact A2|].
    intros [|k] K; [reflexivity|]. apply A3. lia.
Qed.

Lemma list_set_Some {A} (l : list A) i a b : nth_error l i = Some b ->
  exists l', list_set l i a = Some l'.
Proof.
  revert i. induction l as [|c l IH]; intros [|i] H; try discriminate; cbn.
  - eauto.
  - destruct (IH i H) as (l'&->). cbn. eauto.
Qed.

Lemma upd_nth_eq {A} (l : list A) i a b : nth_error l i = Some b ->
  nth_error (upd l i a) i = Some a.
Proof.
  intros H. unfold upd. destruct (list_set_Some l i a b H) as (l'&E). rewrite E.
  now apply list_set_nth in E.
Qed.

Lemma upd_nth_neq {A} (l : list A) i a k : k <> i ->
  nth_error (upd l i a) k = nth_error l k.
Proof.
  intros H. unfold upd. destruct (list_set l i a) as [l'|] eqn:E; [|reflexivity].
  apply list_set_nth in E as (_&_&E). now apply E.
Qed.

Lemma upd_length {A} (l : list A) i a : length (upd l i a) = length l.
Proof.
  unfold upd. destruct (list_set l i a) as [l'|] eqn:E; [|reflexivity].
  now apply list_set_nth in E.
Qed.

Lemma map_upd {A B} (g : A -> B) (l : list A) i a : map g (upd l i a) = upd (map g l) i (g a).
Proof.
  unfold upd. revert i. induction l as [|b l IH]; intros i; [reflexivity|].
  destruct i as [|i]; [reflexivity|]. cbn. specialize (IH i).
  destruct (list_set l i a), (list_set (map g l) i (g a)); cbn in *; congruence.
Qed.

Lemma In_upd {A} (l : list A) i a x : In x (upd l i a) -> x = a \/ In x l.
Proof.
  intros H. apply In_nth_error in H as (k&H). destruct (Nat.eq_dec k i) as [->|N].
  - destruct (nth_error l i) as [b|] eqn:E.
    + rewrite (upd_nth_eq l i a b E) in H. injection H as <-. now left.
    + exfalso. apply nth_error_None in E.
      assert (nth_error (upd l i a) i <> None) as K by congruence.
      apply nth_error_Some in K. rewrite upd_length in K. lia.
  - rewrite upd_nth_neq in H by exact N. right. eapply nth_error_In; eassumption.
Qed.

Lemma NoDup_upd (l : list nat) i a : NoDup l -> ~ In a l -> NoDup (upd l i a).
Proof.
  intros ND NI. apply NoDup_nth_error. intros x y Hx E.
  rewrite upd_length in Hx.
  destruct (Nat.eq_dec x i) as [->|Nx]; destruct (Nat.eq_dec y i) as [->|Ny]; auto.
  - destruct (nth_error l i) as [b|] eqn:Eb; [|apply nth_error_None in Eb; lia].
    rewrite (upd_nth_eq l i a b Eb), upd_nth_neq in E by exact Ny.
    exfalso. apply NI. eapply nth_error_In. symmetry; exact E.
  - destruct (nth_error l i) as [b|] eqn:Eb.
    + rewrite (upd_nth_eq l i a b Eb), upd_nth_neq in E by exact Nx.
      exfalso. apply NI. eapply nth_error_In. exact E.
    + rewrite upd_nth_neq in E by exact Nx.
      apply nth_error_None in Eb.
      assert (nth_error (upd l i a) i = None) as K by (apply nth_error_None; rewrite upd_length; lia).
      rewrite K in E. apply nth_error_None in E. lia.
  - rewrite !upd_nth_neq in E by assumption.
    apply (proj1 (NoDup_nth_error l) ND); assumption.
Qed.

Lemma unshared_alloc h t : unshared h -> unshared (alloc h t).
Proof.
  intros (A&B). unfold alloc, unshared. cbn. rewrite map_app. cbn. split.
  - rewrite <- rev_involutive at 1. apply NoDup_rev. rewrite rev_app_distr. cbn.
    constructor; [|now apply NoDup_rev].
    rewrite <- in_rev. intros H. apply B in H. lia.
  - intros l H. rewrite in_app_iff in H. rewrite app_length. cbn.
    destruct H as [H|[<-|[]]]; [apply B in H|]; lia.
Qed.

Lemma unshared_rebind h i t : unshared h -> unshared (rebind h i t).
Proof.
  intros (A&B). unfold rebind, unshared. cbn. rewrite map_upd. cbn. split.
  - apply NoDup_upd; [exact A|]. intros H. apply B in H. lia.
  - intros l H. apply In_upd in H. rewrite app_length. cbn.
    destruct H as [->|H]; [|apply B in H]; lia.
Qed.

Lemma unshared_mutate h i t : unshared h -> unshared (mutate h i t).
Proof.
  intros (A&B). unfold mutate. destruct (nth_error (tabs h) i) as [[fs l]|]; [|split; assumption].
  split; cbn; [exact A|]. intros l' H. rewrite upd_length. auto.
Qed.

Lemma unshared_step h o : ~ is_copy o -> unshared h -> unshared (step h o).
Proof.
  intros N U. destruct o; cbn [step is_copy] in *; try tauto.
  - destruct (table_of_rows rs fs); [now apply unshared_alloc|exact U].
  - destruct (view h i); [|exact U]. destruct (setfield t f vs) as [t' [e|]];
      [exact U|now apply unshared_rebind].
  - destruct (view h i); [|exact U]. destruct (view h j); [|exact U]. now apply unshared_mutate.
  - destruct (view h i); [|exact U]. now apply unshared_mutate.
  - destruct (view h i); [|exact U]. now apply unshared_mutate.
  - destruct (view h i); [|exact U]. destruct (updated _ _ _ _); [now apply unshared_alloc|exact U].
Qed.

Lemma unshared_run ops : (forall o, In o ops -> ~ is_copy o) -> unshared (run ops).
Proof.
  unfold run. assert (unshared empty_heap) as U by (split; [constructor|intros l []]).
  revert U. generalize (empty_heap : heap val). induction ops as [|o ops IH]; intros h U H; [exact U|].
  cbn. apply IH; [apply unshared_step; [apply H; now left|exact U]|].
  intros; apply H; now right.
Qed.

Lemma view_valid h i t : view h i = Some t ->
  exists l, nth_error (tabs h) i = Some (fields t, l) /\ nth_error (store h) l = Some (rows t).
Proof.
  unfold view. destruct (nth_error (tabs h) i) as [[fs l]|]; [|discriminate].
  destruct (nth_error (store h) l) as [rs|] eqn:E; [|discriminate].
  cbn. intros [= <-]. cbn. eauto.
Qed.

Lemma view_intro h i fs l rs : nth_error (tabs h) i = Some (fs, l) ->
  nth_error (store h) l = Some rs -> view h i = Some (mkT fs rs).
Proof. unfold view. now intros -> ->. Qed.

Lemma nth_error_app_old {A} (l l' : list A) i a :
  nth_error l i = Some a -> nth_error (l ++ l') i = Some a.
Proof.
  intros H. rewrite nth_error_app1; [exact H|]. apply nth_error_Some. congruence.
Qed.

Lemma view_alloc h t j u : view h j = Some u -> view (alloc h t) j = Some u.
Proof.
  intros H. apply view_valid in H as (l&E1&E2).
  replace u with (mkT (fields u) (rows u)) by (destruct u; reflexivity).
  eapply view_intro; cbn; apply nth_error_app_old; eassumption.
Qed.

Lemma view_rebind_other h i t j u : j <> i -> view h j = Some u ->
  view (rebind h i t) j = Some u.
Proof.
  intros N H. apply view_valid in H as (l&E1&E2).
  replace u with (mkT (fields u) (rows u)) by (destruct u; reflexivity).
  eapply view_intro; cbn; [rewrite upd_nth_neq by exact N; exact E1|].
  now apply nth_error_app_old.
Qed.

Lemma view_rebind_self h i t u : view h i = Some u -> view (rebind h i t) i = Some t.
Proof.
  intros H. apply view_valid in H as (l&E1&E2).
  replace t with (mkT (fields t) (rows t)) at 2 by (destruct t; reflexivity).
  eapply view_intro; cbn; [eapply upd_nth_eq; exact E1|].
  rewrite nth_error_app2, Nat.sub_diag by lia. reflexivity.
Qed.

Lemma view_mutate_other h i t j u : unshared h -> j <> i -> view h j = Some u ->
  view (mutate h i t) j = Some u.
Proof.
  intros (ND&_) N H. apply view_valid in H as (l&E1&E2). unfold mutate.
  replace u with (mkT (fields u) (rows u)) by (destruct u; reflexivity).
  destruct (nth_error (tabs h) i) as [[fs l']|] eqn:Ei;
    [|eapply view_intro; eassumption].
  eapply view_intro; cbn; [exact E1|]. rewrite upd_nth_neq; [exact E2|].
  intros ->. apply N.
  apply (proj1 (NoDup_nth_error _) ND).
  - rewrite map_length. apply nth_error_Some. congruence.
  - erewrite !map_nth_error by eassumption. reflexivity.
Qed.

Lemma view_mutate_self h i t u : view h i = Some u -> fields t = fields u ->
  view (mutate h i t) i = Some t.
Proof.
  intros H F. apply view_valid in H as (l&E1&E2). unfold mutate. rewrite E1.
  replace t with (mkT (fields t) (rows t)) at 2 by (destruct t; reflexivity).
  eapply view_intro; cbn; [rewrite F; exact E1|]. eapply upd_nth_eq; exact E2.
Qed.

Lemma fields_extend (t u : table val) : fields (fst (extend vnone t u)) = fields t.
Proof. unfold extend. destruct (extend_loop _ _ _ _ _). reflexivity. Qed.
Lemma fields_setitem (t : table val) k r : fields (fst (setitem t k r)) = fields t.
Proof. unfold setitem. destruct (list_set _ _ _); reflexivity. Qed.
Lemma fields_delitem (t : table val) k : fields (fst (delitem t k)) = fields t.
Proof. unfold delitem. destruct (k <? tlen t); reflexivity. Qed.
Lemma setfield_err (t : table val) f vs t' e : setfield t f vs = (t', Some e) -> t' = t.
Proof.
  unfold setfield. destruct (_ && _); [now intros [= <- _]|].
  destruct (tlen t =? 0); [discriminate|].
  destruct (index_of f (fields t)); [|discriminate].
  destruct (mapM _ _); [discriminate|]. now intros [= <- _].
Qed.

(** An operation changes its receiver as the pure function says, and nothing
    else, when no list is shared. *)
Lemma step_frame h o j t : unshared h -> view h j = Some t ->
  view (step h o) j = Some (if match receiver o with Some i => i =? j | None => false end
                            then expected h o t else t).
Proof.
  intros U V. destruct o; cbn [step receiver expected].
  - destruct (table_of_rows rs fs); [now apply view_alloc|exact V].
  - destruct (nth_error (tabs h) i); [|exact V].
    apply view_valid in V as (l&E1&E2).
    replace t with (mkT (fields t) (rows t)) by (destruct t; reflexivity).
    eapply view_intro; cbn; [apply nth_error_app_old|]; eassumption.
  - destruct (Nat.eqb_spec i j) as [->|N].
    + rewrite V. destruct (setfield t f vs) as [t' [e|]] eqn:E.
      * apply setfield_err in E. subst. exact V.
      * eapply view_rebind_self; exact V.
    + destruct (view h i); [|exact V]. destruct (setfield _ f vs) as [t' [e|]]; [exact V|].
      apply view_rebind_other; [congruence|exact V].
  - destruct (Nat.eqb_spec i j) as [->|N].
    + rewrite V. destruct (view h j0); [|exact V].
      eapply view_mutate_self; [exact V|apply fields_extend].
    + destruct (view h i); [|exact V]. destruct (view h j0); [|exact V].
      apply view_mutate_other; auto.
  - destruct (Nat.eqb_spec i j) as [->|N].
    + rewrite V. eapply view_mutate_self; [exact V|apply fields_setitem].
    + destruct (view h i); [|exact V]. apply view_mutate_other; auto.
  - destruct (Nat.eqb_spec i j) as [->|N].
    + rewrite V. eapply view_mutate_self; [exact V|apply fields_delitem].
    + destruct (view h i); [|exact V]. apply view_mutate_other; auto.
  - destruct (view h i); [|exact V]. destruct (updated _ _ _ _); [now apply view_alloc|exact V].
Qed.

End Heap.
