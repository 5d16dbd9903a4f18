(** Proofs about calls that raise. *)
From Coq Require Import List ZArith Bool Lia ZifyBool String.
From Verif Require Import Table_Model Table_Spec Table_Proofs Atom_Spec.
From Verif Require Multi_Model.
Import ListNotations.

Section T.
Variable val : Type.
Variable vnone : val.
Lemma setfield_atomic (t : table val) f vs : unchanged_if_raised t (setfield t f vs).
Proof.
  intros t' e. unfold setfield. destruct (negb (tlen t =? 0) && negb (List.length vs =? tlen t))%bool; [congruence |].
  destruct (tlen t =? 0); [discriminate |]. destruct (index_of f (fields t)); [| discriminate].
  destruct (mapM _ _); [discriminate | congruence].
Qed.
Lemma setitem_atomic (t : table val) i r : unchanged_if_raised t (setitem t i r).
Proof. intros t' e. unfold setitem. destruct (list_set (rows t) i r); [discriminate | congruence]. Qed.
Lemma delitem_atomic (t : table val) i : unchanged_if_raised t (delitem t i).
Proof. intros t' e. unfold delitem. destruct (i <? tlen t); [discriminate | congruence]. Qed.
Lemma extend_row_total fs ofs (r : list val) : List.length r = List.length ofs -> exists row, extend_row vnone fs ofs r = Ok row.
Proof.
  intros L. exists (map (fun f => match index_of f ofs with None => vnone | Some j => nth j r vnone end) fs).
  apply mapM_Ok. intros f _. destruct (index_of f ofs) as [j |] eqn:E; [| reflexivity].
  apply index_of_Some in E as [E _]. assert (j < List.length ofs) by (apply nth_error_Some; congruence).
  unfold row_get. rewrite (nth_error_nth' r vnone) by lia. reflexivity.
Qed.
Lemma extend_total (t other : table val) : rectangular other -> snd (extend vnone t other) = None.
Proof.
  unfold rectangular, extend. intros R. generalize (rows t). induction (rows other) as [| r rs IH]; intros acc; [reflexivity |].
  cbn [extend_loop]. destruct (extend_row_total (fields t) (fields other) r (Forall_inv R)) as [row ->]. apply IH, (Forall_inv_tail R).
Qed.
(** What an extension that raised leaves: the rows before the short one have been added. *)
Lemma extend_loop_prefix fs ofs (rs : list (list val)) : forall acc acc' e, extend_loop vnone fs ofs rs acc = (acc', e) -> exists new, acc' = acc ++ new /\ List.length new <= List.length rs.
Proof.
  induction rs as [| r rs IH]; intros acc acc' e H; cbn [extend_loop] in H.
  - injection H as <- <-. exists []. rewrite app_nil_r. split; [reflexivity | apply le_n].
  - destruct (extend_row vnone fs ofs r) as [row | e'].
    + destruct (IH _ _ _ H) as (new & -> & L). exists (row :: new). rewrite <- app_assoc. split; [reflexivity | cbn; lia].
    + injection H as <- <-. exists []. rewrite app_nil_r. split; [reflexivity | cbn; lia].
Qed.
Lemma extend_prefix (t other t' : table val) e : extend vnone t other = (t', e) ->
  fields t' = fields t /\ firstn (tlen t) (rows t') = rows t /\ tlen t' <= tlen t + tlen other.
Proof.
  unfold extend, tlen. destruct (extend_loop _ _ _ _ _) as [d e'] eqn:E. intros H. injection H as <- <-. cbn [fields rows].
  destruct (extend_loop_prefix _ _ _ _ _ _ E) as (new & -> & L). split; [reflexivity |]. split.
  - rewrite firstn_app, firstn_all, Nat.sub_diag. cbn. apply app_nil_r.
  - rewrite app_length. lia.
Qed.
End T.

Section M.
Import Multi_Model.
Variables P val : Type.
Variable vnone : val.
Lemma list_set_None {A} (l : list A) : forall i a, Table_Model.list_set l i a = None <-> List.length l <= i.
Proof.
  induction l as [| b l IH]; intros i a; cbn [Table_Model.list_set List.length]; [split; [lia | reflexivity] |].
  destruct i as [| i]; [split; [discriminate | lia] |]. specialize (IH i a). destruct (Table_Model.list_set l i a); cbn [option_map]; split; intros H; try discriminate; try reflexivity.
  - assert (X : Some l0 = None) by (apply IH; lia). discriminate X.
  - assert (List.length l <= i) by (apply IH; reflexivity). lia.
Qed.
Lemma set_point_atomic ord (m : multi P val) i p : tlen (tbl m) = List.length (parts m) -> unchanged_if_raised m (set_point vnone ord m i p).
Proof.
  intros L m' e. unfold set_point. destruct (Table_Model.list_set (parts m) i (mpart p)) eqn:E; [| congruence].
  unfold Table_Model.setitem. destruct (Table_Model.list_set (rows (tbl m)) i _) eqn:E2; [discriminate |].
  apply list_set_None in E2. unfold tlen in L. rewrite L in E2. assert (X : Table_Model.list_set (parts m) i (mpart p) = None) by (apply list_set_None; assumption). congruence.
Qed.
Lemma set_vertex_atomic (m : multi P val) i p : tlen (tbl m) = List.length (parts m) -> unchanged_if_raised m (set_vertex m i p).
Proof.
  intros L m' e. unfold set_vertex. destruct p as [p |].
  - destruct (Table_Model.list_set (parts m) i p) eqn:E; [| congruence]. destruct (i <? tlen (tbl m)) eqn:F; [discriminate |].
    apply Nat.ltb_ge in F. rewrite L in F. assert (X : Table_Model.list_set (parts m) i p = None) by (apply list_set_None; assumption). congruence.
  - destruct (i <? tlen (tbl m)); [discriminate |]. destruct m; cbn. congruence.
Qed.
End M.

Lemma going_on_accepted {S E C : Type} (run : C -> S -> S * option E) (inv : S -> Prop) :
  (forall c s, inv s -> unchanged_if_raised s (run c s)) -> (forall c s s', inv s -> run c s = (s', None) -> inv s') ->
  forall calls s, inv s -> going_on run calls s = going_on run (accepted run calls s) s /\
    accepted run (accepted run calls s) s = accepted run calls s.
Proof.
  intros At Pr. induction calls as [| c cs IH]; intros s I; [split; reflexivity |]. cbn [accepted going_on fold_left].
  destruct (run c s) as [s' [e |]] eqn:R; cbn [fst].
  - pose proof (At c s I _ _ R) as ->. apply (IH s I).
  - destruct (IH s' (Pr c s s' I R)) as [A B]. cbn [accepted going_on fold_left]. rewrite R. cbn [fst]. split; [exact A | now rewrite B].
Qed.
