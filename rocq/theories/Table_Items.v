(** Assignment and deletion of rows of a table. *)
From Coq Require Import String List Arith Lia.
From Verif Require Import Table_Model Table_Spec Table_Proofs.
Import ListNotations.
Local Open Scope list_scope.
Local Notation length := List.length.

Lemma list_set_some {A} (l : list A) i a : i < length l -> exists l', list_set l i a = Some l' /\ length l' = length l /\
  nth_error l' i = Some a /\ forall j, j <> i -> nth_error l' j = nth_error l j.
Proof.
  revert i. induction l as [|x l IH]; intros i H; cbn in H; [lia|]. destruct i as [|i]; cbn [list_set].
  - eexists. split; [reflexivity|]. split; [reflexivity|]. split; [reflexivity|]. intros [|j] N; [congruence|reflexivity].
  - destruct (IH i) as (l'&->&L&S&O); [lia|]. eexists. split; [reflexivity|]. cbn [length nth_error]. split; [now rewrite L|]. split; [exact S|].
    intros [|j] N; [reflexivity|]. apply O. congruence.
Qed.
Lemma list_set_none {A} (l : list A) i a : length l <= i -> list_set l i a = None.
Proof.
  revert i. induction l as [|x l IH]; intros i H; [destruct i; reflexivity|]. destruct i as [|i]; cbn in *; [lia|]. rewrite IH by lia. reflexivity.
Qed.
Lemma setitem_row {val} (t : table val) i r :
  (i < tlen t -> exists u, setitem t i r = (u, None) /\ fields u = fields t /\ tlen u = tlen t /\
     nth_error (rows u) i = Some r /\ forall j, j <> i -> nth_error (rows u) j = nth_error (rows t) j) /\
  (tlen t <= i -> setitem t i r = (t, Some IndexError)).
Proof.
  unfold setitem, tlen. split; intros H.
  - destruct (list_set_some (rows t) i r H) as (l&->&L&S&O). eexists. split; [reflexivity|]. cbn [fields rows]. auto.
  - rewrite list_set_none by exact H. reflexivity.
Qed.
Lemma delitem_row {val} (t : table val) i :
  (i < tlen t -> exists u a r b, delitem t i = (u, None) /\ fields u = fields t /\
     rows t = a ++ r :: b /\ length a = i /\ rows u = a ++ b) /\
  (tlen t <= i -> delitem t i = (t, Some IndexError)).
Proof.
  unfold delitem, tlen. split; intros H.
  - destruct (Nat.ltb_spec i (length (rows t))); [|lia].
    destruct (nth_error (rows t) i) as [r|] eqn:E; [|apply nth_error_None in E; lia].
    apply nth_error_split in E as (a&b&E&L). exists (mkT (fields t) (a ++ b)), a, r, b. subst i.
    split; [|auto]. rewrite E. f_equal. f_equal. rewrite firstn_app, Nat.sub_diag, firstn_all, app_nil_r. f_equal.
    replace (S (length a)) with (length (a ++ [r])) by (rewrite app_length; cbn; lia).
    replace (a ++ r :: b) with ((a ++ [r]) ++ b) by (rewrite <- app_assoc; reflexivity).
    rewrite skipn_app, skipn_all, Nat.sub_diag. reflexivity.
  - destruct (Nat.ltb_spec i (length (rows t))); [lia|reflexivity].
Qed.
