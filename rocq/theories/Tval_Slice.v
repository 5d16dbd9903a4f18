(** Slices of the indexer. *)
From Coq Require Import String.
From Coq Require Import List ZArith Bool Arith Lia.
From Verif Require Import Table_Model Table_Spec Table_Proofs Multi_Model Multi_Spec Multi_Proofs Tval_Model Tval_Spec.
Import Table_Model.
Import ListNotations.
Local Open Scope list_scope.
Local Notation length := List.length.

Lemma dict_get_in {A} (d : list (string * A)) k : In k (map fst d) -> exists v, dict_get d k = Some v /\ In (k, v) d.
Proof.
  induction d as [|[k' v'] d IH]; cbn [map fst In dict_get]; [tauto|]. intros [->|I].
  - destruct (dict_get d k) as [w|] eqn:E; [|rewrite String.eqb_refl; eauto].
    exists w. split; [reflexivity|]. right. destruct (in_dec string_dec k (map fst d)) as [J|J].
    + destruct (IH J) as (u&U&V). injection U as ->. exact V.
    + exfalso. revert E. clear -J. induction d as [|[a b] d IH]; cbn [dict_get map fst In] in *; [discriminate|].
      destruct (dict_get d k); [intros X; apply IH; [tauto|exact X]|]. destruct (String.eqb_spec k a); [subst; tauto|discriminate].
  - destruct (IH I) as (v&E&J). rewrite E. eauto.
Qed.
Theorem indexer_slice : forall val (vnone : val) (t : table val) ids, rectangular t -> NoDup (fields t) ->
  (forall i, In i ids -> (i < tlen t)%nat) ->
  exists d, indexer (Some t) (KSlice ids) = Ok (Entries d) /\ map fst d = fields t /\
  forall f col, indexer (Some t) (KStr f) = Ok (Column col) ->
    exists vs, dict_get d f = Some vs /\ length vs = length ids /\
    forall n i, nth_error ids n = Some i -> nth_error vs n = nth_error col i.
Proof.
  intros val vnone t ids R N H.
  destruct (get_slice_ok unit val vnone (mkMulti (repeat tt (tlen t)) t [] []) ids) as (d&E&F&G).
  - split; [cbn [parts tbl]; rewrite repeat_length; reflexivity|]. split; [exact R|]. split; [exact N|reflexivity].
  - intros i I. cbn [parts]. rewrite repeat_length. exact (H i I).
  - cbn [tbl] in *. exists d. cbn [indexer]. rewrite E. cbn [bind]. split; [reflexivity|]. split; [exact F|].
    intros f col C. destruct (getfield t f) as [c|] eqn:K; [|discriminate]. cbn [bind] in C. injection C as <-.
    destruct (dict_get_in d f) as (vs&Ev&Iv); [rewrite F; exact (getfield_Ok_In _ _ _ K)|].
    exists vs. split; [exact Ev|]. destruct (G f vs Iv) as (L&c'&K'&X). split; [exact L|]. rewrite K in K'. injection K' as <-. exact X.
Qed.
