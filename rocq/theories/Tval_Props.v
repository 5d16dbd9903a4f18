(** C112: what the values in a table are to the methods that look at them.  Full statement:
    [Table(..., checktypes=True)] accepts the tables whose columns have one type each and no
    others; [asjson] is a JSON object that gives each column under its name; [Indexer] shows the
    same values by row and by column, also counted from the end; [in] agrees with iteration. *)
From Coq Require Import String.
From Coq Require Import List ZArith QArith Bool Arith.
From Verif Require Import Table_Model Table_Spec Tval_Model Tval_Spec Tval_Proofs Tval_Slice.
Import ListNotations.
Local Open Scope list_scope.

(** JSON. *)
Theorem C112_values : forall v j, encode v = Ok j <-> written v j.
Proof. exact encode_written. Qed.
Print Assumptions C112_values.
Theorem C112_asjson_partial : forall ord (t : table pval), rectangular t -> set_order ord (fields t) ->
  (forall r v, In r (rows t) -> In v r -> exists j, written v j) ->
  exists d, asjson ord t = Ok d /\ map fst d = ord /\
    forall f, In f (fields t) -> exists col js, getfield t f = Ok col /\ Forall2 written col js /\ dict_get d f = Some (JArr [JArr js]).
Proof. exact asjson_ok. Qed.
Print Assumptions C112_asjson_partial.
Theorem C112_asjson_error : forall ord (t : table pval) e, rectangular t -> set_order ord (fields t) -> asjson ord t = Err e -> e = TypeError.
Proof. exact asjson_error. Qed.
Print Assumptions C112_asjson_error.
(** [asjson] gives no column under its name: there is always a list of one list. *)
Theorem C112_asjson_refuted : forall ord (t : table pval) d f j, asjson ord t = Ok d -> dict_get d f = Some j -> exists col, j = JArr [JArr col].
Proof. exact asjson_nested. Qed.
Print Assumptions C112_asjson_refuted.

(** The check of types. *)
Theorem C112_checked_same : forall t u, checked t = Ok u -> u = t.
Proof. exact checked_same. Qed.
Print Assumptions C112_checked_same.
(** With checktypes=True every table that holds an ordinary value is a TypeError, however
    uniform it is: the arguments of isinstance are exchanged. *)
Theorem C112_checktypes_refuted : forall t r v, rectangular t -> In r (rows t) -> In v r -> ordinary v -> checked t = Err TypeError.
Proof. exact checked_ordinary. Qed.
Print Assumptions C112_checktypes_refuted.
(** With checktypes=True a table without rows is an IndexError. *)
Theorem C112_checktypes_empty_refuted : forall t, rows t = [] -> checked t = Err IndexError.
Proof. exact checked_empty. Qed.
Print Assumptions C112_checktypes_empty_refuted.
(** The check accepts a column with a class and a tuple in it. *)
Theorem C112_checktypes_mixed_refuted : exists t, rectangular t /\ checked t = Ok t /\ ~ uniform t.
Proof.
  exists (mkT ["a"%string] [[PClass CObject]; [PTuple [PClass CType]]]). split; [repeat constructor|]. split; [reflexivity|].
  intros U. specialize (U [PClass CObject] [PTuple [PClass CType]] 0%nat _ _ (or_introl eq_refl) (or_intror (or_introl eq_refl)) eq_refl eq_refl). discriminate.
Qed.
Print Assumptions C112_checktypes_mixed_refuted.

(** The indexer. *)
Theorem C112_indexer_agrees : forall val (vnone : val) (t : table val) z d f col, rectangular t -> NoDup (fields t) ->
  indexer (Some t) (KInt z) = Ok (Entry d) -> indexer (Some t) (KStr f) = Ok (Column col) ->
  forall v, dict_get d f = Some v <-> item col z v.
Proof. exact indexer_agrees. Qed.
Print Assumptions C112_indexer_agrees.
Theorem C112_indexer_int : forall val (vnone : val) (t : table val) z, rectangular t ->
  ((- Z.of_nat (tlen t) <= z < Z.of_nat (tlen t))%Z -> exists d, indexer (Some t) (KInt z) = Ok (Entry d)) /\
  (~ (- Z.of_nat (tlen t) <= z < Z.of_nat (tlen t))%Z -> indexer (Some t) (KInt z) = Err IndexError).
Proof. exact indexer_int. Qed.
Print Assumptions C112_indexer_int.
Theorem C112_indexer_str : forall val (vnone : val) (t : table val) f, rectangular t ->
  (In f (fields t) -> exists col, indexer (Some t) (KStr f) = Ok (Column col) /\ List.length col = tlen t) /\
  (~ In f (fields t) -> indexer (Some t) (KStr f) = Err KeyError).
Proof. exact indexer_str. Qed.
Print Assumptions C112_indexer_str.
(** A slice gives, under every field and in the order of the slice, the values of the column at its
    positions. *)
Theorem C112_indexer_slice : forall val (vnone : val) (t : table val) ids, rectangular t -> NoDup (fields t) ->
  (forall i, In i ids -> (i < tlen t)%nat) ->
  exists d, indexer (Some t) (KSlice ids) = Ok (Entries d) /\ map fst d = fields t /\
  forall f col, indexer (Some t) (KStr f) = Ok (Column col) ->
    exists vs, dict_get d f = Some vs /\ List.length vs = List.length ids /\
    forall n i, nth_error ids n = Some i -> nth_error vs n = nth_error col i.
Proof. exact indexer_slice. Qed.
Print Assumptions C112_indexer_slice.

(** [in]. *)
Theorem C112_contains : forall t s, contains t (PStr s) = true <-> In s (fields t).
Proof. exact contains_fields. Qed.
Print Assumptions C112_contains.
(** A row of the table, as iteration gives it, is not in the table. *)
Theorem C112_contains_refuted : forall (t : table pval) r, In r (rows t) -> contains t (PTuple r) = false.
Proof. reflexivity. Qed.
Print Assumptions C112_contains_refuted.

Local Open Scope string_scope.
Definition ex_t : table pval := mkT ["a"; "b"] [[PInt 1; PStr "x"]; [PNpInt 2; PNone]; [PArray [PNpFloat (1 # 2)]; PList [PInt 3; PTuple [PBool true]]]].
Example C112_case : rectangular ex_t /\ set_order ["b"; "a"] (fields ex_t) /\ NoDup (fields ex_t) /\
  (forall r v, In r (rows ex_t) -> In v r -> exists j, written v j) /\
  asjson ["b"; "a"] ex_t = Ok [("b", JArr [JArr [JStr "x"; JNull; JArr [JInt 3; JArr [JBool true]]]]); ("a", JArr [JArr [JInt 1; JInt 2; JFloat (1 # 2)]])] /\
  indexer (Some ex_t) (KInt (-2)) = Ok (Entry [("a", PNpInt 2); ("b", PNone)]) /\
  indexer (Some ex_t) (KStr "b") = Ok (Column [PStr "x"; PNone; PList [PInt 3; PTuple [PBool true]]]) /\
  indexer (Some ex_t) (KSlice [2; 0]%nat) = Ok (Entries [("a", [PArray [PNpFloat (1 # 2)]; PInt 1]); ("b", [PList [PInt 3; PTuple [PBool true]]; PStr "x"])]) /\
  indexer (Some ex_t) KOther = Err KeyError /\ indexer (@None (table pval)) (KStr "a") = Err KeyError.
Proof.
  split; [repeat constructor|]. split; [split; [repeat constructor; cbn; intuition discriminate|]; intros f; cbn; tauto|].
  split; [repeat constructor; cbn; intuition discriminate|]. split; [|repeat split; reflexivity].
  intros r v I J. assert (exists j, encode v = Ok j) as (j & E).
  { cbn in I. destruct I as [<-|[<-|[<-|[]]]]; cbn in J; destruct J as [<-|[<-|[]]]; eexists; reflexivity. }
  exists j. apply encode_written. exact E.
Qed.
Example C112_uniform_case : let t := mkT ["a"] [[PInt 1]; [PInt 2]] in
  rectangular t /\ uniform t /\ checked t = Err TypeError.
Proof.
  split; [repeat constructor|]. split; [|reflexivity]. intros r1 r2 i a b I1 I2 E1 E2. cbn in I1, I2.
  destruct I1 as [<-|[<-|[]]], I2 as [<-|[<-|[]]]; destruct i as [|i]; cbn in E1, E2; try (destruct i; discriminate); injection E1 as <-; injection E2 as <-; reflexivity.
Qed.
