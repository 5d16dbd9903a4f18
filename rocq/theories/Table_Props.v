(** Properties C06-C09 and C49-C51: the metadata Table. *)
From Coq Require Import List String ZArith Bool Arith Lia Permutation.
From Verif Require Import Table_Model Table_Spec Table_Proofs
  Table_HeapModel Table_HeapProofs Table_Items.
Import ListNotations.
Local Open Scope string_scope.
Local Open Scope list_scope.
Local Notation length := List.length.

(** C06. setfield then getfield. *)
Theorem C06_setfield_column_store :
  forall (val : Type) (vnone : val) (t : table val) (f : string) (vs : list val),
  rectangular t -> tlen t <> 0 -> length vs = tlen t ->
  exists t', setfield t f vs = (t', None) /\ rectangular t' /\ tlen t' = tlen t /\
    fields t' = (if in_dec string_dec f (fields t) then fields t else fields t ++ [f]) /\
    getfield t' f = Ok vs /\
    forall g, g <> f -> getfield t' g = getfield t g.
Proof. exact @setfield_Ok. Qed.
Print Assumptions C06_setfield_column_store.

Theorem C06_setfield_wrong_length :
  forall (val : Type) (t : table val) (f : string) (vs : list val),
  tlen t <> 0 -> length vs <> tlen t -> setfield t f vs = (t, Some ValueError).
Proof. exact @setfield_wrong_length. Qed.
Print Assumptions C06_setfield_wrong_length.

Definition ex_t : table (option nat) :=
  mkT ["a"; "b"] [[Some 1; Some 2]; [Some 3; Some 4]; [Some 5; None]].
Definition ex_u : table (option nat) :=
  mkT ["b"; "c"] [[Some 7; Some 8]; [Some 9; Some 10]; [None; Some 12]].
Example C06_nonvacuous :
  rectangular ex_t /\ tlen ex_t <> 0 /\
  getfield (fst (setfield ex_t "c" [Some 0; None; Some 0])) "c" = Ok [Some 0; None; Some 0] /\
  getfield (fst (setfield ex_t "a" [Some 0; None; Some 0])) "b" = Ok [Some 2; Some 4; None].
Proof. split; [repeat constructor|]. split; [discriminate|]. split; reflexivity. Qed.

(** Finding: on a table without rows, setfield forgets the other fields. *)
Theorem C06_empty_table_refuted :
  exists (t t' : table nat) f,
    rectangular t /\ tlen t = 0 /\ In "a" (fields t) /\
    setfield t f [] = (t', None) /\ ~ In "a" (fields t').
Proof.
  exists (mkT ["a"] []), (mkT ["b"] []), "b".
  split; [constructor|]. split; [reflexivity|]. split; [now left|].
  split; [reflexivity|]. cbn. intros [K|[]]. discriminate.
Qed.
Print Assumptions C06_empty_table_refuted.

(** C07. extend appends by field name. *)
Theorem C07_extend_by_name :
  forall (val : Type) (vnone : val) (t u : table val),
  rectangular t -> rectangular u ->
  exists t', extend vnone t u = (t', None) /\ rectangular t' /\
    fields t' = fields t /\ firstn (tlen t) (rows t') = rows t /\
    tlen t' = tlen t + tlen u /\
    forall f old, getfield t f = Ok old ->
      (forall new, getfield u f = Ok new -> getfield t' f = Ok (old ++ new)) /\
      (~ In f (fields u) -> getfield t' f = Ok (old ++ repeat vnone (tlen u))).
Proof. exact @extend_Ok. Qed.
Print Assumptions C07_extend_by_name.

Example C07_nonvacuous :
  rectangular ex_t /\ rectangular ex_u /\
  getfield (fst (extend None ex_t ex_u)) "b" = Ok [Some 2; Some 4; None; Some 7; Some 9; None] /\
  getfield (fst (extend None ex_t ex_u)) "a" = Ok [Some 1; Some 3; Some 5; None; None; None].
Proof. split; [repeat constructor|]. split; [repeat constructor|]. split; reflexivity. Qed.

(** C08. updated, with a Table and with a dict of columns. *)
Theorem C08_updated_from_table :
  forall (val : Type) (vnone : val) ordm ords (self u : table val),
  rectangular self -> rectangular u -> tlen self <> 0 -> tlen u = tlen self ->
  set_order ordm (fields u) -> set_order ords (fields self) ->
  exists t', updated ordm ords self (MTable u) = Ok t' /\ rectangular t' /\
    tlen t' = tlen self /\ NoDup (fields t') /\
    (forall f, In f (fields t') <-> In f (fields u) \/ In f (fields self)) /\
    (forall f, In f (fields u) -> getfield t' f = getfield u f) /\
    (forall f, In f (fields self) -> ~ In f (fields u) -> getfield t' f = getfield self f).
Proof. exact @updated_table_Ok. Qed.
Print Assumptions C08_updated_from_table.

Theorem C08_updated_from_dict :
  forall (val : Type) (vnone : val) ordm ords (self : table val) (d : list (string * list val)),
  rectangular self -> tlen self <> 0 -> NoDup (map fst d) ->
  (forall f vs, In (f, vs) d -> length vs = tlen self) ->
  set_order ords (fields self) ->
  exists t', updated ordm ords self (MDict d) = Ok t' /\ rectangular t' /\
    tlen t' = tlen self /\ NoDup (fields t') /\
    (forall f, In f (fields t') <-> In f (map fst d) \/ In f (fields self)) /\
    (forall f vs, In (f, vs) d -> getfield t' f = Ok vs) /\
    (forall f, In f (fields self) -> ~ In f (map fst d) -> getfield t' f = getfield self f).
Proof. exact @updated_dict_Ok. Qed.
Print Assumptions C08_updated_from_dict.

Theorem C08_updated_bad_length :
  forall (val : Type) (vnone : val) ordm ords (self : table val) (m : mapping val),
  tlen self <> 0 ->
  match m with
  | MTable u => tlen u <> tlen self
  | MDict d => exists f vs, In (f, vs) d /\ length vs <> tlen self
  end ->
  updated ordm ords self m = Err ValueError.
Proof.
  intros val vnone ordm ords self [u|d] N H.
  - exact (updated_table_bad_length ordm ords self u N H).
  - exact (updated_dict_bad_length vnone ordm ords self d N H).
Qed.
Print Assumptions C08_updated_bad_length.

Example C08_nonvacuous :
  rectangular ex_t /\ rectangular ex_u /\ set_order ["c"; "b"] (fields ex_u) /\
  set_order ["b"; "a"] (fields ex_t) /\
  match updated ["c"; "b"] ["b"; "a"] ex_t (MTable ex_u) with
  | Ok t => fields t = ["c"; "b"; "a"] /\ getfield t "b" = Ok [Some 7; Some 9; None]
  | Err _ => False
  end.
Proof.
  split; [repeat constructor|]. split; [repeat constructor|].
  split; [|split; [|split; reflexivity]];
  (split; [repeat constructor; cbn; intuition discriminate|cbn; tauto]).
Qed.

(** Findings: a table without rows loses columns in updated, or raises for a
    legal argument. *)
Theorem C08_empty_table_refuted :
  (exists (t t' : table nat), rectangular t /\
     updated [] ["a"; "b"] t (MDict [("c", [])]) = Ok t' /\
     set_order ["a"; "b"] (fields t) /\ fields t' = ["b"]) /\
  (exists (t : table nat), rectangular t /\ tlen t = 0 /\
     set_order ["a"] (fields t) /\
     updated [] ["a"] t (MDict [("b", [1])]) = Err ValueError).
Proof.
  split.
  - exists (mkT ["a"; "b"] []), (mkT ["b"] []). split; [constructor|].
    split; [reflexivity|]. split; [|reflexivity].
    split; [repeat constructor; cbn; intuition discriminate|cbn; tauto].
  - exists (mkT ["a"] []). split; [constructor|]. split; [reflexivity|].
    split; [|reflexivity].
    split; [repeat constructor; cbn; intuition discriminate|cbn; tauto].
Qed.
Print Assumptions C08_empty_table_refuted.

(** C09. merge is an inner join on fields. *)
Theorem C09_merge_inner_join :
  forall (val : Type) (vnone : val) (ord : list string) (ms : list (mitem val)),
  ms <> [] -> Forall item_ok ms -> intersection_order ord (map item_fields ms) ->
  exists t, merge vnone ord ms = Ok t /\ rectangular t /\ NoDup (fields t) /\
    (forall f, In f (fields t) <-> forall m, In m ms -> In f (item_fields m)) /\
    forall f, In f (fields t) ->
      exists cols, Forall2 (contributes f) ms cols /\ getfield t f = Ok (List.concat cols).
Proof. exact @merge_Ok. Qed.
Print Assumptions C09_merge_inner_join.

Example C09_nonvacuous :
  let ms := [ITable ex_t; IDict [("c", Some 1); ("b", Some 20)]; ITable ex_u] in
  Forall item_ok ms /\ intersection_order ["b"] (map item_fields ms) /\
  merge None ["b"] ms =
    Ok (mkT ["b"] [[Some 2]; [Some 4]; [None]; [Some 20]; [Some 7]; [Some 9]; [None]]).
Proof.
  cbv zeta. split; [repeat constructor|]. split; [|reflexivity].
  split; [repeat constructor; cbn; tauto|]. intros f. cbn. split.
  - intros [<-|[]] l [<-|[<-|[<-|[]]]]; cbn; tauto.
  - intros H. pose proof (H _ (or_introl eq_refl)) as [<-|[<-|[]]]; [|tauto].
    pose proof (H _ (or_intror (or_introl eq_refl))) as [K|[K|[]]]; discriminate.
Qed.

(** C49. A Table built from a dict of equally long columns returns them. *)
Theorem C49_table_from_columns :
  forall (val : Type) (vnone : val) (d : list (string * list val)) (n : nat),
  NoDup (map fst d) -> (forall f vs, In (f, vs) d -> length vs = n) -> d <> [] ->
  exists t, table_of_dict (map (fun fv => (fst fv, Vec (snd fv))) d) = Ok t /\
    rectangular t /\ fields t = map fst d /\ tlen t = n /\
    forall f vs, In (f, vs) d -> getfield t f = Ok vs.
Proof. exact @table_of_dict_Ok. Qed.
Print Assumptions C49_table_from_columns.

Example C49_nonvacuous :
  table_of_dict [("a", Vec [1; 2]); ("b", Vec [3; 4])] = Ok (mkT ["a"; "b"] [[1; 3]; [2; 4]]).
Proof. reflexivity. Qed.

(** Findings: unequal columns are cut to the shortest without an error, and a
    dict of scalars gives one one-value row per field instead of one row. *)
Theorem C49_ragged_and_scalar_refuted :
  (exists t, table_of_dict [("a", Vec [1; 2; 3]); ("b", Vec [4])] = Ok t /\
     getfield t "a" = Ok [1]) /\
  (exists t, table_of_dict [("a", Scal 1); ("b", Scal 2)] = Ok t /\
     tlen t = 2 /\ ~ rectangular t /\ getfield t "b" = Err IndexError).
Proof.
  split.
  - eexists. split; reflexivity.
  - eexists. split; [reflexivity|]. split; [reflexivity|].
    split; [|reflexivity]. intros R. inversion R as [|? ? H _]. discriminate.
Qed.
Print Assumptions C49_ragged_and_scalar_refuted.

(** A Table built from a list has it as its only column; from the rows and the names of the
    fields, these rows; and a dict of a list and, later on, a scalar is refused. *)
Theorem C49_table_from_list : forall (val : Type) (vnone : val) (data : list val), data <> [] ->
  let t := table_of_list data in
  rectangular t /\ fields t = ["value"%string] /\ tlen t = length data /\ getfield t "value" = Ok data.
Proof. exact @table_of_list_Ok. Qed.
Print Assumptions C49_table_from_list.

Theorem C49_table_from_rows : forall (val : Type) (vnone : val) (data : list (list val)) (fs : list string),
  ((forall r, In r data -> length r = length fs) ->
     exists t, table_of_rows data fs = Ok t /\ rectangular t /\ fields t = fs /\ tlen t = length data /\
       forall i j r f v, NoDup fs -> nth_error data i = Some r -> nth_error r j = Some v -> nth_error fs j = Some f ->
         exists vs, getfield t f = Ok vs /\ nth_error vs i = Some v) /\
  (forall r data', data = r :: data' -> length r <> length fs -> table_of_rows data fs = Err ValueError).
Proof. exact @table_of_rows_Ok. Qed.
Print Assumptions C49_table_from_rows.

Theorem C49_scalar_among_columns : forall (val : Type) (f g : string) (vs : list val) (v : val) d d',
  table_of_dict ((f, Vec vs) :: d ++ (g, Scal v) :: d') = Err TypeError.
Proof. exact @table_of_dict_mixed. Qed.
Print Assumptions C49_scalar_among_columns.

Example C49_rows_nonvacuous :
  table_of_list [1; 2] = mkT ["value"] [[1]; [2]] /\
  table_of_rows [[1; 2]; [3; 4]] ["a"; "b"] = Ok (mkT ["a"; "b"] [[1; 2]; [3; 4]]).
Proof. split; reflexivity. Qed.

(** Finding: of the rows given only the first has its length checked. Reading the second
    column of a table with a shorter row then raises IndexError. *)
Theorem C49_rows_refuted : exists t, table_of_rows [[1; 2]; [3]] ["a"; "b"] = Ok t /\ ~ rectangular t /\ getfield t "b" = Err IndexError.
Proof. eexists. split; [reflexivity|]. split; [|reflexivity]. intros R. apply Forall_inv_tail, Forall_inv in R. discriminate. Qed.
Print Assumptions C49_rows_refuted.

(** C50. The row view and the column view of a table agree. *)
Theorem C50_row_and_column_views_agree :
  forall (val : Type) (vnone : val) (t : table val) (i : nat) row f vs,
  rectangular t -> NoDup (fields t) -> get t i = Ok row -> getfield t f = Ok vs ->
  dict_get row f = nth_error vs i.
Proof. exact @get_agrees. Qed.
Print Assumptions C50_row_and_column_views_agree.

Theorem C50_get_range :
  forall (val : Type) (vnone : val) (t : table val) (i : nat), rectangular t ->
  ((exists row, get t i = Ok row) <-> i < tlen t) /\
  (tlen t <= i -> get t i = Err IndexError).
Proof. exact @get_range. Qed.
Print Assumptions C50_get_range.

Example C50_nonvacuous :
  rectangular ex_t /\ NoDup (fields ex_t) /\
  get ex_t 1 = Ok [("a", Some 3); ("b", Some 4)] /\ getfield ex_t "b" = Ok [Some 2; Some 4; None].
Proof.
  split; [repeat constructor|]. split; [repeat constructor; cbn; intuition discriminate|].
  split; reflexivity.
Qed.

(** Finding: with a repeated field name the two views differ. *)
Theorem C50_repeated_field_refuted :
  exists (t : table nat) row vs, rectangular t /\
    get t 0 = Ok row /\ getfield t "a" = Ok vs /\ dict_get row "a" <> nth_error vs 0.
Proof.
  exists (mkT ["a"; "a"] [[1; 2]]). do 2 eexists. split; [repeat constructor|].
  split; [reflexivity|]. split; [reflexivity|]. discriminate.
Qed.
Print Assumptions C50_repeated_field_refuted.

(** C51. In any history of method calls without Table(t), a call changes its
    receiver as the pure functions above say and no other table. *)
Theorem C51_calls_change_only_their_receiver :
  forall (val : Type) (vnone : val) (history : list (op val)) (o : op val) (j : nat) t,
  (forall o', In o' history -> ~ is_copy o') ->
  view (run vnone history) j = Some t ->
  view (step vnone (run vnone history) o) j =
    Some (if match receiver o with Some i => Nat.eqb i j | None => false end
          then expected vnone (run vnone history) o t else t).
Proof.
  intros val vnone hist o j t H V.
  exact (step_frame vnone _ o j t (unshared_run vnone hist H) V).
Qed.
Print Assumptions C51_calls_change_only_their_receiver.

(** C51. Assignment replaces the row and no other, deletion takes it out and keeps the order of the
    others; past the last row both raise and change nothing. *)
Theorem C51_assigned_row : forall (val : Type) (t : table val) i r,
  (i < tlen t -> exists u, setitem t i r = (u, None) /\ fields u = fields t /\ tlen u = tlen t /\
     nth_error (rows u) i = Some r /\ forall j, j <> i -> nth_error (rows u) j = nth_error (rows t) j) /\
  (tlen t <= i -> setitem t i r = (t, Some IndexError)).
Proof. exact @setitem_row. Qed.
Print Assumptions C51_assigned_row.
Theorem C51_deleted_row : forall (val : Type) (t : table val) i,
  (i < tlen t -> exists u a r b, delitem t i = (u, None) /\ fields u = fields t /\
     rows t = a ++ r :: b /\ length a = i /\ rows u = a ++ b) /\
  (tlen t <= i -> delitem t i = (t, Some IndexError)).
Proof. exact @delitem_row. Qed.
Print Assumptions C51_deleted_row.

Example C51_nonvacuous :
  let hist := [OpNew ["a"] [[1]; [2]]; OpNew ["b"; "a"] [[3; 4]]; OpExtend 0 1;
               OpSetfield 1 "b" [7]; OpDelitem 0 0] in
  (forall o, In o hist -> ~ is_copy o) /\
  view (run 0 hist) 0 = Some (mkT ["a"] [[2]; [4]]) /\
  view (run 0 hist) 1 = Some (mkT ["b"; "a"] [[7; 4]]).
Proof.
  cbv zeta. split; [|split; reflexivity].
  intros o H. cbn in H. repeat (destruct H as [<-|H]; [intros []|]). destruct H.
Qed.

(** Finding: Table(t) shares its rows with t, so extending one changes the
    other. *)
Theorem C51_copy_shares_rows_refuted :
  exists (history : list (op nat)) o j t,
    view (run 0 history) j = Some t /\ receiver o <> Some j /\
    view (step 0 (run 0 history) o) j <> Some t.
Proof.
  exists [OpNew ["a"] [[1]]; OpCopy 0; OpNew ["a"] [[5]]], (OpExtend 0 2), 1, (mkT ["a"] [[1]]).
  split; [reflexivity|]. split; [discriminate|]. vm_compute. discriminate.
Qed.
Print Assumptions C51_copy_shares_rows_refuted.
