(** Theorems on the records of multipart geometries (C35). *)
From Coq Require Import String List Arith.
From Verif Require Import Table_Model Table_Spec Multi_Model Multi_Spec Multi_Proofs Multi_MoreProofs Multi_Examples.
Import ListNotations.
Local Open Scope string_scope.
Local Open Scope list_scope.

(** C35. A multipart made of vertices without data, or with a column of the right length
    for every field, has one record per part. *)
Theorem C35_parts : forall (P val : Type) (vnone : val) (ps : list P) (d : data val) (pr : list (string * val)),
  (forall cols, d = DDict cols -> NoDup (map fst cols) /\ forall f vs, In (f, vs) cols -> List.length vs = List.length ps) ->
  (forall t, d <> DTable t) ->
  exists m, of_parts ps d pr = Ok m /\ parts m = ps /\ props m = pr /\ one_record_each m /\
    (forall cols, d = DDict cols -> fields (tbl m) = map fst cols /\ forall f vs, In (f, vs) cols -> getfield (tbl m) f = Ok vs) /\
    ((forall cols, d <> DDict cols) -> fields (tbl m) = []).
Proof. exact of_parts_ok. Qed.
Print Assumptions C35_parts.
Example C35_parts_example : of_parts [10; 20]%nat (DDict [("a", [1; 3]); ("b", [2; 4])]%nat) [("c", 9%nat)] = Ok two.
Proof. reflexivity. Qed.
(** A column of another length is refused, *)
Theorem C35_parts_checked : forall (P val : Type) (ps : list P) (cols : list (string * list val)) pr f vs,
  In (f, vs) cols -> List.length vs <> List.length ps -> of_parts ps (DDict cols) pr = Err ValueError.
Proof. exact of_parts_bad. Qed.
Print Assumptions C35_parts_checked.
(** a Table of another length is not: some members cannot be read and are left out of
    iteration. *)
Theorem C35_table_refuted : exists (t : table nat) (m : multi nat nat), of_parts [10; 20; 30]%nat (DTable t) [] = Ok m /\
  tlen (tbl m) <> List.length (parts m) /\
  getitem m 1 = Err IndexError /\ iterate m = Ok [mkM 10%nat [("a", 1%nat)]].
Proof. exact table_other_length. Qed.
Print Assumptions C35_table_refuted.

(** [m[i]] has part i; its properties are those of row i, unless the multipart has a
    property of the same name. *)
Theorem C35_member : forall (P val : Type) (vnone : val) (m : multi P val) i p, one_record_each m -> nth_error (parts m) i = Some p ->
  exists q, getitem m i = Ok q /\ mpart q = p /\
    forall k, exists v, cell m i k v /\
      dict_get (mprops q) k = match dict_get (props m) k with Some w => Some w | None => v end.
Proof. exact getitem_ok. Qed.
Print Assumptions C35_member.
Example C35_member_example : one_record_each two /\ getitem two 1 = Ok (mkM 20%nat [("a", 3%nat); ("b", 4%nat); ("c", 9%nat)]).
Proof. split; [exact two_ok|reflexivity]. Qed.
Theorem C35_member_range : forall (P val : Type) (vnone : val) (m : multi P val) i,
  one_record_each m -> List.length (parts m) <= i -> getitem m i = Err IndexError.
Proof. exact getitem_out. Qed.
Print Assumptions C35_member_range.
(** A property of the multipart hides a data field of the same name. *)
Theorem C35_override_refuted : one_record_each hidden /\ exists q, getitem hidden 0 = Ok q /\
  getfield (tbl hidden) "a" = Ok [1%nat] /\ dict_get (mprops q) "a" = Some 7%nat.
Proof. exact field_hidden. Qed.
Print Assumptions C35_override_refuted.

(** Iteration gives the members, each once and in order. *)
Theorem C35_iterate : forall (P val : Type) (vnone : val) (m : multi P val), one_record_each m ->
  exists ms, iterate m = Ok ms /\ List.length ms = List.length (parts m) /\
    forall i, i < List.length (parts m) -> exists q, nth_error ms i = Some q /\ getitem m i = Ok q.
Proof. exact iterate_ok. Qed.
Print Assumptions C35_iterate.

(** A slice has the members it selects. *)
Theorem C35_slice : forall (P val : Type) (vnone : val) (m : multi P val) ids, one_record_each m -> (forall i, In i ids -> i < List.length (parts m)) ->
  exists r, slice m ids ids = Ok r /\ restricted m r ids /\ fields (tbl r) = fields (tbl m) /\ props r = props m.
Proof. exact slice_ok. Qed.
Print Assumptions C35_slice.
Example C35_slice_example : slice two [1%nat] [1%nat] = Ok (mkMulti [20%nat] (mkT ["a"; "b"] [[3; 4]%nat]) [("c", 9%nat)] []).
Proof. reflexivity. Qed.

(** A subset (of [within_bbox] and the like) has the members it selects if the set of
    field names is iterated in the order of the fields. *)
Theorem C35_subset_partial : forall (P val : Type) (vnone : val) (m : multi P val) ids, one_record_each m -> (forall i, In i ids -> i < List.length (parts m)) ->
  exists r, subset (fields (tbl m)) m ids = Ok r /\ restricted m r ids /\ fields (tbl r) = fields (tbl m) /\ props r = props m.
Proof. exact subset_ok. Qed.
Print Assumptions C35_subset_partial.
(** In another order, the j-th column bears the name that comes j-th in that order. *)
Theorem C35_subset_names : forall (P val : Type) (vnone : val) ord (m : multi P val) ids, one_record_each m -> set_order ord (fields (tbl m)) ->
  (forall i, In i ids -> i < List.length (parts m)) ->
  exists r, subset ord m ids = Ok r /\ one_record_each r /\
    forall j f g, nth_error (fields (tbl m)) j = Some f -> nth_error ord j = Some g ->
      exists vs ws, getfield (tbl m) f = Ok vs /\ getfield (tbl r) g = Ok ws /\ List.length ws = List.length ids /\
        forall n i, nth_error ids n = Some i -> nth_error ws n = nth_error vs i.
Proof. exact subset_names. Qed.
Print Assumptions C35_subset_names.
Theorem C35_subset_refuted : one_record_each two /\ set_order swapped (fields (tbl two)) /\
  exists r p q, subset swapped two [1%nat] = Ok r /\ getitem two 1 = Ok p /\ getitem r 0 = Ok q /\
    mpart p = mpart q /\ dict_get (mprops p) "a" = Some 3%nat /\ dict_get (mprops q) "a" = Some 4%nat.
Proof. exact (conj two_ok (conj swapped_order subset_swaps)). Qed.
Print Assumptions C35_subset_refuted.

(** Made of geometries that have a property in common, and without [data]: member i has
    the coordinates of geometry i and its values of the common properties; the other
    properties are gone. *)
Theorem C35_points_partial : forall (P val : Type) (vnone : val) ord (ms : list (member P val)) pr,
  ms <> [] -> ord <> [] -> NoDup ord -> (forall k, In k ord <-> common ms k) ->
  exists m, of_members ord [] ms Absent pr = Ok m /\ one_record_each m /\ parts m = map mpart ms /\ props m = pr /\ fields (tbl m) = ord /\
    forall i p, nth_error ms i = Some p -> exists q, getitem m i = Ok q /\ mpart q = mpart p /\
      forall k, dict_get pr k = None ->
        (common ms k -> dict_get (mprops q) k = dict_get (mprops p) k) /\ (~ common ms k -> dict_get (mprops q) k = None).
Proof. exact of_members_absent. Qed.
Print Assumptions C35_points_partial.
Example C35_points_example : pts <> [] /\ (forall k, In k ["a"] <-> common pts k).
Proof. split; [discriminate|exact pts_common]. Qed.
(** With [data], the columns of [data] are kept beside the common properties. *)
Theorem C35_points_data_partial : forall (P val : Type) (vnone : val) ord ords (ms : list (member P val)) old pr,
  ms <> [] -> NoDup ord -> (forall k, In k ord <-> common ms k) ->
  old <> [] -> NoDup (map fst old) -> (forall f vs, In (f, vs) old -> List.length vs = List.length ms) -> set_order ords (map fst old) ->
  exists m, of_members ord ords ms (DDict old) pr = Ok m /\ one_record_each m /\ parts m = map mpart ms /\ props m = pr /\
    forall i p, nth_error ms i = Some p -> exists q, getitem m i = Ok q /\ mpart q = mpart p /\
      forall k, dict_get pr k = None ->
        (common ms k -> dict_get (mprops q) k = dict_get (mprops p) k) /\
        (~ common ms k -> (forall vs, In (k, vs) old -> dict_get (mprops q) k = nth_error vs i) /\
                          (~ In k (map fst old) -> dict_get (mprops q) k = None)).
Proof. exact of_members_data. Qed.
Print Assumptions C35_points_data_partial.
Example C35_points_data_example : exists m, of_members ["a"] ["x"] pts (DDict [("x", [7; 8]%nat)]) [] = Ok m /\
  getitem m 1 = Ok (mkM 20%nat [("a", 3%nat); ("x", 8%nat)]).
Proof. eexists. split; reflexivity. Qed.
Theorem C35_points_lost_refuted : exists p m q, nth_error pts 0 = Some p /\ dict_get (mprops p) "b" = Some 2%nat /\
  of_members ["a"] [] pts Absent [] = Ok m /\ getitem m 0 = Ok q /\ dict_get (mprops q) "a" = Some 1%nat /\ dict_get (mprops q) "b" = None.
Proof. exact (let '(ex_intro _ m (ex_intro _ q H)) := points_lose in ex_intro _ _ (ex_intro _ m (ex_intro _ q (conj eq_refl (conj eq_refl H))))). Qed.
Print Assumptions C35_points_lost_refuted.
(** Without a common property no member can be read at all, and iteration gives nothing,
    although the multipart has its length. *)
Theorem C35_no_common_refuted : forall (P val : Type) ords (ms : list (member P val)) pr, ms <> [] ->
  of_members [] [] ms Absent pr = Ok (mkMulti (map mpart ms) (mkT [] []) pr []) /\
  forall m, of_members [] ords ms Absent pr = Ok m -> iterate m = Ok [] /\ forall i, getitem m i = Err IndexError.
Proof. exact of_members_no_common. Qed.
Print Assumptions C35_no_common_refuted.
Example C35_no_common_example : (forall k, In k [] <-> common bare k) /\
  exists m, of_members [] [] bare Absent [] = Ok m /\ List.length (parts m) = 2%nat /\ iterate m = Ok [] /\ getitem m 0 = Err IndexError.
Proof. split; [exact bare_common|exact bare_unreadable]. Qed.

(** [m[i] = point] replaces member i (its properties that are fields, None for the fields
    it does not have) and leaves the others, if the set of field names is iterated in the
    order of the fields; *)
Theorem C35_set_point_partial : forall (P val : Type) (vnone : val) (m : multi P val) i p, one_record_each m -> i < List.length (parts m) ->
  exists r, set_point vnone (fields (tbl m)) m i p = (r, None) /\ one_record_each r /\
    List.length (parts r) = List.length (parts m) /\ fields (tbl r) = fields (tbl m) /\ props r = props m /\
    (exists q, getitem r i = Ok q /\ mpart q = mpart p /\
       forall k, dict_get (mprops q) k =
         match dict_get (props m) k with Some v => Some v | None =>
         if in_dec string_dec k (fields (tbl m)) then Some (match dict_get (mprops p) k with Some v => v | None => vnone end) else None end) /\
    forall j, j <> i -> getitem r j = getitem m j.
Proof. exact set_point_ok. Qed.
Print Assumptions C35_set_point_partial.
(** in another order the values get to other fields; *)
Theorem C35_set_point_refuted : one_record_each two /\ set_order swapped (fields (tbl two)) /\
  exists r q, set_point 0%nat swapped two 0 (mkM 30%nat [("a", 5%nat); ("b", 6%nat)]) = (r, None) /\ getitem r 0 = Ok q /\
  dict_get (mprops q) "a" = Some 6%nat.
Proof. exact (conj two_ok (conj swapped_order set_point_swaps)). Qed.
Print Assumptions C35_set_point_refuted.
(** and [m[i] = coordinates] makes a member of a multipart with fields unreadable, *)
Theorem C35_set_vertex_refuted : forall (P val : Type) (m : multi P val) i p r,
  set_vertex m i p = (r, None) -> fields (tbl m) <> [] -> getitem r i = Err TypeError.
Proof. exact set_vertex_reads. Qed.
Print Assumptions C35_set_vertex_refuted.
(** even if the coordinates are of another rank and the vertex is not changed. *)
Example C35_set_vertex_example : exists r, set_vertex two 0 None = (r, None) /\ parts r = parts two /\
  getitem r 0 = Err TypeError /\ iterate r = Err TypeError.
Proof. exact set_vertex_kept. Qed.

(** Merging multipoints and points: every member is there, in order, with its values of the
    fields and properties common to all; *)
Theorem C35_merge_partial : forall (P val : Type) (vnone : val) ord (xs : list (item P val)), xs <> [] ->
  Forall (fun x => match x with IMulti m => one_record_each m | IPoint _ => True end) xs ->
  intersection_order ord (map item_fields (map item_mapping xs)) ->
  exists r, merge_items vnone ord xs = Ok r /\ one_record_each r /\ parts r = flat_map item_parts xs /\ props r = [] /\
    forall pre x post, xs = pre ++ x :: post -> forall i p, nth_error (item_parts x) i = Some p ->
    exists q, getitem r (List.length (flat_map item_parts pre) + i) = Ok q /\ mpart q = p /\ forall k,
      ((forall y, In y xs -> In k (item_fields (item_mapping y))) ->
         match x with IMulti m => cell m i k (dict_get (mprops q) k) | IPoint a => dict_get (mprops q) k = dict_get (mprops a) k end) /\
      (~ (forall y, In y xs -> In k (item_fields (item_mapping y))) -> dict_get (mprops q) k = None).
Proof. exact merge_items_ok. Qed.
Print Assumptions C35_merge_partial.
(** the properties of the multipoints are lost. *)
Theorem C35_merge_refuted : one_record_each two /\
  exists r p q, merge_items 0%nat ["a"; "b"] [IMulti two; IPoint (mkM 30%nat [("b", 6%nat); ("a", 5%nat)])] = Ok r /\
  getitem two 0 = Ok p /\ getitem r 0 = Ok q /\ mpart p = mpart q /\ dict_get (mprops p) "c" = Some 9%nat /\ dict_get (mprops q) "c" = None.
Proof. exact (conj two_ok merge_loses). Qed.
Print Assumptions C35_merge_refuted.
Example C35_merge_example : intersection_order ["a"; "b"] (map item_fields (map item_mapping [IMulti two; IPoint (mkM 30%nat [("b", 6%nat); ("a", 5%nat)])])).
Proof.
  split; [apply two_ok|]. intros f. cbn. split.
  - intros [<-|[<-|[]]] l [<-|[<-|[]]]; cbn; tauto.
  - intros H. specialize (H _ (or_introl eq_refl)). exact H.
Qed.

(** Selecting lines or polygons by a box: the members keep their part and their properties
    if there is any (those of the multipart become data fields); *)
Theorem C35_select_partial : forall (P val : Type) (vnone : val) ord (m : multi P val) ids, one_record_each m -> (forall i, In i ids -> i < List.length (parts m)) ->
  fields (tbl m) ++ map fst (props m) <> [] -> set_order ord (fields (tbl m) ++ map fst (props m)) ->
  exists r, select ord m ids = Ok r /\ restricted m r ids /\ props r = [].
Proof. exact select_ok. Qed.
Print Assumptions C35_select_partial.
Example C35_select_example : set_order ["c"; "a"; "b"] (fields (tbl two) ++ map fst (props two)) /\
  exists r, select ["c"; "a"; "b"] two [1%nat] = Ok r /\ getitem r 0 = Ok (mkM 20%nat [("c", 9%nat); ("a", 3%nat); ("b", 4%nat)]).
Proof.
  split; [split; [repeat constructor; cbn; intuition discriminate|cbn; tauto]|]. eexists. split; reflexivity.
Qed.
(** if there is none, no member of the selection can be read. *)
Theorem C35_select_refuted : forall (P val : Type) (vnone : val) ord (m : multi P val) ids, one_record_each m ->
  (forall i, In i ids -> i < List.length (parts m)) -> ids <> [] -> fields (tbl m) = [] -> props m = [] -> (forall k, ~ In k ord) ->
  exists r, select ord m ids = Ok r /\ List.length (parts r) = List.length ids /\ iterate r = Ok [] /\ forall i, getitem r i = Err IndexError.
Proof. exact select_bare. Qed.
Print Assumptions C35_select_refuted.
Example C35_select_refuted_example : one_record_each plain /\ exists ms, iterate plain = Ok ms /\ List.length ms = 2%nat.
Proof. split; [exact plain_ok|]. eexists. split; reflexivity. Qed.
