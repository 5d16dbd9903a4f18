(** More proofs about multipart records: assignment, merging, selection. *)
From Coq Require Import String List Bool Arith Lia Sorted Permutation.
From Verif Require Import Table_Model Table_Spec Table_Proofs Multi_Model Multi_Spec Multi_Proofs.
Import ListNotations.
Local Open Scope list_scope.

Section Proofs.
Variables P val : Type.
Variable vnone : val.
Notation multi := (multi P val).
Notation member := (member P val).
Notation dict := (list (string * val)).
Notation cellv := (Table_Proofs.cellv vnone).

(* ---- from geometries, with data *)
Lemma of_members_data ord ords (ms : list member) old pr : ms <> [] -> NoDup ord -> (forall k, In k ord <-> common ms k) ->
  old <> [] -> NoDup (map fst old) -> (forall f vs, In (f, vs) old -> length vs = length ms) -> set_order ords (map fst old) ->
  exists m, of_members ord ords ms (DDict old) pr = Ok m /\ one_record_each m /\ parts m = map mpart ms /\ props m = pr /\
    forall i p, nth_error ms i = Some p -> exists q, getitem m i = Ok q /\ mpart q = mpart p /\
      forall k, dict_get pr k = None ->
        (common ms k -> dict_get (mprops q) k = dict_get (mprops p) k) /\
        (~ common ms k -> (forall vs, In (k, vs) old -> dict_get (mprops q) k = nth_error vs i) /\
                          (~ In k (map fst old) -> dict_get (mprops q) k = None)).
Proof.
  intros NE ND HO NOld NDo LO SO. destruct (merge_properties_ok P val ord ms) as (cols&E&F&V); [intros k; apply HO|].
  assert (LV : forall k vs, In (k, vs) cols -> length vs = length ms).
  { intros k vs I. apply V in I. apply (f_equal (@length _)) in I. unfold column in I. now rewrite !map_length in I. }
  destruct (table_of_dict_Ok vnone old (length ms) NDo LO NOld) as (t&Et&Rt&Ft&Lt&Gt).
  assert (NZ : length ms <> 0) by (destruct ms; [congruence|discriminate]).
  destruct (updated_dict_Ok vnone [] ords t cols) as (t'&Eu&Ru&Lu&Nu&Fu&Gu&Ou).
  { exact Rt. } { now rewrite Lt. } { now rewrite F. } { intros f vs I. rewrite Lt. now apply (LV f). } { now rewrite Ft. }
  destruct ms as [|p0 ms0]; [congruence|]. remember (p0 :: ms0) as ms eqn:Ems.
  assert (OM : of_members ord ords ms (DDict old) pr = Ok (mkMulti (map mpart ms) t' pr [])).
  { transitivity (bind (merge_properties ord (map mprops ms)) (fun cols => bind (base_table (DDict old)) (fun t =>
      bind (updated [] ords t (MDict cols)) (fun t' => Ok (mkMulti (map mpart ms) t' pr []))))); [rewrite Ems; reflexivity|].
    rewrite E. cbn [bind base_table]. unfold columns. rewrite Et. cbn [bind]. now rewrite Eu. }
  rewrite OM. set (m := mkMulti (map mpart ms) t' pr []).
  assert (W : one_record_each m).
  { split; [unfold m; cbn; rewrite map_length; congruence|]. split; [exact Ru|]. split; [exact Nu|reflexivity]. }
  exists m. split; [reflexivity|]. split; [exact W|]. split; [reflexivity|]. split; [reflexivity|]. intros i p Ep.
  assert (GC : forall k vs, In (k, vs) cols -> getfield (tbl m) k = Ok vs) by (intros; now apply Gu).
  destruct (members_read P val vnone m ms ord cols W eq_refl F V GC i p Ep) as (q&Eq&Pq&Kq).
  exists q. split; [exact Eq|]. split; [exact Pq|]. intros k N. destruct (Kq k N) as (A&B).
  split; [intros C; apply A; now apply HO|]. intros C.
  destruct B as (v&Cv&->); [intros I; apply C; now apply HO|]. split.
  - intros vs I. destruct Cv as [(ws&X&<-)|(X&->)].
    + cbn [m tbl] in X. rewrite Ou in X.
      * rewrite (Gt _ _ I) in X. now injection X as <-.
      * rewrite Ft. apply in_map_iff. exists (k, vs). auto.
      * rewrite F. intros I'. apply C. now apply HO.
    + exfalso. apply X. apply Fu. right. rewrite Ft. apply in_map_iff. exists (k, vs). auto.
  - intros NI. destruct Cv as [(ws&X&_)|(_&->)]; [|reflexivity]. exfalso.
    apply getfield_Ok_In in X. apply Fu in X. rewrite F, Ft in X. destruct X as [X|X]; [apply C; now apply HO|contradiction].
Qed.

(* ---- selection of lines and polygons *)
Lemma getitems_ok (m : multi) ids : one_record_each m -> (forall i, In i ids -> i < length (parts m)) ->
  exists ms, mapM (getitem m) ids = Ok ms /\ length ms = length ids /\
    (forall j i, nth_error ids j = Some i -> exists p, nth_error ms j = Some p /\ getitem m i = Ok p) /\
    forall p, In p ms -> map fst (mprops p) = fields (tbl m) ++ map fst (props m).
Proof.
  intros W. induction ids as [|i ids IH]; intros H.
  - exists []. split; [reflexivity|]. split; [reflexivity|]. split; [intros [|j] i E; discriminate|intros p []].
  - destruct IH as (ms&E&L&A&B); [intros; apply H; now right|]. assert (I := H i (or_introl eq_refl)).
    destruct (row_some P val m i W I) as (r&Er). destruct (nth_error (parts m) i) as [p|] eqn:Ep; [|apply nth_error_None in Ep; lia].
    assert (G := getitem_row P val vnone m i r p W Er Ep). cbn [mapM]. rewrite G. cbn [bind]. rewrite E. cbn [bind].
    eexists. split; [reflexivity|]. split; [cbn; now rewrite L|]. split.
    + intros [|j] i' E'; cbn [nth_error] in *; [injection E' as <-; eauto|now apply A].
    + intros q [<-|I']; [|now apply B]. cbn [mprops]. rewrite map_app. f_equal.
      assert (LR : length r = length (fields (tbl m))) by (apply (rect_row (tbl m)); [apply W|exact (nth_error_In _ _ Er)]).
      clear -LR. revert r LR. induction (fields (tbl m)) as [|f fs IHf]; intros r LR; [reflexivity|].
      destruct r as [|v r]; [discriminate|]. cbn [combine map fst]. f_equal. apply IHf. cbn in LR. lia.
Qed.
Lemma select_ok ord (m : multi) ids : one_record_each m -> (forall i, In i ids -> i < length (parts m)) ->
  fields (tbl m) ++ map fst (props m) <> [] -> set_order ord (fields (tbl m) ++ map fst (props m)) ->
  exists r, select ord m ids = Ok r /\ restricted m r ids /\ props r = [].
Proof.
  intros W H NE (ND&SO). destruct (getitems_ok m ids W H) as (ms&E&L&A&B). unfold select. rewrite E. cbn [bind].
  destruct ids as [|i0 ids0].
  - destruct ms; [|discriminate]. eexists. split; [reflexivity|]. split; [|reflexivity].
    split; [apply (one_sized P val [] [])|]. split; [reflexivity|]. intros [|j] i X; discriminate.
  - remember (i0 :: ids0) as ids.
    assert (NM : ms <> []) by (intros ->; rewrite Heqids in L; discriminate).
    assert (C : forall k, In k ord <-> common ms k).
    { intros k. rewrite SO. unfold common. split; [intros I p Ip; now rewrite (B p Ip)|].
      intros X. destruct ms as [|p ms]; [congruence|]. rewrite <- (B p (or_introl eq_refl)). apply X. now left. }
    destruct (of_members_absent P val vnone ord ms [] NM) as (r&Er&Wr&Pr&Rr&_&Kr).
    { intros ->. apply NE. destruct (fields (tbl m) ++ map fst (props m)) as [|k l]; [reflexivity|]. exfalso. apply (proj2 (SO k)). now left. }
    { exact ND. } { exact C. }
    exists r. split; [exact Er|]. split; [|exact Rr]. split; [exact Wr|]. split; [rewrite Pr, map_length; exact L|].
    intros j i Ej. destruct (A j i Ej) as (p&Ep&Gp). destruct (Kr j p Ep) as (q&Gq&Pq&Kq).
    exists p, q. split; [exact Gp|]. split; [exact Gq|]. split; [congruence|]. intros k. destruct (Kq k eq_refl) as (K1&K2).
    destruct (in_dec string_dec k ord) as [I|N]; [symmetry; apply K1; now apply C|].
    rewrite K2 by (now rewrite <- C). apply dict_get_notin. rewrite (B p (nth_error_In _ _ Ep)). now rewrite <- SO.
Qed.
Lemma select_bare ord (m : multi) ids : one_record_each m -> (forall i, In i ids -> i < length (parts m)) -> ids <> [] ->
  fields (tbl m) = [] -> props m = [] -> (forall k, ~ In k ord) ->
  exists r, select ord m ids = Ok r /\ length (parts r) = length ids /\ iterate r = Ok [] /\ forall i, getitem r i = Err IndexError.
Proof.
  intros W H NI F0 P0 NO. destruct ord as [|k ord]; [|exfalso; apply (NO k); now left].
  destruct (getitems_ok m ids W H) as (ms&E&L&_). unfold select. rewrite E. cbn [bind].
  assert (NM : ms <> []) by (intros ->; destruct ids; [congruence|discriminate]).
  destruct (of_members_no_common P val [] ms [] NM) as (A&B). eexists. split; [exact A|]. split; [cbn; rewrite map_length; exact L|]. exact (B _ A).
Qed.

(* ---- assignment *)
Lemma list_set_ok {A} (l : list A) i a : i < length l ->
  exists l', list_set l i a = Some l' /\ length l' = length l /\ nth_error l' i = Some a /\ (forall j, j <> i -> nth_error l' j = nth_error l j) /\
    forall b, In b l' -> b = a \/ In b l.
Proof.
  revert i. induction l as [|b l IH]; intros i H; [cbn in H; lia|]. destruct i as [|i]; cbn [list_set].
  - eexists. split; [reflexivity|]. split; [reflexivity|]. split; [reflexivity|]. split.
    + intros [|j] J; [congruence|reflexivity].
    + intros c [<-|I]; [now left|right; now right].
  - destruct (IH i) as (l'&E&L&N&O&I); [cbn in H; lia|]. rewrite E. cbn [option_map]. eexists. split; [reflexivity|].
    split; [cbn; now rewrite L|]. split; [exact N|]. split.
    + intros [|j] J; [reflexivity|]. cbn. apply O. lia.
    + intros c [<-|Ic]; [right; now left|]. destruct (I c Ic) as [->|]; [now left|right; now right].
Qed.
Lemma set_point_ok (m : multi) i p : one_record_each m -> i < length (parts m) ->
  exists r, set_point vnone (fields (tbl m)) m i p = (r, None) /\ one_record_each r /\
    length (parts r) = length (parts m) /\ fields (tbl r) = fields (tbl m) /\ props r = props m /\
    (exists q, getitem r i = Ok q /\ mpart q = mpart p /\
       forall k, dict_get (mprops q) k =
         match dict_get (props m) k with Some v => Some v | None =>
         if in_dec string_dec k (fields (tbl m)) then Some (match dict_get (mprops p) k with Some v => v | None => vnone end) else None end) /\
    forall j, j <> i -> getitem r j = getitem m j.
Proof.
  intros W H. assert (W' := W). destruct W' as (L&R&ND&G).
  destruct (list_set_ok (parts m) i (mpart p) H) as (ps&Ep&Lp&Np&Op&_).
  set (row := map (fun f => match dict_get (mprops p) f with Some v => v | None => vnone end) (fields (tbl m))).
  destruct (list_set_ok (rows (tbl m)) i row) as (rs&Er&Lr&Nr&Or&Ir); [fold (tlen (tbl m)); lia|].
  unfold set_point. rewrite Ep. fold row. unfold setitem. rewrite Er.
  set (r := mkMulti ps (mkT (fields (tbl m)) rs) (props m) (filter (fun j => negb (j =? i)) (gens m))).
  assert (W2 : one_record_each r).
  { split; [unfold r, tlen; cbn; unfold tlen in L; lia|]. split; [|split; [exact ND|cbn; now rewrite G]].
    apply Forall_forall. cbn. intros x I. destruct (Ir x I) as [->|I']; [unfold row; now rewrite map_length|].
    exact (rect_row (tbl m) x R I'). }
  exists r. split; [reflexivity|]. split; [exact W2|]. split; [exact Lp|]. split; [reflexivity|]. split; [reflexivity|]. split.
  - rewrite (getitem_row P val vnone r i row (mpart p) W2 Nr Np). eexists. split; [reflexivity|]. split; [reflexivity|].
    intros k. cbn [mprops]. cbn [r tbl fields props]. rewrite dict_get_app. destruct (dict_get (props m) k) as [v|]; [reflexivity|].
    destruct (in_dec string_dec k (fields (tbl m))) as [I|N].
    + destruct (index_of_In k _ I) as (j&Ej). apply (dict_get_pairs _ _ _ j); auto.
      * unfold row. apply index_of_Some in Ej as (Ej&_). exact (map_nth_error _ j _ Ej).
      * unfold row. apply map_length.
    + apply dict_get_notin. intros X. apply N. apply in_map_iff in X as ([a b]&<-&X). exact (in_combine_l _ _ _ _ X).
  - intros j J. unfold getitem, record. rewrite G. cbn [r gens tbl parts props]. rewrite G. cbn [filter existsb].
    rewrite Op by exact J. unfold get. cbn [rows fields]. now rewrite Or by exact J.
Qed.
Lemma set_vertex_reads (m : multi) i p r : set_vertex m i p = (r, None) -> fields (tbl m) <> [] -> getitem r i = Err TypeError.
Proof.
  unfold set_vertex. intros H N. assert (X : forall ps : list P, getitem (mkMulti ps (tbl m) (props m) (i :: gens m)) i = Err TypeError).
  { intros ps. unfold getitem, record. cbn [gens existsb tbl]. rewrite Nat.eqb_refl. cbn [orb]. destruct (fields (tbl m)); [congruence|reflexivity]. }
  destruct p as [p|].
  - destruct (list_set (parts m) i p) as [ps|]; [|discriminate]. destruct (i <? tlen (tbl m)); [|discriminate]. injection H as <-. apply X.
  - destruct (i <? tlen (tbl m)); [|discriminate]. injection H as <-. apply X.
Qed.

(* ---- merging *)
Definition item_len (x : mitem val) : nat := match x with ITable t => tlen t | IDict _ => 1 end.
Lemma extend_loop_len fs ofs : forall orows acc d, extend_loop vnone fs ofs orows acc = (d, None) -> length d = length acc + length orows.
Proof.
  induction orows as [|r rest IH]; cbn [extend_loop]; intros acc d H; [injection H as <-; cbn; lia|].
  destruct (extend_row vnone fs ofs r); [|discriminate]. apply IH in H. rewrite H, app_length. cbn. lia.
Qed.
Lemma merge_loop_len ms : forall t t', merge_loop vnone t ms = Ok t' -> tlen t' = tlen t + list_sum (map item_len ms).
Proof.
  induction ms as [|x ms IH]; cbn [merge_loop]; intros t t' H; [injection H as <-; cbn; lia|].
  destruct x as [u|d].
  - unfold extend in H. destruct (extend_loop vnone (fields t) (fields u) (rows u) (rows t)) as [d [e|]] eqn:E; [discriminate|].
    apply extend_loop_len in E. apply IH in H. rewrite H. cbn [map item_len list_sum fold_right]. unfold tlen in *. cbn [rows]. unfold list_sum. lia.
  - apply IH in H. rewrite H. cbn [map item_len list_sum fold_right]. unfold tlen in *. cbn [rows]. rewrite app_length. cbn [length]. unfold list_sum. lia.
Qed.
Definition item_one (x : item P val) : Prop := match x with IMulti m => one_record_each m | IPoint _ => True end.
Lemma items_len (xs : list (item P val)) : Forall item_one xs ->
  length (flat_map item_parts xs) = list_sum (map item_len (map item_mapping xs)).
Proof.
  induction 1 as [|x xs H F IH]; [reflexivity|]. cbn [flat_map map]. rewrite app_length, IH. destruct x as [m|p]; cbn; [|reflexivity].
  destruct H as (L&_). now rewrite L.
Qed.
Lemma contributes_len f (x : item P val) col : item_one x -> contributes f (item_mapping x) col -> length col = length (item_parts x).
Proof.
  destruct x as [m|p]; cbn; [|intros _ (v&_&->); reflexivity]. intros (L&_) H. apply getfield_Ok_length in H. congruence.
Qed.
Lemma merge_items_ok ord (xs : list (item P val)) : xs <> [] -> Forall item_one xs ->
  intersection_order ord (map item_fields (map item_mapping xs)) ->
  exists r, merge_items vnone ord xs = Ok r /\ one_record_each r /\ parts r = flat_map item_parts xs /\ props r = [] /\
    forall pre x post, xs = pre ++ x :: post -> forall i p, nth_error (item_parts x) i = Some p ->
    exists q, getitem r (length (flat_map item_parts pre) + i) = Ok q /\ mpart q = p /\ forall k,
      ((forall y, In y xs -> In k (item_fields (item_mapping y))) ->
         match x with IMulti m => cell m i k (dict_get (mprops q) k) | IPoint a => dict_get (mprops q) k = dict_get (mprops a) k end) /\
      (~ (forall y, In y xs -> In k (item_fields (item_mapping y))) -> dict_get (mprops q) k = None).
Proof.
  intros NE F1 IO.
  destruct (merge_Ok vnone ord (map item_mapping xs)) as (t&E&R&ND&Ft&Gt).
  { destruct xs; [congruence|discriminate]. }
  { apply Forall_forall. intros y I. apply in_map_iff in I as (x&<-&I). rewrite Forall_forall in F1. specialize (F1 x I). destruct x; cbn in *; [apply F1|exact Logic.I]. }
  { exact IO. }
  destruct xs as [|x0 xs0]; [congruence|]. remember (x0 :: xs0) as xs eqn:Exs.
  assert (EM : merge_items vnone ord xs = Ok (mkMulti (flat_map item_parts xs) t [] [])).
  { transitivity (bind (merge vnone ord (map item_mapping xs)) (fun t => of_parts (flat_map item_parts xs) (DTable t) [])); [rewrite Exs; reflexivity|]. now rewrite E. }
  set (r := mkMulti (flat_map item_parts xs) t [] []) in *.
  assert (LT : tlen t = length (flat_map item_parts xs)).
  { rewrite (items_len xs F1). unfold merge in E. destruct (map item_mapping xs) as [|y ys]; [discriminate|].
    apply merge_loop_len in E. exact E. }
  assert (W : one_record_each r) by (split; [exact LT|split; [exact R|split; [exact ND|reflexivity]]]).
  exists r. split; [exact EM|]. split; [exact W|]. split; [reflexivity|]. split; [reflexivity|].
  intros pre x post Ex i p Ep.
  assert (EP : nth_error (parts r) (length (flat_map item_parts pre) + i) = Some p).
  { cbn [r parts]. rewrite Ex, flat_map_app. rewrite nth_error_app2 by lia. replace (_ + i - _) with i by lia. cbn [flat_map].
    rewrite nth_error_app1; [exact Ep|]. apply nth_error_Some. congruence. }
  destruct (getitem_ok P val vnone r _ p W EP) as (q&Eq&Pq&Kq). exists q. split; [exact Eq|]. split; [exact Pq|].
  intros k. destruct (Kq k) as (v&Cv&Dv). cbn [r props dict_get] in Dv.
  assert (CF : (forall y, In y xs -> In k (item_fields (item_mapping y))) <-> In k (fields t)).
  { rewrite Ft. split; intros X y I; [apply in_map_iff in I as (z&<-&I); now apply X|apply X; now apply in_map]. }
  split; intros C.
  - apply CF in C. destruct (Gt k C) as (cols&FC&GC).
    destruct Cv as [(vs&X&Xv)|(X&_)]; [|contradiction]. cbn [r tbl] in X. rewrite GC in X. injection X as <-.
    rewrite Dv, <- Xv. clear Xv Dv Kq.
    assert (F1' := F1). rewrite Ex in FC, F1'. rewrite map_app in FC. cbn [map] in FC.
    apply Forall2_app_inv_l in FC as (c1&c2&FC1&FC2&->). inversion FC2 as [|y c ys cs Hx FC3]; subst y ys c2.
    assert (LC : length (concat c1) = length (flat_map item_parts pre)).
    { apply Forall_app in F1' as (F1p&_). clear -FC1 F1p. revert c1 FC1. induction F1p as [|y pre Hy F IH]; intros c1 FC1.
      - inversion FC1. reflexivity.
      - inversion FC1 as [|a b l l' Hc FC1']; subst. cbn [concat flat_map]. rewrite !app_length, (IH l' FC1'). f_equal.
        exact (contributes_len k y b Hy Hc). }
    rewrite concat_app. rewrite nth_error_app2 by lia. replace (_ + i - _) with i by lia. cbn [concat].
    assert (Hx1 : item_one x) by (apply Forall_app in F1' as (_&F1q); now inversion F1q).
    assert (Lc := contributes_len k x c Hx1 Hx).
    rewrite nth_error_app1 by (rewrite Lc; apply nth_error_Some; congruence).
    destruct x as [m|a]; cbn in Hx |- *.
    + left. eauto.
    + destruct Hx as (w&Hw&->). cbn in Ep. destruct i as [|i]; [|destruct i; discriminate]. cbn. now rewrite Hw.
  - rewrite Dv. destruct Cv as [(vs&X&_)|(_&->)]; [|reflexivity]. exfalso. apply C, CF. exact (getfield_Ok_In _ _ _ X).
Qed.

(* ---- selection of points *)
Lemma insert_perm n l : Permutation (insert n l) (n :: l).
Proof.
  induction l as [|a l IH]; cbn [insert]; [reflexivity|]. destruct (n <=? a); [reflexivity|].
  rewrite IH. apply perm_swap.
Qed.
Lemma isort_perm l : Permutation (isort l) l.
Proof. induction l as [|a l IH]; [reflexivity|]. cbn [isort fold_right]. rewrite insert_perm. now apply perm_skip. Qed.
Lemma insert_sorted n l : StronglySorted le l -> StronglySorted le (insert n l).
Proof.
  induction 1 as [|a l S IH F]; cbn [insert]; [repeat constructor|]. destruct (Nat.leb_spec n a).
  - constructor; [now constructor|]. constructor; [exact H|]. eapply Forall_impl; [|exact F]. intros; lia.
  - constructor; [exact IH|]. apply Forall_forall. intros x I. apply (Permutation_in _ (insert_perm n l)) in I.
    destruct I as [<-|I]; [lia|]. rewrite Forall_forall in F. now apply F.
Qed.
Lemma isort_sorted l : NoDup l -> StronglySorted lt (isort l).
Proof.
  intros ND. assert (S : StronglySorted le (isort l)).
  { clear ND. induction l as [|a l IH]; [constructor|]. cbn [isort fold_right]. now apply insert_sorted. }
  assert (ND' : NoDup (isort l)) by (apply (Permutation_NoDup (Permutation_sym (isort_perm l))); exact ND).
  clear ND. induction S as [|a l' S IH F]; [constructor|]. inversion ND' as [|? ? Na ND2]; subst.
  constructor; [now apply IH|]. apply Forall_forall. intros x I. rewrite Forall_forall in F. specialize (F x I).
  destruct (Nat.eq_dec a x); [subst; contradiction|lia].
Qed.
Lemma sorted_unique l : forall l', StronglySorted lt l -> StronglySorted lt l' -> (forall i, In i l <-> In i l') -> l = l'.
Proof.
  induction l as [|a l IH]; intros [|b l'] S S' H.
  - reflexivity.
  - exfalso. apply (proj2 (H b)). now left.
  - exfalso. apply (proj1 (H a)). now left.
  - inversion S as [|? ? S1 F1]; inversion S' as [|? ? S2 F2]; subst. rewrite Forall_forall in F1, F2.
    assert (a = b) as ->.
    { destruct (proj1 (H a) (or_introl eq_refl)) as [|I]; [congruence|]. destruct (proj2 (H b) (or_introl eq_refl)) as [|J]; [congruence|].
      specialize (F1 b J). specialize (F2 a I). lia. }
    f_equal. apply IH; auto. intros i. split; intros I.
    + destruct (proj1 (H i) (or_intror I)) as [<-|]; [|assumption]. specialize (F1 _ I). lia.
    + destruct (proj2 (H i) (or_intror I)) as [<-|]; [|assumption]. specialize (F2 _ I). lia.
Qed.
(** The positions of the elements that pass. *)
Fixpoint wheres (b : P -> bool) (i : nat) (l : list P) : list nat :=
  match l with [] => [] | p :: l' => if b p then i :: wheres b (S i) l' else wheres b (S i) l' end.
Lemma wheres_in b l : forall i j, In j (wheres b i l) <-> exists p, i <= j /\ nth_error l (j - i) = Some p /\ b p = true.
Proof.
  induction l as [|p l IH]; intros i j.
  - cbn [wheres In]. split; [tauto|]. intros (p&_&E&_). destruct (j - i); discriminate.
  - assert (X : In j (wheres b i (p :: l)) <-> (b p = true /\ j = i) \/ In j (wheres b (S i) l)).
    { cbn [wheres]. destruct (b p); cbn [In]; [intuition congruence|]. intuition discriminate. }
    rewrite X, IH. split.
    + intros [(B&->)|(q&H&E&B)].
      * exists p. rewrite Nat.sub_diag. auto.
      * exists q. split; [lia|]. replace (j - i) with (S (j - S i)) by lia. auto.
    + intros (q&H&E&B). destruct (Nat.eq_dec j i) as [->|N].
      * rewrite Nat.sub_diag in E. injection E as ->. now left.
      * right. exists q. split; [lia|]. replace (j - i) with (S (j - S i)) in E by lia. auto.
Qed.
Lemma wheres_sorted b l : forall i, StronglySorted lt (wheres b i l).
Proof.
  induction l as [|p l IH]; intros i; cbn [wheres]; [constructor|]. destruct (b p); [|apply IH]. constructor; [apply IH|].
  apply Forall_forall. intros j I. apply wheres_in in I as (q&H&_). lia.
Qed.
Lemma wheres_positions b l : positions (fun p => b p = true) l (wheres b 0 l).
Proof.
  split; [apply wheres_sorted|]. intros i. rewrite wheres_in. rewrite Nat.sub_0_r. split.
  - intros (p&_&H). eauto.
  - intros (p&H). exists p. split; [lia|exact H].
Qed.
Lemma passing_ok (test : P -> res bool) b : forall (ms : list member) i, (forall p, In p ms -> test (mpart p) = Ok (b (mpart p))) ->
  passing test i ms = Ok (wheres b i (map mpart ms)).
Proof.
  induction ms as [|p ms IH]; intros i H; [reflexivity|]. cbn [passing map wheres]. rewrite (H p) by now left. cbn [bind].
  rewrite IH by (intros; apply H; now right). cbn [bind]. now destruct (b (mpart p)).
Qed.
Lemma nth_ext' {A} (l : list A) : forall l', (forall i, nth_error l i = nth_error l' i) -> l = l'.
Proof.
  induction l as [|a l IH]; intros [|b l'] H; [reflexivity|specialize (H 0); discriminate|specialize (H 0); discriminate|].
  assert (H0 := H 0). injection H0 as ->. f_equal. apply IH. intros i. exact (H (S i)).
Qed.
Lemma enumerate_ok (m : multi) (test : P -> res bool) b : one_record_each m -> (forall p, In p (parts m) -> test p = Ok (b p)) ->
  enumerate m test = Ok (wheres b 0 (parts m)).
Proof.
  intros W H. destruct (iterate_ok P val vnone m W) as (ms&E&L&A). unfold enumerate. rewrite E. cbn [bind].
  assert (EP : map mpart ms = parts m).
  { apply nth_ext'. intros i. destruct (Nat.lt_ge_cases i (length (parts m))) as [I|I].
    - destruct (A i I) as (q&Eq&Gq). rewrite (map_nth_error mpart i ms Eq).
      destruct (nth_error (parts m) i) as [p|] eqn:Ep; [|apply nth_error_None in Ep; lia].
      destruct (getitem_ok P val vnone m i p W Ep) as (q'&Gq'&<-&_). rewrite Gq in Gq'. now injection Gq' as <-.
    - rewrite (proj2 (nth_error_None (parts m) i)) by exact I. apply nth_error_None. rewrite map_length. lia. }
  rewrite <- EP. apply passing_ok. intros p I. apply H. rewrite <- EP. now apply in_map.
Qed.
Lemma confirm_ok (m : multi) (test : P -> res bool) b cands : one_record_each m -> (forall p, In p (parts m) -> test p = Ok (b p)) ->
  (forall i, In i cands -> i < length (parts m)) -> NoDup cands ->
  exists ids, confirm m test cands = Ok ids /\ NoDup ids /\ forall i, In i ids <-> In i cands /\ exists p, nth_error (parts m) i = Some p /\ b p = true.
Proof.
  intros W HT. induction cands as [|i cands IH]; intros H ND.
  - exists []. split; [reflexivity|]. split; [constructor|]. intros i. cbn. tauto.
  - inversion ND as [|? ? Ni ND']; subst. destruct IH as (ids&E&NI&A); [intros; apply H; now right|exact ND'|].
    assert (I := H i (or_introl eq_refl)). destruct (nth_error (parts m) i) as [p|] eqn:Ep; [|apply nth_error_None in Ep; lia].
    destruct (getitem_ok P val vnone m i p W Ep) as (q&Eq&Pq&_). cbn [confirm]. rewrite Eq. cbn [bind]. rewrite Pq, (HT p (nth_error_In _ _ Ep)). cbn [bind].
    rewrite E. cbn [bind]. eexists. split; [reflexivity|].
    assert (NN : ~ In i ids) by (rewrite A; tauto). destruct (b p) eqn:B.
    + split; [now constructor|]. intros j. cbn [In]. rewrite A. split.
      * intros [<-|(J&K)]; [eauto|auto].
      * intros ([<-|J]&K); auto.
    + split; [exact NI|]. intros j. rewrite A. cbn [In]. split; [intros (J&K); auto|].
      intros ([<-|J]&K); [|auto]. destruct K as (p'&E'&B'). rewrite Ep in E'. injection E' as <-. congruence.
Qed.

(** The index answers for the points strictly inside, once each. *)
Lemma within_bbox_ok (m : multi) (b : P -> bool) search : one_record_each m ->
  (forall ids, search = Some ids -> NoDup ids /\ forall i, In i ids <-> exists p, nth_error (parts m) i = Some p /\ b p = true) ->
  exists r ids, within_bbox (fields (tbl m)) m search b = Ok r /\ positions (fun p => b p = true) (parts m) ids /\
    restricted m r ids /\ fields (tbl r) = fields (tbl m) /\ props r = props m.
Proof.
  intros W HS. assert (Q := wheres_positions b (parts m)).
  assert (RG : forall i, In i (wheres b 0 (parts m)) -> i < length (parts m)).
  { intros i I. apply Q in I as (p&E&_). apply nth_error_Some. congruence. }
  destruct (subset_ok P val vnone m _ W RG) as (r&E&H). exists r, (wheres b 0 (parts m)). split; [|split; [exact Q|exact H]].
  destruct search as [ids|]; cbn [within_bbox].
  - destruct (HS ids eq_refl) as (ND&A). replace (isort ids) with (wheres b 0 (parts m)); [exact E|]. symmetry.
    apply sorted_unique; [now apply isort_sorted|apply wheres_sorted|]. intros i. rewrite (proj2 Q i). rewrite <- A.
    split; apply Permutation_in; [|symmetry]; apply isort_perm.
  - rewrite (enumerate_ok m _ b W) by auto. exact E.
Qed.
Lemma within_test_ok (m : multi) (test : P -> res bool) (b : P -> bool) search : one_record_each m ->
  (forall p, In p (parts m) -> test p = Ok (b p)) ->
  (forall ids, search = Some ids -> NoDup ids /\ (forall i, In i ids -> i < length (parts m)) /\
    forall i p, nth_error (parts m) i = Some p -> b p = true -> In i ids) ->
  exists r ids, within_test (fields (tbl m)) m search test = Ok r /\ positions (fun p => b p = true) (parts m) ids /\
    restricted m r ids /\ fields (tbl r) = fields (tbl m) /\ props r = props m.
Proof.
  intros W HT HS. assert (Q := wheres_positions b (parts m)).
  assert (RG : forall i, In i (wheres b 0 (parts m)) -> i < length (parts m)).
  { intros i I. apply Q in I as (p&E&_). apply nth_error_Some. congruence. }
  destruct (subset_ok P val vnone m _ W RG) as (r&E&H). exists r, (wheres b 0 (parts m)). split; [|split; [exact Q|exact H]].
  destruct search as [cands|]; cbn [within_test].
  - destruct (HS cands eq_refl) as (ND&RC&A). destruct (confirm_ok m test b cands W HT RC ND) as (ids&Ec&NI&B). rewrite Ec. cbn [bind].
    replace (isort ids) with (wheres b 0 (parts m)); [exact E|]. symmetry.
    apply sorted_unique; [now apply isort_sorted|apply wheres_sorted|]. intros i. rewrite (proj2 Q i).
    transitivity (In i ids); [split; apply Permutation_in; [|symmetry]; apply isort_perm|]. rewrite B. split; [tauto|].
    intros (p&Ep&Bp). split; [exact (A i p Ep Bp)|eauto].
  - rewrite (enumerate_ok m test b W HT). exact E.
Qed.
End Proofs.
