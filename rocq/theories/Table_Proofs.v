From Coq Require Import List String Bool Arith Lia Permutation.
From Verif Require Import Table_Model Table_Spec.
Import ListNotations.
Local Open Scope list_scope.
Local Notation length := List.length.
Local Notation concat := List.concat.

Section Proofs.
Context {val : Type} (vnone : val).
Notation table := (table val).
Implicit Types t u self tbl : table.

Lemma index_of_Some f fs j : index_of f fs = Some j ->
  nth_error fs j = Some f /\ (j < length fs)%nat.
Proof.
  revert j. induction fs as [|g fs IH]; cbn; intros j H; [discriminate|].
  destruct (String.eqb_spec f g) as [->|N].
  - injection H as <-. cbn. split; [reflexivity|lia].
  - destruct (index_of f fs) as [k|]; [|discriminate]. cbn in H. injection H as <-.
    destruct (IH k eq_refl). cbn. split; [assumption|lia].
Qed.

Lemma index_of_None f fs : index_of f fs = None <-> ~ In f fs.
Proof.
  induction fs as [|g fs IH]; cbn; [tauto|].
  destruct (String.eqb_spec f g) as [->|N].
  - split; [discriminate|]. intros H; exfalso; apply H; now left.
  - destruct (index_of f fs) as [k|]; cbn.
    + split; [discriminate|]. intros H. exfalso.
      assert (~ In f fs) by tauto. apply IH in H0; discriminate.
    + split; [|reflexivity]. intros _ [->|K]; [congruence|].
      now apply (proj1 IH).
Qed.

Lemma index_of_In f fs : In f fs -> exists j, index_of f fs = Some j.
Proof.
  intros H. destruct (index_of f fs) eqn:E; [eauto|].
  apply index_of_None in E; contradiction.
Qed.

Lemma index_of_snoc_old f g fs j :
  index_of f fs = Some j -> index_of f (fs ++ [g]) = Some j.
Proof.
  revert j. induction fs as [|h fs IH]; cbn; intros j H; [discriminate|].
  destruct (String.eqb f h); [exact H|].
  destruct (index_of f fs) as [k|]; [|discriminate].
  rewrite (IH k eq_refl). exact H.
Qed.

Lemma index_of_snoc_new f fs :
  index_of f fs = None -> index_of f (fs ++ [f]) = Some (length fs).
Proof.
  induction fs as [|h fs IH]; cbn; intros H.
  - now rewrite String.eqb_refl.
  - destruct (String.eqb f h); [discriminate|].
    destruct (index_of f fs) as [k|]; [discriminate|]. now rewrite IH.
Qed.

Lemma index_of_snoc_other f g fs :
  f <> g -> index_of f fs = None -> index_of f (fs ++ [g]) = None.
Proof.
  intros N H. apply index_of_None. apply index_of_None in H.
  rewrite in_app_iff. cbn. intuition congruence.
Qed.

(** mapM *)
Lemma mapM_Ok {A B} (f : A -> res B) (g : A -> B) l :
  (forall a, In a l -> f a = Ok (g a)) -> mapM f l = Ok (map g l).
Proof.
  induction l as [|a l IH]; intros H; [reflexivity|]. cbn.
  rewrite (H a) by now left. cbn. rewrite IH; [reflexivity|].
  intros; apply H; now right.
Qed.

Lemma mapM_length {A B} (f : A -> res B) l r : mapM f l = Ok r -> length r = length l.
Proof.
  revert r. induction l as [|a l IH]; cbn; intros r H; [now injection H as <-|].
  destruct (f a); [|discriminate]. cbn in H.
  destruct (mapM f l) as [bs|]; [|discriminate]. cbn in H. injection H as <-.
  cbn. now rewrite (IH bs).
Qed.

Lemma mapM_nth {A B} (f : A -> res B) l r i a :
  mapM f l = Ok r -> nth_error l i = Some a ->
  exists b, f a = Ok b /\ nth_error r i = Some b.
Proof.
  revert r i. induction l as [|x l IH]; cbn; intros r i H E; [destruct i; discriminate|].
  destruct (f x) as [y|] eqn:Ex; [|discriminate]. cbn in H.
  destruct (mapM f l) as [bs|]; [|discriminate]. cbn in H. injection H as <-.
  destruct i; cbn in *.
  - injection E as <-. eauto.
  - eauto.
Qed.

Lemma mapM_app {A B} (f : A -> res B) l l' r r' :
  mapM f l = Ok r -> mapM f l' = Ok r' -> mapM f (l ++ l') = Ok (r ++ r').
Proof.
  revert r. induction l as [|a l IH]; cbn; intros r H H'.
  - injection H as <-. exact H'.
  - destruct (f a) as [b|]; [|discriminate]. cbn in *.
    destruct (mapM f l) as [bs|]; [|discriminate]. cbn in *. injection H as <-.
    rewrite (IH bs eq_refl H'). reflexivity.
Qed.

Definition cellv (j : nat) (r : list val) : val := nth j r vnone.

Lemma row_get_in j r : (j < length r)%nat -> row_get j r = Ok (cellv j r).
Proof.
  intros H. unfold row_get, cellv. now rewrite (nth_error_nth' r vnone H).
Qed.

Lemma rect_row t r : rectangular t -> In r (rows t) -> length r = length (fields t).
Proof. unfold rectangular. rewrite Forall_forall. auto. Qed.

Lemma getfield_rect t f j : rectangular t -> index_of f (fields t) = Some j ->
  getfield t f = Ok (map (cellv j) (rows t)).
Proof.
  intros R H. unfold getfield. rewrite H. apply mapM_Ok. intros r Hr.
  apply row_get_in. rewrite (rect_row t r R Hr). now apply index_of_Some in H.
Qed.

Lemma getfield_In t f : rectangular t -> In f (fields t) ->
  exists vs, getfield t f = Ok vs /\ length vs = tlen t.
Proof.
  intros R H. apply index_of_In in H as (j&H).
  exists (map (cellv j) (rows t)). split; [now apply getfield_rect|].
  apply map_length.
Qed.

Lemma getfield_Ok_In t f vs : getfield t f = Ok vs -> In f (fields t).
Proof.
  unfold getfield. destruct (index_of f (fields t)) as [j|] eqn:E; [|discriminate].
  intros _. apply index_of_Some in E as (E&_). eapply nth_error_In; eassumption.
Qed.

Lemma getfield_Ok_length t f vs : getfield t f = Ok vs -> length vs = tlen t.
Proof.
  unfold getfield. destruct (index_of f (fields t)); [|discriminate]. apply mapM_length.
Qed.

Lemma getfield_missing t f : ~ In f (fields t) -> getfield t f = Err KeyError.
Proof. intros H. apply index_of_None in H. unfold getfield. now rewrite H. Qed.

(** tuplemut / tupleinsert *)
Lemma tuplemut_Ok (r : list val) v i : (i < length r)%nat ->
  exists r', tuplemut r v i = Ok r' /\ length r' = length r /\
    cellv i r' = v /\ forall k, k <> i -> cellv k r' = cellv k r.
Proof.
  revert i. induction r as [|a r IH]; cbn; intros i H; [lia|].
  destruct i as [|i].
  - eexists. split; [reflexivity|]. cbn. split; [reflexivity|]. split; [reflexivity|].
    intros [|k] K; [congruence|reflexivity].
  - destruct (IH i) as (r'&E&L&C&D); [lia|]. rewrite E. cbn.
    eexists. split; [reflexivity|]. cbn. split; [lia|]. split; [exact C|].
    intros [|k] K; [reflexivity|]. apply D. lia.
Qed.

Lemma tupleinsert_end {A} (r : list A) v : tupleinsert r v (length r) = r ++ [v].
Proof. unfold tupleinsert. now rewrite firstn_all, skipn_all, app_nil_r. Qed.

Lemma tuplemut_rows i (rs : list (list val)) (vs : list val) n :
  Forall (fun r => length r = n) rs -> (i < n)%nat -> length vs = length rs ->
  exists rs', mapM (fun rv => tuplemut (fst rv) (snd rv) i) (combine rs vs) = Ok rs' /\
    length rs' = length rs /\ Forall (fun r => length r = n) rs' /\
    map (cellv i) rs' = vs /\
    forall k, k <> i -> map (cellv k) rs' = map (cellv k) rs.
Proof.
  intros F Hi. revert vs. induction F as [|r rs Hr F IH]; intros vs L.
  - destruct vs; [|discriminate]. exists []. repeat split; try constructor.
  - destruct vs as [|v vs]; [discriminate|]. cbn in L. injection L as L.
    destruct (IH vs L) as (rs'&E&L'&F'&C&D).
    destruct (tuplemut_Ok r v i) as (r'&Er&Lr&Cr&Dr); [lia|].
    exists (r' :: rs'). cbn [combine mapM fst snd]. rewrite Er. cbn [bind].
    rewrite E. cbn [bind].
    split; [reflexivity|]. split; [cbn; lia|].
    split; [constructor; [lia|exact F']|].
    split; [cbn; congruence|]. intros k K. cbn. now rewrite Dr, D.
Qed.

(** setfield *)
Lemma setfield_wrong_length t f vs : tlen t <> 0%nat -> length vs <> tlen t ->
  setfield t f vs = (t, Some ValueError).
Proof.
  intros H1 H2. unfold setfield. apply Nat.eqb_neq in H1, H2. now rewrite H1, H2.
Qed.

Lemma setfield_Ok t f vs :
  rectangular t -> tlen t <> 0%nat -> length vs = tlen t ->
  exists t', setfield t f vs = (t', None) /\ rectangular t' /\ tlen t' = tlen t /\
    fields t' = (if in_dec string_dec f (fields t) then fields t else fields t ++ [f]) /\
    getfield t' f = Ok vs /\
    forall g, g <> f -> getfield t' g = getfield t g.
Proof.
  intros R H1 H2. unfold setfield.
  replace (tlen t =? 0) with false by (symmetry; now apply Nat.eqb_neq).
  rewrite H2, Nat.eqb_refl. cbn [negb andb].
  destruct (index_of f (fields t)) as [i|] eqn:E.
  - pose proof (index_of_Some _ _ _ E) as (Ei&Li).
    destruct (tuplemut_rows i (rows t) vs (length (fields t)) R Li H2)
      as (rs'&EM&L'&F'&C&D).
    rewrite EM. eexists. split; [reflexivity|].
    assert (R' : rectangular (mkT (fields t) rs')) by exact F'.
    split; [exact R'|]. split; [exact L'|]. cbn [fields].
    destruct (in_dec string_dec f (fields t)) as [_|N];
      [|exfalso; apply N; eapply nth_error_In; exact Ei].
    split; [reflexivity|]. split.
    + rewrite (getfield_rect _ f i R' E). cbn. now rewrite C.
    + intros g N. destruct (index_of g (fields t)) as [k|] eqn:Eg.
      * rewrite (getfield_rect _ g k R' Eg), (getfield_rect _ g k R Eg). cbn.
        rewrite D; [reflexivity|]. intros ->. apply N.
        pose proof (proj1 (index_of_Some _ _ _ Eg)). congruence.
      * unfold getfield. cbn. now rewrite Eg.
  - rewrite tupleinsert_end.
    set (rs' := map (fun rv : list val * val => tupleinsert (fst rv) (snd rv)
                        (length (fields t))) (combine (rows t) vs)).
    assert (X : Forall (fun r => length r = S (length (fields t))) rs' /\
                length rs' = tlen t /\
                map (cellv (length (fields t))) rs' = vs /\
                forall k, k < length (fields t) ->
                  map (cellv k) rs' = map (cellv k) (rows t)).
    { unfold rs', tlen in *. clear rs' E H1. unfold rectangular in R. revert vs H2.
      induction (rows t) as [|r rs IH]; intros vs L.
      - destruct vs; [|discriminate]. repeat split; constructor.
      - destruct vs as [|v vs]; [discriminate|]. cbn in L. injection L as L.
        inversion R as [|? ? Hr R']; subst.
        destruct (IH R' vs L) as (A&B&C&D). cbn [combine map fst snd].
        assert (TI : tupleinsert r v (length (fields t)) = r ++ [v])
          by (rewrite <- Hr; apply tupleinsert_end).
        rewrite TI.
        split; [constructor; [rewrite app_length; cbn; lia|exact A]|].
        split; [cbn; lia|]. split.
        + cbn [map]. f_equal; [|exact C].
          unfold cellv. rewrite app_nth2, <- Hr, Nat.sub_diag by lia. reflexivity.
        + intros k K. cbn [map]. rewrite D by exact K. f_equal.
          unfold cellv. apply app_nth1. lia. }
    destruct X as (A&B&C&D).
    eexists. split; [reflexivity|].
    assert (R' : rectangular (mkT (fields t ++ [f]) rs')).
    { unfold rectangular. cbn. rewrite app_length. cbn. rewrite Nat.add_1_r. exact A. }
    split; [exact R'|]. split; [exact B|]. cbn [fields].
    destruct (in_dec string_dec f (fields t)) as [K|_];
      [exfalso; revert K; now apply index_of_None|].
    split; [reflexivity|]. split.
    + rewrite (getfield_rect _ f (length (fields t)) R').
      * cbn. now rewrite C.
      * now apply index_of_snoc_new.
    + intros g N. destruct (index_of g (fields t)) as [k|] eqn:Eg.
      * rewrite (getfield_rect _ g k R' (index_of_snoc_old _ _ _ _ Eg)).
        rewrite (getfield_rect _ g k R Eg). cbn. rewrite D; [reflexivity|].
        now apply index_of_Some in Eg.
      * unfold getfield. cbn. now rewrite Eg, (index_of_snoc_other _ _ _ N Eg).
Qed.

(** A table with rows but no columns yet ([Table(size=n)]). *)
Lemma table_sized_rect n : rectangular (table_sized [] n : table).
Proof.
  unfold rectangular, table_sized. cbn. apply Forall_forall.
  intros r Hr. apply repeat_spec in Hr. now subst.
Qed.

(** extend *)
Definition ext_cell (ofs : list string) (r : list val) (f : string) : val :=
  match index_of f ofs with None => vnone | Some j => cellv j r end.

Lemma extend_row_Ok fs ofs r : length r = length ofs ->
  extend_row vnone fs ofs r = Ok (map (ext_cell ofs r) fs).
Proof.
  intros H. unfold extend_row. apply mapM_Ok. intros f _. unfold ext_cell.
  destruct (index_of f ofs) as [j|] eqn:E; [|reflexivity].
  apply row_get_in. rewrite H. now apply index_of_Some in E.
Qed.

Lemma extend_loop_Ok fs ofs rs acc :
  Forall (fun r => length r = length ofs) rs ->
  extend_loop vnone fs ofs rs acc = (acc ++ map (fun r => map (ext_cell ofs r) fs) rs, None).
Proof.
  intros F. revert acc. induction F as [|r rs Hr F IH]; intros acc; cbn.
  - now rewrite app_nil_r.
  - rewrite extend_row_Ok by exact Hr. rewrite IH. now rewrite <- app_assoc.
Qed.

Lemma extend_val t u : rectangular u ->
  extend vnone t u =
  (mkT (fields t) (rows t ++ map (fun r => map (ext_cell (fields u) r) (fields t)) (rows u)), None).
Proof.
  intros R. unfold extend. rewrite extend_loop_Ok by exact R. reflexivity.
Qed.

Lemma nth_map_default {A} (g : A -> val) (l : list A) j d a :
  nth_error l j = Some a -> nth j (map g l) d = g a.
Proof.
  intros H. assert (nth_error (map g l) j = Some (g a)) as K by now apply map_nth_error.
  now apply nth_error_nth.
Qed.

Lemma ext_cols t u f j :
  index_of f (fields t) = Some j ->
  map (cellv j) (map (fun r => map (ext_cell (fields u) r) (fields t)) (rows u)) =
  map (fun r => ext_cell (fields u) r f) (rows u).
Proof.
  intros H. rewrite map_map. apply map_ext. intros r. unfold cellv.
  apply nth_map_default. now apply index_of_Some in H.
Qed.

Lemma extend_Ok t u : rectangular t -> rectangular u ->
  exists t', extend vnone t u = (t', None) /\ rectangular t' /\
    fields t' = fields t /\ firstn (tlen t) (rows t') = rows t /\
    tlen t' = tlen t + tlen u /\
    forall f old, getfield t f = Ok old ->
      (forall new, getfield u f = Ok new -> getfield t' f = Ok (old ++ new)) /\
      (~ In f (fields u) -> getfield t' f = Ok (old ++ repeat vnone (tlen u))).
Proof.
  intros Rt Ru. rewrite (extend_val t u Ru). eexists. split; [reflexivity|].
  set (t' := mkT _ _).
  assert (R' : rectangular t').
  { unfold rectangular, t'. cbn. apply Forall_app. split; [exact Rt|].
    apply Forall_forall. intros r Hr. apply in_map_iff in Hr as (r0&<-&_).
    apply map_length. }
  split; [exact R'|]. split; [reflexivity|]. split.
  { unfold t', tlen. cbn. rewrite firstn_app, Nat.sub_diag, firstn_all, firstn_O.
    apply app_nil_r. }
  split. { unfold t', tlen. cbn. now rewrite app_length, map_length. }
  intros f old Hold.
  assert (exists j, index_of f (fields t) = Some j) as (j&Ej).
  { apply index_of_In. eapply getfield_Ok_In; eassumption. }
  rewrite (getfield_rect t f j Rt Ej) in Hold. injection Hold as <-.
  rewrite (getfield_rect t' f j R' Ej). unfold t'. cbn [rows].
  rewrite map_app, (ext_cols t u f j Ej). split.
  - intros new Hnew.
    assert (exists k, index_of f (fields u) = Some k) as (k&Ek).
    { apply index_of_In. eapply getfield_Ok_In; eassumption. }
    rewrite (getfield_rect u f k Ru Ek) in Hnew. injection Hnew as <-.
    unfold ext_cell. rewrite Ek. reflexivity.
  - intros N. apply index_of_None in N. do 2 f_equal.
    unfold ext_cell, tlen. rewrite N.
    clear. induction (rows u) as [|r rs IH]; cbn; congruence.
Qed.

(** updated *)
Definition col_or (f : string) (a b : table) : res (list val) :=
  match index_of f (fields a) with Some _ => getfield a f | None => getfield b f end.

Lemma set_all_Ok cols : forall t n,
  rectangular t -> tlen t = n -> n <> 0 ->
  NoDup (map fst cols) -> (forall f, In f (map fst cols) -> ~ In f (fields t)) ->
  (forall f r, In (f, r) cols -> exists vs, r = Ok vs /\ length vs = n) ->
  exists t', set_all t cols = Ok t' /\ rectangular t' /\ tlen t' = n /\
    fields t' = fields t ++ map fst cols /\
    (forall f r, In (f, r) cols -> getfield t' f = r) /\
    (forall g, ~ In g (map fst cols) -> getfield t' g = getfield t g).
Proof.
  induction cols as [|[f r] cols IH]; intros t n R Hn N0 ND Hnew Hok.
  - exists t. cbn. rewrite app_nil_r. repeat split; auto. tauto.
  - cbn in ND. inversion ND as [|? ? Nf ND']; subst.
    destruct (Hok f r (or_introl eq_refl)) as (vs&->&Lv).
    destruct (setfield_Ok t f vs R N0 Lv) as (t1&E1&R1&L1&F1&G1&O1).
    destruct (in_dec string_dec f (fields t)) as [K|_];
      [exfalso; exact (Hnew f (or_introl eq_refl) K)|].
    destruct (IH t1 (tlen t) R1 L1 N0 ND') as (t'&E&R'&L'&F'&G'&O').
    + intros g Hg. rewrite F1, in_app_iff. cbn. intros [K|[<-|[]]]; [|contradiction].
      exact (Hnew g (or_intror Hg) K).
    + intros g r Hg. apply (Hok g r). now right.
    + exists t'. cbn [set_all]. rewrite E1. split; [exact E|]. split; [exact R'|].
      split; [exact L'|]. split.
      { rewrite F', F1, <- app_assoc. reflexivity. }
      split.
      * intros g r [[= <- <-]|Hg]; [|exact (G' g r Hg)]. now rewrite O'.
      * intros g Hg. cbn in Hg. rewrite O' by tauto. apply O1.
        intros ->. apply Hg. now left.
Qed.

Lemma set_dict_as_set_all len t d :
  (forall f vs, In (f, vs) d -> length vs = len) ->
  set_dict len t d = set_all t (map (fun fv => (fst fv, Ok (snd fv))) d).
Proof.
  revert t. induction d as [|[f vs] d IH]; intros t H; [reflexivity|].
  cbn. rewrite (H f vs) by now left. rewrite Nat.eqb_refl. cbn. rewrite andb_false_r.
  destruct (setfield t f vs) as [t' [e|]]; [reflexivity|].
  apply IH. intros; eapply H; right; eassumption.
Qed.

Lemma set_missing_Ok self ord : forall t n,
  rectangular self -> tlen self = n -> rectangular t -> tlen t = n -> n <> 0 ->
  NoDup ord -> (forall f, In f ord -> In f (fields self)) ->
  exists t', set_missing self t ord = Ok t' /\ rectangular t' /\ tlen t' = n /\
    (NoDup (fields t) -> NoDup (fields t')) /\
    (forall f, In f (fields t') <-> In f (fields t) \/ In f ord) /\
    (forall f, In f (fields t) -> getfield t' f = getfield t f) /\
    (forall f, In f ord -> ~ In f (fields t) -> getfield t' f = getfield self f).
Proof.
  induction ord as [|f ord IH]; intros t n Rs Ls R L N0 ND Hin.
  - exists t. cbn. repeat split; auto; try tauto.
  - inversion ND as [|? ? Nf ND']; subst. cbn [set_missing].
    assert (Hin' : forall g, In g ord -> In g (fields self)) by (intros; apply Hin; now right).
    destruct (index_of f (fields t)) as [i|] eqn:E.
    + assert (Hf : In f (fields t)) by (apply index_of_Some in E as (E&_); eapply nth_error_In; eassumption).
      destruct (IH t (tlen self) Rs eq_refl R L N0 ND' Hin') as (t'&E'&R'&L'&N'&F'&G'&O').
      exists t'. split; [exact E'|]. split; [exact R'|]. split; [exact L'|].
      split; [exact N'|]. split.
      { intros g. rewrite F'. cbn. split; [tauto|]. intros [K|[<-|K]]; auto. }
      split; [exact G'|]. intros g [<-|Hg] Hn; [contradiction|auto].
    + destruct (getfield_In self f Rs (Hin f (or_introl eq_refl))) as (vs&Ev&Lv).
      rewrite Ev. cbn [bind].
      destruct (setfield_Ok t f vs R ltac:(congruence) ltac:(congruence))
        as (t1&E1&R1&L1&F1&G1&O1).
      apply index_of_None in E.
      destruct (in_dec string_dec f (fields t)) as [K|_]; [contradiction|].
      rewrite E1.
      destruct (IH t1 (tlen self) Rs eq_refl R1 ltac:(congruence) N0 ND' Hin')
        as (t'&E'&R'&L'&N'&F'&G'&O').
      exists t'. split; [exact E'|]. split; [exact R'|]. split; [exact L'|]. split.
      { intros NDt. apply N'. rewrite F1. eapply Permutation_NoDup;
          [apply Permutation_cons_append|]. now constructor. }
      split.
      { intros g. rewrite F', F1, in_app_iff. cbn. tauto. }
      split.
      { intros g Hg. rewrite G' by (rewrite F1; apply in_or_app; now left).
        apply O1. intros ->. contradiction. }
      intros g [<-|Hg] Hn.
      * rewrite G' by (rewrite F1; apply in_or_app; right; now left). congruence.
      * apply O'; [exact Hg|]. rewrite F1, in_app_iff. cbn. intros [K|[<-|[]]]; contradiction.
Qed.

Lemma updated_table_Ok ordm ords self u :
  rectangular self -> rectangular u -> tlen self <> 0 -> tlen u = tlen self ->
  set_order ordm (fields u) -> set_order ords (fields self) ->
  exists t', updated ordm ords self (MTable u) = Ok t' /\ rectangular t' /\
    tlen t' = tlen self /\ NoDup (fields t') /\
    (forall f, In f (fields t') <-> In f (fields u) \/ In f (fields self)) /\
    (forall f, In f (fields u) -> getfield t' f = getfield u f) /\
    (forall f, In f (fields self) -> ~ In f (fields u) -> getfield t' f = getfield self f).
Proof.
  intros Rs Ru N0 Lu (NDm&Hm) (NDs&Hs). unfold updated.
  rewrite Lu, Nat.eqb_refl. cbn [negb]. rewrite andb_false_r.
  assert (MF : map fst (map (fun f => (f, getfield u f)) ordm) = ordm).
  { rewrite map_map. cbn. apply map_id. }
  destruct (set_all_Ok (map (fun f => (f, getfield u f)) ordm)
              (table_sized [] (tlen self)) (tlen self))
    as (t1&E1&R1&L1&F1&G1&O1).
  - apply table_sized_rect.
  - unfold tlen at 1, table_sized. cbn. apply repeat_length.
  - exact N0.
  - now rewrite MF.
  - cbn. tauto.
  - intros f r Hf. apply in_map_iff in Hf as (g&[= -> <-]&Hg).
    destruct (getfield_In u f Ru (proj1 (Hm f) Hg)) as (vs&A&B).
    exists vs. split; congruence.
  - rewrite E1. cbn [bind]. rewrite MF in F1, O1. cbn in F1.
    destruct (set_missing_Ok self ords t1 (tlen self) Rs eq_refl R1 L1 N0 NDs)
      as (t'&E'&R'&L'&N'&F'&G'&O').
    { intros f Hf. now apply Hs. }
    exists t'. split; [exact E'|]. split; [exact R'|]. split; [exact L'|].
    split; [apply N'; now rewrite F1|]. split.
    { intros f. rewrite F', F1, Hm, Hs. tauto. }
    split.
    { intros f Hf. rewrite G' by (rewrite F1; now apply Hm).
      apply (G1 f). apply in_map_iff. exists f. split; [reflexivity|now apply Hm]. }
    intros f Hf Hn. apply O'; [now apply Hs|]. rewrite F1. now rewrite Hm.
Qed.

Lemma updated_table_bad_length ordm ords self u :
  tlen self <> 0 -> tlen u <> tlen self ->
  updated ordm ords self (MTable u) = Err ValueError.
Proof.
  intros A B. unfold updated. apply Nat.eqb_neq in A, B. now rewrite A, B.
Qed.

Lemma updated_dict_Ok ordm ords self d :
  rectangular self -> tlen self <> 0 -> NoDup (map fst d) ->
  (forall f vs, In (f, vs) d -> length vs = tlen self) ->
  set_order ords (fields self) ->
  exists t', updated ordm ords self (MDict d) = Ok t' /\ rectangular t' /\
    tlen t' = tlen self /\ NoDup (fields t') /\
    (forall f, In f (fields t') <-> In f (map fst d) \/ In f (fields self)) /\
    (forall f vs, In (f, vs) d -> getfield t' f = Ok vs) /\
    (forall f, In f (fields self) -> ~ In f (map fst d) -> getfield t' f = getfield self f).
Proof.
  intros Rs N0 NDm Hlen (NDs&Hs). unfold updated.
  rewrite set_dict_as_set_all by exact Hlen.
  assert (MF : map fst (map (fun fv : string * list val => (fst fv, Ok (snd fv))) d) = map fst d).
  { rewrite map_map. reflexivity. }
  destruct (set_all_Ok (map (fun fv => (fst fv, Ok (snd fv))) d)
              (table_sized [] (tlen self)) (tlen self))
    as (t1&E1&R1&L1&F1&G1&O1).
  - apply table_sized_rect.
  - unfold tlen at 1, table_sized. cbn. apply repeat_length.
  - exact N0.
  - now rewrite MF.
  - cbn. tauto.
  - intros f r Hf. apply in_map_iff in Hf as ((g&vs)&[= -> <-]&Hg). eauto.
  - rewrite E1. cbn [bind]. rewrite MF in F1, O1. cbn in F1.
    destruct (set_missing_Ok self ords t1 (tlen self) Rs eq_refl R1 L1 N0 NDs)
      as (t'&E'&R'&L'&N'&F'&G'&O').
    { intros f Hf. now apply Hs. }
    exists t'. split; [exact E'|]. split; [exact R'|]. split; [exact L'|].
    split; [apply N'; now rewrite F1|]. split.
    { intros f. rewrite F', F1, Hs. tauto. }
    split.
    { intros f vs Hf. rewrite G'.
      - apply (G1 f). apply in_map_iff. exists (f, vs). auto.
      - rewrite F1. apply in_map_iff. exists (f, vs). auto. }
    intros f Hf Hn. apply O'; [now apply Hs|]. now rewrite F1.
Qed.

Lemma set_dict_bad len t d :
  rectangular t -> tlen t = len -> len <> 0 ->
  (exists f vs, In (f, vs) d /\ length vs <> len) ->
  set_dict len t d = Err ValueError.
Proof.
  intros R L N0. revert t R L. induction d as [|[f vs] d IH]; intros t R L (g&ws&Hg&Hl).
  - destruct Hg.
  - cbn. replace (len =? 0) with false by (symmetry; now apply Nat.eqb_neq). cbn.
    destruct (Nat.eqb_spec (length vs) len) as [E|E]; [|reflexivity]. cbn.
    destruct (setfield_Ok t f vs R ltac:(congruence) ltac:(congruence))
      as (t1&E1&R1&L1&_).
    rewrite E1. apply IH; [exact R1|congruence|].
    destruct Hg as [[= -> ->]|Hg]; [congruence|]. eauto.
Qed.

Lemma updated_dict_bad_length ordm ords self d :
  tlen self <> 0 -> (exists f vs, In (f, vs) d /\ length vs <> tlen self) ->
  updated ordm ords self (MDict d) = Err ValueError.
Proof.
  intros N0 H. unfold updated. rewrite set_dict_bad; auto.
  - apply table_sized_rect.
  - unfold tlen at 1, table_sized. cbn. apply repeat_length.
Qed.

(** merge *)
Lemma dict_get_In {A} (d : list (string * A)) k : In k (map fst d) ->
  exists v, dict_get d k = Some v.
Proof.
  induction d as [|[k' v] d IH]; cbn; [tauto|].
  intros [->|H].
  - destruct (dict_get d k); [eauto|]. rewrite String.eqb_refl. eauto.
  - destruct (IH H) as (w&->). eauto.
Qed.

Lemma merge_loop_Ok ms : forall tbl,
  rectangular tbl -> Forall item_ok ms ->
  (forall m f, In m ms -> In f (fields tbl) -> In f (item_fields m)) ->
  exists t, merge_loop vnone tbl ms = Ok t /\ fields t = fields tbl /\ rectangular t /\
    forall f, In f (fields tbl) -> exists old cols, getfield tbl f = Ok old /\
      Forall2 (contributes f) ms cols /\ getfield t f = Ok (old ++ concat cols).
Proof.
  induction ms as [|m ms IH]; intros tbl R F Hin.
  - exists tbl. cbn. split; [reflexivity|]. split; [reflexivity|]. split; [exact R|].
    intros f Hf. destruct (getfield_In tbl f R Hf) as (old&E&_).
    exists old, []. split; [exact E|]. split; [constructor|]. cbn. now rewrite app_nil_r.
  - inversion F as [|? ? Hm F']; subst. destruct m as [u|d]; cbn [merge_loop].
    + destruct (extend_Ok tbl u R Hm) as (t1&E1&R1&F1&_&_&G1).
      rewrite E1.
      destruct (IH t1 R1 F') as (t&E&Ft&Rt&G).
      { intros m f Hmm Hf. apply Hin; [now right|congruence]. }
      exists t. split; [exact E|]. split; [congruence|]. split; [exact Rt|].
      intros f Hf.
      destruct (getfield_In tbl f R Hf) as (old&Eo&_).
      destruct (getfield_In u f Hm (Hin (ITable u) f (or_introl eq_refl) Hf)) as (new&En&_).
      destruct (G f ltac:(congruence)) as (old'&cols&Eo'&F2&Eg).
      destruct (G1 f old Eo) as (G1a&_). rewrite (G1a new En) in Eo'. injection Eo' as <-.
      exists old, (new :: cols). split; [exact Eo|].
      split; [constructor; [exact En|exact F2]|]. rewrite Eg. cbn. now rewrite app_assoc.
    + set (row := map _ (fields tbl)).
      set (t1 := mkT (fields tbl) (rows tbl ++ [row])).
      assert (R1 : rectangular t1).
      { apply Forall_app. split; [exact R|]. repeat constructor.
        unfold row. cbn. now rewrite map_length. }
      destruct (IH t1 R1 F') as (t&E&Ft&Rt&G).
      { intros m f Hmm Hf. apply Hin; [now right|exact Hf]. }
      exists t. split; [exact E|]. split; [exact Ft|]. split; [exact Rt|].
      intros f Hf.
      destruct (index_of_In _ _ Hf) as (j&Ej).
      destruct (G f Hf) as (old'&cols&Eo'&F2&Eg).
      destruct (dict_get_In d f (Hin (IDict d) f (or_introl eq_refl) Hf)) as (v&Ev).
      rewrite (getfield_rect t1 f j R1 Ej) in Eo'. injection Eo' as <-.
      exists (map (cellv j) (rows tbl)), ([v] :: cols).
      split; [now apply getfield_rect|].
      split; [constructor; [exists v; auto|exact F2]|].
      rewrite Eg. unfold t1. cbn [rows]. rewrite map_app. cbn.
      rewrite <- app_assoc. cbn. do 3 f_equal.
      unfold cellv, row. erewrite nth_map_default by (apply (index_of_Some _ _ _ Ej)).
      now rewrite Ev.
Qed.

Lemma merge_Ok ord ms :
  ms <> [] -> Forall item_ok ms -> intersection_order ord (map item_fields ms) ->
  exists t, merge vnone ord ms = Ok t /\ rectangular t /\ NoDup (fields t) /\
    (forall f, In f (fields t) <-> forall m, In m ms -> In f (item_fields m)) /\
    forall f, In f (fields t) ->
      exists cols, Forall2 (contributes f) ms cols /\ getfield t f = Ok (concat cols).
Proof.
  intros N F (ND&H). destruct ms as [|m0 ms0] eqn:E; [congruence|]. rewrite <- E in *.
  assert (merge vnone ord ms = merge_loop vnone (table_sized ord 0) ms) as ->
    by (rewrite E; reflexivity).
  destruct (merge_loop_Ok ms (table_sized ord 0)) as (t&Et&Ft&Rt&G).
  - constructor.
  - exact F.
  - cbn. intros m f Hm Hf. apply (proj1 (H f) Hf). now apply in_map.
  - cbn in Ft. exists t. split; [exact Et|]. split; [exact Rt|].
    split; [congruence|]. split.
    + intros f. rewrite Ft, H. split.
      * intros K m Hm. apply K. now apply in_map.
      * intros K l Hl. apply in_map_iff in Hl as (m&<-&Hm). auto.
    + intros f Hf. rewrite Ft in Hf. destruct (G f Hf) as (old&cols&Eo&F2&Eg).
      exists cols. split; [exact F2|].
      unfold getfield in Eo. cbn in Eo. destruct (index_of f ord); [|discriminate].
      injection Eo as <-. exact Eg.
Qed.

(** Construction from columns *)
Lemma zip_cols_spec (cols : list (list val)) n :
  cols <> [] -> Forall (fun c => length c = n) cols ->
  Forall (fun r => length r = length cols) (zip_cols cols) /\
  length (zip_cols cols) = n /\
  forall j c, nth_error cols j = Some c -> map (cellv j) (zip_cols cols) = c.
Proof.
  induction cols as [|c cols IH]; [congruence|]. intros _ F.
  inversion F as [|? ? Hc F']; subst. destruct cols as [|c2 cols].
  - cbn. split.
    + apply Forall_forall. intros r Hr. apply in_map_iff in Hr as (v&<-&_). reflexivity.
    + split; [apply map_length|]. intros [|j] c0 E; cbn in E.
      * injection E as <-. rewrite map_map. cbn. apply map_id.
      * destruct j; discriminate.
  - destruct (IH ltac:(discriminate) F') as (A&B&C).
    change (zip_cols (c :: c2 :: cols))
      with (map (fun p : val * list val => fst p :: snd p)
                (combine c (zip_cols (c2 :: cols)))).
    remember (zip_cols (c2 :: cols)) as z eqn:Ez. clear Ez IH.
    split.
    + apply Forall_forall. intros r Hr. apply in_map_iff in Hr as ((v&r')&<-&Hr).
      apply in_combine_r in Hr. cbn. rewrite Forall_forall in A. now rewrite (A r' Hr).
    + split. { rewrite map_length, combine_length. lia. }
      intros [|j] c0 E; cbn [nth_error] in E.
      * injection E as <-. rewrite map_map. unfold cellv. cbn.
        clear - B. revert z B. induction c as [|v c IHc]; intros [|r z] B; try discriminate; [reflexivity|].
        cbn in *. f_equal. apply IHc. lia.
      * rewrite <- (C j c0 E). rewrite map_map. unfold cellv. cbn.
        clear - B. revert z B. induction c as [|v c IHc]; intros [|r z] B; try discriminate; [reflexivity|].
        cbn in *. f_equal. apply IHc. lia.
Qed.

Lemma table_of_dict_Ok (d : list (string * list val)) n :
  NoDup (map fst d) -> (forall f vs, In (f, vs) d -> length vs = n) -> d <> [] ->
  exists t, table_of_dict (map (fun fv => (fst fv, Vec (snd fv))) d) = Ok t /\
    rectangular t /\ fields t = map fst d /\ tlen t = n /\
    forall f vs, In (f, vs) d -> getfield t f = Ok vs.
Proof.
  intros ND Hl N.
  assert (E1 : table_of_dict (map (fun fv => (fst fv, Vec (snd fv))) d) =
               Ok (mkT (map fst d) (zip_cols (map snd d)))).
  { unfold table_of_dict. destruct d as [|[f0 v0] d']; [congruence|].
    cbn [map fst snd]. 
    change (Vec v0 :: map snd (map (fun fv : string * list val => (fst fv, Vec (snd fv))) d'))
      with (map snd (map (fun fv : string * list val => (fst fv, Vec (snd fv))) ((f0, v0) :: d'))).
    rewrite !map_map. cbn [fst snd].
    assert (M : forall l : list (string * list val),
              mapM entry_list (map (fun x => Vec (snd x)) l) = Ok (map snd l)).
    { induction l as [|[a b] l IHl]; [reflexivity|]. cbn. rewrite IHl. reflexivity. }
    rewrite M. reflexivity. }
  eexists. split; [exact E1|].
  assert (F : Forall (fun c => length c = n) (map snd d)).
  { apply Forall_forall. intros c Hc. apply in_map_iff in Hc as ((f&vs)&<-&Hf). eauto. }
  destruct (zip_cols_spec (map snd d) n) as (A&B&C);
    [destruct d; [congruence|discriminate]|exact F|].
  assert (R : rectangular (mkT (map fst d) (zip_cols (map snd d)))).
  { unfold rectangular. cbn. rewrite map_length in *. exact A. }
  split; [exact R|]. split; [reflexivity|]. split; [exact B|].
  intros f vs Hf.
  destruct (index_of_In f (map fst d)) as (j&Ej).
  { apply in_map_iff. exists (f, vs). auto. }
  rewrite (getfield_rect _ f j R Ej). cbn [rows]. f_equal. apply C.
  apply In_nth_error in Hf as (k&Hk).
  assert (j = k) as ->.
  { pose proof (proj1 (index_of_Some _ _ _ Ej)) as Hj.
    apply (proj1 (NoDup_nth_error (map fst d)) ND).
    - apply nth_error_Some. congruence.
    - rewrite Hj. symmetry. erewrite map_nth_error by exact Hk. reflexivity. }
  erewrite map_nth_error by exact Hk. reflexivity.
Qed.

(** Tables from lists, rows and mixed dicts *)
Lemma table_of_list_Ok (data : list val) : data <> [] ->
  let t := table_of_list data in
  rectangular t /\ fields t = ["value"%string] /\ tlen t = length data /\ getfield t "value" = Ok data.
Proof.
  intros N t.
  assert (E : t = mkT ["value"%string] (map (fun d => [d]) data)) by (destruct data; [congruence | reflexivity]).
  assert (R : rectangular t).
  { rewrite E. unfold rectangular. cbn [rows fields]. apply Forall_forall. intros r Hr. apply in_map_iff in Hr as (d & <- & _). reflexivity. }
  split; [exact R|]. split; [rewrite E; reflexivity|]. split; [rewrite E; apply map_length|].
  rewrite (getfield_rect t "value"%string 0 R) by (rewrite E; reflexivity). f_equal. rewrite E. cbn [rows]. rewrite map_map. cbn [nth]. apply map_id.
Qed.
Lemma table_of_rows_Ok (data : list (list val)) (fs : list string) :
  ((forall r, In r data -> length r = length fs) ->
     exists t, table_of_rows data fs = Ok t /\ rectangular t /\ fields t = fs /\ tlen t = length data /\
       forall i j r f v, NoDup fs -> nth_error data i = Some r -> nth_error r j = Some v -> nth_error fs j = Some f ->
         exists vs, getfield t f = Ok vs /\ nth_error vs i = Some v) /\
  (forall r data', data = r :: data' -> length r <> length fs -> table_of_rows data fs = Err ValueError).
Proof.
  split.
  - intros H. exists (mkT fs data).
    assert (R : rectangular (mkT fs data)) by (apply Forall_forall; exact H).
    split; [|split; [exact R|split; [reflexivity|split; [reflexivity|]]]].
    + unfold table_of_rows. destruct data as [|r data']; [reflexivity|]. rewrite (H r (or_introl eq_refl)), Nat.eqb_refl. reflexivity.
    + intros i j r f v ND Hi Hj Hf.
      assert (Ej : index_of f fs = Some j).
      { destruct (index_of_In f fs) as (k & Ek); [eapply nth_error_In; eauto|]. pose proof (proj1 (index_of_Some _ _ _ Ek)) as Hk.
        assert (k = j) as <-; [|exact Ek]. apply (proj1 (NoDup_nth_error fs) ND); [apply nth_error_Some; congruence | congruence]. }
      rewrite (getfield_rect (mkT fs data) f j R Ej). eexists. split; [reflexivity|]. cbn [rows].
      erewrite map_nth_error by exact Hi. f_equal. apply nth_error_nth. exact Hj.
  - intros r data' -> H. unfold table_of_rows. destruct (Nat.eqb_spec (length r) (length fs)); [contradiction|reflexivity].
Qed.
Lemma table_of_dict_mixed (f g : string) (vs : list val) (v : val) d d' :
  table_of_dict ((f, Vec vs) :: d ++ (g, Scal v) :: d') = Err TypeError.
Proof.
  unfold table_of_dict. set (l := (f, Vec vs) :: d ++ (g, Scal v) :: d').
  assert (M : mapM entry_list (map snd l) = Err TypeError).
  { change l with (((f, Vec vs) :: d) ++ (g, Scal v) :: d'). generalize ((f, Vec vs) :: d). intros k.
    induction k as [|[h [ws|w]] k IH]; [reflexivity| |reflexivity]. cbn [app map snd mapM entry_list bind]. rewrite IH. reflexivity. }
  rewrite M. reflexivity.
Qed.

(** get *)
Lemma dict_get_pairs (fs : list string) (vs : list val) f j v :
  NoDup fs -> index_of f fs = Some j -> nth_error vs j = Some v ->
  length vs = length fs -> dict_get (combine fs vs) f = Some v.
Proof.
  revert vs j. induction fs as [|g fs IH]; intros vs j ND E Ev L; [discriminate|].
  destruct vs as [|w vs]; [discriminate|]. inversion ND as [|? ? Ng ND']; subst.
  cbn in *. destruct (String.eqb_spec f g) as [->|N].
  - injection E as <-. injection Ev as <-.
    assert (dict_get (combine fs vs) g = None) as ->; [|reflexivity].
    clear - Ng. revert vs. induction fs as [|h fs IH]; intros vs; [reflexivity|].
    destruct vs as [|w vs]; [reflexivity|]. cbn.
    rewrite IH by (intros K; apply Ng; now right).
    destruct (String.eqb_spec g h) as [->|]; [|reflexivity].
    exfalso; apply Ng; now left.
  - destruct (index_of f fs) as [k|] eqn:Ek; [|discriminate]. cbn in E. injection E as <-.
    cbn in Ev. rewrite (IH vs k ND' eq_refl Ev) by lia. reflexivity.
Qed.

Lemma combine_seq_nth {A} (l : list A) a j :
  In (j, a) (combine (seq 0 (length l)) l) -> nth_error l j = Some a.
Proof.
  assert (G : forall l s, In (j, a) (combine (seq s (length l)) l) ->
              (s <= j)%nat /\ nth_error l (j - s) = Some a).
  { clear. induction l as [|b l IH]; cbn; intros s H; [tauto|].
    destruct H as [[= <- <-]|H].
    - rewrite Nat.sub_diag. auto.
    - apply IH in H as (H1&H2). split; [lia|].
      replace (j - s) with (S (j - S s)) by lia. exact H2. }
  intros H. destruct (G l 0 H) as (_&K). now rewrite Nat.sub_0_r in K.
Qed.

Lemma map_snd_combine_seq {A B} (l : list A) (g : nat -> B) :
  map (fun jf => (snd jf, g (fst jf))) (combine (seq 0 (length l)) l) =
  combine l (map g (seq 0 (length l))).
Proof.
  generalize 0. induction l as [|a l IH]; intros s; [reflexivity|]. cbn. now rewrite IH.
Qed.

Lemma get_Ok t i r : rectangular t -> nth_error (rows t) i = Some r ->
  get t i = Ok (combine (fields t) r).
Proof.
  intros R E. unfold get. rewrite E.
  assert (L := rect_row t r R (nth_error_In _ _ E)).
  rewrite mapM_Ok with (g := fun jf => (snd jf, cellv (fst jf) r)).
  - rewrite (map_snd_combine_seq (fields t) (fun j => cellv j r)). do 2 f_equal. rewrite <- L. unfold cellv.
    clear. induction r as [|a r IH]; [reflexivity|]. cbn. f_equal.
    rewrite <- seq_shift, map_map. exact IH.
  - intros [j f] Hj. cbn. apply combine_seq_nth in Hj.
    rewrite row_get_in; [reflexivity|]. rewrite L. apply nth_error_Some. congruence.
Qed.

Lemma get_agrees t i row f vs :
  rectangular t -> NoDup (fields t) -> get t i = Ok row -> getfield t f = Ok vs ->
  dict_get row f = nth_error vs i.
Proof.
  intros R ND Hg Hf.
  assert (exists r, nth_error (rows t) i = Some r) as (r&Er).
  { unfold get in Hg. destruct (nth_error (rows t) i); [eauto|discriminate]. }
  rewrite (get_Ok t i r R Er) in Hg. injection Hg as <-.
  destruct (index_of_In f (fields t) (getfield_Ok_In _ _ _ Hf)) as (j&Ej).
  unfold getfield in Hf. rewrite Ej in Hf.
  destruct (mapM_nth _ _ _ _ _ Hf Er) as (v&Ev&En). rewrite En.
  unfold row_get in Ev. destruct (nth_error r j) as [w|] eqn:Ew; [|discriminate].
  injection Ev as ->.
  eapply dict_get_pairs; eauto. apply (rect_row t r R). eapply nth_error_In; eassumption.
Qed.

Lemma get_range t i : rectangular t ->
  ((exists row, get t i = Ok row) <-> i < tlen t) /\ (tlen t <= i -> get t i = Err IndexError).
Proof.
  intros R. unfold tlen. split; [split|].
  - intros (row&H). apply nth_error_Some. unfold get in H.
    destruct (nth_error (rows t) i); [discriminate|discriminate].
  - intros H. apply nth_error_Some in H. destruct (nth_error (rows t) i) as [r|] eqn:E; [|congruence].
    exists (combine (fields t) r). now apply get_Ok.
  - intros H. apply nth_error_None in H. unfold get. now rewrite H.
Qed.

End Proofs.
