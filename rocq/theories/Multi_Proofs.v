(** Proofs about multipart records. *)
From Coq Require Import String List Bool Arith Lia Sorted Permutation.
From Verif Require Import Table_Model Table_Spec Table_Proofs Multi_Model Multi_Spec.
Import ListNotations.
Local Open Scope list_scope.

Section Proofs.
Variables P val : Type.
Variable vnone : val.
Notation multi := (multi P val).
Notation member := (member P val).
Notation dict := (list (string * val)).
Notation cellv := (Table_Proofs.cellv vnone).

Lemma dict_get_app (d e : dict) (k : string) :
  dict_get (d ++ e) k = match dict_get e k with Some v => Some v | None => dict_get d k end.
Proof.
  induction d as [|[k' v] d IH]; cbn [app dict_get].
  - now destruct (dict_get e k).
  - rewrite IH. destruct (dict_get e k); [reflexivity|]. now destruct (dict_get d k).
Qed.
Lemma dict_get_notin (d : dict) (k : string) : ~ In k (map fst d) -> dict_get d k = None.
Proof.
  induction d as [|[k' v] d IH]; cbn [map fst In dict_get]; intros N; [reflexivity|].
  rewrite IH by tauto. destruct (String.eqb_spec k k') as [->|]; [tauto|reflexivity].
Qed.
Lemma dict_get_some_in (d : dict) (k : string) v : dict_get d k = Some v -> In k (map fst d).
Proof.
  intros H. destruct (in_dec string_dec k (map fst d)) as [I|N]; [exact I|].
  rewrite dict_get_notin in H by exact N. discriminate.
Qed.

(* ---- one record each *)
Lemma one_sized (ps : list P) (pr : dict) : one_record_each (mkMulti ps (table_sized [] (length ps)) pr []).
Proof.
  split; [|split; [apply table_sized_rect|split; [constructor|reflexivity]]].
  cbn. unfold tlen, table_sized. cbn. apply repeat_length.
Qed.
Lemma of_parts_ok (ps : list P) (d : data val) (pr : dict) :
  (forall cols, d = DDict cols -> NoDup (map fst cols) /\ forall f vs, In (f, vs) cols -> length vs = length ps) ->
  (forall t, d <> DTable t) ->
  exists m, of_parts ps d pr = Ok m /\ parts m = ps /\ props m = pr /\ one_record_each m /\
    (forall cols, d = DDict cols -> fields (tbl m) = map fst cols /\ forall f vs, In (f, vs) cols -> getfield (tbl m) f = Ok vs) /\
    ((forall cols, d <> DDict cols) -> fields (tbl m) = []).
Proof.
  intros HD HT.
  assert (N : exists m, Ok (mkMulti ps (table_sized [] (length ps)) pr []) = Ok m /\ parts m = ps /\ props m = pr /\ one_record_each m /\ fields (tbl m) = []).
  { eexists. split; [reflexivity|]. split; [reflexivity|]. split; [reflexivity|]. split; [apply one_sized|reflexivity]. }
  destruct d as [| |cols|t]; [| | |exfalso; now apply (HT t)].
  1,2: destruct N as (m&E&A&B&C&D); exists m; repeat (split; [assumption|]); split; [intros ? [=]|intros _; exact D].
  destruct (HD cols eq_refl) as (ND&L). destruct cols as [|c cols].
  - destruct N as (m&E&A&B&C&D). exists m. repeat (split; [assumption|]). split; [|intros H; exact D].
    intros cols [= <-]. split; [exact D|]. intros f vs [].
  - cbn [of_parts].
    replace (forallb (fun kv => length (snd kv) =? length ps) (c :: cols)) with true.
    2:{ symmetry. apply forallb_forall. intros [f vs] I. apply Nat.eqb_eq. exact (L f vs I). }
    destruct (table_of_dict_Ok vnone (c :: cols) (length ps) ND L ltac:(discriminate)) as (t&E&R&F&T&G).
    unfold columns. rewrite E. cbn [bind]. eexists. split; [reflexivity|]. split; [reflexivity|]. split; [reflexivity|].
    split; [split; [exact T|split; [exact R|split; [cbn; rewrite F; exact ND|reflexivity]]]|]. split.
    + intros cols' [= <-]. split; [exact F|exact G].
    + intros H. exfalso. now apply (H (c :: cols)).
Qed.
Lemma of_parts_bad (ps : list P) cols (pr : dict) f vs : In (f, vs) cols -> length vs <> length ps ->
  of_parts ps (DDict cols) pr = Err ValueError.
Proof.
  intros I N. destruct cols as [|c cols]; [destruct I|]. cbn [of_parts].
  replace (forallb (fun kv => length (snd kv) =? length ps) (c :: cols)) with false; [reflexivity|].
  symmetry. apply not_true_iff_false. intros H. rewrite forallb_forall in H. specialize (H _ I). apply Nat.eqb_eq in H. contradiction.
Qed.

(* ---- members *)
Lemma row_some (m : multi) i : one_record_each m -> i < length (parts m) -> exists r, nth_error (rows (tbl m)) i = Some r.
Proof.
  intros (L&_) H. rewrite <- L in H. unfold tlen in H. apply nth_error_Some in H. destruct (nth_error (rows (tbl m)) i); [eauto|congruence].
Qed.
Lemma getitem_row (m : multi) i r p : one_record_each m -> nth_error (rows (tbl m)) i = Some r -> nth_error (parts m) i = Some p ->
  getitem m i = Ok (mkM p (combine (fields (tbl m)) r ++ props m)).
Proof.
  intros (L&R&ND&G) E Ep. unfold getitem, record. rewrite G. cbn [existsb].
  rewrite (get_Ok vnone (tbl m) i r R E). cbn [bind]. now rewrite Ep.
Qed.
Lemma getitem_ok (m : multi) i p : one_record_each m -> nth_error (parts m) i = Some p ->
  exists q, getitem m i = Ok q /\ mpart q = p /\
    forall k, exists v, cell m i k v /\
      dict_get (mprops q) k = match dict_get (props m) k with Some w => Some w | None => v end.
Proof.
  intros W Ep. destruct (row_some m i W) as (r&E); [apply nth_error_Some; congruence|].
  rewrite (getitem_row m i r p W E Ep). eexists. split; [reflexivity|]. split; [reflexivity|].
  intros k. destruct W as (L&R&ND&G). destruct (in_dec string_dec k (fields (tbl m))) as [I|N].
  - destruct (getfield_In vnone _ _ R I) as (vs&Ev&Lv). exists (nth_error vs i). split; [left; eauto|].
    cbn [mprops]. rewrite dict_get_app. destruct (dict_get (props m) k); [reflexivity|].
    exact (get_agrees vnone (tbl m) i _ k vs R ND (get_Ok vnone (tbl m) i r R E) Ev).
  - exists None. split; [right; auto|]. cbn [mprops]. rewrite dict_get_app. destruct (dict_get (props m) k); [reflexivity|].
    apply dict_get_notin. intros H. apply N. apply in_map_iff in H as ([a b]&<-&H). exact (in_combine_l _ _ _ _ H).
Qed.
Lemma getitem_out (m : multi) i : one_record_each m -> length (parts m) <= i -> getitem m i = Err IndexError.
Proof.
  intros (L&R&ND&G) H. unfold getitem, record. rewrite G. cbn [existsb]. rewrite <- L in H.
  now rewrite (proj2 (get_range vnone (tbl m) i R) H).
Qed.

(* ---- iteration *)
Lemma iterate_from_ok (m : multi) (n : nat) : forall i fuel, one_record_each m -> i + n = length (parts m) -> n < fuel ->
  exists ms, iterate_from m i fuel = Ok ms /\ length ms = n /\
    forall j, j < n -> exists q, nth_error ms j = Some q /\ getitem m (i + j) = Ok q.
Proof.
  induction n as [|n IH]; intros i fuel W H F.
  - destruct fuel as [|f]; [lia|]. cbn [iterate_from]. rewrite getitem_out by (auto; lia). exists []. split; [reflexivity|]. split; [reflexivity|]. lia.
  - destruct fuel as [|f]; [lia|]. cbn [iterate_from].
    destruct (nth_error (parts m) i) as [p|] eqn:Ep; [|apply nth_error_None in Ep; lia].
    destruct (getitem_ok m i p W Ep) as (q&E&_). rewrite E.
    destruct (IH (S i) f W ltac:(lia) ltac:(lia)) as (ms&Em&L&A). rewrite Em. cbn [bind].
    exists (q :: ms). split; [reflexivity|]. split; [cbn; lia|]. intros [|j] J.
    + exists q. rewrite Nat.add_0_r. auto.
    + destruct (A j ltac:(lia)) as (q'&B&C). exists q'. split; [exact B|]. now rewrite <- Nat.add_succ_comm.
Qed.
Lemma iterate_ok (m : multi) : one_record_each m -> exists ms, iterate m = Ok ms /\ length ms = length (parts m) /\
  forall i, i < length (parts m) -> exists q, nth_error ms i = Some q /\ getitem m i = Ok q.
Proof.
  intros W. apply (iterate_from_ok m (length (parts m)) 0 (S (tlen (tbl m))) W eq_refl). destruct W as (L&_). lia.
Qed.

(* ---- positions *)
Lemma take_ok {A} (l : list A) ids : (forall i, In i ids -> i < length l) ->
  exists r, take l ids = Ok r /\ length r = length ids /\ forall j i, nth_error ids j = Some i -> nth_error r j = nth_error l i.
Proof.
  induction ids as [|i ids IH]; intros H.
  - exists []. split; [reflexivity|]. split; [reflexivity|]. intros [|j] i E; discriminate.
  - destruct IH as (r&E&L&Hr); [intros; apply H; now right|].
    unfold take in *. cbn [mapM]. specialize (H i (or_introl eq_refl)). apply nth_error_Some in H.
    destruct (nth_error l i) as [a|] eqn:Ei; [|congruence]. cbn [bind]. rewrite E. cbn [bind].
    exists (a :: r). split; [reflexivity|]. split; [cbn; lia|]. intros [|j] i' E'; cbn in *; [injection E' as <-; now rewrite Ei|now apply Hr].
Qed.
Lemma take_in {A} (l : list A) ids r : take l ids = Ok r -> forall a, In a r -> In a l.
Proof.
  revert r. unfold take. induction ids as [|i ids IH]; cbn [mapM]; intros r H a I.
  - injection H as <-. destruct I.
  - destruct (nth_error l i) as [b|] eqn:E; [|discriminate]. cbn [bind] in H.
    destruct (mapM _ ids) as [bs|]; [|discriminate]. cbn [bind] in H. injection H as <-.
    destruct I as [<-|I]; [exact (nth_error_In _ _ E)|]. exact (IH bs eq_refl a I).
Qed.
Lemma take_bad {A} (l : list A) ids i : In i ids -> length l <= i -> take l ids = Err IndexError.
Proof.
  induction ids as [|a ids IH]; intros I H; [destruct I|]; unfold take in *; cbn [mapM]; destruct I as [->|I].
  - apply nth_error_None in H. now rewrite H.
  - destruct (nth_error l a); [|reflexivity]. cbn [bind]. now rewrite (IH I H).
Qed.

(* ---- subset *)
Lemma subset_val ord (m : multi) ids : one_record_each m -> length ord = length (fields (tbl m)) ->
  (forall i, In i ids -> i < length (parts m)) ->
  exists ps rs, take (parts m) ids = Ok ps /\ take (rows (tbl m)) ids = Ok rs /\
    subset ord m ids = Ok (mkMulti ps (mkT ord rs) (props m) []).
Proof.
  intros W LO H. assert (W' := W). destruct W' as (L&R&ND&G).
  destruct (take_ok (parts m) ids H) as (ps&E&Lp&Ap).
  destruct (take_ok (rows (tbl m)) ids) as (rs&E'&Lr&Ar); [intros i I; fold (tlen (tbl m)); rewrite L; now apply H|].
  exists ps, rs. split; [exact E|]. split; [exact E'|]. unfold subset. rewrite E. cbn [bind]. rewrite E'. cbn [bind].
  assert (T : table_of_rows rs ord = Ok (mkT ord rs)).
  { unfold table_of_rows. destruct rs as [|r rs]; [reflexivity|].
    rewrite (rect_row (tbl m) r R); [|apply (take_in _ _ _ E' r); now left]. rewrite LO, Nat.eqb_refl. reflexivity. }
  rewrite T. reflexivity.
Qed.
Lemma subset_ok (m : multi) ids : one_record_each m -> (forall i, In i ids -> i < length (parts m)) ->
  exists r, subset (fields (tbl m)) m ids = Ok r /\ restricted m r ids /\ fields (tbl r) = fields (tbl m) /\ props r = props m.
Proof.
  intros W H. assert (W' := W). destruct W' as (L&R&ND&G).
  destruct (subset_val _ m ids W eq_refl H) as (ps&rs&E&E'&S).
  destruct (take_ok (parts m) ids H) as (ps'&E1&Lp&Ap). rewrite E in E1. injection E1 as <-.
  destruct (take_ok (rows (tbl m)) ids) as (rs'&E2&Lr&Ar); [intros i I; fold (tlen (tbl m)); rewrite L; now apply H|].
  rewrite E' in E2. injection E2 as <-.
  assert (W2 : one_record_each (mkMulti ps (mkT (fields (tbl m)) rs) (props m) [])).
  { split; [cbn; unfold tlen; cbn; lia|]. split; [|split; [exact ND|reflexivity]].
    apply Forall_forall. cbn. intros r I. apply (rect_row (tbl m) r R). exact (take_in _ _ _ E' r I). }
  eexists. split; [exact S|]. split; [|split; reflexivity]. split; [exact W2|]. split; [exact Lp|].
  intros j i Ej. assert (I := H i (nth_error_In _ _ Ej)).
  destruct (row_some m i W I) as (r&Er). destruct (nth_error (parts m) i) as [p|] eqn:Ep; [|apply nth_error_None in Ep; lia].
  rewrite (getitem_row m i r p W Er Ep).
  rewrite (getitem_row _ j r p W2); [|cbn; rewrite (Ar j i Ej); exact Er|cbn; rewrite (Ap j i Ej); exact Ep].
  eexists _, _. split; [reflexivity|]. split; [reflexivity|]. split; [reflexivity|]. intros k; reflexivity.
Qed.
(** Whatever the order: the members are right, but the columns bear the names in the
    order of the set. *)
Lemma subset_names ord (m : multi) ids : one_record_each m -> set_order ord (fields (tbl m)) ->
  (forall i, In i ids -> i < length (parts m)) ->
  exists r, subset ord m ids = Ok r /\ one_record_each r /\
    forall j f g, nth_error (fields (tbl m)) j = Some f -> nth_error ord j = Some g ->
      exists vs ws, getfield (tbl m) f = Ok vs /\ getfield (tbl r) g = Ok ws /\ length ws = length ids /\
        forall n i, nth_error ids n = Some i -> nth_error ws n = nth_error vs i.
Proof.
  intros W (NO&SO) H. assert (W' := W). destruct W' as (L&R&ND&G).
  assert (LO : length ord = length (fields (tbl m))).
  { apply Permutation_length. apply NoDup_Permutation; auto. }
  destruct (subset_val _ m ids W LO H) as (ps&rs&E&E'&S).
  destruct (take_ok (parts m) ids H) as (ps'&E1&Lp&Ap). rewrite E in E1. injection E1 as <-.
  destruct (take_ok (rows (tbl m)) ids) as (rs'&E2&Lr&Ar); [intros i I; fold (tlen (tbl m)); rewrite L; now apply H|].
  rewrite E' in E2. injection E2 as <-.
  eexists. split; [exact S|].
  assert (R2 : rectangular (mkT ord rs)).
  { apply Forall_forall. cbn. intros r I. rewrite LO. apply (rect_row (tbl m) r R). exact (take_in _ _ _ E' r I). }
  split. { split; [cbn; unfold tlen; cbn; lia|]. split; [exact R2|split; [exact NO|reflexivity]]. }
  intros j f g Ef Eg.
  assert (IX : forall (l : list string) x, NoDup l -> nth_error l j = Some x -> index_of x l = Some j).
  { clear. intros l x N E. destruct (index_of_In x l (nth_error_In _ _ E)) as (j'&E').
    rewrite E'. f_equal. apply index_of_Some in E' as (E'&Lt). rewrite NoDup_nth_error in N. apply N; [exact Lt|congruence]. }
  exists (map (cellv j) (rows (tbl m))), (map (cellv j) rs).
  split; [apply getfield_rect; auto|]. split; [apply (getfield_rect vnone (mkT ord rs)); auto; cbn; auto|].
  split; [rewrite map_length; exact Lr|]. intros n i En.
  assert (I := H i (nth_error_In _ _ En)). destruct (row_some m i W I) as (r&Er).
  rewrite (map_nth_error (cellv j) i (rows (tbl m)) Er). rewrite (map_nth_error (cellv j) n rs (d := r)); [reflexivity|].
  now rewrite (Ar n i En).
Qed.

(* ---- comparing members *)
Lemma cell_fun (m : multi) i k v w : cell m i k v -> cell m i k w -> v = w.
Proof.
  intros [(vs&A&B)|(A&B)] [(ws&C&D)|(C&D)].
  - congruence.
  - apply getfield_Ok_In in A. contradiction.
  - apply getfield_Ok_In in C. contradiction.
  - congruence.
Qed.
Lemma same_by_cells (m r : multi) i j p : one_record_each m -> one_record_each r ->
  nth_error (parts m) i = Some p -> nth_error (parts r) j = Some p ->
  (forall k, In k (fields (tbl m)) <-> In k (fields (tbl r))) ->
  (forall k vs ws, getfield (tbl m) k = Ok vs -> getfield (tbl r) k = Ok ws -> nth_error ws j = nth_error vs i) ->
  same_entries (props m) (props r) ->
  exists p q, getitem m i = Ok p /\ getitem r j = Ok q /\ same_member p q.
Proof.
  intros Wm Wr Em Er F V Pr.
  destruct (getitem_ok m i p Wm Em) as (a&Ea&Pa&Ka). destruct (getitem_ok r j p Wr Er) as (b&Eb&Pb&Kb).
  exists a, b. split; [exact Ea|]. split; [exact Eb|]. split; [congruence|]. intros k.
  destruct (Ka k) as (v&Cv&->). destruct (Kb k) as (w&Cw&->). rewrite (Pr k). destruct (dict_get (props r) k); [reflexivity|].
  destruct Cv as [(vs&A&<-)|(A&->)], Cw as [(ws&C&<-)|(C&->)].
  - symmetry. now apply (V k).
  - exfalso. apply C. apply F. now apply getfield_Ok_In in A.
  - exfalso. apply A. apply F. now apply getfield_Ok_In in C.
  - reflexivity.
Qed.

(* ---- slices *)
Lemma get_slice_ok (m : multi) ids : one_record_each m -> (forall i, In i ids -> i < length (parts m)) ->
  exists d, get_slice (tbl m) ids = Ok d /\ map fst d = fields (tbl m) /\
    forall f ws, In (f, ws) d -> length ws = length ids /\
      exists vs, getfield (tbl m) f = Ok vs /\ forall j i, nth_error ids j = Some i -> nth_error ws j = nth_error vs i.
Proof.
  intros W H. assert (W' := W). destruct W' as (L&R&ND&G).
  destruct (take_ok (rows (tbl m)) ids) as (rs&E&Lr&Ar); [intros i I; fold (tlen (tbl m)); rewrite L; now apply H|].
  unfold get_slice. unfold take in E. rewrite E. cbn [bind].
  rewrite mapM_Ok with (g := fun jf => (snd jf, map (cellv (fst jf)) rs)).
  2:{ intros [j f] I. cbn [fst snd]. apply combine_seq_nth in I. rewrite mapM_Ok with (g := cellv j); [reflexivity|].
      intros r Hr. apply row_get_in. rewrite (rect_row (tbl m) r R); [apply nth_error_Some; congruence|]. exact (take_in _ _ _ E r Hr). }
  eexists. split; [reflexivity|]. split.
  { rewrite map_map. cbn [fst]. clear. generalize (fields (tbl m)) 0. intros l. induction l as [|a l IH]; intros s; [reflexivity|]. cbn. now rewrite IH. }
  intros f ws I. apply in_map_iff in I as ([j f']&[= -> <-]&I). cbn [fst]. apply combine_seq_nth in I.
  split; [now rewrite map_length|].
  assert (IX : index_of f (fields (tbl m)) = Some j).
  { destruct (index_of_In f _ (nth_error_In _ _ I)) as (j'&E'). rewrite E'. f_equal. apply index_of_Some in E' as (E'&Lt).
    rewrite NoDup_nth_error in ND. apply ND; [exact Lt|congruence]. }
  exists (map (cellv j) (rows (tbl m))). split; [now apply getfield_rect|]. intros n i En.
  destruct (row_some m i W (H i (nth_error_In _ _ En))) as (r&Er).
  rewrite (map_nth_error (cellv j) i (rows (tbl m)) Er), (map_nth_error (cellv j) n rs (d := r)); [reflexivity|]. now rewrite (Ar n i En).
Qed.
Lemma slice_ok (m : multi) ids : one_record_each m -> (forall i, In i ids -> i < length (parts m)) ->
  exists r, slice m ids ids = Ok r /\ restricted m r ids /\ fields (tbl r) = fields (tbl m) /\ props r = props m.
Proof.
  intros W H. assert (W' := W). destruct W' as (L&R&ND&G).
  destruct (take_ok (parts m) ids H) as (ps&E&Lp&Ap).
  destruct (get_slice_ok m ids W H) as (d&Ed&Fd&Vd).
  unfold slice. rewrite G. replace (existsb (fun i => existsb (Nat.eqb i) []) ids) with false.
  2:{ symmetry. clear. now induction ids. }
  cbn [andb]. rewrite E. cbn [bind]. rewrite Ed. cbn [bind].
  destruct (of_parts_ok ps (DDict d) (props m)) as (r&Er&Pr&Rr&Wr&Cr&_).
  { intros cols [= <-]. split; [now rewrite Fd|]. intros f vs I. rewrite Lp. now apply (Vd f). }
  { discriminate. }
  destruct (Cr d eq_refl) as (Fr&Gr). rewrite Fd in Fr.
  exists r. split; [exact Er|]. split; [|split; [exact Fr|exact Rr]]. split; [exact Wr|]. split; [congruence|].
  intros j i Ej. assert (I := H i (nth_error_In _ _ Ej)).
  destruct (nth_error (parts m) i) as [p|] eqn:Ep; [|apply nth_error_None in Ep; lia].
  apply (same_by_cells m r i j p W Wr Ep); [rewrite Pr, (Ap j i Ej); exact Ep|now rewrite Fr| |now rewrite Rr].
  intros k vs ws Ev Ew. assert (K := getfield_Ok_In _ _ _ Ev). rewrite <- Fd in K. apply in_map_iff in K as ([k' ws']&<-&K).
  cbn [fst] in *. rewrite (Gr _ _ K) in Ew. injection Ew as <-. destruct (Vd _ _ K) as (_&vs'&Ev'&A). rewrite Ev in Ev'. injection Ev' as <-.
  now apply A.
Qed.

(* ---- from geometries *)
Lemma set_dict_zero (d : list (string * list val)) : forall t : table val, set_dict 0 t d = set_all t (map (fun fv => (fst fv, Ok (snd fv))) d).
Proof.
  induction d as [|[f vs] d IH]; intros t; [reflexivity|]. cbn [set_dict map set_all fst snd Nat.eqb negb andb].
  destruct (setfield t f vs) as [t' [e|]]; [reflexivity|]. apply IH.
Qed.
Definition column (ms : list member) (k : string) : list (option val) := map (fun p => dict_get (mprops p) k) ms.
Lemma merge_properties_ok ord (ms : list member) : (forall k, In k ord -> common ms k) ->
  exists cols, merge_properties ord (map mprops ms) = Ok cols /\ map fst cols = ord /\
    forall k vs, In (k, vs) cols -> map Some vs = column ms k.
Proof.
  induction ord as [|k ord IH]; intros H.
  - exists []. split; [reflexivity|]. split; [reflexivity|]. intros k vs [].
  - destruct IH as (cols&E&F&V); [intros k' I; apply H; now right|].
    assert (exists vs, mapM (fun d => match dict_get d k with Some v => Ok v | None => Err KeyError end) (map mprops ms) = Ok vs /\ map Some vs = column ms k) as (vs&Ev&Cv).
    { assert (Hk := H k (or_introl eq_refl)). clear -Hk. induction ms as [|p ms IHm]; [exists []; split; reflexivity|].
      destruct IHm as (vs&E&C); [intros q I; apply Hk; now right|].
      destruct (dict_get_In (mprops p) k (Hk p (or_introl eq_refl))) as (v&Ev).
      exists (v :: vs). cbn [map mapM]. rewrite Ev. cbn [bind]. rewrite E. cbn [bind]. split; [reflexivity|].
      unfold column. cbn [map]. rewrite Ev. f_equal. exact C. }
    exists ((k, vs) :: cols). unfold merge_properties. cbn [mapM]. rewrite Ev. cbn [bind].
    unfold merge_properties in E. rewrite E. cbn [bind]. split; [reflexivity|]. split; [cbn; now rewrite F|].
    intros k' vs' [[= <- <-]|I]; [exact Cv|exact (V _ _ I)].
Qed.
Lemma in_map_fst {A B} (l : list (A * B)) k : In k (map fst l) -> exists v, In (k, v) l.
Proof. intros H. apply in_map_iff in H as ([a b]&<-&H). eauto. Qed.

Lemma some_nth (vs : list val) (l : list (option val)) i : map Some vs = l -> nth_error l i = option_map Some (nth_error vs i).
Proof. intros <-. apply nth_error_map. Qed.
(** Reading a member of a multipart whose table has the common properties, and other
    columns [old]. *)
Lemma members_read (m : multi) ms (ord : list string) cols : one_record_each m -> parts m = map mpart ms ->
  map fst cols = ord -> (forall k vs, In (k, vs) cols -> map Some vs = column ms k) ->
  (forall k vs, In (k, vs) cols -> getfield (tbl m) k = Ok vs) ->
  forall i p, nth_error ms i = Some p -> exists q, getitem m i = Ok q /\ mpart q = mpart p /\
    forall k, dict_get (props m) k = None ->
      (In k ord -> dict_get (mprops q) k = dict_get (mprops p) k) /\
      (~ In k ord -> exists v, cell m i k v /\ dict_get (mprops q) k = v).
Proof.
  intros W Pm Fc Cc Gc i p E.
  destruct (getitem_ok m i (mpart p) W) as (q&Eq&Pq&Kq); [rewrite Pm; now apply map_nth_error|].
  exists q. split; [exact Eq|]. split; [exact Pq|]. intros k N. destruct (Kq k) as (v&Cv&->). rewrite N.
  split; [|intros _; eauto]. intros I. rewrite <- Fc in I. apply in_map_fst in I as (vs&I).
  destruct Cv as [(ws&A&<-)|(A&->)].
  - rewrite (Gc _ _ I) in A. injection A as <-. assert (K := some_nth _ _ i (Cc _ _ I)). unfold column in K.
    rewrite (map_nth_error (fun p => dict_get (mprops p) k) i ms E) in K. destruct (nth_error vs i); cbn in K; congruence.
  - exfalso. apply A. exact (getfield_Ok_In _ _ _ (Gc _ _ I)).
Qed.

Lemma of_members_absent ord (ms : list member) pr : ms <> [] -> ord <> [] -> NoDup ord -> (forall k, In k ord <-> common ms k) ->
  exists m, of_members ord [] ms Absent pr = Ok m /\ one_record_each m /\ parts m = map mpart ms /\ props m = pr /\ fields (tbl m) = ord /\
    forall i p, nth_error ms i = Some p -> exists q, getitem m i = Ok q /\ mpart q = mpart p /\
      forall k, dict_get pr k = None -> (common ms k -> dict_get (mprops q) k = dict_get (mprops p) k) /\ (~ common ms k -> dict_get (mprops q) k = None).
Proof.
  intros NE NO ND HO. destruct (merge_properties_ok ord ms) as (cols&E&F&V); [intros k; apply HO|].
  assert (LV : forall k vs, In (k, vs) cols -> length vs = length ms).
  { intros k vs I. apply V in I. apply (f_equal (@length _)) in I. unfold column in I. now rewrite !map_length in I. }
  destruct ms as [|p0 ms0]; [congruence|]. remember (p0 :: ms0) as ms eqn:Ems.
  assert (OM : of_members ord [] ms Absent pr =
    bind (merge_properties ord (map mprops ms)) (fun cols => bind (base_table Absent) (fun t =>
    bind (updated [] [] t (MDict cols)) (fun t' => Ok (mkMulti (map mpart ms) t' pr []))))) by (rewrite Ems; reflexivity).
  rewrite OM, E. cbn [bind base_table]. unfold updated. cbn [tlen rows length].
  rewrite set_dict_zero. destruct cols as [|[k0 vs0] cols]; [cbn in F; congruence|]. cbn [map fst snd set_all].
  unfold setfield at 1. unfold table_sized, tlen. cbn [rows repeat length Nat.eqb negb andb].
  assert (n0 : length vs0 = length ms) by (apply (LV k0); now left).
  assert (NZ : length ms <> 0) by (rewrite Ems; cbn; lia).
  assert (NDc : NoDup (k0 :: map fst cols)) by (cbn in F; rewrite F; exact ND).
  inversion NDc as [|? ? Nk0 ND']; subst x l.
  destruct (set_all_Ok vnone (map (fun fv => (fst fv, Ok (snd fv))) cols) (mkT [k0] (map (fun v => [v]) vs0)) (length ms)) as (t'&Et&Rt&Lt&Ft&Gt&Ot).
  { apply Forall_forall. intros r I. apply in_map_iff in I as (v&<-&_). reflexivity. }
  { unfold tlen. cbn. now rewrite map_length. }
  { exact NZ. }
  { rewrite map_map. exact ND'. }
  { intros f I. rewrite map_map in I. cbn. intros [<-|[]]. contradiction. }
  { intros f r I. apply in_map_iff in I as ([g ws]&[= <- <-]&I). exists ws. split; [reflexivity|]. apply (LV g). now right. }
  rewrite Et. cbn [bind set_missing].
  rewrite map_map in Ft. cbn [fields app fst] in Ft. replace (map (fun x : string * list val => fst x) cols) with (map fst cols) in Ft by reflexivity.
  cbn [map fst] in F. rewrite F in Ft.
  assert (G0 : getfield t' k0 = Ok vs0).
  { rewrite Ot; [|cbn; rewrite map_map; intros I; contradiction].
    unfold getfield. cbn [fields index_of]. rewrite String.eqb_refl. cbn [rows]. clear. induction vs0 as [|v vs IH]; [reflexivity|].
    cbn [map mapM]. cbn [row_get nth_error bind]. now rewrite IH. }
  assert (GC : forall k vs, In (k, vs) ((k0, vs0) :: cols) -> getfield t' k = Ok vs).
  { intros k vs [[= <- <-]|I]; [exact G0|]. apply (Gt k (Ok vs)). apply in_map_iff. exists (k, vs). auto. }
  set (m := mkMulti (map mpart ms) t' pr []).
  assert (W : one_record_each m).
  { split; [unfold m; cbn; rewrite map_length; exact Lt|]. split; [exact Rt|]. split; [cbn; rewrite Ft; exact ND|reflexivity]. }
  exists m. split; [reflexivity|]. split; [exact W|]. split; [reflexivity|]. split; [reflexivity|]. split; [exact Ft|].
  intros i p Ep. destruct (members_read m ms ord ((k0, vs0) :: cols) W eq_refl F V GC i p Ep) as (q&Eq&Pq&Kq).
  exists q. split; [exact Eq|]. split; [exact Pq|]. intros k N. destruct (Kq k N) as (A&B). split; [intros C; apply A; now apply HO|].
  intros C. destruct B as (v&Cv&->); [intros I; apply C; now apply HO|]. destruct Cv as [(vs&X&_)|(_&->)]; [|reflexivity].
  exfalso. apply C, HO. rewrite <- Ft. exact (getfield_Ok_In _ _ _ X).
Qed.
Lemma of_members_no_common ords (ms : list member) pr : ms <> [] ->
  of_members [] [] ms Absent pr = Ok (mkMulti (map mpart ms) (mkT [] []) pr []) /\
  forall m, of_members [] ords ms Absent pr = Ok m -> iterate m = Ok [] /\ forall i, getitem m i = Err IndexError.
Proof.
  intros NE. destruct ms as [|p ms]; [congruence|]. split; [reflexivity|]. intros m.
  assert (X : forall ords (t : table val), set_missing (mkT [] []) t ords = Ok t \/ exists e, set_missing (mkT [] []) t ords = Err e).
  { clear. induction ords as [|f ords IH]; intros t; [now left|]. cbn [set_missing]. destruct (index_of f (fields t)); [apply IH|].
    cbn [getfield fields index_of bind]. right. eauto. }
  cbn [of_members merge_properties mapM bind base_table]. unfold updated. cbn [tlen rows length set_dict bind].
  destruct (X ords (table_sized [] 0)) as [->|(e&->)]; [|discriminate]. cbn [bind]. intros [= <-].
  assert (Y : forall i, getitem (mkMulti (mpart p :: map mpart ms) (table_sized [] 0) pr []) i = Err IndexError).
  { intros i. unfold getitem, record, table_sized, get. cbn. now destruct i. }
  split; [|exact Y]. unfold iterate. cbn [iterate_from tlen]. now rewrite Y.
Qed.
End Proofs.
