(** Proofs about GeoJSON. *)
From Coq Require Import String Ascii.
From Coq Require Import List Bool Arith ZArith Lia.
From Verif Require Import Gjs_Model Gjs_Spec.
Import ListNotations.
Open Scope list_scope.

(* ---- dictionaries *)
Lemma get_set : forall (A : Type) k k' (v : A) d, get k (set k' v d) = if String.eqb k k' then Some v else get k d.
Proof.
  induction d as [| [k2 v2] d IH]; cbn; [reflexivity |]. destruct (String.eqb k' k2) eqn:E; cbn.
  - apply String.eqb_eq in E. subst. destruct (String.eqb k k2); reflexivity.
  - destruct (String.eqb k k2) eqn:E2; [| exact IH]. apply String.eqb_eq in E2. subst.
    rewrite String.eqb_sym, E. reflexivity.
Qed.
Lemma get_notin : forall (A : Type) k (d : list (string * A)), ~ In k (map fst d) <-> get k d = None.
Proof.
  induction d as [| [k' v] d IH]; cbn; [tauto |]. destruct (String.eqb k k') eqn:E.
  - apply String.eqb_eq in E. subst. split; [intros H; exfalso; auto | discriminate].
  - apply String.eqb_neq in E. rewrite <- IH. split; intuition congruence.
Qed.
Lemma get_update : forall (A : Type) (e d : list (string * A)) k, is_dict e -> get k (update d e) = match get k e with Some v => Some v | None => get k d end.
Proof.
  unfold update, is_dict. induction e as [| [k' v] e IH]; intros d k N; cbn; [reflexivity |].
  inversion N as [| ? ? N1 N2]; subst. rewrite IH by exact N2. rewrite get_set.
  destruct (String.eqb k k') eqn:E; [| reflexivity]. apply String.eqb_eq in E. subst.
  apply get_notin in N1. rewrite N1. reflexivity.
Qed.
Lemma set_fresh : forall (A : Type) k (v : A) d, ~ In k (map fst d) -> set k v d = d ++ [(k, v)].
Proof.
  induction d as [| [k' v'] d IH]; cbn; intros H; [reflexivity |]. destruct (String.eqb k k') eqn:E.
  - apply String.eqb_eq in E. subst. tauto.
  - rewrite IH by tauto. reflexivity.
Qed.
Lemma update_nil : forall (A : Type) (e : list (string * A)), is_dict e -> update [] e = e.
Proof.
  intros A e. unfold update, is_dict. change e with ([] ++ e) at 1 3. generalize (@nil (string * A)) as d.
  induction e as [| [k v] e IH]; intros d N; cbn; [rewrite app_nil_r; reflexivity |].
  rewrite set_fresh.
  - rewrite IH; rewrite <- app_assoc; [reflexivity | exact N].
  - rewrite map_app in N. cbn in N. apply NoDup_remove_2 in N. rewrite in_app_iff in N. tauto.
Qed.
Lemma set_keys : forall (A : Type) k (v : A) d x, In x (map fst (set k v d)) <-> x = k \/ In x (map fst d).
Proof.
  intros. destruct (get x (set k v d)) eqn:E.
  - assert (In x (map fst (set k v d))) as I. { destruct (in_dec string_dec x (map fst (set k v d))) as [I | I]; [exact I |]. apply get_notin in I. congruence. }
    split; [| tauto]. intros _. rewrite get_set in E. destruct (String.eqb x k) eqn:E2; [left; apply String.eqb_eq; exact E2 |].
    right. destruct (in_dec string_dec x (map fst d)) as [J | J]; [exact J |]. apply get_notin in J. congruence.
  - assert (~ In x (map fst (set k v d))) as I by (apply get_notin; exact E).
    split; [tauto |]. intros J. exfalso. rewrite get_set in E. destruct (String.eqb x k) eqn:E2; [discriminate |].
    apply get_notin in E. destruct J as [-> | J]; [| tauto]. rewrite String.eqb_refl in E2. discriminate.
Qed.
Lemma set_dict : forall (A : Type) k (v : A) d, is_dict d -> is_dict (set k v d).
Proof.
  unfold is_dict. induction d as [| [k' v'] d IH]; cbn; intros N; [repeat constructor; auto |].
  inversion N as [| ? ? N1 N2]; subst. destruct (String.eqb k k') eqn:E; cbn.
  - apply String.eqb_eq in E. subst. constructor; assumption.
  - constructor; [| auto]. rewrite set_keys. intros [-> | I]; [| contradiction]. rewrite String.eqb_refl in E. discriminate.
Qed.
Lemma update_dict : forall (A : Type) (e d : list (string * A)), is_dict d -> is_dict (update d e).
Proof.
  unfold update. induction e as [| [k v] e IH]; intros d N; cbn; [exact N |]. apply IH. apply set_dict. exact N.
Qed.
Lemma get_in_pair : forall (A : Type) k (d : list (string * A)) v, is_dict d -> (In (k, v) d <-> get k d = Some v).
Proof.
  unfold is_dict. induction d as [| [k' v'] d IH]; cbn; intros v N; [split; [contradiction | discriminate] |].
  inversion N as [| ? ? N1 N2]; subst. destruct (String.eqb k k') eqn:E.
  - apply String.eqb_eq in E. subst. split.
    + intros [[= ->] | I]; [reflexivity |]. exfalso. apply N1. apply in_map_iff. exists (k', v). auto.
    + intros [= ->]. auto.
  - rewrite <- IH by exact N2. split; [intros [[= -> ->] | I]; [rewrite String.eqb_refl in E; discriminate | exact I] | auto].
Qed.

(* ---- dividing the properties *)
Definition long (n : nat) (v : jv) : bool := match pylen v with Some m => Nat.eqb m n | None => false end.
Lemma long_spec : forall n v, long n v = true <-> pylen v = Some n.
Proof.
  intros n v. unfold long. destruct (pylen v) as [m |]; [| split; discriminate].
  rewrite Nat.eqb_eq. split; congruence.
Qed.
Lemma split_spec : forall n p, is_dict p ->
  split_props n p = (filter (fun kv => negb (long n (snd kv))) p, filter (fun kv => long n (snd kv)) p).
Proof.
  intros n p. unfold split_props, is_dict.
  assert (forall p a b, NoDup (map fst a ++ map fst p) -> NoDup (map fst b ++ map fst p) ->
    fold_left (fun (pd : dict * dict) kv =>
      if match pylen (snd kv) with Some m => Nat.eqb m n | None => false end
      then (fst pd, set (fst kv) (snd kv) (snd pd)) else (set (fst kv) (snd kv) (fst pd), snd pd)) p (a, b) =
    (a ++ filter (fun kv => negb (long n (snd kv))) p, b ++ filter (fun kv => long n (snd kv)) p)) as G.
  { clear p. induction p as [| [k v] p IH]; intros a b A B; cbn [fold_left fst snd filter].
    - rewrite !app_nil_r. reflexivity.
    - pose proof (NoDup_remove_2 _ _ _ A) as A2. pose proof (NoDup_remove_2 _ _ _ B) as B2.
      pose proof (NoDup_remove_1 _ _ _ A) as A1. pose proof (NoDup_remove_1 _ _ _ B) as B1.
      fold (long n v). destruct (long n v) eqn:L; cbn [negb].
      + rewrite set_fresh by (intros I; apply B2, in_app_iff; auto). rewrite IH.
        * rewrite <- app_assoc. reflexivity.
        * exact A1.
        * rewrite map_app, <- app_assoc. exact B.
      + rewrite set_fresh by (intros I; apply A2, in_app_iff; auto). rewrite IH.
        * rewrite <- app_assoc. reflexivity.
        * rewrite map_app, <- app_assoc. exact A.
        * exact B1. }
  intros N. rewrite G; [reflexivity | exact N | exact N].
Qed.
Lemma filter_dict : forall (A : Type) f (p : list (string * A)), is_dict p -> is_dict (filter f p).
Proof.
  unfold is_dict. induction p as [| [k v] p IH]; cbn; intros N; [constructor |]. inversion N as [| ? ? N1 N2]; subst.
  destruct (f (k, v)); cbn; [| auto]. constructor; [| auto]. intros I. apply N1. apply in_map_iff in I.
  destruct I as ([k' v'] & E & I). cbn in E. subst. apply filter_In in I. apply in_map_iff. exists (k, v'). tauto.
Qed.
Lemma get_filter : forall (f : jv -> bool) (p : dict) k, is_dict p ->
  get k (filter (fun kv => f (snd kv)) p) = match get k p with Some v => if f v then Some v else None | None => None end.
Proof.
  intros f p k N. destruct (get k p) as [v |] eqn:E.
  - apply get_in_pair in E; [| exact N]. destruct (f v) eqn:F.
    + apply get_in_pair; [apply filter_dict; exact N |]. apply filter_In. auto.
    + apply get_notin. intros I. apply in_map_iff in I. destruct I as ([k' v'] & E' & I). cbn in E'. subst.
      apply filter_In in I. destruct I as [I J]. cbn in J. apply get_in_pair in E; [| exact N]. apply get_in_pair in I; [| exact N]. congruence.
  - apply get_notin. apply get_notin in E. intros I. apply E. apply in_map_iff in I. destruct I as (kv & E' & I).
    apply filter_In in I. apply in_map_iff. exists kv. tauto.
Qed.

(* ---- tables *)
Lemma index_of_none : forall f fs, index_of f fs = None <-> ~ In f fs.
Proof.
  induction fs as [| g fs IH]; cbn; [tauto |]. destruct (String.eqb f g) eqn:E.
  - apply String.eqb_eq in E. subst. split; [discriminate | intros H; exfalso; auto].
  - apply String.eqb_neq in E. destruct (index_of f fs); cbn; split; try discriminate; intros H; [| | auto].
    + exfalso. destruct IH as [_ IH]. discriminate IH. tauto.
    + intros [-> | I]; [congruence |]. destruct IH as [IH _]. apply IH; auto.
Qed.
Lemma index_of_some : forall f fs i, index_of f fs = Some i -> nth_error fs i = Some f.
Proof.
  induction fs as [| g fs IH]; cbn; intros i H; [discriminate |]. destruct (String.eqb f g) eqn:E.
  - injection H as <-. apply String.eqb_eq in E. subst. reflexivity.
  - destruct (index_of f fs) as [j |]; [| discriminate]. injection H as <-. cbn. auto.
Qed.
Lemma index_of_nth : forall fs i f, NoDup fs -> nth_error fs i = Some f -> index_of f fs = Some i.
Proof.
  intros fs i f N H. destruct (index_of f fs) as [j |] eqn:E.
  - apply index_of_some in E. f_equal. apply (proj1 (NoDup_nth_error fs) N); [apply nth_error_Some; congruence | congruence].
  - apply index_of_none in E. apply nth_error_In in H. contradiction.
Qed.
Lemma zip_cons_len : forall c rs, length c = length rs -> length (zip_cons c rs) = length c.
Proof. induction c as [| x c IH]; intros [| r rs] E; cbn in *; try lia. rewrite IH by lia. reflexivity. Qed.
Lemma zip_cons_in : forall c rs q, In q (zip_cons c rs) -> exists x r, q = x :: r /\ In r rs.
Proof.
  induction c as [| x c IH]; intros [| r rs] q Q; cbn in Q; try contradiction. destruct Q as [<- | Q]; [exists x, r; cbn; auto |].
  destruct (IH rs q Q) as (y & s & -> & I). exists y, s. cbn. auto.
Qed.
Lemma zip_cons_col0 : forall c rs, length c = length rs -> column 0 (zip_cons c rs) = Ok c.
Proof. induction c as [| x c IH]; intros [| r rs] E; cbn in *; try lia; [reflexivity |]. rewrite IH by lia. reflexivity. Qed.
Lemma zip_cons_colS : forall i c rs, length c = length rs -> column (S i) (zip_cons c rs) = column i rs.
Proof. induction c as [| x c IH]; intros [| r rs] E; cbn in *; try lia; [reflexivity |]. rewrite IH by lia. reflexivity. Qed.
Lemma zip_spec : forall cols n, cols <> [] -> (forall c, In c cols -> length c = n) ->
  length (zip cols) = n /\ (forall r, In r (zip cols) -> length r = length cols) /\
  forall i c, nth_error cols i = Some c -> column i (zip cols) = Ok c.
Proof.
  induction cols as [| c cols IH]; intros n NE L; [congruence |]. destruct cols as [| c2 cols].
  - clear IH NE. specialize (L c (or_introl eq_refl)). cbn [zip]. split; [rewrite map_length; exact L |]. split.
    + intros r R. apply in_map_iff in R. destruct R as (x & <- & _). reflexivity.
    + intros [| i] c' H; [| destruct i; discriminate]. cbn in H. injection H as <-. clear.
      induction c as [| x c IHc]; cbn; [reflexivity | rewrite IHc; reflexivity].
  - destruct (IH n) as (A & B & C); [discriminate | intros; apply L; right; assumption |].
    pose proof (L c (or_introl eq_refl)) as LC. clear IH NE L.
    change (zip (c :: c2 :: cols)) with (zip_cons c (zip (c2 :: cols))).
    set (rs := zip (c2 :: cols)) in *. clearbody rs.
    assert (length c = length rs) as E by congruence. split; [rewrite zip_cons_len; congruence |]. split.
    + intros r R. destruct (zip_cons_in c rs r R) as (x & r' & -> & R'). cbn [length]. rewrite (B r' R'). reflexivity.
    + intros [| i] c' H; cbn [nth_error] in H.
      * injection H as <-. apply zip_cons_col0. exact E.
      * rewrite zip_cons_colS by exact E. exact (C i c' H).
Qed.
Lemma nth_error_map_some : forall (A B : Type) (f : A -> B) l i x, nth_error l i = Some x -> nth_error (map f l) i = Some (f x).
Proof. intros A B f l i x H. rewrite nth_error_map, H. reflexivity. Qed.
Lemma letters_len : forall s, length (letters s) = String.length s.
Proof. induction s; cbn; auto. Qed.
Lemma items_len : forall v n, pylen v = Some n -> length (items v) = n.
Proof. intros [| b | z | s | l | l] n; cbn; intros [= <-]; try reflexivity; [apply letters_len | apply map_length]. Qed.
(** A table made of lists. *)
Lemma make_table_lists : forall (cols : dict) n, is_dict cols -> (forall k v, In (k, v) cols -> exists l, v = JList l /\ length l = n) ->
  is_table (make_table cols n) n /\ fields (make_table cols n) = map fst cols /\
  forall k l, get k cols = Some (JList l) -> getfield (make_table cols n) k = Ok l.
Proof.
  intros [| [k0 v0] cols] n N L.
  - cbn. split; [| split; [reflexivity | discriminate]]. split; [constructor |]. cbn. split; [apply repeat_length |].
    intros r R. apply repeat_spec in R. subst. reflexivity.
  - destruct (L k0 v0 (or_introl eq_refl)) as (l0 & -> & L0).
    set (cs := (k0, JList l0) :: cols) in *.
    assert (make_table cs n = mkTable (map fst cs) (zip (map (fun kv => items (snd kv)) cs))) as -> by reflexivity.
    destruct (zip_spec (map (fun kv => items (snd kv)) cs) n) as (A & B & C).
    { discriminate. }
    { intros c I. apply in_map_iff in I. destruct I as ([k v] & <- & I). cbn. destruct (L k v I) as (l & -> & E). exact E. }
    split; [split; [exact N | cbn [rows]; split; [exact A |]] |].
    + intros r R. cbn [fields]. rewrite (B r R), !map_length. reflexivity.
    + split; [reflexivity |]. intros k l G. apply get_in_pair in G; [| exact N]. apply In_nth_error in G. destruct G as (i & I).
      unfold getfield. cbn [fields rows]. rewrite (index_of_nth _ i k); [| exact N |].
      * rewrite (C i l); [reflexivity |]. exact (nth_error_map_some _ _ (fun kv => items (snd kv)) _ _ _ I).
      * exact (nth_error_map_some _ _ fst _ _ _ I).
Qed.
Lemma column_ok : forall i rs m, (forall r, In r rs -> length r = m) -> i < m -> exists c, column i rs = Ok c /\ length c = length rs.
Proof.
  induction rs as [| r rs IH]; intros m L I; cbn; [exists []; auto |].
  destruct (nth_error r i) as [v |] eqn:E.
  - destruct (IH m) as (c & C & LC); [intros; apply L; right; assumption | exact I |]. rewrite C. exists (v :: c). cbn. auto.
  - exfalso. apply nth_error_None in E. rewrite (L r) in E by (left; reflexivity). lia.
Qed.
Lemma getfield_ok : forall t n k, is_table t n -> In k (fields t) -> exists c, getfield t k = Ok c /\ length c = n.
Proof.
  intros t n k (N & L & R) I. unfold getfield. destruct (index_of k (fields t)) as [i |] eqn:E.
  - destruct (column_ok i (rows t) (length (fields t)) R) as (c & C & LC).
    + apply index_of_some in E. apply nth_error_Some. congruence.
    + exists c. split; [exact C | congruence].
  - apply index_of_none in E. contradiction.
Qed.
Lemma getfield_none : forall t k, ~ In k (fields t) -> getfield t k = Raise KeyError.
Proof. intros t k H. unfold getfield. apply index_of_none in H. rewrite H. reflexivity. Qed.

(* ---- writing *)
Definition gj_col (t : table) (f : string) : outcome (string * jv) := match getfield t f with Ok c => Ok (f, JList c) | Raise e => Raise e end.
Lemma gj_data_table : forall t n, is_table t n -> exists d, gj_data (Some t) = Ok d /\ map fst d = fields t /\
  forall k v, In (k, v) d -> exists c, v = JList c /\ getfield t k = Ok c /\ length c = n.
Proof.
  intros t n T. cbn. change (fun f => match getfield t f with Ok c => Ok (f, JList c) | Raise e => Raise e end) with (gj_col t).
  assert (forall fs, incl fs (fields t) -> exists d, mapO (gj_col t) fs = Ok d /\ map fst d = fs /\
    forall k v, In (k, v) d -> exists c, v = JList c /\ getfield t k = Ok c /\ length c = n) as G.
  { induction fs as [| f fs IH]; intros I; cbn [mapO].
    - exists []. repeat split; cbn; contradiction.
    - destruct (getfield_ok t n f T) as (c & C & LC); [apply I; left; reflexivity |].
      destruct IH as (d & D & F & X); [intros x X; apply I; right; exact X |].
      unfold gj_col at 1. rewrite C, D. exists ((f, JList c) :: d). split; [reflexivity |]. split; [cbn; congruence |].
      intros k v [[= <- <-] | J]; [exists c; auto | auto]. }
  apply G. apply incl_refl.
Qed.
Lemma gj_data_keys : forall (d : option table) e, gj_data d = Ok e -> map fst e = match d with Some t => fields t | None => [] end.
Proof.
  intros [t |] e H; cbn in H; [| injection H as <-; reflexivity].
  revert e H. generalize (fields t) as fs. induction fs as [| f fs IH]; intros e H; cbn in H; [injection H as <-; reflexivity |].
  destruct (getfield t f); [| discriminate].
  destruct (mapO _ fs) as [d |]; [| discriminate]. injection H as <-. cbn. rewrite (IH d eq_refl). reflexivity.
Qed.

Section WithV.
Variable V : Type.
Implicit Types g : geo V.

(** What writing leaves of the geometry. *)
Theorem as_geojson_effect : forall urn force wgs tr g c p g', as_geojson urn force wgs tr g = Ok (c, p, g') ->
  (forall t, data g = Some t -> NoDup (fields t)) ->
  verts g' = verts g /\ data g' = data g /\
  (forall k, (forall t, data g = Some t -> ~ In k (fields t)) -> get k (props g') = get k (props g)) /\
  props g' = p.
Proof.
  intros urn force wgs tr g c p g' H ND. unfold as_geojson, as_named_tuple in H.
  destruct (if force then match urn with None => Some _ | Some _ => urn end else urn); [| discriminate].
  set (h := if force && negb wgs then mkGeo (reproject tr (verts g)) (props g) (data g) else g) in *.
  destruct (gj_coords (verts h)) as [c' |]; [| discriminate].
  destruct (gj_data (data h)) as [d |] eqn:D; [| discriminate].
  injection H as <- <- <-. cbn [verts data props]. split; [reflexivity |]. split; [reflexivity |]. split; [| reflexivity].
  intros k K. assert (props h = props g /\ data h = data g) as [-> DH] by (unfold h; destruct (force && negb wgs); auto).
  rewrite DH in D. apply gj_data_keys in D. rewrite get_update.
  - assert (get k d = None) as ->; [| reflexivity]. apply get_notin. rewrite D. destruct (data g) as [t |]; [| cbn; tauto]. apply (K t). reflexivity.
  - unfold is_dict. rewrite D. destruct (data g) as [t |]; [apply (ND t); reflexivity | constructor].
Qed.

(* ---- reading one feature *)
Lemma read_feature : forall (h : gjgeom V) p, read_geojson (DFeature (DGeometry h) p) =
  let pd := feature_props (DGeometry h) p in
  match convert_geometry h (fst pd) (snd pd) with Ok x => Ok (RList [RGeo x]) | Raise e => Raise e end.
Proof.
  intros h p. unfold read_geojson. cbn [convert]. cbv zeta.
  destruct (convert_geometry h _ _); reflexivity.
Qed.
Lemma multi_read : forall (h : gjgeom V) p n, count h = Some n -> is_dict p -> exists s,
  gj_coords s = gj_coords s /\
  read_geojson (DFeature (DGeometry h) p) =
  Ok (RList [RGeo (mkGeo s (filter (fun kv => negb (long n (snd kv))) p) (Some (make_table (filter (fun kv => long n (snd kv)) p) n)))]) /\
  match h with GMultiPoint l => s = MPt l | GMultiLineString l => s = MLn l | GMultiPolygon l => s = MPg l | _ => True end.
Proof.
  intros h p n C N. rewrite read_feature. unfold feature_props.
  assert (forallb (fun kv => match pylen (snd kv) with Some m => Nat.eqb m n | None => false end) (filter (fun kv => long n (snd kv)) p) = true) as F.
  { apply forallb_forall. intros kv I. apply filter_In in I. apply I. }
  destruct h; cbn in C; try discriminate; injection C as C; cbn [parts]; rewrite C, split_spec by exact N; cbn [fst snd convert_geometry]; unfold multipart; rewrite C;
    rewrite F; eexists; (split; [reflexivity |]); split; reflexivity.
Qed.
(** Every property goes to exactly one place. *)
Theorem read_partition : forall (h : gjgeom V) p n, count h = Some n -> is_dict p ->
  exists g t, read_geojson (DFeature (DGeometry h) p) = Ok (RList [RGeo g]) /\ data g = Some t /\
  (forall k v, get k p = Some v -> pylen v = Some n -> In k (fields t) /\ get k (props g) = None) /\
  (forall k v, get k p = Some v -> pylen v <> Some n -> ~ In k (fields t) /\ get k (props g) = Some v) /\
  (forall k, get k p = None -> ~ In k (fields t) /\ get k (props g) = None).
Proof.
  intros h p n C N. destruct (multi_read h p n C N) as (s & _ & R & _). eexists. eexists. split; [exact R |].
  cbn [data props]. split; [reflexivity |].
  assert (forall k, In k (fields (make_table (filter (fun kv => long n (snd kv)) p) n)) <-> get k (filter (fun kv => long n (snd kv)) p) <> None) as F.
  { intros k. assert (fields (make_table (filter (fun kv => long n (snd kv)) p) n) = map fst (filter (fun kv => long n (snd kv)) p)) as ->.
    { destruct (filter (fun kv => long n (snd kv)) p) as [| [k1 []] ?]; reflexivity. }
    destruct (in_dec string_dec k (map fst (filter (fun kv => long n (snd kv)) p))) as [I | I].
    - split; [| auto]. intros _ G. apply get_notin in G. contradiction.
    - split; [contradiction |]. intros G. apply get_notin in I. contradiction. }
  repeat split; intros; rewrite ?F; rewrite ?(get_filter (long n)), ?(get_filter (fun v => negb (long n v))) by exact N.
  - rewrite H. rewrite (proj2 (long_spec n v)) by exact H0. discriminate.
  - rewrite H. rewrite (proj2 (long_spec n v)) by exact H0. reflexivity.
  - rewrite H. destruct (long n v) eqn:L; [apply long_spec in L; contradiction | auto].
  - rewrite H. destruct (long n v) eqn:L; [apply long_spec in L; contradiction | reflexivity].
  - rewrite H. auto.
  - rewrite H. reflexivity.
Qed.
(** Columns that are lists are read as they are. *)
Theorem read_columns : forall (h : gjgeom V) p n, count h = Some n -> is_dict p ->
  (forall k v, get k p = Some v -> pylen v = Some n -> exists l, v = JList l) ->
  exists g t, read_geojson (DFeature (DGeometry h) p) = Ok (RList [RGeo g]) /\ data g = Some t /\ is_table t n /\
  forall k l, get k p = Some (JList l) -> length l = n -> getfield t k = Ok l.
Proof.
  intros h p n C N L. destruct (multi_read h p n C N) as (s & _ & R & _). eexists. eexists. split; [exact R |].
  cbn [data]. split; [reflexivity |].
  destruct (make_table_lists (filter (fun kv => long n (snd kv)) p) n) as (A & _ & B).
  - apply filter_dict. exact N.
  - intros k v I. apply filter_In in I. destruct I as [I J]. cbn in J. apply long_spec in J. apply get_in_pair in I; [| exact N].
    destruct (L k v I J) as (l & ->). exists l. split; [reflexivity |]. cbn in J. congruence.
  - split; [exact A |]. intros k l G E. apply B. rewrite (get_filter (long n)) by exact N. rewrite G.
    rewrite (proj2 (long_spec n _)); [reflexivity |]. cbn. congruence.
Qed.
(** Geometries without parts: everything is a property. *)
Theorem read_single : forall (h : gjgeom V) p, count h = None -> h <> GPolygon [] -> is_dict p ->
  exists g, read_geojson (DFeature (DGeometry h) p) = Ok (RList [RGeo g]) /\ props g = p /\ data g = None.
Proof.
  intros h p C E N. rewrite read_feature. unfold feature_props.
  destruct h as [v | vs | [| r rs] | vs | vss | ps]; cbn in C; try discriminate; try congruence; cbn [parts fst snd convert_geometry];
    eexists; split; try reflexivity; cbn [props data]; (split; [apply update_nil; exact N | reflexivity]).
Qed.

(* ---- collections *)
Theorem read_collection : forall (fs : list (gjdoc V * dict)) rs,
  read_geojson (DFeatureCollection fs) = Ok (RList rs) <-> Forall2 (fun f r => read_geojson (DFeature (fst f) (snd f)) = Ok (RList [r])) fs rs.
Proof.
  unfold read_geojson. intros fs rs.
  assert (forall (f : gjdoc V * dict) r, convert (DFeature (fst f) (snd f)) [] [] = Ok (RList [r]) <->
    convert (fst f) (fst (feature_props (fst f) (snd f))) (snd (feature_props (fst f) (snd f))) = Ok r) as E.
  { intros f r. cbn [convert]. cbv zeta. destruct (convert (fst f) _ _); split; intros H; congruence. }
  split.
  - revert rs. induction fs as [| [x q] fs IH]; intros rs H.
    + cbn in H. injection H as <-. constructor.
    + cbn [convert] in H. cbv zeta in H.
      destruct (convert x (fst (feature_props x q)) (snd (feature_props x q))) as [r |] eqn:R; [| discriminate].
      cbn [convert] in IH. cbv zeta in IH.
      match type of H with match match ?F with _ => _ end with _ => _ end = _ => destruct F as [rs' |] eqn:FE; [| discriminate] end.
      injection H as <-. constructor; [apply (E (x, q)); exact R |]. apply IH. reflexivity.
  - intros H. induction H as [| [x q] r fs rs R F IH].
    + reflexivity.
    + apply E in R. cbn [fst snd] in R. cbn [convert] in IH |- *. cbv zeta in IH |- *. rewrite R.
      match type of IH with match ?F with _ => _ end = _ => destruct F as [rs' |]; [| discriminate] end.
      injection IH as <-. reflexivity.
Qed.

(** Collections of geometries. *)
Theorem read_geometries : forall (gs : list (gjdoc V)) rs,
  read_geojson (DGeometryCollection gs) = Ok (RList rs) <-> Forall2 (fun x r => read_geojson x = Ok r) gs rs.
Proof.
  unfold read_geojson. intros gs rs. split.
  - revert rs. induction gs as [| x gs IH]; intros rs H.
    + cbn in H. injection H as <-. constructor.
    + cbn [convert] in H. cbv zeta in H. destruct (convert x [] []) as [r |] eqn:R; [| discriminate].
      cbn [convert] in IH. cbv zeta in IH.
      match type of H with match match ?F with _ => _ end with _ => _ end = _ => destruct F as [rs' |] eqn:FE; [| discriminate] end.
      injection H as <-. constructor; [exact R |]. apply IH. reflexivity.
  - intros H. induction H as [| x r gs rs R F IH]; [reflexivity |].
    cbn [convert] in IH |- *. cbv zeta in IH |- *. rewrite R.
    match type of IH with match ?F with _ => _ end = _ => destruct F as [rs' |]; [| discriminate] end.
    injection IH as <-. reflexivity.
Qed.

(* ---- there and back *)
Lemma rewrite_single : forall wind v p, is_dict p ->
  rewrite_geo wind (mkGeo (@Pt V v) p None) = Ok (RList [RGeo (mkGeo (Pt v) p None)]).
Proof.
  intros wind v p N. unfold rewrite_geo, as_geojson, as_named_tuple. cbn [andb negb verts data props gj_coords gj_data written].
  change (update p []) with p. rewrite read_feature. unfold feature_props. cbn [parts fst snd convert_geometry].
  rewrite (update_nil _ p N). reflexivity.
Qed.
Lemma rewrite_line : forall wind vs p, is_dict p ->
  rewrite_geo wind (mkGeo (@Ln V vs) p None) = Ok (RList [RGeo (mkGeo (Ln vs) p None)]).
Proof.
  intros wind v p N. unfold rewrite_geo, as_geojson, as_named_tuple. cbn [andb negb verts data props gj_coords gj_data written].
  change (update p []) with p. rewrite read_feature. unfold feature_props. cbn [parts fst snd convert_geometry].
  rewrite (update_nil _ p N). reflexivity.
Qed.
Lemma rewrite_multi : forall wind (s : shape V) (c : gjgeom V) p t n, gj_coords s = Ok c -> count c = Some n -> count (written wind c) = Some n ->
  is_dict p -> is_table t n -> (forall k v, get k p = Some v -> pylen v <> Some n /\ ~ In k (fields t)) ->
  exists g' t', rewrite_geo wind (mkGeo s p (Some t)) = Ok (RList [RGeo g']) /\ data g' = Some t' /\
    same_dict (props g') p /\ same_table t' t /\
    match written wind c with GMultiPoint l => verts g' = MPt l | GMultiLineString l => verts g' = MLn l | GMultiPolygon l => verts g' = MPg l | _ => True end.
Proof.
  intros wind s c p t n C CN CW N T D. unfold rewrite_geo, as_geojson, as_named_tuple. cbn [andb negb verts data props].
  rewrite C. destruct (gj_data_table t n T) as (d & GD & F & X). rewrite GD.
  assert (is_dict d) as ND. { unfold is_dict. rewrite F. apply T. }
  assert (is_dict (update p d)) as NU by (apply update_dict; exact N).
  destruct (multi_read (written wind c) (update p d) n CW NU) as (s' & _ & R & S).
  rewrite R. eexists. eexists. split; [reflexivity |]. cbn [data props verts]. split; [reflexivity |].
  assert (forall k, get k (update p d) = match get k d with Some v => Some v | None => get k p end) as GU by (intros k; apply get_update; exact ND).
  split; [| split].
  - intros k. rewrite (get_filter (fun v => negb (long n v))) by exact NU. rewrite GU.
    destruct (get k d) as [v |] eqn:E.
    + apply get_in_pair in E; [| exact ND]. destruct (X k v E) as (l & -> & G & L).
      rewrite (proj2 (long_spec n (JList l))) by (cbn; congruence). cbn [negb].
      destruct (get k p) as [w |] eqn:P; [| reflexivity]. exfalso. apply (D k w P). rewrite <- F. apply in_map_iff. exists (k, JList l). auto.
    + destruct (get k p) as [w |] eqn:P; [| reflexivity].
      destruct (long n w) eqn:LW; [| reflexivity]. apply long_spec in LW. exfalso. exact (proj1 (D k w P) LW).
  - destruct (make_table_lists (filter (fun kv => long n (snd kv)) (update p d)) n) as (A & B & G).
    + apply filter_dict. exact NU.
    + intros k v I. apply filter_In in I. destruct I as [I J]. cbn in J. apply long_spec in J. apply get_in_pair in I; [| exact NU].
      rewrite GU in I. destruct (get k d) as [w |] eqn:E.
      * injection I as <-. apply get_in_pair in E; [| exact ND]. destruct (X k w E) as (l & -> & _ & L). exists l. auto.
      * exfalso. exact (proj1 (D k v I) J).
    + split; [destruct A as (_ & A & _), T as (_ & T & _); congruence |].
      intros k. destruct (in_dec string_dec k (fields t)) as [I | I].
      * destruct (getfield_ok t n k T I) as (c' & E & L). rewrite E. apply G.
        rewrite (get_filter (long n)) by exact NU. rewrite GU.
        rewrite <- F in I. apply in_map_iff in I. destruct I as ([k' v] & E' & I). cbn in E'. subst k'.
        destruct (X k v I) as (l & -> & E2 & L2). apply get_in_pair in I; [| exact ND]. rewrite I.
        rewrite (proj2 (long_spec n (JList l))) by (cbn; congruence). congruence.
      * rewrite (getfield_none t k I). apply getfield_none. rewrite B. intros J.
        apply in_map_iff in J. destruct J as ([k' v] & E' & J). cbn in E'. subst k'. apply filter_In in J. destruct J as [J K]. cbn in K. apply long_spec in K.
        apply get_in_pair in J; [| exact NU]. rewrite GU in J. destruct (get k d) as [w |] eqn:E.
        -- apply I. rewrite <- F. apply get_in_pair in E; [| exact ND]. apply in_map_iff. exists (k, w). auto.
        -- exact (proj1 (D k v J) K).
  - destruct (written wind c); auto.
Qed.
Theorem rewrite_multipoint : forall wind vs p t, is_dict p -> is_table t (length vs) ->
  (forall k v, get k p = Some v -> pylen v <> Some (length vs) /\ ~ In k (fields t)) ->
  exists g' t', rewrite_geo wind (mkGeo (@MPt V vs) p (Some t)) = Ok (RList [RGeo g']) /\ verts g' = MPt vs /\ data g' = Some t' /\
    same_dict (props g') p /\ same_table t' t.
Proof.
  intros wind vs p t N T D. destruct (rewrite_multi wind (MPt vs) (GMultiPoint vs) p t (length vs)) as (g' & t' & A & B & C & E & F); auto.
  exists g', t'. auto.
Qed.
Lemma nested_ok : forall (A : Type) (l : list (list A)), (forall x, In x l -> x <> []) -> nested l = Ok l.
Proof.
  intros A l. unfold nested. induction l as [| x l IH]; intros H; cbn [mapO]; [reflexivity |].
  destruct x as [| a x]; [exfalso; apply (H []); [left |]; reflexivity |].
  rewrite IH; [reflexivity |]. intros y I. apply H. right. exact I.
Qed.
Theorem rewrite_multiline : forall wind vss p t, (forall vs, In vs vss -> vs <> []) -> is_dict p -> is_table t (length vss) ->
  (forall k v, get k p = Some v -> pylen v <> Some (length vss) /\ ~ In k (fields t)) ->
  exists g' t', rewrite_geo wind (mkGeo (@MLn V vss) p (Some t)) = Ok (RList [RGeo g']) /\ verts g' = MLn vss /\ data g' = Some t' /\
    same_dict (props g') p /\ same_table t' t.
Proof.
  intros wind vs p t NE N T D. destruct (rewrite_multi wind (MLn vs) (GMultiLineString vs) p t (length vs)) as (g' & t' & A & B & C & E & F); auto.
  - cbn [gj_coords]. rewrite (nested_ok _ _ NE). reflexivity.
  - exists g', t'. auto.
Qed.

Lemma nested_raises : forall (A : Type) (l : list (list A)), In [] l -> nested l = Raise IndexError.
Proof.
  intros A l. unfold nested. induction l as [| x l IH]; intros H; [contradiction |]. cbn [mapO]. destruct x as [| a x]; [reflexivity |].
  destruct H as [H | H]; [discriminate |]. rewrite (IH H). reflexivity.
Qed.
Theorem empty_part : forall tr urn vss p (d : option table), In [] vss -> as_geojson (Some urn) true true tr (mkGeo (@MLn V vss) p d) = Raise IndexError.
Proof. intros tr urn vss p d I. unfold as_geojson, as_named_tuple. cbn [andb negb verts gj_coords]. rewrite (nested_raises _ _ I). reflexivity. Qed.

(* ---- polygons *)
Lemma wind_len : forall (wind : bool -> list V -> list V) b r, turns wind -> length (wind b r) = length r.
Proof. intros wind b r W. destruct (W b r) as [-> | ->]; [reflexivity | apply rev_length]. Qed.
Theorem polygon_grows : forall (wind : bool -> list V -> list V) (v : V) (r : list V) p, turns wind -> is_dict p ->
  exists ring, rewrite_geo wind (mkGeo (Pg (v :: r) []) p None) = Ok (RList [RGeo (mkGeo (Pg ring []) p None)]) /\
    (ring = (v :: r) ++ [v] \/ ring = rev ((v :: r) ++ [v])) /\ length ring = S (length (v :: r)).
Proof.
  intros wind v r p W N. eexists. split.
  - unfold rewrite_geo, as_geojson, as_named_tuple. cbn [andb negb verts data props gj_coords gj_data written close mapO turn_rings map].
    change (update p []) with p. rewrite read_feature. unfold feature_props. cbn [parts fst snd convert_geometry map].
    rewrite (update_nil _ p N). reflexivity.
  - split; [exact (W true ((v :: r) ++ [v])) |]. rewrite (wind_len _ _ _ W). rewrite app_length. cbn [length]. lia.
Qed.
Lemma mapO_subs : forall (hs : list (list V)), mapO sub_vertices (map SubPolygon hs) = Ok hs.
Proof. induction hs as [| h hs IH]; cbn; [reflexivity |]. rewrite IH. reflexivity. Qed.
(** A polygon with a hole that was read cannot be written. *)
Theorem holes_unwritable : forall (wind : bool -> list V -> list V) (v : V) (r h : list V) hs p, turns wind -> is_dict p ->
  exists g', rewrite_geo wind (mkGeo (Pg (v :: r) (map SubPolygon (h :: hs))) p None) = Ok (RList [RGeo g']) /\
    forall urn, as_geojson (Some urn) true true (fun x => x) g' = Raise AttributeError.
Proof.
  intros wind v r h hs p W N. eexists. split.
  - unfold rewrite_geo, as_geojson, as_named_tuple. cbn [andb negb verts data props gj_coords close]. rewrite mapO_subs.
    cbn [gj_data written turn_rings map]. change (update p []) with p. rewrite read_feature. unfold feature_props.
    cbn [convert_geometry parts fst snd map]. rewrite (update_nil _ p N). reflexivity.
  - intros urn. unfold as_geojson, as_named_tuple. cbn [andb negb verts data props gj_coords].
    destruct (close (wind true ((v :: r) ++ [v]))) as [c |] eqn:E; [reflexivity |].
    exfalso. pose proof (wind_len wind true ((v :: r) ++ [v]) W) as L. destruct (wind true _); [discriminate L | discriminate E].
Qed.
(** Reprojection drops the holes. *)
Theorem holes_dropped : forall (tr : V -> V) (v : V) (r : list V) subs p, is_dict p ->
  as_geojson None true false tr (mkGeo (Pg (v :: r) subs) p None) =
  Ok (GPolygon [map tr (v :: r) ++ [tr v]], p, mkGeo (Pg (v :: r) subs) p None).
Proof. intros. reflexivity. Qed.
Theorem no_urn : forall wgs tr g, as_geojson None false wgs tr g = Raise NameError.
Proof. reflexivity. Qed.

(** A ring that came back: closed, perhaps turned. *)
Definition closed_ring (r r' : list V) : Prop := exists v, hd_error r = Some v /\ (r' = r ++ [v] \/ r' = rev (r ++ [v])).
Lemma mapO_close : forall rings, (forall r, In r rings -> r <> []) -> exists rings', mapO close rings = Ok rings' /\
  Forall2 (fun (r r' : list V) => exists v, hd_error r = Some v /\ r' = r ++ [v]) rings rings'.
Proof.
  induction rings as [| r rings IH]; intros N; cbn [mapO]; [exists []; split; [reflexivity | constructor] |].
  destruct IH as (rs & E & F); [intros; apply N; right; assumption |].
  destruct r as [| v r]; [exfalso; exact (N [] (or_introl eq_refl) eq_refl) |].
  rewrite E. cbn [close]. eexists. split; [reflexivity |]. constructor; [exists v; split; reflexivity | exact F].
Qed.
Lemma turn_closed : forall wind rings rings', turns wind -> Forall2 (fun (r r' : list V) => exists v, hd_error r = Some v /\ r' = r ++ [v]) rings rings' ->
  Forall2 closed_ring rings (turn_rings wind rings').
Proof.
  intros wind rings rings' W H. assert (forall b r r', (exists v, hd_error r = Some v /\ r' = r ++ [v]) -> closed_ring r (wind b r')) as T.
  { intros b r r' (v & A & ->). exists v. split; [exact A |]. apply W. }
  destruct H as [| r r' rs rs' A B]; cbn [turn_rings]; constructor; [auto |]. clear A r r'.
  induction B; cbn [map]; constructor; auto.
Qed.
Theorem rewrite_multipolygon : forall (wind : bool -> list V -> list V) ps p t, turns wind -> (forall rings, In rings ps -> rings <> [] /\ forall r, In r rings -> r <> []) ->
  is_dict p -> is_table t (length ps) -> (forall k v, get k p = Some v -> pylen v <> Some (length ps) /\ ~ In k (fields t)) ->
  exists g' t' ps', rewrite_geo wind (mkGeo (MPg ps) p (Some t)) = Ok (RList [RGeo g']) /\ verts g' = MPg ps' /\ data g' = Some t' /\
    same_dict (props g') p /\ same_table t' t /\ Forall2 (Forall2 closed_ring) ps ps'.
Proof.
  intros wind ps p t W NE N T D.
  assert (exists qs, mapO (mapO close) ps = Ok qs /\ length qs = length ps /\ (forall x, In x qs -> x <> []) /\ Forall2 (Forall2 closed_ring) ps (map (turn_rings wind) qs)) as (qs & Q & L & Z & F).
  { clear - W NE. induction ps as [| rings ps IH]; cbn [mapO]; [exists []; repeat split; [intros x [] | constructor] |].
    destruct IH as (qs & E & L & Z & F); [intros a A; apply NE; right; exact A |].
    destruct (NE rings (or_introl eq_refl)) as [N0 N1].
    destruct (mapO_close rings) as (rs & R & G); [exact N1 |].
    rewrite R, E. exists (rs :: qs). split; [reflexivity |]. split; [cbn; congruence |].
    split; [intros x [<- | I]; [intros ->; inversion G; subst; congruence | apply Z, I] |]. cbn [map]. constructor; [| exact F].
    apply turn_closed; assumption. }
  destruct (rewrite_multi wind (MPg ps) (GMultiPolygon qs) p t (length ps)) as (g' & t' & A & B & C & E & G).
  - cbn [gj_coords]. rewrite Q, (nested_ok _ _ Z). reflexivity.
  - cbn. congruence.
  - cbn. rewrite map_length. congruence.
  - exact N.
  - exact T.
  - exact D.
  - exists g', t', (map (turn_rings wind) qs). auto 10.
Qed.

(* ---- findings *)
Theorem mutates : forall v, exists g c p g', as_geojson None true true (fun x => x) g = Ok (c, p, g') /\ verts g = @MPt V [v] /\ ~ same_dict (props g') (props g).
Proof.
  intros v. exists (mkGeo (MPt [v]) [] (Some (mkTable ["depth"%string] [[JNum 5]]))). eexists. eexists. eexists.
  split; [reflexivity |]. split; [reflexivity |]. intros H. specialize (H "depth"%string). discriminate.
Qed.
(** A three-letter name on three points is taken for data, and the table has a row per field. *)
Theorem string_property : forall v, exists g g' t', verts g = @MPt V [v; v; v] /\ props g = [("code"%string, JStr "abc")] /\
  data g = Some (mkTable ["depth"%string] [[JNum 1]; [JNum 2]; [JNum 3]]) /\
  rewrite_geo (fun _ r => r) g = Ok (RList [RGeo g']) /\ data g' = Some t' /\
  get "code"%string (props g') = None /\ length (rows t') = 2 /\ getfield t' "depth"%string = Raise IndexError.
Proof.
  intros v. exists (mkGeo (MPt [v; v; v]) [("code"%string, JStr "abc")] (Some (mkTable ["depth"%string] [[JNum 1]; [JNum 2]; [JNum 3]]))).
  eexists. eexists. split; [reflexivity |]. split; [reflexivity |]. split; [reflexivity |]. split; [vm_compute; reflexivity |].
  split; [reflexivity |]. repeat split; reflexivity.
Qed.
Theorem property_becomes_data : forall v, exists g g' t', verts g = @MPt V [v; v] /\ props g = [("range"%string, JList [JNum 0; JNum 9])] /\
  rewrite_geo (fun _ r => r) g = Ok (RList [RGeo g']) /\ data g' = Some t' /\
  get "range"%string (props g') = None /\ getfield t' "range"%string = Ok [JNum 0; JNum 9].
Proof.
  intros v. exists (mkGeo (MPt [v; v]) [("range"%string, JList [JNum 0; JNum 9])] (Some (mkTable [] [[]; []]))).
  eexists. eexists. split; [reflexivity |]. split; [reflexivity |]. split; [vm_compute; reflexivity |].
  split; [reflexivity |]. split; reflexivity.
Qed.
Theorem data_overrides : forall v, exists g g', verts g = @MPt V [v] /\ props g = [("name"%string, JNum 1)] /\
  rewrite_geo (fun _ r => r) g = Ok (RList [RGeo g']) /\ get "name"%string (props g') = None.
Proof.
  intros v. exists (mkGeo (MPt [v]) [("name"%string, JNum 1)] (Some (mkTable ["name"%string] [[JNum 2]]))).
  eexists. split; [reflexivity |]. split; [reflexivity |]. split; [vm_compute; reflexivity |]. reflexivity.
Qed.
Theorem not_a_list : forall v : V, exists g, read_geojson (DGeometry (GPoint v)) = Ok (RGeo g).
Proof. intros v. eexists. reflexivity. Qed.
End WithV.
