(** More proofs about the parts of multilines and multipolygons: merging polygons, affine
    transformations. *)
From Coq Require Import String List ZArith QArith Bool Arith Lia.
From Verif Require Import Table_Model Table_Spec Table_Proofs Multi_Model Multi_Spec Multi_Proofs Multi_MoreProofs Geom_Model Mpoly_Model Mpoly_Spec Mpoly_Proofs.
Import ListNotations.
Local Open Scope list_scope.
Local Open Scope nat_scope.

Section Proofs.
Variables val D C : Type.
Variable vnone : val.
Notation props := (list (string * val)).
Notation geom := (geom props D C).
Notation mpoly := (mpoly val D C).
Notation ring := (ring val D C).
Notation pitem := (pitem val D C).

Lemma collect_all {A B} (f : A -> got B) (g : A -> B -> Prop) (l : list A) (ys : list B) :
  (forall x y, g x y -> f x = Got y) -> Forall2 g l ys -> collect f l = Got ys.
Proof. intros H. induction 1 as [|x y l ys X F IH]; [reflexivity|]. cbn [collect]. rewrite (H x y X), IH. reflexivity. Qed.
Lemma arrays (l : list (list verts)) : collect (collect (array_of val D C)) (map (map (Coords val D C)) l) = Got l.
Proof.
  assert (A : forall r, collect (array_of val D C) (map (Coords val D C) r) = Got r).
  { induction r as [|v r IH]; [reflexivity|]. cbn [map collect array_of andthen]. rewrite IH. reflexivity. }
  induction l as [|r l IH]; [reflexivity|]. cbn [map]. cbn [collect]. rewrite A. cbn [andthen]. rewrite IH. reflexivity.
Qed.
Lemma item_arrays (x : pitem) l : pparts val D C x l -> pitem_verts val D C x = Got l.
Proof.
  destruct x as [m|g|]; cbn; intros H; [unfold mvertices; rewrite <- H; apply arrays|rewrite H; reflexivity|contradiction].
Qed.
Definition pitem_item (x : pitem) (l : list (list verts)) : item (list verts) val :=
  match x with
  | PMulti _ _ _ m => IMulti (mkMulti l (tbl m) (Multi_Model.props m) (gens m))
  | PPoly _ _ _ g => IPoint (mkM (hd [] l) (gprops _ _ _ g))
  | POther _ _ _ => IPoint (mkM [] [])
  end.
Fixpoint items (xs : list pitem) (ls : list (list (list verts))) : list (item (list verts) val) :=
  match xs, ls with x :: xs', l :: ls' => pitem_item x l :: items xs' ls' | _, _ => [] end.
Lemma items_parts xs ls : Forall2 (pparts val D C) xs ls -> flat_map item_parts (items xs ls) = concat ls.
Proof.
  induction 1 as [|x l xs ls X F IH]; [reflexivity|]. cbn [items flat_map concat]. rewrite IH. f_equal.
  destruct x; cbn in *; [reflexivity|rewrite X; reflexivity|contradiction].
Qed.
Lemma items_mapping xs ls : Forall2 (pparts val D C) xs ls -> map item_mapping (items xs ls) = flat_map (pitem_mapping val D C) xs.
Proof.
  induction 1 as [|x l xs ls X F IH]; [reflexivity|]. cbn [items flat_map map]. rewrite IH. destruct x; cbn in *; [reflexivity|reflexivity|contradiction].
Qed.
Lemma items_split xs : forall ls j x l, nth_error xs j = Some x -> nth_error ls j = Some l ->
  items xs ls = items (firstn j xs) (firstn j ls) ++ pitem_item x l :: items (skipn (S j) xs) (skipn (S j) ls).
Proof.
  induction xs as [|y xs IH]; intros ls j x l Ex El; [destruct j; discriminate|]. destruct ls as [|l0 ls]; [destruct j; discriminate|].
  destruct j as [|j]; cbn in Ex, El; [injection Ex as ->; injection El as ->; reflexivity|]. cbn [items firstn skipn app]. f_equal. apply IH; assumption.
Qed.
Lemma Forall2_firstn {A B} (R : A -> B -> Prop) j : forall l l', Forall2 R l l' -> Forall2 R (firstn j l) (firstn j l').
Proof. induction j as [|j IH]; intros l l' F; [constructor|]. inversion F; subst; cbn; [constructor|]. constructor; auto. Qed.
Lemma items_in xs : forall ls, Forall2 (pparts val D C) xs ls -> forall y, In y (items xs ls) -> exists x l, In x xs /\ pparts val D C x l /\ y = pitem_item x l.
Proof.
  induction 1 as [|x l xs ls X F IH]; intros y I; [destruct I|]. destruct I as [<-|I]; [exists x, l; repeat split; [now left|exact X]|].
  destruct (IH y I) as (x' & l' & I' & P & E). exists x', l'. repeat split; [now right|exact P|exact E].
Qed.
Lemma items_have xs : forall ls, Forall2 (pparts val D C) xs ls -> forall x, In x xs -> exists l, pparts val D C x l /\ In (pitem_item x l) (items xs ls).
Proof.
  induction 1 as [|x l xs ls X F IH]; intros y I; [destruct I|]. destruct I as [<-|I]; [exists l; split; [exact X|now left]|].
  destruct (IH y I) as (l' & P & E). exists l'. split; [exact P|now right].
Qed.
Lemma fields_item x l : pparts val D C x l -> forall k, phas val D C x k <-> In k (item_fields (item_mapping (pitem_item x l))).
Proof. destruct x; cbn; intros H k; [reflexivity|reflexivity|contradiction]. Qed.

Lemma merge_polygons_ok ord (xs : list pitem) ls : Forall (pgood val D C) xs -> Forall2 (pparts val D C) xs ls -> concat (concat ls) <> [] -> one_rank (concat (concat ls)) ->
  NoDup ord -> (forall k, In k ord <-> forall x, In x xs -> phas val D C x k) ->
  exists r, merge_polygons val D C vnone ord xs = Got r /\ one_record_each r /\ parts r = map (map (Coords val D C)) (concat ls) /\
    forall j x l, nth_error xs j = Some x -> nth_error ls j = Some l -> forall i, i < length l ->
    exists q, getitem r (length (concat (firstn j ls)) + i) = Table_Model.Ok q /\ forall k,
      (In k ord -> pvalue val D C x i k (dict_get (mprops q) k)) /\ (~ In k ord -> dict_get (mprops q) k = None).
Proof.
  intros G F NV OR ND O. assert (Ep := items_parts xs ls F). assert (Em := items_mapping xs ls F).
  assert (NX : xs <> []). { intros ->. inversion F; subst. apply NV. reflexivity. }
  assert (NI : items xs ls <> []). { destruct F; [congruence|discriminate]. }
  assert (OO : forall k, In k ord <-> forall y, In y (items xs ls) -> In k (item_fields (item_mapping y))).
  { intros k. rewrite O. split; intros X y I.
    - destruct (items_in xs ls F y I) as (x & l & Ix & Px & ->). apply (fields_item x l Px), X, Ix.
    - destruct (items_have xs ls F y I) as (l & Pl & Il). apply (fields_item y l Pl), X, Il. }
  destruct (merge_items_ok (list verts) val vnone ord (items xs ls)) as (r & E & W & P & R & K).
  { exact NI. }
  { apply Forall_forall. intros y I. destruct (items_in xs ls F y I) as (x & l & Ix & Px & ->). rewrite Forall_forall in G. specialize (G x Ix).
    destruct x as [m|g|]; cbn in *; [|exact Logic.I|exact Logic.I]. destruct G as (L & Rr & N & Gn). split; [cbn; rewrite L, <- Px, map_length; reflexivity|]. split; [exact Rr|split; [exact N|exact Gn]]. }
  { split; [exact ND|]. intros k. rewrite OO. split; intros X y I; [apply in_map_iff in I as (w & <- & I); apply in_map_iff in I as (z & <- & I); exact (X z I)|apply X, in_map, in_map, I]. }
  assert (E2 : exists t, merge vnone ord (flat_map (pitem_mapping val D C) xs) = Table_Model.Ok t /\ of_parts (concat ls) (DTable t) [] = Table_Model.Ok r).
  { rewrite <- Em, <- Ep. unfold merge_items in E. destruct (items xs ls) eqn:Z; [contradiction|]. rewrite <- Z in *.
    destruct (merge vnone ord (map item_mapping (items xs ls))) as [t|]; [|discriminate]. exists t. split; [reflexivity|exact E]. }
  destruct E2 as (t & Et & Er).
  destruct (ranks_ok (concat (concat ls))) as (lo & hi & Elo & Ehi & Cs); [exact NV|]. destruct Cs as [[<- _]|(_ & _ & Nn)]; [|contradiction].
  exists (remap val (map (Coords val D C)) r). split.
  { unfold merge_polygons. destruct xs as [|x0 xs0]; [congruence|]. rewrite (collect_all _ _ _ _ item_arrays F). cbn [andthen]. rewrite Elo, Ehi. cbn [andthen]. rewrite Nat.eqb_refl, Et. cbn [by_table andthen].
    unfold of_rings. rewrite (remap_parts val (map (Coords val D C)) _ _ _ r Er). reflexivity. }
  split; [apply remap_one, W|]. split; [cbn [remap parts]; rewrite P, Ep; reflexivity|].
  intros j x l Ex El i Hi. assert (Px : pparts val D C x l).
  { clear -F Ex El. revert ls F j Ex El. induction xs as [|y xs IH]; intros ls F j Ex El; [destruct j; discriminate|]. inversion F; subst. destruct j as [|j]; cbn in *; [congruence|]. eapply IH; eauto. }
  destruct (nth_error (item_parts (pitem_item x l)) i) as [p|] eqn:N.
  2: { apply nth_error_None in N. destruct x; cbn in *; [lia|rewrite Px in Hi; cbn in Hi; lia|contradiction]. }
  destruct (K _ _ _ (items_split xs ls j x l Ex El) i p N) as (q & Eq & Pq & Kq). rewrite (items_parts _ _ (Forall2_firstn _ j _ _ F)) in Eq.
  exists (mkM (map (Coords val D C) (mpart q)) (mprops q)). split; [apply remap_get, Eq|]. intros k. cbn [mprops]. destruct (Kq k) as [A B]. rewrite <- OO in A, B. split; [|exact B].
  intros I. specialize (A I). destruct x as [m|g|]; [exact A|exact A|contradiction].
Qed.
Lemma merge_polygons_mixed ord (xs : list pitem) ls : Forall2 (pparts val D C) xs ls -> concat (concat ls) <> [] -> ~ one_rank (concat (concat ls)) ->
  merge_polygons val D C vnone ord xs = Raised NameError.
Proof.
  intros F NV OR. destruct (ranks_ok (concat (concat ls))) as (lo & hi & Elo & Ehi & Cs); [exact NV|]. destruct Cs as [[_ On]|(-> & -> & _)]; [contradiction|].
  unfold merge_polygons. destruct xs as [|x0 xs0]; [inversion F; subst; destruct NV; reflexivity|].
  rewrite (collect_all _ _ _ _ item_arrays F). cbn [andthen]. rewrite Elo, Ehi. reflexivity.
Qed.
Lemma collect_error {A B} (f : A -> got B) e (l : list A) : (forall x e', f x = Raised e' -> e' = e) -> (forall x, In x l -> exists y, f x = Got y) \/ collect f l = Raised e.
Proof.
  intros H. induction l as [|x l [IH|IH]]; [left; intros x []| |].
  - destruct (f x) as [y|e'] eqn:E.
    + left. intros z [<-|I]; [eauto|exact (IH z I)].
    + right. cbn [collect]. rewrite E. cbn. rewrite (H x e' E). reflexivity.
  - right. cbn [collect]. rewrite IH. destruct (f x) as [y|e'] eqn:E; cbn; [reflexivity|rewrite (H x e' E); reflexivity].
Qed.
Lemma array_error r e : array_of val D C r = Raised e -> e = AttributeError.
Proof. destruct r; cbn; congruence. Qed.
Lemma collect_raises {A B} (f : A -> got B) e : (forall x e', f x = Raised e' -> e' = e) -> forall l e', collect f l = Raised e' -> e' = e.
Proof.
  intros H. induction l as [|x l IH]; intros e' E; cbn [collect] in E; [discriminate|]. destruct (f x) as [y|e1] eqn:X; cbn [andthen] in E; [|injection E as <-; exact (H x e1 X)].
  destruct (collect f l) as [ys|e1]; cbn [andthen] in E; [discriminate|]. injection E as <-. exact (IH e1 eq_refl).
Qed.
Lemma merge_polygons_holes ord (xs : list pitem) m p g : In (PMulti val D C m) xs -> In p (parts m) -> In (Poly val D C g) p ->
  mvertices val D C m = Raised AttributeError /\ merge_polygons val D C vnone ord xs = Raised AttributeError.
Proof.
  intros I Ip Ig. assert (E1 : forall r e, collect (array_of val D C) r = Raised e -> e = AttributeError) by (apply collect_raises, array_error).
  assert (Em : mvertices val D C m = Raised AttributeError).
  { destruct (collect_error (collect (array_of val D C)) AttributeError (parts m) E1) as [X|X]; [|exact X]. destruct (X p Ip) as (y & Ey).
    destruct (collect_error (array_of val D C) AttributeError p array_error) as [Z|Z]; [destruct (Z _ Ig); discriminate|congruence]. }
  split; [exact Em|]. unfold merge_polygons. destruct xs as [|x0 xs0]; [destruct I|]. remember (x0 :: xs0) as xs.
  destruct (collect_error (pitem_verts val D C) AttributeError xs) as [X|X].
  { intros x e E. destruct x as [m'|g'|]; cbn in E; try discriminate. exact (collect_raises _ _ E1 _ _ E). }
  - destruct (X _ I) as (y & Ey). cbn in Ey. congruence.
  - rewrite X. reflexivity.
Qed.

(* ---- transformations *)
Lemma of_members_table {P} ord ords (ms : list (member P val)) t pr : ms <> [] -> NoDup ord -> (forall k, In k ord <-> common ms k) ->
  rectangular t -> tlen t = length ms -> set_order ords (fields t) ->
  exists m, of_members ord ords ms (DTable t) pr = Table_Model.Ok m /\ one_record_each m /\ parts m = map mpart ms /\ Multi_Model.props m = pr /\
    (forall f, In f (fields (tbl m)) <-> In f ord \/ In f (fields t)) /\
    forall i p, nth_error ms i = Some p -> exists q, getitem m i = Table_Model.Ok q /\ mpart q = mpart p /\
      forall k, dict_get pr k = None -> (In k ord -> dict_get (mprops q) k = dict_get (mprops p) k) /\
        (~ In k ord -> ~ In k (fields t) -> dict_get (mprops q) k = None).
Proof.
  intros NE ND HO R L SO. destruct (merge_properties_ok P val ord ms) as (cols&E&F&V); [intros k; apply HO|].
  assert (LV : forall k vs, In (k, vs) cols -> length vs = length ms).
  { intros k vs I. apply V in I. apply (f_equal (@length _)) in I. unfold column in I. now rewrite !map_length in I. }
  assert (NZ : length ms <> 0) by (destruct ms; [congruence|discriminate]).
  destruct (updated_dict_Ok vnone [] ords t cols) as (t'&Eu&Ru&Lu&Nu&Fu&Gu&Ou).
  { exact R. } { now rewrite L. } { now rewrite F. } { intros f vs I. rewrite L. now apply (LV f). } { exact SO. }
  destruct ms as [|p0 ms0]; [congruence|]. remember (p0 :: ms0) as ms eqn:Ems.
  assert (OM : of_members ord ords ms (DTable t) pr = Table_Model.Ok (mkMulti (map mpart ms) t' pr [])).
  { transitivity (Table_Model.bind (merge_properties ord (map mprops ms)) (fun cols => Table_Model.bind (base_table (DTable t)) (fun t =>
      Table_Model.bind (updated [] ords t (MDict cols)) (fun t' => Table_Model.Ok (mkMulti (map mpart ms) t' pr []))))); [rewrite Ems; reflexivity|].
    rewrite E. cbn [Table_Model.bind base_table]. now rewrite Eu. }
  rewrite OM. set (m := mkMulti (map mpart ms) t' pr []).
  assert (W : one_record_each m).
  { split; [unfold m; cbn; rewrite map_length; congruence|]. split; [exact Ru|]. split; [exact Nu|reflexivity]. }
  exists m. split; [reflexivity|]. split; [exact W|]. split; [reflexivity|]. split; [reflexivity|]. split; [intros f; cbn [m tbl]; rewrite Fu, F; reflexivity|]. intros i p Ep.
  assert (GC : forall k vs, In (k, vs) cols -> getfield (tbl m) k = Table_Model.Ok vs) by (intros; now apply Gu).
  destruct (members_read P val vnone m ms ord cols W eq_refl F V GC i p Ep) as (q&Eq&Pq&Kq).
  exists q. split; [exact Eq|]. split; [exact Pq|]. intros k N. destruct (Kq k N) as (A&B).
  split; [exact A|]. intros N1 N2. destruct (B N1) as (v & Cv & ->). destruct Cv as [(ws&X&_)|(_&->)]; [|reflexivity]. exfalso.
  apply getfield_Ok_In in X. apply Fu in X. rewrite F in X. tauto.
Qed.
Lemma members_from_ok {P} (m : multi P val) (get : nat -> Table_Model.res geom) (f : member P val -> geom) : forall (ms : list (member P val)) i fuel,
  (forall j p, nth_error ms j = Some p -> get (i + j) = Table_Model.Ok (f p)) -> get (i + length ms) = Table_Model.Err Table_Model.IndexError -> length ms < fuel ->
  members_from val D C get i fuel = Got (map f ms).
Proof.
  induction ms as [|p ms IH]; intros i fuel H E L; destruct fuel as [|fuel]; try (cbn in L; lia); cbn [members_from length] in *.
  - rewrite Nat.add_0_r in E. rewrite E. reflexivity.
  - assert (X := H 0 p eq_refl). rewrite Nat.add_0_r in X. rewrite X. rewrite (IH (S i) fuel).
    + reflexivity.
    + intros j q Ej. rewrite <- (H (S j) q Ej). f_equal. lia.
    + rewrite <- E. f_equal. lia.
    + lia.
Qed.
Lemma complete_again M N : complete M = Geom_Model.Ok N -> complete N = Geom_Model.Ok N.
Proof. destruct M; cbn; intros E; [injection E as <-; reflexivity|injection E as <-; reflexivity|discriminate]. Qed.
Lemma transform_one (g : geom) N : complete N = Geom_Model.Ok N -> nverts (gverts _ _ _ g) <> 0 ->
  apply_transform _ _ _ g N = Geom_Model.Ok (remake _ _ _ (gkind _ _ _ g) (moved N (gverts _ _ _ g)) (gprops _ _ _ g) (gdata _ _ _ g) (gcrs _ _ _ g)).
Proof.
  intros E H. unfold apply_transform. apply Nat.eqb_neq in H. rewrite H, E. cbn [Geom_Model.bind]. f_equal. f_equal. destruct (gverts _ _ _ g) as [l|l]; cbn [moved]; [|reflexivity].
  f_equal. apply map_ext. intros [x y]. destruct (dot34 N (fst (x, y)) (snd (x, y)) 0) as [[a b] c]. reflexivity.
Qed.
Lemma collect_map {A B} (f : A -> got B) (g : A -> B) l : (forall x, In x l -> f x = Got (g x)) -> collect f l = Got (map g l).
Proof.
  induction l as [|x l IH]; intros H; [reflexivity|]. cbn [collect map]. rewrite (H x (or_introl eq_refl)). cbn [andthen]. rewrite IH; [reflexivity|intros; apply H; now right].
Qed.
(** The members of [m], with the keys of their properties. *)
Lemma all_members {P} (m : multi P val) : one_record_each m -> exists ms, length ms = length (parts m) /\ map mpart ms = parts m /\
  (forall j p, nth_error ms j = Some p -> getitem m j = Table_Model.Ok p) /\
  (forall p, In p ms -> map fst (mprops p) = fields (tbl m) ++ map fst (Multi_Model.props m)) /\
  (forall p k w, In p ms -> dict_get (Multi_Model.props m) k = Some w -> dict_get (mprops p) k = Some w).
Proof.
  intros W. destruct (getitems_ok P val vnone m (seq 0 (length (parts m))) W) as (ms & E & L & A & B). { intros i I. apply in_seq in I. lia. }
  rewrite seq_length in L. exists ms. assert (G : forall j p, nth_error ms j = Some p -> getitem m j = Table_Model.Ok p).
  { intros j p Ep. assert (Hj : j < length (parts m)) by (rewrite <- L; apply nth_error_Some; congruence).
    destruct (A j j) as (q & Eq & Gq). { assert (X : nth j (seq 0 (length (parts m))) 0 = 0 + j) by (apply seq_nth; exact Hj). rewrite (nth_error_nth' _ 0) by (rewrite seq_length; exact Hj). f_equal. exact X. }
    congruence. }
  split; [exact L|]. split; [|split; [exact G|split; [exact B|]]].
  - apply nth_ext' . intros i. rewrite nth_error_map. destruct (nth_error ms i) as [p|] eqn:Ep.
    + cbn. specialize (G i p Ep). unfold getitem in G. destruct (record m i); [|discriminate]. cbn [Table_Model.bind] in G. destruct (nth_error (parts m) i); [|discriminate]. injection G as <-. reflexivity.
    + cbn. apply nth_error_None in Ep. symmetry. apply nth_error_None. lia.
  - intros p k w I Hw. apply In_nth_error in I as (j & Ej). specialize (G j p Ej). unfold getitem in G. destruct (record m j) as [d|]; [|discriminate]. cbn [Table_Model.bind] in G.
    destruct (nth_error (parts m) j); [|discriminate]. injection G as <-. cbn [mprops]. rewrite dict_get_app, Hw. reflexivity.
Qed.
(** Members put together again with the table and the properties they had. *)
Lemma reassemble {P Q} (m : multi P val) ms ord ords (f : P -> Q) : one_record_each m -> length ms = length (parts m) -> ms <> [] ->
  (forall p, In p ms -> map fst (mprops p) = fields (tbl m) ++ map fst (Multi_Model.props m)) ->
  (forall p k w, In p ms -> dict_get (Multi_Model.props m) k = Some w -> dict_get (mprops p) k = Some w) ->
  set_order ord (fields (tbl m) ++ map fst (Multi_Model.props m)) -> set_order ords (fields (tbl m)) ->
  exists r, of_members ord ords (map (fun p => mkM (f (mpart p)) (mprops p)) ms) (DTable (tbl m)) (Multi_Model.props m) = Table_Model.Ok r /\ one_record_each r /\
    parts r = map f (map mpart ms) /\ Multi_Model.props r = Multi_Model.props m /\
    (forall k, In k (fields (tbl r)) <-> In k (fields (tbl m)) \/ In k (map fst (Multi_Model.props m))) /\
    forall i p, nth_error ms i = Some p -> exists q, getitem r i = Table_Model.Ok q /\ mpart q = f (mpart p) /\ same_entries (mprops p) (mprops q).
Proof.
  intros W L NE B Pr (ND & SO) SS. set (ms' := map (fun p => mkM (f (mpart p)) (mprops p)) ms).
  assert (CO : forall k, In k ord <-> common ms' k).
  { intros k. rewrite SO. unfold common. split.
    - intros I p Ip. apply in_map_iff in Ip as (p0 & <- & Ip). cbn [mprops]. rewrite (B p0 Ip). exact I.
    - intros X. destruct ms as [|p ms]; [congruence|]. rewrite <- (B p (or_introl eq_refl)). exact (X _ (or_introl eq_refl)). }
  destruct W as (Lm & Rm & NDm & Gm).
  destruct (of_members_table ord ords ms' (tbl m) (Multi_Model.props m)) as (r & Er & Wr & Pr' & Rr & Fr & Kr).
  { intros X. apply map_eq_nil in X. contradiction. } { exact ND. } { exact CO. } { exact Rm. } { unfold ms'. rewrite map_length. congruence. } { exact SS. }
  exists r. split; [exact Er|]. split; [exact Wr|]. split; [rewrite Pr'; unfold ms'; rewrite !map_map; reflexivity|]. split; [exact Rr|]. split.
  { intros k. rewrite Fr, SO, in_app_iff. tauto. }
  intros i p Ep. destruct (Kr i _ (map_nth_error (fun p => mkM (f (mpart p)) (mprops p)) i ms Ep)) as (q & Eq & Pq & Kq). exists q. split; [exact Eq|]. split; [exact Pq|].
  intros k. assert (Ip := nth_error_In _ _ Ep). destruct (dict_get (Multi_Model.props m) k) as [w|] eqn:Dk.
  - rewrite (Pr p k w Ip Dk). symmetry. unfold getitem in Eq. destruct (record r i) as [d|]; [|discriminate]. cbn [Table_Model.bind] in Eq. destruct (nth_error (parts r) i); [|discriminate]. injection Eq as <-.
    cbn [mprops]. rewrite dict_get_app, Rr, Dk. reflexivity.
  - destruct (Kq k Dk) as [A A']. cbn [mprops] in A. destruct (in_dec string_dec k ord) as [I|N]; [symmetry; exact (A I)|].
    rewrite SO, in_app_iff in N. rewrite A' by (rewrite ?SO, ?in_app_iff; tauto). apply dict_get_notin. rewrite (B p Ip), in_app_iff. exact N.
Qed.
Lemma transform_lines_ok ord ords c (m : multi verts val) M N : one_record_each m -> complete M = Geom_Model.Ok N ->
  (forall v, In v (parts m) -> xys v <> []) -> set_order ord (fields (tbl m) ++ map fst (Multi_Model.props m)) -> set_order ords (fields (tbl m)) ->
  exists r, transform_lines val D C ord ords c m M = Got r /\ one_record_each r /\ parts r = map (moved N) (parts m) /\ Multi_Model.props r = Multi_Model.props m /\
    forall i p, getitem m i = Table_Model.Ok p -> exists q, getitem r i = Table_Model.Ok q /\ mpart q = moved N (mpart p) /\ same_entries (mprops p) (mprops q).
Proof.
  intros W EN NV SO SS. destruct (all_members m W) as (ms & L & Pm & G & B & Pr).
  assert (NG : forall v, In v (parts m) -> nverts v <> 0). { intros v I X. unfold nverts in X. apply length_zero_iff_nil in X. exact (NV v I X). }
  set (f := fun p : member verts val => make_line props D C (mpart p) (mprops p) c).
  assert (EM : members_from val D C (getline val D C c m) 0 (S (tlen (tbl m))) = Got (map f ms)).
  { apply (members_from_ok m _ f).
    - intros j p Ep. cbn [Nat.add]. unfold getline. rewrite (G j p Ep). reflexivity.
    - cbn [Nat.add]. unfold getline. rewrite (getitem_out verts val vnone m _ W) by lia. reflexivity.
    - destruct W as (X & _). lia. }
  assert (EC : collect (fun g => by_geom (apply_transform props D C g N)) (map f ms) = Got (map (fun g => remake props D C (gkind _ _ _ g) (moved N (gverts _ _ _ g)) (gprops _ _ _ g) (gdata _ _ _ g) (gcrs _ _ _ g)) (map f ms))).
  { apply collect_map. intros g I. apply in_map_iff in I as (p & <- & I). rewrite (transform_one _ N (complete_again M N EN)); [reflexivity|].
    cbn. apply NG. rewrite <- Pm. apply in_map, I. }
  unfold transform_lines. rewrite EN. cbn [by_geom andthen]. rewrite EM. cbn [andthen]. rewrite EC. cbn [andthen]. rewrite !map_map. cbn [f make_line gkind gverts gprops gdata gcrs remake].
  destruct ms as [|p0 ms0].
  - cbn [map of_members of_parts by_table]. eexists. split; [reflexivity|]. cbn [map] in Pm. split; [|split; [rewrite <- Pm; reflexivity|split; [reflexivity|]]].
    + destruct W as (X & Y & Z & _). split; [cbn; cbn in L; lia|]. split; [exact Y|split; [exact Z|reflexivity]].
    + intros i p E. exfalso. rewrite (getitem_out verts val vnone m i W) in E by (cbn in L; lia). discriminate.
  - destruct (reassemble m (p0 :: ms0) ord ords (moved N) W L) as (r & Er & Wr & Pp & Rr & Fr & Kr); [discriminate|exact B|exact Pr|exact SO|exact SS|].
    exists r. split; [exact (f_equal by_table Er)|]. split; [exact Wr|]. split; [rewrite Pp, Pm; reflexivity|]. split; [exact Rr|].
    intros i p E. destruct (nth_error (p0 :: ms0) i) as [p'|] eqn:Ep.
    + assert (X := G i p' Ep). rewrite E in X. injection X as <-. exact (Kr i p Ep).
    + exfalso. apply nth_error_None in Ep. rewrite (getitem_out verts val vnone m i W) in E by lia. discriminate.
Qed.
Definition outer_of (p : list ring) : verts := match p with [] => V2 [] | Coords _ _ _ v :: _ => v | Poly _ _ _ g :: _ => gverts _ _ _ g end.
Lemma transform_polygons_ok ord ords c (m : mpoly) M N : one_record_each m -> complete M = Geom_Model.Ok N ->
  (forall i h, i < length (parts m) -> getpoly val D C c m i = Table_Model.Ok h -> xys (gverts _ _ _ h) <> []) -> (forall p, In p (parts m) -> p <> []) ->
  set_order ord (fields (tbl m) ++ map fst (Multi_Model.props m)) -> set_order ords (fields (tbl m)) ->
  exists r, transform_polygons val D C ord ords c m M = Got r /\ one_record_each r /\ length (parts r) = length (parts m) /\ Multi_Model.props r = Multi_Model.props m /\
    forall i h, getpoly val D C c m i = Table_Model.Ok h -> exists h', getpoly val D C c r i = Table_Model.Ok h' /\
      gverts _ _ _ h' = moved N (gverts _ _ _ h) /\ gsubs _ _ _ h' = [] /\ same_entries (gprops _ _ _ h) (gprops _ _ _ h').
Proof.
  intros W EN NV NP SO SS. destruct (all_members m W) as (ms & L & Pm & G & B & Pr).
  set (f := fun p : member (list ring) val => match mpart p with [] => make_polygon props D C (V2 []) [] (mprops p) c | r :: rs => polygon_from val D C (mprops p) c (map (polygon_from val D C (mprops p) c []) rs) r end).
  assert (GP : forall j p, nth_error ms j = Some p -> getpoly val D C c m j = Table_Model.Ok (f p)).
  { intros j p Ep. unfold getpoly. rewrite (G j p Ep). cbn [Table_Model.bind]. unfold f. assert (X : mpart p <> []). { apply NP. rewrite <- Pm. apply in_map. exact (nth_error_In _ _ Ep). }
    destruct (mpart p); [congruence|reflexivity]. }
  assert (GO : forall j, length ms <= j -> getpoly val D C c m j = Table_Model.Err Table_Model.IndexError).
  { intros j Hj. unfold getpoly. rewrite (getitem_out (list ring) val vnone m _ W) by lia. reflexivity. }
  assert (EM : members_from val D C (getpoly val D C c m) 0 (S (tlen (tbl m))) = Got (map f ms)).
  { apply (members_from_ok m _ f); [exact GP|apply GO; cbn; lia|]. destruct W as (X & _). lia. }
  assert (fv : forall p, gkind _ _ _ (f p) = KPolygon /\ gverts _ _ _ (f p) = outer_of (mpart p) /\ gprops _ _ _ (f p) = mprops p /\ gcrs _ _ _ (f p) = c).
  { intros p. unfold f, outer_of. destruct (mpart p) as [|[v|g] rs]; repeat split; reflexivity. }
  assert (EC : collect (fun g => by_geom (apply_transform props D C g N)) (map f ms) = Got (map (fun g => remake props D C (gkind _ _ _ g) (moved N (gverts _ _ _ g)) (gprops _ _ _ g) (gdata _ _ _ g) (gcrs _ _ _ g)) (map f ms))).
  { apply collect_map. intros g I. apply in_map_iff in I as (p & <- & I). rewrite (transform_one _ N (complete_again M N EN)); [reflexivity|].
    apply In_nth_error in I as (j & Ej). unfold nverts. intros X. apply length_zero_iff_nil in X. apply (NV j (f p)); [|exact (GP j p Ej)|exact X]. rewrite <- L. apply nth_error_Some. congruence. }
  set (F := fun p : list ring => [Coords val D C (moved N (outer_of p))]).
  assert (EF : map (fun g => mkM (part_of val D C g) (gprops _ _ _ g)) (map (fun g => remake props D C (gkind _ _ _ g) (moved N (gverts _ _ _ g)) (gprops _ _ _ g) (gdata _ _ _ g) (gcrs _ _ _ g)) (map f ms)) =
    map (fun p => mkM (F (mpart p)) (mprops p)) ms).
  { rewrite !map_map. apply map_ext. intros p. destruct (fv p) as (A1 & A2 & A3 & A4). rewrite A1, A2, A3. reflexivity. }
  unfold transform_polygons. rewrite EN. cbn [by_geom andthen]. rewrite EM. cbn [andthen]. rewrite EC. cbn [andthen]. unfold of_polygons. rewrite EF.
  destruct ms as [|p0 ms0].
  - cbn [map of_members of_parts by_table]. eexists. split; [reflexivity|]. cbn [map] in Pm. split; [|split; [rewrite <- Pm; reflexivity|split; [reflexivity|]]].
    + destruct W as (X & Y & Z & _). split; [cbn; cbn in L; lia|]. split; [exact Y|split; [exact Z|reflexivity]].
    + intros i h E. exfalso. rewrite GO in E by (cbn; lia). discriminate.
  - destruct (reassemble m (p0 :: ms0) ord ords F W L) as (r & Er & Wr & Pp & Rr & Fr & Kr); [discriminate|exact B|exact Pr|exact SO|exact SS|].
    exists r. split; [exact (f_equal by_table Er)|]. split; [exact Wr|]. split; [rewrite Pp, map_length, map_length; exact L|]. split; [exact Rr|].
    intros i h E. destruct (nth_error (p0 :: ms0) i) as [p|] eqn:Ep.
    + rewrite (GP i p Ep) in E. injection E as <-. destruct (Kr i p Ep) as (q & Eq & Pq & Sq). destruct (fv p) as (A1 & A2 & A3 & A4).
      unfold getpoly at 1. rewrite Eq. cbn [Table_Model.bind]. rewrite Pq. cbn [F map]. eexists. split; [reflexivity|]. cbn [polygon_from gverts gsubs gprops]. rewrite A2, A3. repeat split. exact Sq.
    + exfalso. apply nth_error_None in Ep. rewrite GO in E by exact Ep. discriminate.
Qed.
End Proofs.
