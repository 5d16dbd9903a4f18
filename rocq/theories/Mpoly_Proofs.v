(** Proofs about the parts of multilines and multipolygons. *)
From Coq Require Import String List ZArith QArith Bool Arith Lia.
From Verif Require Import Table_Model Table_Spec Table_Proofs Multi_Model Multi_Spec Multi_Proofs Multi_MoreProofs Geom_Model Contains_Model Mpoly_Model Mpoly_Spec.
Import ListNotations.
Local Open Scope list_scope.
Local Open Scope nat_scope.

Section Proofs.
Variables val D C : Type.
Variable vnone : val.
Notation props := (list (string * val)).
Notation geom := (geom props D C).
Notation mpoly := (mpoly val D C).
Notation ring := (ring val D C).

(* ---- members *)
Lemma subs_verts : forall (p : props) (c : C) (gs : list geom),
  map (gverts _ _ _) (map (polygon_from val D C p c []) (map (Poly val D C) gs)) = map (gverts _ _ _) gs.
Proof. intros p c gs. rewrite !map_map. apply map_ext. intros g. reflexivity. Qed.
Lemma same_bbox (g h : geom) : same_rings val D C g h -> gkind _ _ _ g = KPolygon ->
  bbox _ _ _ h = bbox _ _ _ g /\ centroid _ _ _ h = centroid _ _ _ g /\ isclockwise _ _ _ h = isclockwise _ _ _ g /\ segment_tuples _ _ _ h = segment_tuples _ _ _ g.
Proof.
  intros (K & V & _) Kg. unfold bbox, centroid, isclockwise, segment_tuples. rewrite K, Kg, V. repeat split; reflexivity.
Qed.
Lemma same_area (g h : geom) : same_rings val D C g h -> flat val D C g -> flat val D C h -> area _ _ _ h = area _ _ _ g.
Proof.
  destruct g as [k v r s p d c], h as [k' v' r' s' p' d' c']. intros (K & V & S) F F'. cbn in V, S. subst v'. cbn [area].
  unfold flat in F, F'. cbn [gsubs] in F, F'. clear K.
  destruct (ring_area (xys v)) as [a|e]; [|reflexivity]. cbn [Geom_Model.bind].
  match goal with |- Geom_Model.bind (?f s') _ = _ => assert (X : f s' = f s) end; [|rewrite X; reflexivity].
  revert s S F. induction s' as [|q' s' IH]; intros s S F; destruct s as [|q s]; try discriminate; [reflexivity|].
  injection S as S1 S2. rewrite (IH (fun t I => F' t (or_intror I)) s S2 (fun t I => F t (or_intror I))).
  assert (X : area _ _ _ q' = area _ _ _ q); [|rewrite X; reflexivity].
  specialize (F q (or_introl eq_refl)). specialize (F' q' (or_introl eq_refl)).
  destruct q as [k1 v1 r1 s1 p1 d1 c1], q' as [k2 v2 r2 s2 p2 d2 c2]. cbn in *. subst. reflexivity.
Qed.

Definition as_member (g : geom) : member (list ring) val := mkM (part_of val D C g) (gprops _ _ _ g).
Lemma shared_common (gs : list geom) k : shared val D C gs k <-> common (map as_member gs) k.
Proof.
  unfold shared, common. split.
  - intros H p I. apply in_map_iff in I as (g & <- & I). exact (H g I).
  - intros H g I. exact (H (as_member g) (in_map as_member gs g I)).
Qed.
Lemma part_get (c : C) (m : mpoly) i q g : getitem m i = Table_Model.Ok q -> mpart q = part_of val D C g ->
  exists h, getpoly val D C c m i = Table_Model.Ok h /\ same_rings val D C g h /\ flat val D C h /\ gprops _ _ _ h = mprops q /\ gcrs _ _ _ h = c /\ gring _ _ _ h = false.
Proof.
  intros E Pq. unfold getpoly. rewrite E. cbn [Table_Model.bind]. rewrite Pq. unfold part_of. eexists. split; [reflexivity|].
  split; [split; [reflexivity|split; [reflexivity|apply subs_verts]]|]. split; [|repeat split; reflexivity].
  intros s I. cbn [polygon_from gsubs] in I. apply in_map_iff in I as (r & <- & _). destruct r; reflexivity.
Qed.
Lemma from_polygons ord (gs : list geom) pr c : gs <> [] -> ord <> [] -> NoDup ord -> (forall k, In k ord <-> shared val D C gs k) ->
  exists m, of_polygons val D C ord [] gs Absent pr = Table_Model.Ok m /\ length (parts m) = length gs /\
    forall i g, nth_error gs i = Some g -> exists h, getpoly val D C c m i = Table_Model.Ok h /\ same_rings val D C g h /\ gcrs _ _ _ h = c /\
      (flat val D C g -> area _ _ _ h = area _ _ _ g) /\
      (gkind _ _ _ g = KPolygon -> bbox _ _ _ h = bbox _ _ _ g /\ centroid _ _ _ h = centroid _ _ _ g /\ isclockwise _ _ _ h = isclockwise _ _ _ g /\ segment_tuples _ _ _ h = segment_tuples _ _ _ g) /\
      forall k, dict_get pr k = None ->
        (shared val D C gs k -> dict_get (gprops _ _ _ h) k = dict_get (gprops _ _ _ g) k) /\ (~ shared val D C gs k -> dict_get (gprops _ _ _ h) k = None).
Proof.
  intros N NO ND S.
  destruct (of_members_absent (list ring) val vnone ord (map as_member gs) pr) as (m & E & W & P & R & F & K).
  { intros X. apply map_eq_nil in X. contradiction. } { exact NO. } { exact ND. } { intros k. rewrite S. apply shared_common. }
  exists m. split; [exact E|]. split; [rewrite P, !map_length; reflexivity|]. intros i g Eg.
  destruct (K i (as_member g) (map_nth_error as_member i gs Eg)) as (q & Eq & Pq & Kq).
  destruct (part_get c m i q g Eq Pq) as (h & Eh & Sh & Fh & Ph & Ch & _). exists h. split; [exact Eh|]. split; [exact Sh|]. split; [exact Ch|].
  split; [intros Fg; apply same_area; assumption|]. split; [intros Kg; apply same_bbox; assumption|].
  intros k Nk. rewrite Ph. destruct (Kq k Nk) as [A B]. split; intros X; [apply A|apply B]; rewrite <- shared_common; exact X.
Qed.
Lemma from_rings (l : list (list verts)) (d : data val) (pr : props) (m : mpoly) c : (forall r, In r l -> r <> []) ->
  of_rings val D C l d pr = Table_Model.Ok m -> one_record_each m -> length (parts m) = length l /\
  forall i r rs, nth_error l i = Some (r :: rs) -> exists h, getpoly val D C c m i = Table_Model.Ok h /\
    gkind _ _ _ h = KPolygon /\ gverts _ _ _ h = r /\ map (gverts _ _ _) (gsubs _ _ _ h) = rs /\
    forall k, exists v, cell m i k v /\ dict_get (gprops _ _ _ h) k = match dict_get pr k with Some w => Some w | None => v end.
Proof.
  intros N E W. assert (X : parts m = map (map (Coords val D C)) l /\ Multi_Model.props m = pr).
  { unfold of_rings, of_parts in E. destruct d as [| |[|c0 d]|t]; try (injection E as <-; split; reflexivity).
    destruct (forallb _ _); [|discriminate]. destruct (columns _); [|discriminate]. injection E as <-. split; reflexivity. }
  destruct X as [X Y]. split; [rewrite X, map_length; reflexivity|]. intros i r rs Er.
  destruct (getitem_ok (list ring) val vnone m i (map (Coords val D C) (r :: rs)) W) as (q & Eq & Pq & Kq).
  { rewrite X. apply map_nth_error, Er. }
  unfold getpoly. rewrite Eq. cbn [Table_Model.bind]. rewrite Pq. cbn [map]. eexists. split; [reflexivity|].
  cbn [polygon_from gkind gverts gsubs gprops]. split; [reflexivity|]. split; [reflexivity|]. split.
  - rewrite !map_map. cbn. apply map_id.
  - intros k. destruct (Kq k) as (v & Cv & Dv). exists v. split; [exact Cv|]. rewrite Y in Dv. exact Dv.
Qed.
(** No member can be asked whether it contains a point. *)
Lemma outer_coords (m : mpoly) i c h : (exists gs ord ords d pr, of_polygons val D C ord ords gs d pr = Table_Model.Ok m) \/ (exists l d pr, of_rings val D C l d pr = Table_Model.Ok m) ->
  getpoly val D C c m i = Table_Model.Ok h -> gring _ _ _ h = false.
Proof.
  intros M E. assert (X : forall p, In p (parts m) -> match p with Poly _ _ _ _ :: _ => False | _ => True end).
  { destruct M as [(gs & ord & ords & d & pr & M)|(l & d & pr & M)].
    - unfold of_polygons, of_members in M. destruct gs as [|g gs].
      + cbn [map] in M. unfold of_parts in M. destruct d as [| |[|c0 d]|t]; try (injection M as <-; intros p []).
        destruct (forallb _ _); [|discriminate]. destruct (columns _); [|discriminate]. injection M as <-. intros p [].
      + cbn [map] in M. destruct (merge_properties _ _) as [cols|]; [|discriminate]. cbn [Table_Model.bind] in M. destruct (base_table _) as [t|]; [|discriminate]. cbn [Table_Model.bind] in M.
        destruct (updated _ _ _ _) as [t'|]; [|discriminate]. cbn [Table_Model.bind] in M. injection M as <-. cbn [parts].
        intros p [<-|I]; [exact Logic.I|]. apply in_map_iff in I as (q & <- & I). apply in_map_iff in I as (g' & <- & _). exact Logic.I.
    - assert (Y : parts m = map (map (Coords val D C)) l).
      { unfold of_rings, of_parts in M. destruct d as [| |[|c0 d]|t]; try (injection M as <-; reflexivity).
        destruct (forallb _ _); [|discriminate]. destruct (columns _); [|discriminate]. injection M as <-. reflexivity. }
      rewrite Y. intros p I. apply in_map_iff in I as ([|a b] & <- & _); exact Logic.I. }
  unfold getpoly in E. destruct (getitem m i) as [q|] eqn:G; [|discriminate]. cbn [Table_Model.bind] in E.
  assert (I : In (mpart q) (parts m)).
  { unfold getitem in G. destruct (record _ _); [|discriminate]. cbn [Table_Model.bind] in G. destruct (nth_error (parts m) i) eqn:N; [|discriminate]. injection G as <-. exact (nth_error_In _ _ N). }
  specialize (X _ I). destruct (mpart q) as [|[v|g] rs]; [discriminate| |contradiction]. injection E as <-. reflexivity.
Qed.
Lemma no_contains (m : mpoly) i c h : (exists gs ord ords d pr, of_polygons val D C ord ords gs d pr = Table_Model.Ok m) \/ (exists l d pr, of_rings val D C l d pr = Table_Model.Ok m) ->
  getpoly val D C c m i = Table_Model.Ok h -> forall pt, contains _ _ _ h pt = Geom_Model.Err Geom_Model.TypeError.
Proof.
  intros M E pt. assert (R := outer_coords m i c h M E). destruct h as [k v r s p d c']. cbn in R. subst r. reflexivity.
Qed.

(* ---- merging *)
Lemma fold_min : forall (l : list verts) a, fold_left (fun a w => Nat.min a (rank w)) l a <= a /\ (forall w, In w l -> fold_left (fun a w => Nat.min a (rank w)) l a <= rank w) /\
  (fold_left (fun a w => Nat.min a (rank w)) l a = a \/ exists w, In w l /\ fold_left (fun a w => Nat.min a (rank w)) l a = rank w).
Proof.
  induction l as [|w l IH]; intros a; [split; [cbn; lia|split; [intros w []|left; reflexivity]]|]. cbn [fold_left].
  destruct (IH (Nat.min a (rank w))) as (A & B & E). split; [lia|]. split.
  - intros u [<-|I]; [lia|exact (B u I)].
  - destruct E as [E|(u & I & E)]; [|right; exists u; split; [right; exact I|exact E]].
    destruct (Nat.min_dec a (rank w)) as [X|X]; rewrite X in E |- *; [left; exact E|right; exists w; split; [now left|exact E]].
Qed.
Lemma fold_max : forall (l : list verts) a, a <= fold_left (fun a w => Nat.max a (rank w)) l a /\ (forall w, In w l -> rank w <= fold_left (fun a w => Nat.max a (rank w)) l a) /\
  (fold_left (fun a w => Nat.max a (rank w)) l a = a \/ exists w, In w l /\ fold_left (fun a w => Nat.max a (rank w)) l a = rank w).
Proof.
  induction l as [|w l IH]; intros a; [split; [cbn; lia|split; [intros w []|left; reflexivity]]|]. cbn [fold_left].
  destruct (IH (Nat.max a (rank w))) as (A & B & E). split; [lia|]. split.
  - intros u [<-|I]; [lia|exact (B u I)].
  - destruct E as [E|(u & I & E)]; [|right; exists u; split; [right; exact I|exact E]].
    destruct (Nat.max_dec a (rank w)) as [X|X]; rewrite X in E |- *; [left; exact E|right; exists w; split; [now left|exact E]].
Qed.
Lemma rank_cases (v : verts) : (rank v = 2 /\ exists a, v = V2 a) \/ (rank v = 3 /\ exists a, v = V3 a).
Proof. destruct v as [a|a]; [left|right]; split; eauto. Qed.
Lemma ranks_ok (l : list verts) : l <> [] -> exists lo hi, min_rank l = Got lo /\ max_rank l = Got hi /\
  ((lo = hi /\ one_rank l) \/ (lo = 2 /\ hi = 3 /\ ~ one_rank l)).
Proof.
  destruct l as [|v l]; [congruence|]. intros _. unfold min_rank, max_rank. do 2 eexists. split; [reflexivity|]. split; [reflexivity|].
  destruct (fold_min l (rank v)) as (A & B & E). destruct (fold_max l (rank v)) as (A' & B' & E').
  set (lo := fold_left (fun a w => Nat.min a (rank w)) l (rank v)) in *. set (hi := fold_left (fun a w => Nat.max a (rank w)) l (rank v)) in *.
  assert (L : forall w, In w (v :: l) -> lo <= rank w <= hi) by (intros w [<-|I]; [lia|split; [exact (B w I)|exact (B' w I)]]).
  assert (EL : exists w, In w (v :: l) /\ lo = rank w) by (destruct E as [E|(w & I & E)]; [exists v; split; [now left|exact E]|exists w; split; [now right|exact E]]).
  assert (EH : exists w, In w (v :: l) /\ hi = rank w) by (destruct E' as [E'|(w & I & E')]; [exists v; split; [now left|exact E']|exists w; split; [now right|exact E']]).
  destruct EL as (wl & Il & El), EH as (wh & Ih & Eh). clearbody lo hi.
  destruct (rank_cases wl) as [[Rl [al Vl]]|[Rl [al Vl]]]; destruct (rank_cases wh) as [[Rh [ah Vh]]|[Rh [ah Vh]]].
  - left. split; [congruence|]. left. intros w I. destruct (rank_cases w) as [[_ X]|[X _]]; [exact X|]. specialize (L w I). lia.
  - right. split; [congruence|]. split; [congruence|]. intros [O|O]; [destruct (O wh Ih); congruence|destruct (O wl Il); congruence].
  - specialize (L wh Ih). lia.
  - left. split; [congruence|]. right. intros w I. destruct (rank_cases w) as [[X _]|[_ X]]; [|exact X]. specialize (L w I). lia.
Qed.
Lemma cut_plane (v : verts) : cut 2 v = plane v.
Proof. destruct v; reflexivity. Qed.

Definition remap {P Q} (f : P -> Q) (m : multi P val) : multi Q val := mkMulti (map f (parts m)) (tbl m) (Multi_Model.props m) (gens m).
Lemma remap_one {P Q} (f : P -> Q) (m : multi P val) : one_record_each m -> one_record_each (remap f m).
Proof. intros (L & R & ND & G). split; [cbn; rewrite map_length; exact L|]. split; [exact R|split; [exact ND|exact G]]. Qed.
Lemma remap_get {P Q} (f : P -> Q) (m : multi P val) i q : getitem m i = Table_Model.Ok q -> getitem (remap f m) i = Table_Model.Ok (mkM (f (mpart q)) (mprops q)).
Proof.
  unfold getitem, record. cbn. destruct (if existsb _ _ then _ else _) as [d|]; [|discriminate]. cbn [Table_Model.bind].
  rewrite nth_error_map. destruct (nth_error (parts m) i); [|discriminate]. cbn. intros [= <-]. reflexivity.
Qed.
Lemma remap_parts {P Q} (f : P -> Q) ps t pr (r : multi P val) : of_parts ps (DTable t) pr = Table_Model.Ok r -> of_parts (map f ps) (DTable t) pr = Table_Model.Ok (remap f r).
Proof. cbn. intros [= <-]. reflexivity. Qed.

Notation litem := (litem val D C).
Definition litem_item (x : litem) : item verts val :=
  match x with LMulti _ _ _ m => IMulti m | LLine _ _ _ g => IPoint (mkM (gverts _ _ _ g) (gprops _ _ _ g)) | LOther _ _ _ => IPoint (mkM (V2 []) []) end.
Lemma lines_items (xs : list litem) : Forall (lgood val D C) xs ->
  flat_map (litem_verts val D C) xs = flat_map item_parts (map litem_item xs) /\ flat_map (litem_mapping val D C) xs = map item_mapping (map litem_item xs).
Proof.
  induction 1 as [|x xs G F [A B]]; [split; reflexivity|]. cbn [flat_map map]. rewrite A, B. destruct x; [split; reflexivity|split; reflexivity|contradiction].
Qed.
Lemma merge_lines_ok ord (xs : list litem) : Forall (lgood val D C) xs -> flat_map (lparts val D C) xs <> [] ->
  NoDup ord -> (forall k, In k ord <-> forall x, In x xs -> lhas val D C x k) ->
  exists r, merge_lines val D C vnone ord xs = Got r /\ one_record_each r /\
    (one_rank (flat_map (lparts val D C) xs) -> parts r = flat_map (lparts val D C) xs) /\
    (~ one_rank (flat_map (lparts val D C) xs) -> parts r = map plane (flat_map (lparts val D C) xs)) /\
    forall pre x post, xs = pre ++ x :: post -> forall i, i < length (lparts val D C x) ->
    exists q, getitem r (length (flat_map (lparts val D C) pre) + i) = Table_Model.Ok q /\ forall k,
      (In k ord -> lvalue val D C x i k (dict_get (mprops q) k)) /\ (~ In k ord -> dict_get (mprops q) k = None).
Proof.
  intros G NV ND O. destruct (lines_items xs G) as [Ep Em].
  assert (EV : forall l, flat_map (lparts val D C) l = flat_map (litem_verts val D C) l) by (intros l; reflexivity).
  assert (NX : xs <> []) by (intros ->; apply NV; reflexivity).
  assert (HF : forall y, In y xs -> forall k, lhas val D C y k <-> In k (item_fields (item_mapping (litem_item y)))).
  { intros y I k. rewrite Forall_forall in G. specialize (G y I). destruct y; [reflexivity|reflexivity|contradiction]. }
  assert (OO : forall k, In k ord <-> forall y, In y (map litem_item xs) -> In k (item_fields (item_mapping y))).
  { intros k. rewrite O. split; intros X y I.
    - apply in_map_iff in I as (z & <- & I). apply (HF z I), X, I.
    - apply (HF y I), X, in_map, I. }
  destruct (merge_items_ok verts val vnone ord (map litem_item xs)) as (r & E & W & P & R & K).
  { intros X. apply map_eq_nil in X. contradiction. }
  { apply Forall_forall. intros y I. apply in_map_iff in I as (x & <- & I). rewrite Forall_forall in G. specialize (G x I). destruct x; [exact G|exact Logic.I|exact Logic.I]. }
  { split; [exact ND|]. intros k. rewrite OO. split; intros X y I; [apply in_map_iff in I as (w & <- & I); apply in_map_iff in I as (z & <- & I); exact (X z I)|apply X, in_map, in_map, I]. }
  assert (E2 : exists t, merge vnone ord (flat_map (litem_mapping val D C) xs) = Table_Model.Ok t /\ of_parts (flat_map (litem_verts val D C) xs) (DTable t) [] = Table_Model.Ok r).
  { rewrite Em, Ep. unfold merge_items in E. destruct (map litem_item xs) eqn:Z; [apply map_eq_nil in Z; contradiction|]. rewrite <- Z in *.
    destruct (merge vnone ord (map item_mapping (map litem_item xs))) as [t|]; [|discriminate]. exists t. split; [reflexivity|exact E]. }
  destruct E2 as (t & Et & Er).
  assert (Main : forall r', (exists f : verts -> verts, r' = remap f r) -> forall pre x post, xs = pre ++ x :: post -> forall i, i < length (lparts val D C x) ->
    exists q, getitem r' (length (flat_map (lparts val D C) pre) + i) = Table_Model.Ok q /\ forall k,
      (In k ord -> lvalue val D C x i k (dict_get (mprops q) k)) /\ (~ In k ord -> dict_get (mprops q) k = None)).
  { intros r' (f & ->) pre x post Ex i Hi. assert (Gx : lgood val D C x). { rewrite Forall_forall in G. apply G. rewrite Ex. apply in_elt. }
    assert (Gp : Forall (lgood val D C) pre). { rewrite Ex in G. apply Forall_app in G. tauto. }
    destruct (nth_error (item_parts (litem_item x)) i) as [p|] eqn:N.
    2: { apply nth_error_None in N. destruct x; cbn in *; [lia|lia|contradiction]. }
    assert (Ex' : map litem_item xs = map litem_item pre ++ litem_item x :: map litem_item post) by (rewrite Ex, map_app; reflexivity).
    destruct (K _ _ _ Ex' i p N) as (q & Eq & Pq & Kq). destruct (lines_items pre Gp) as [Pp _].
    exists (mkM (f (mpart q)) (mprops q)). split; [rewrite EV, Pp; apply remap_get, Eq|]. intros k. cbn [mprops]. destruct (Kq k) as [A B]. rewrite <- OO in A, B. split; [|exact B].
    intros I. specialize (A I). destruct x; [exact A|exact A|contradiction]. }
  destruct (ranks_ok (flat_map (litem_verts val D C) xs)) as (lo & hi & Elo & Ehi & Cs); [exact NV|].
  unfold merge_lines. destruct xs as [|x0 xs0]; [congruence|]. remember (x0 :: xs0) as xs eqn:Exs. rewrite Elo, Ehi. cbn [andthen]. rewrite Et. cbn [by_table andthen].
  assert (PR : parts r = flat_map (litem_verts val D C) xs) by (rewrite Ep; exact P).
  destruct Cs as [[-> On]|(-> & -> & Nn)].
  - rewrite Nat.eqb_refl, Er. exists r. split; [reflexivity|]. split; [exact W|]. split; [intros _; exact PR|]. split; [intros Q; contradiction|].
    apply Main. exists (fun v => v). destruct r as [ps t' pr g]. unfold remap. cbn. rewrite map_id. reflexivity.
  - cbn [Nat.eqb]. rewrite (remap_parts (cut 2) _ _ _ r Er). exists (remap (cut 2) r). split; [reflexivity|]. split; [apply remap_one, W|]. split; [intros Q; contradiction|].
    split; [intros _; cbn [remap parts]; rewrite PR; apply map_ext, cut_plane|]. apply Main. exists (cut 2). reflexivity.
Qed.
Lemma merge_lines_other ord (xs : list litem) :
  merge_lines val D C vnone ord xs = merge_lines val D C vnone ord (filter (fun x => match x with LOther _ _ _ => false | _ => true end) xs).
Proof.
  assert (A : flat_map (litem_verts val D C) (filter (fun x => match x with LOther _ _ _ => false | _ => true end) xs) = flat_map (litem_verts val D C) xs /\
    flat_map (litem_mapping val D C) (filter (fun x => match x with LOther _ _ _ => false | _ => true end) xs) = flat_map (litem_mapping val D C) xs).
  { induction xs as [|x xs [IH1 IH2]]; [split; reflexivity|]. destruct x; cbn [filter flat_map litem_verts litem_mapping app]; rewrite ?IH1, ?IH2; split; reflexivity. }
  destruct A as [A B]. unfold merge_lines. rewrite A, B. destruct xs as [|x xs]; [reflexivity|].
  destruct (filter _ (x :: xs)) as [|y ys] eqn:F; [|reflexivity]. change (flat_map (litem_verts val D C) []) with (@nil verts) in A. rewrite <- A. reflexivity.
Qed.
End Proofs.
