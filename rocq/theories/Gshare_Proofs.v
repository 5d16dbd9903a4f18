(** Proofs about the objects behind grids. *)
From Coq Require Import List Arith Bool ZArith Lia.
From Verif Require Import Gshare_Model Gshare_Spec.
Import ListNotations.
Open Scope nat_scope.

(** Lists. *)
Lemma some_inj : forall A (a b : A), Some a = Some b -> a = b.
Proof. congruence. Qed.
Lemma lset_length : forall A (l : list A) i x, length (lset l i x) = length l.
Proof. induction l; destruct i; intros; cbn; auto. Qed.
Lemma lset_same : forall A (l : list A) i x, i < length l -> nth_error (lset l i x) i = Some x.
Proof. induction l; destruct i; cbn; intros; try lia; auto. apply IHl. lia. Qed.
Lemma lset_other : forall A (l : list A) i x j, i <> j -> nth_error (lset l i x) j = nth_error l j.
Proof. induction l; destruct i; destruct j; cbn; intros; try congruence; auto. Qed.
Lemma nth_nth_error : forall A (l : list A) i d, nth i l d = match nth_error l i with Some x => x | None => d end.
Proof. induction l; destruct i; cbn; auto. Qed.
Lemma some_lt : forall A (l : list A) i x, nth_error l i = Some x -> i < length l.
Proof. intros. apply nth_error_Some. congruence. Qed.
Lemma lt_some : forall A (l : list A) i, i < length l -> exists x, nth_error l i = Some x.
Proof. intros A l i H. destruct (nth_error l i) eqn:E; eauto. apply nth_error_None in E. lia. Qed.
Lemma app_old : forall A (l l' : list A) i, i < length l -> nth_error (l ++ l') i = nth_error l i.
Proof. intros. now rewrite nth_error_app1. Qed.
Lemma app_new : forall A (l : list A) x, nth_error (l ++ [x]) (length l) = Some x.
Proof. intros. rewrite nth_error_app2, Nat.sub_diag; [reflexivity | lia]. Qed.
Lemma nth_app_old : forall A (l l' : list A) i d, i < length l -> nth i (l ++ l') d = nth i l d.
Proof. intros. now rewrite app_nth1. Qed.

(** Writing to bands. *)
Lemma put_at_length : forall bs a f, length (put_at bs a f) = length bs.
Proof. intros. unfold put_at. destruct (nth_error bs a); [apply lset_length | reflexivity]. Qed.
Lemma put_all_length : forall addrs bs k f, length (put_all bs addrs k f) = length bs.
Proof. induction addrs; intros; cbn; [reflexivity|]. now rewrite IHaddrs, put_at_length. Qed.
Lemma put_at_same : forall bs a f b, nth_error bs a = Some b -> nth_error (put_at bs a f) a = Some (put b f).
Proof. intros bs a f b H. unfold put_at. rewrite H. apply lset_same. eapply some_lt; eauto. Qed.
Lemma put_at_other : forall bs a f c, a <> c -> nth_error (put_at bs a f) c = nth_error bs c.
Proof. intros. unfold put_at. destruct (nth_error bs a); [now apply lset_other | reflexivity]. Qed.

(** The last value that a loop puts in a cell of a band. *)
Fixpoint lastp (addrs : list nat) (k : nat) (f : nat -> nat -> nat -> option val) (a i j : nat) : option val :=
  match addrs with
  | [] => None
  | x :: r => match lastp r (S k) f a i j with Some v => Some v | None => if x =? a then f k i j else None end
  end.
Lemma put_all_spec : forall addrs bs k f a b, nth_error bs a = Some b ->
  exists b', nth_error (put_all bs addrs k f) a = Some b' /\ bcls b' = bcls b /\ rows b' = rows b /\ cols b' = cols b /\
             forall i j, cell b' i j = match lastp addrs k f a i j with Some v => v | None => cell b i j end.
Proof.
  induction addrs as [|x r IH]; intros bs k f a b H; cbn [put_all lastp].
  - exists b. auto.
  - destruct (Nat.eq_dec x a) as [-> | N].
    + destruct (IH (put_at bs a (f k)) (S k) f a (put b (f k)) (put_at_same _ _ _ _ H)) as (b' & E & C & R & K & V).
      exists b'. repeat (split; [assumption|]). intros i j. rewrite V, Nat.eqb_refl.
      destruct (lastp r (S k) f a i j); [reflexivity|]. unfold put; cbn [cell]. reflexivity.
    + rewrite <- (put_at_other bs x (f k) a N) in H.
      destruct (IH _ (S k) f a b H) as (b' & E & C & R & K & V).
      exists b'. repeat (split; [assumption|]). intros i j. rewrite V.
      apply Nat.eqb_neq in N. rewrite N. destruct (lastp r (S k) f a i j); reflexivity.
Qed.
Lemma put_all_none : forall addrs bs k f a, nth_error bs a = None -> nth_error (put_all bs addrs k f) a = None.
Proof. intros. apply nth_error_None. rewrite put_all_length. now apply nth_error_None. Qed.
Lemma put_all_out : forall addrs bs k f a, ~ In a addrs -> nth_error (put_all bs addrs k f) a = nth_error bs a.
Proof.
  induction addrs as [|x r IH]; intros bs k f a H; cbn; [reflexivity|].
  rewrite IH by (intro; apply H; now right). apply put_at_other. intro; apply H; now left.
Qed.
Lemma lastp_some : forall addrs k f a i j u, lastp addrs k f a i j = Some u ->
  exists m, nth_error addrs m = Some a /\ f (k + m) i j = Some u /\
            forall m', m < m' -> nth_error addrs m' = Some a -> f (k + m') i j = None.
Proof.
  assert (N : forall addrs k f a i j, lastp addrs k f a i j = None ->
            forall m, nth_error addrs m = Some a -> f (k + m) i j = None).
  { induction addrs as [|x r IH]; intros k f a i j H m E; [destruct m; discriminate|].
    cbn in H. destruct (lastp r (S k) f a i j) eqn:L; [discriminate|].
    destruct m; cbn in E.
    - injection E as ->. rewrite Nat.eqb_refl in H. now rewrite Nat.add_0_r.
    - specialize (IH _ _ _ _ _ L m E). now rewrite Nat.add_succ_r. }
  induction addrs as [|x r IH]; intros k f a i j u H; [discriminate|].
  cbn in H. destruct (lastp r (S k) f a i j) eqn:L.
  - injection H as ->. destruct (IH _ _ _ _ _ _ L) as (m & E & V & F). exists (S m). split; [exact E|].
    split; [now rewrite Nat.add_succ_r|]. intros m' Hm E'. destruct m'; [lia|].
    rewrite Nat.add_succ_r. apply (F m'); [lia | exact E'].
  - destruct (x =? a) eqn:X; [|discriminate]. apply Nat.eqb_eq in X; subst x. exists 0. split; [reflexivity|].
    split; [now rewrite Nat.add_0_r|]. intros m' Hm E'. destruct m'; [lia|].
    rewrite Nat.add_succ_r. apply (N _ (S k) f a i j L m' E').
Qed.
Lemma lastp_none : forall addrs k f a i j, lastp addrs k f a i j = None ->
  forall m, nth_error addrs m = Some a -> f (k + m) i j = None.
Proof.
  induction addrs as [|x r IH]; intros k f a i j H m E; [destruct m; discriminate|].
  cbn in H. destruct (lastp r (S k) f a i j) eqn:L; [discriminate|].
  destruct m; cbn in E.
  - injection E as ->. rewrite Nat.eqb_refl in H. now rewrite Nat.add_0_r.
  - specialize (IH _ _ _ _ _ L m E). now rewrite Nat.add_succ_r.
Qed.

(** All addresses are those of objects. *)
Record wf (s : state) : Prop := {
  wf_items : forall l k a, nth_error (items s l) k = Some a -> a < length (bands s);
  wf_grid : forall g G, nth_error (grids s) g = Some G -> blist G < length (lists s) /\ ilist G < length (lists s);
  wf_arr : forall a b y x r c, nth_error (arrays s) a = Some (View b y x r c) -> b < length (bands s) }.
(** Nothing that exists has changed. *)
Record ext (s s' : state) : Prop := {
  ext_bands : forall a, a < length (bands s) -> nth_error (bands s') a = nth_error (bands s) a;
  ext_blen : length (bands s) <= length (bands s');
  ext_lists : forall l, l < length (lists s) -> nth_error (lists s') l = nth_error (lists s) l;
  ext_llen : length (lists s) <= length (lists s');
  ext_grids : forall g, g < length (grids s) -> nth_error (grids s') g = nth_error (grids s) g;
  ext_glen : length (grids s) <= length (grids s');
  ext_arrays : forall a, a < length (arrays s) -> nth_error (arrays s') a = nth_error (arrays s) a;
  ext_alen : length (arrays s) <= length (arrays s') }.

Lemma items_ext : forall s s' l, ext s s' -> l < length (lists s) -> items s' l = items s l.
Proof. intros s s' l E H. unfold items. rewrite !nth_nth_error. now rewrite (ext_lists _ _ E). Qed.
Lemma items_none : forall s l, length (lists s) <= l -> items s l = [].
Proof. intros. unfold items. now apply nth_overflow. Qed.

Lemma band_at_items : forall s g k, band_at s g k =
  match nth_error (grids s) g with Some G => nth_error (items s (ilist G)) k | None => None end.
Proof. reflexivity. Qed.
Lemma band_at_ext : forall s s' g k, wf s -> ext s s' -> g < length (grids s) -> band_at s' g k = band_at s g k.
Proof.
  intros s s' g k W E H. rewrite !band_at_items, (ext_grids _ _ E g H).
  destruct (nth_error (grids s) g) as [G|] eqn:Q; [|reflexivity].
  now rewrite (items_ext _ _ _ E (proj2 (wf_grid _ W _ _ Q))).
Qed.
Lemma band_at_lt : forall s g k a, wf s -> band_at s g k = Some a -> a < length (bands s).
Proof.
  intros s g k a W H. rewrite band_at_items in H. destruct (nth_error (grids s) g) as [G|]; [|discriminate].
  eapply wf_items; eauto.
Qed.
Lemma kept_ext : forall s s' g, wf s -> ext s s' -> g < length (grids s) -> kept s s' g.
Proof.
  intros s s' g W E H. split; [|split].
  - intros k i j. unfold seen. rewrite (band_at_ext _ _ _ _ W E H).
    destruct (band_at s g k) as [a|] eqn:B; [|reflexivity].
    now rewrite (ext_bands _ _ E a (band_at_lt _ _ _ _ W B)).
  - unfold nodata_of. now rewrite (ext_grids _ _ E g H).
  - unfold nbands. rewrite (ext_grids _ _ E g H). destruct (nth_error (grids s) g) as [G|] eqn:Q; [|reflexivity].
    cbn. f_equal. f_equal. apply (items_ext _ _ _ E (proj1 (wf_grid _ W _ _ Q))).
Qed.
Lemma kept_array_ext : forall s s' a, wf s -> ext s s' -> a < length (arrays s) -> kept_array s s' a.
Proof.
  intros s s' a W E H i j. unfold entry. rewrite (ext_arrays _ _ E a H).
  destruct (nth_error (arrays s) a) as [[r c f | b y x r c]|] eqn:Q; try reflexivity.
  now rewrite (ext_bands _ _ E b (wf_arr _ W _ _ _ _ _ _ Q)).
Qed.

Lemma ext_refl : forall s, ext s s.
Proof. intros; constructor; auto. Qed.
Lemma start_wf : wf start.
Proof. constructor; intros; cbn in *. - unfold items in H. cbn in H. destruct l, k; discriminate. - destruct g; discriminate. - destruct a; discriminate. Qed.

(** New grids. *)
Lemma items_app : forall (ls : list (list nat)) x l, nth l (ls ++ [x]) [] = if l =? length ls then x else nth l ls [].
Proof.
  intros ls x l. destruct (Nat.eqb_spec l (length ls)) as [-> | N].
  - rewrite app_nth2, Nat.sub_diag by lia. reflexivity.
  - destruct (lt_dec l (length ls)); [now apply app_nth1|].
    rewrite app_nth2, (nth_overflow ls) by lia. destruct (l - length ls) as [|[|]] eqn:E; [lia | reflexivity | reflexivity].
Qed.
Lemma make_ext : forall s c r k p nd, ext s (make s c r k p nd).
Proof.
  intros. constructor; cbn; intros; rewrite ?app_length; try lia; auto; now apply app_old.
Qed.
Lemma seq_nth_error : forall n m k a, nth_error (seq n m) k = Some a -> a = n + k /\ k < m.
Proof.
  intros n m k a H. pose proof (some_lt _ _ _ _ H) as L. rewrite seq_length in L.
  apply nth_error_nth with (d := 0) in H. rewrite seq_nth in H by lia. lia.
Qed.
Lemma make_wf : forall s c r k p nd, wf s -> wf (make s c r k p nd).
Proof.
  intros s c r k p nd W. constructor; cbn.
  - intros l m a H. unfold items in H; cbn in H. rewrite items_app in H. rewrite app_length, map_length.
    destruct (l =? length (lists s)).
    + apply seq_nth_error in H. lia.
    + apply (wf_items _ W) in H. lia.
  - intros g G H. rewrite app_length; cbn. destruct (lt_dec g (length (grids s))) as [L|L].
    + rewrite app_old in H by lia. apply (wf_grid _ W) in H. lia.
    + pose proof (some_lt _ _ _ _ H) as L'. rewrite app_length in L'; cbn in L'.
      replace g with (length (grids s)) in H by lia. rewrite app_new in H. injection H as <-. cbn. lia.
  - intros a b y x r' c' H. apply (wf_arr _ W) in H. rewrite app_length. lia.
Qed.

Lemma index_lt : forall a l, In a l -> index a l < length l.
Proof.
  induction l as [|b l IH]; cbn; [tauto|]. intros H. destruct (Nat.eqb_spec a b); [lia|].
  destruct H as [-> | H]; [congruence|]. specialize (IH H). lia.
Qed.
Lemma index_nth : forall a l, In a l -> nth_error l (index a l) = Some a.
Proof.
  induction l as [|b l IH]; cbn; [tauto|]. intros H. destruct (Nat.eqb_spec a b) as [-> | N]; [reflexivity|].
  cbn. apply IH. destruct H as [-> | H]; [congruence | exact H].
Qed.
Lemma index_inj : forall a b l, In a l -> In b l -> index a l = index b l -> a = b.
Proof. intros a b l Ha Hb E. apply index_nth in Ha, Hb. rewrite E in Ha. congruence. Qed.

Lemma nth_error_app_cons : forall A (l : list A) x r, nth_error (l ++ x :: r) (length l) = Some x.
Proof. intros. rewrite nth_error_app2, Nat.sub_diag by lia. reflexivity. Qed.

Definition old_of (s : state) (G : grid) := nodup Nat.eq_dec (items s (blist G) ++ items s (ilist G)).
Lemma old_b : forall s G a, In a (items s (blist G)) -> In a (old_of s G).
Proof. intros. apply nodup_In, in_or_app. now left. Qed.
Lemma old_i : forall s G a, In a (items s (ilist G)) -> In a (old_of s G).
Proof. intros. apply nodup_In, in_or_app. now right. Qed.

Lemma deepcopy_bands_length : forall s G, length (bands (deepcopy s G)) = length (bands s) + length (old_of s G).
Proof. intros. cbn. now rewrite app_length, map_length. Qed.
Lemma deepcopy_lists : forall s G, lists (deepcopy s G) =
  lists s ++ map (fun a => length (bands s) + index a (old_of s G)) (items s (blist G)) ::
  (if blist G =? ilist G then [] else [map (fun a => length (bands s) + index a (old_of s G)) (items s (ilist G))]).
Proof. reflexivity. Qed.
Lemma deepcopy_ilist : forall s G,
  nth (if blist G =? ilist G then length (lists s) else S (length (lists s))) (lists (deepcopy s G)) [] =
  map (fun a => length (bands s) + index a (old_of s G)) (items s (ilist G)).
Proof.
  intros s G. rewrite deepcopy_lists. destruct (Nat.eqb_spec (blist G) (ilist G)) as [E|E].
  - rewrite app_nth2, Nat.sub_diag by lia. cbn. now rewrite E.
  - rewrite app_nth2 by lia. replace (S (length (lists s)) - length (lists s)) with 1 by lia. reflexivity.
Qed.
Lemma deepcopy_blist : forall s G,
  nth (length (lists s)) (lists (deepcopy s G)) [] =
  map (fun a => length (bands s) + index a (old_of s G)) (items s (blist G)).
Proof. intros s G. rewrite deepcopy_lists. rewrite app_nth2, Nat.sub_diag by lia. reflexivity. Qed.
Lemma deepcopy_ext : forall s G, ext s (deepcopy s G).
Proof.
  intros. constructor; intros; rewrite ?deepcopy_lists; cbn [deepcopy bands lists grids arrays];
    rewrite ?app_length; try lia; auto; now apply app_old.
Qed.
Lemma deepcopy_wf : forall s G, wf s -> (blist G < length (lists s) /\ ilist G < length (lists s)) -> wf (deepcopy s G).
Proof.
  intros s G W [Lb Li]. constructor.
  - intros l k a H. rewrite deepcopy_bands_length. unfold items in H. rewrite deepcopy_lists in H.
    assert (M : forall L, (forall a, In a L -> In a (old_of s G)) ->
      nth_error (map (fun a => length (bands s) + index a (old_of s G)) L) k = Some a ->
      a < length (bands s) + length (old_of s G)).
    { intros L HL E. apply nth_error_In, in_map_iff in E. destruct E as (x & <- & I).
      pose proof (index_lt _ _ (HL _ I)). lia. }
    destruct (lt_dec l (length (lists s))) as [L|L].
    + rewrite app_nth1 in H by lia. apply (wf_items _ W) in H. lia.
    + rewrite app_nth2 in H by lia. destruct (l - length (lists s)) as [|[|m]] eqn:E; cbn in H.
      * apply M in H; [exact H | apply old_b].
      * destruct (blist G =? ilist G); cbn in H; [destruct k; discriminate | apply M in H; [exact H | apply old_i]].
      * destruct (blist G =? ilist G); cbn in H; [|destruct m]; destruct k; discriminate.
  - intros g G' H. rewrite deepcopy_lists, app_length. cbn [length]. cbn in H.
    destruct (lt_dec g (length (grids s))) as [L|L].
    + rewrite app_old in H by lia. apply (wf_grid _ W) in H. destruct (blist G =? ilist G); cbn; lia.
    + pose proof (some_lt _ _ _ _ H) as L'. rewrite app_length in L'; cbn in L'.
      replace g with (length (grids s)) in H by lia. rewrite app_new in H. injection H as <-.
      cbn. destruct (blist G =? ilist G); cbn; lia.
  - intros a b y x r c H. rewrite deepcopy_bands_length. cbn in H. apply (wf_arr _ W) in H. lia.
Qed.

(** Changing the contents of bands. *)
Lemma with_bands_wf : forall s bs, length bs = length (bands s) -> wf s -> wf (with_bands s bs).
Proof.
  intros s bs L W. constructor; cbn; rewrite ?L; intros.
  - eapply wf_items; eauto.
  - eapply wf_grid; eauto.
  - eapply wf_arr; eauto.
Qed.
Lemma band_at_with_bands : forall s bs g k, band_at (with_bands s bs) g k = band_at s g k.
Proof. reflexivity. Qed.

Lemma all_some_spec : forall A (l : list (option A)) r, all_some l = Some r ->
  forall k a, nth_error r k = Some a -> nth_error l k = Some (Some a).
Proof.
  induction l as [|[x|] l IH]; cbn; intros r H k a E.
  - injection H as <-. destruct k; discriminate.
  - destruct (all_some l) as [r'|] eqn:Q; [|discriminate]. injection H as <-.
    destruct k; cbn in *; [congruence|]. eapply IH; eauto.
  - discriminate.
Qed.
Lemma band_addr_lt : forall s b a, wf s -> band_addr s b = Some a -> a < length (bands s).
Proof.
  intros s [l k] a W H. cbn in H. destruct (list_addr s l); [|discriminate]. eapply wf_items; eauto.
Qed.
Lemma list_addr_lt : forall s l n, wf s -> list_addr s l = Some n -> n < length (lists s).
Proof.
  intros s [m|g] n W H; cbn [list_addr option_map] in H.
  - destruct (m <? length (lists s)) eqn:L; [|discriminate]. apply Nat.ltb_lt in L. congruence.
  - destruct (nth_error (grids s) g) as [G|] eqn:Q; [|discriminate]. injection H as <-. apply (wf_grid _ W _ _ Q).
Qed.

Lemma with_array_ext : forall s a, ext s (with_array s a).
Proof. intros. constructor; cbn; intros; rewrite ?app_length; try lia; auto; now apply app_old. Qed.
Lemma with_array_wf : forall s a, wf s -> (forall b y x r c, a = View b y x r c -> b < length (bands s)) -> wf (with_array s a).
Proof.
  intros s a W H. constructor; cbn; intros.
  - eapply wf_items; eauto.
  - eapply wf_grid; eauto.
  - destruct (lt_dec a0 (length (arrays s))) as [L|L].
    + rewrite app_old in H0 by lia. eapply wf_arr; eauto.
    + pose proof (some_lt _ _ _ _ H0) as L'. rewrite app_length in L'; cbn in L'.
      replace a0 with (length (arrays s)) in H0 by lia. rewrite app_new in H0. injection H0 as ->. eapply H; eauto.
Qed.
Lemma with_list_wf : forall s l, wf s -> (forall a, In a l -> a < length (bands s)) -> wf (with_list s l).
Proof.
  intros s l W H. constructor; cbn; intros.
  - unfold items in H0; cbn in H0. rewrite items_app in H0. destruct (l0 =? length (lists s)).
    + apply H. eapply nth_error_In; eauto.
    + eapply wf_items; eauto.
  - rewrite app_length. apply (wf_grid _ W) in H0. lia.
  - eapply wf_arr; eauto.
Qed.

(** The new grid of steps that make one: its bands are new, or those of a list. *)
Definition fresh_grid (s s' : state) : Prop :=
  length (grids s') = S (length (grids s)) /\
  forall k a, band_at s' (length (grids s)) k = Some a -> length (bands s) <= a.

Lemma make_fresh : forall s c r k p nd, fresh_grid s (make s c r k p nd).
Proof.
  intros. split; cbn; [rewrite app_length; cbn; lia|]. intros m a H. rewrite band_at_items in H. cbn in H.
  rewrite app_new in H. unfold items in H. cbn in H. rewrite items_app, Nat.eqb_refl in H. apply seq_nth_error in H. lia.
Qed.
Lemma deepcopy_new_grid : forall s G, nth_error (grids (deepcopy s G)) (length (grids s)) =
  Some (mkG (length (lists s)) (if blist G =? ilist G then length (lists s) else S (length (lists s))) (nodata G) (gcls G)).
Proof. intros. cbn. apply app_new. Qed.
Lemma deepcopy_own : forall s G,
  items (deepcopy s G) (if blist G =? ilist G then length (lists s) else S (length (lists s))) =
  map (fun a => length (bands s) + index a (old_of s G)) (items s (ilist G)).
Proof. intros. apply deepcopy_ilist. Qed.
Lemma deepcopy_fresh : forall s G, fresh_grid s (deepcopy s G).
Proof.
  intros. split; [cbn; rewrite app_length; cbn; lia|]. intros m a H.
  rewrite band_at_items, deepcopy_new_grid in H. cbn [ilist] in H. rewrite deepcopy_own in H.
  apply nth_error_In, in_map_iff in H. destruct H as (x & <- & _). lia.
Qed.

(** Steps that make objects change nothing that exists. *)
Lemma makes_spec : forall s o s', wf s -> makes o = true -> step s o = Some s' -> wf s' /\ ext s s'.
Proof.
  intros s o s' W M H. destruct o; cbn [makes] in M; try discriminate; cbn [step] in H.
  - injection H as <-. split; [now apply make_wf | apply make_ext].
  - destruct (nth_error (arrays s) a) as [[r k f | b y x r k]|]; try discriminate.
    + injection H as <-. split; [now apply make_wf | apply make_ext].
    + destruct (nth_error (bands s) b); [|discriminate].
      injection H as <-. split; [now apply make_wf | apply make_ext].
  - destruct (list_addr s l) as [n|] eqn:L; [|discriminate].
    destruct (items s n) as [|a rest] eqn:I; [discriminate|].
    destruct (uniform s (a :: rest)); [|discriminate].
    destruct (nth_error (bands s) a) as [b|]; [|discriminate]. injection H as <-. split.
    + constructor; cbn; intros.
      * eapply wf_items; eauto.
      * destruct (lt_dec g (length (grids s))) as [Lg|Lg].
        { rewrite app_old in H by lia. eapply wf_grid; eauto. }
        { pose proof (some_lt _ _ _ _ H) as L'. rewrite app_length in L'; cbn in L'.
          replace g with (length (grids s)) in H by lia. rewrite app_new in H. injection H as <-. cbn.
          split; eapply list_addr_lt; eauto. }
      * eapply wf_arr; eauto.
    + constructor; cbn; intros; rewrite ?app_length; try lia; auto; now apply app_old.
  - destruct (nth_error (grids s) g) as [G|] eqn:Q; [|discriminate]. injection H as <-.
    split; [apply deepcopy_wf; [exact W | eapply wf_grid; eauto] | apply deepcopy_ext].
  - destruct (nth_error (grids s) g); [|discriminate]. injection H as <-. split; [now apply make_wf | apply make_ext].
  - destruct (nth_error (grids s) g) as [G|]; [|discriminate]. destruct (items s (blist G)); [discriminate|].
    injection H as <-. split; [now apply make_wf | apply make_ext].
  - destruct (nth_error (grids s) g) as [G|] eqn:Q; [|discriminate].
    destruct (single s G) as [[a b]|]; [|discriminate].
    destruct (nth_error (grids (deepcopy s G)) (length (grids s))) as [G'|] eqn:Q'; [|discriminate].
    injection H as <-. assert (W' : wf (deepcopy s G)) by (apply deepcopy_wf; [exact W | eapply wf_grid; eauto]).
    split; [apply with_bands_wf; [apply put_all_length | exact W']|].
    pose proof (deepcopy_ext s G) as E.
    constructor.
    + intros c Hc. cbn [with_bands bands]. rewrite put_all_out.
      * now apply (ext_bands _ _ E).
      * intro I. destruct (In_nth_error _ _ I) as (m & Hm).
        assert (B : band_at (deepcopy s G) (length (grids s)) m = Some c) by (rewrite band_at_items, Q'; exact Hm).
        apply (proj2 (deepcopy_fresh s G)) in B. lia.
    + cbn [with_bands bands]. rewrite put_all_length. apply (ext_blen _ _ E).
    + apply (ext_lists _ _ E).
    + apply (ext_llen _ _ E).
    + apply (ext_grids _ _ E).
    + apply (ext_glen _ _ E).
    + apply (ext_arrays _ _ E).
    + apply (ext_alen _ _ E).
  - injection H as <-. split.
    + constructor; cbn; intros.
      * unfold items in H; cbn in H. rewrite items_app in H. rewrite app_length, repeat_length.
        destruct (l =? length (lists s)); [apply seq_nth_error in H; lia | apply (wf_items _ W) in H; lia].
      * rewrite app_length. apply (wf_grid _ W) in H. lia.
      * rewrite app_length. apply (wf_arr _ W) in H. lia.
    + constructor; cbn; intros; rewrite ?app_length; try lia; auto; now apply app_old.
  - destruct (all_some (map (band_addr s) bs)) as [l|] eqn:A; [|discriminate]. injection H as <-. split.
    + apply with_list_wf; [exact W|]. intros a I. destruct (In_nth_error _ _ I) as (k & Hk).
      pose proof (all_some_spec _ _ _ A _ _ Hk) as E. rewrite nth_error_map in E.
      destruct (nth_error bs k) as [b|]; [|discriminate]. cbn in E. injection E as E. eapply band_addr_lt; eauto.
    + constructor; cbn; intros; rewrite ?app_length; try lia; auto; now apply app_old.
  - destruct (nth_error (grids s) g) as [G|]; [|discriminate].
    destruct (nth_error (own_bands s G) (k mod length (own_bands s G))) as [a|]; [|discriminate].
    destruct (nth_error (bands s) a); [|discriminate]. injection H as <-.
    split; [apply with_array_wf; [exact W | intros; discriminate] | apply with_array_ext].
  - destruct (nth_error (grids s) g) as [G|]; [|discriminate].
    destruct (own_bands s G) as [|a rest]; [discriminate|].
    destruct (nth_error (bands s) a) as [b|] eqn:B; [|discriminate]. destruct (i <? rows b); [|discriminate].
    destruct rest as [|a' rest]; [destruct (bcls b)|]; injection H as <-;
      (split; [apply with_array_wf; [exact W|] | apply with_array_ext]); intros; try discriminate.
    injection H as <- _ _ _ _. eapply some_lt; eauto.
  - destruct (band_addr s b) as [a|]; [|discriminate].
    destruct (nth_error (bands s) a) as [B|] eqn:Q; [|discriminate].
    destruct ((y + h <=? rows B) && (x + w <=? cols B)); [|discriminate].
    destruct (bcls B); injection H as <-;
      (split; [apply with_array_wf; [exact W|] | apply with_array_ext]); intros; try discriminate.
    injection H as <- _ _ _ _. eapply some_lt; eauto.
Qed.

Lemma lset_in : forall A (l : list A) i x j y, nth_error (lset l i x) j = Some y -> nth_error l j = Some y \/ (i = j /\ y = x).
Proof.
  induction l; destruct i; destruct j; cbn; intros; try discriminate; auto.
  - right. split; congruence.
  - apply IHl in H. destruct H as [H | [-> ->]]; auto.
Qed.

(** All histories keep the addresses in order. *)
Lemma step_wf : forall s o s', wf s -> step s o = Some s' -> wf s'.
Proof.
  intros s o s' W H. destruct (makes o) eqn:M; [exact (proj1 (makes_spec _ _ _ W M H))|].
  destruct o; cbn [makes] in M; try discriminate; clear M; cbn [step] in H.
  - destruct (list_addr s l) as [n|] eqn:L; [|discriminate]. destruct (band_addr s b) as [a|] eqn:B; [|discriminate].
    destruct (uniform s (items s n ++ [a])); [|discriminate]. injection H as <-.
    pose proof (list_addr_lt _ _ _ W L) as Ln. pose proof (band_addr_lt _ _ _ W B) as La.
    constructor; cbn; rewrite ?lset_length; intros.
    + change (nth_error (nth l0 (lset (lists s) n (items s n ++ [a])) []) k = Some a0) in H. rewrite nth_nth_error in H.
      destruct (Nat.eq_dec n l0) as [<- | N].
      * rewrite lset_same in H by exact Ln. destruct (lt_dec k (length (items s n))) as [Lk|Lk].
        { rewrite app_old in H by lia. eapply wf_items; eauto. }
        { pose proof (some_lt _ _ _ _ H) as L'. rewrite app_length in L'; cbn in L'.
          replace k with (length (items s n)) in H by lia. rewrite app_new in H. injection H as <-. exact La. }
      * rewrite lset_other in H by exact N. eapply (wf_items _ W l0 k). unfold items. now rewrite nth_nth_error.
    + eapply wf_grid; eauto.
    + eapply wf_arr; eauto.
  - destruct (nth_error (grids s) g) as [G|] eqn:Q; [|discriminate].
    destruct (list_addr s l) as [n|] eqn:L; [|discriminate].
    destruct (items s (ilist G)) as [|a r]; [discriminate|]. destruct (items s n) as [|a' r'] eqn:I; [discriminate|].
    destruct (uniform s (a :: a' :: r')); [|discriminate]. injection H as <-.
    constructor; cbn; intros.
    + eapply wf_items; eauto.
    + apply lset_in in H. destruct H as [H | [-> ->]]; [eapply wf_grid; eauto|]. cbn.
      split; [eapply list_addr_lt; eauto | eapply wf_grid; eauto].
    + eapply wf_arr; eauto.
  - destruct (nth_error (grids s) g) as [G|]; [|discriminate]. destruct (own_bands s G) as [|b0 l0]; [discriminate|].
    injection H as <-. apply with_bands_wf; [exact (put_all_length (b0 :: l0) _ _ _) | exact W].
  - destruct (nth_error (grids s) g) as [G|] eqn:Q; [|discriminate]. destruct (nodata_cells s G v); [|discriminate].
    injection H as <-. constructor; cbn; rewrite ?put_all_length; intros.
    + eapply wf_items; eauto.
    + apply lset_in in H. destruct H as [H | [-> ->]]; [eapply wf_grid; eauto|]. cbn. eapply wf_grid; eauto.
    + eapply wf_arr; eauto.
  - destruct (nth_error (grids s) g) as [G|]; [|discriminate]. destruct (items s (blist G)); [discriminate|].
    destruct (own_bands s G); [discriminate|].
    apply some_inj in H. subst s'. apply with_bands_wf; [apply put_all_length | exact W].
  - destruct (nth_error (grids s) g) as [G|]; [|discriminate]. destruct (single s G) as [[a b]|]; [|discriminate].
    injection H as <-. apply with_bands_wf; [apply put_all_length | exact W].
  - destruct (nth_error (arrays s) a) as [[r c f | b y x r c]|] eqn:Q; [| |discriminate];
      destruct ((i <? r) && (j <? c)); try discriminate; injection H as <-.
    + constructor; cbn; intros.
      * eapply wf_items; eauto.
      * eapply wf_grid; eauto.
      * apply lset_in in H. destruct H as [H | [-> E]]; [eapply wf_arr; eauto | discriminate].
    + apply with_bands_wf; [apply put_at_length | exact W].
Qed.
Lemma next_wf : forall s o, wf s -> wf (next s o).
Proof. intros s o W. unfold next. destruct (step s o) eqn:E; [eapply step_wf; eauto | exact W]. Qed.
Lemma run_wf : forall os s, wf s -> wf (run s os).
Proof. induction os; intros s W; cbn; [exact W|]. apply IHos, next_wf, W. Qed.

(** * What steps do *)
Lemma makes_kept : forall os o s', let s := run start os in makes o = true -> step s o = Some s' ->
  (forall g, g < length (grids s) -> kept s s' g) /\ (forall a, a < length (arrays s) -> kept_array s s' a).
Proof.
  intros os o s' s M H. assert (W : wf s) by apply run_wf, start_wf.
  destruct (makes_spec _ _ _ W M H) as [_ E]. split; intros.
  - now apply kept_ext.
  - now apply kept_array_ext.
Qed.

(** The bands after a step that writes. *)
Lemma seen_put : forall s (bs' : list band) addrs f h k i j a,
  bs' = put_all (bands s) addrs 0 f -> band_at s h k = Some a -> wf s ->
  forall s', (forall g m, band_at s' g m = band_at s g m) -> bands s' = bs' ->
  seen s' h k i j = match seen s h k i j with
                    | Some v => Some (match lastp addrs 0 f a i j with Some u => u | None => v end)
                    | None => None end.
Proof.
  intros s bs' addrs f h k i j a -> B W s' HB Hb. unfold seen. rewrite HB, Hb, B.
  destruct (lt_some _ _ _ (band_at_lt _ _ _ _ W B)) as (b & Q). rewrite Q.
  destruct (put_all_spec addrs (bands s) 0 f a b Q) as (b' & Q' & C & R & K & V). rewrite Q', R, K, V.
  destruct ((i <? rows b) && (j <? cols b)); reflexivity.
Qed.
Lemma seen_no_band : forall s s' h k i j, (forall g m, band_at s' g m = band_at s g m) -> band_at s h k = None ->
  seen s' h k i j = None /\ seen s h k i j = None.
Proof. intros s s' h k i j HB B. unfold seen. rewrite HB, B. auto. Qed.

(** A step that writes [f] to the bands [addrs] and changes at most the nodata value of [g]. *)
Record writes (s s' : state) (g : nat) (addrs : list nat) (f : nat -> nat -> nat -> option val) : Prop := {
  w_bands : bands s' = put_all (bands s) addrs 0 f;
  w_lists : lists s' = lists s;
  w_len : length (grids s') = length (grids s);
  w_grids : forall h, h <> g -> nth_error (grids s') h = nth_error (grids s) h;
  w_grid : exists G G', nth_error (grids s) g = Some G /\ nth_error (grids s') g = Some G' /\
             blist G' = blist G /\ ilist G' = ilist G /\ forall a, In a addrs -> In a (items s (ilist G));
  w_arrays : arrays s' = arrays s }.
Lemma writes_band_at : forall s s' g addrs f, writes s s' g addrs f -> forall h m, band_at s' h m = band_at s h m.
Proof.
  intros s s' g addrs f W h m. unfold band_at. rewrite (w_lists _ _ _ _ _ W).
  destruct (Nat.eq_dec h g) as [-> | N]; [|now rewrite (w_grids _ _ _ _ _ W h N)].
  destruct (w_grid _ _ _ _ _ W) as (G & G' & Q & Q' & _ & I & _). now rewrite Q, Q', I.
Qed.
Lemma map_mod_in : forall (bs : list nat) n a, bs <> [] ->
  In a (map (fun k => nth (k mod length bs) bs 0) (seq 0 n)) -> In a bs.
Proof.
  intros bs n a H I. apply in_map_iff in I. destruct I as (k & <- & _). apply nth_In.
  apply Nat.mod_upper_bound. destruct bs; [congruence | discriminate].
Qed.
Lemma lset_nth_same : forall A (l : list A) g x G, nth_error l g = Some G -> nth_error (lset l g x) g = Some x.
Proof. intros. apply lset_same. eapply some_lt; eauto. Qed.
Lemma target_writes : forall s o s' g, step s o = Some s' -> target o = Some g -> exists addrs f, writes s s' g addrs f.
Proof.
  intros s o s' g H T. destruct o; try discriminate; injection T as ->; cbn [step] in H;
    destruct (nth_error (grids s) g) as [G|] eqn:Q; try discriminate.
  - destruct (own_bands s G) as [|b bs] eqn:O; [discriminate|]. injection H as <-. exists (b :: bs), f.
    constructor; auto. exists G, G. repeat (split; [assumption || reflexivity|]). intros a I. fold (own_bands s G). now rewrite O.
  - destruct (nodata_cells s G v) as [f|]; [|discriminate]. injection H as <-. exists (own_bands s G), f.
    constructor; cbn; rewrite ?lset_length; auto.
    + intros h N. now apply lset_other, not_eq_sym.
    + exists G, (mkG (blist G) (ilist G) v (gcls G)). split; [exact Q|]. split; [eapply lset_nth_same; eauto|].
      repeat (split; [reflexivity|]). auto.
  - destruct (items s (blist G)) as [|a0 l0] eqn:I0; [discriminate|].
    destruct (own_bands s G) as [|b bs] eqn:O; [discriminate|]. injection H as <-.
    exists (map (fun k => nth (k mod length (b :: bs)) (b :: bs) 0) (seq 0 (length (a0 :: l0)))),
           (fun _ i j => if inside i j then None else Some (nodata G)).
    constructor; auto. exists G, G. repeat (split; [assumption || reflexivity|]). intros a I.
    fold (own_bands s G). rewrite O. eapply map_mod_in; [|exact I]. discriminate.
  - destruct (single s G) as [[a b]|]; [|discriminate]. injection H as <-. exists (own_bands s G), (applied b (nodata G) f).
    constructor; auto. exists G, G. repeat (split; [assumption || reflexivity|]). auto.
Qed.

(** Cells of other bands stay. *)
Lemma lastp_out : forall addrs k f a i j, ~ In a addrs -> lastp addrs k f a i j = None.
Proof.
  induction addrs as [|x r IH]; intros k f a i j H; cbn; [reflexivity|].
  rewrite IH by (intro; apply H; now right). destruct (Nat.eqb_spec x a) as [-> | N]; [|reflexivity].
  destruct H; now left.
Qed.
Lemma writes_other : forall s s' g addrs f h k, wf s -> writes s s' g addrs f ->
  (forall m, ~ same_band s g m h k) -> forall i j, seen s' h k i j = seen s h k i j.
Proof.
  intros s s' g addrs f h k W H N i j. pose proof (writes_band_at _ _ _ _ _ H) as B.
  destruct (band_at s h k) as [a|] eqn:Q.
  - rewrite (seen_put s _ addrs f h k i j a eq_refl Q W s' B (w_bands _ _ _ _ _ H)).
    rewrite lastp_out; [destruct (seen s h k i j); reflexivity|]. intro I.
    destruct (w_grid _ _ _ _ _ H) as (G & G' & QG & _ & _ & _ & A). apply A in I.
    destruct (In_nth_error _ _ I) as (m & E). apply (N m). exists a. split; [|exact Q].
    rewrite band_at_items, QG. exact E.
  - destruct (seen_no_band s s' h k i j B Q) as [-> ->]. reflexivity.
Qed.
Lemma writes_nodata : forall s s' g addrs f h, writes s s' g addrs f -> h <> g -> nodata_of s' h = nodata_of s h.
Proof. intros. unfold nodata_of. now rewrite (w_grids _ _ _ _ _ H h H0). Qed.
Lemma writes_nbands : forall s s' g addrs f h, writes s s' g addrs f -> nbands s' h = nbands s h.
Proof.
  intros s s' g addrs f h W. unfold nbands. rewrite (w_lists _ _ _ _ _ W).
  destruct (Nat.eq_dec h g) as [-> | N]; [|now rewrite (w_grids _ _ _ _ _ W h N)].
  destruct (w_grid _ _ _ _ _ W) as (G & G' & Q & Q' & I & _). rewrite Q, Q'. cbn. now rewrite I.
Qed.

Lemma other_bands : forall os o s' g h k, let s := run start os in target o = Some g -> step s o = Some s' ->
  (forall m, ~ same_band s g m h k) -> forall i j, seen s' h k i j = seen s h k i j.
Proof.
  intros os o s' g h k s T H. destruct (target_writes _ _ _ _ H T) as (addrs & f & W).
  eapply writes_other; eauto. apply run_wf, start_wf.
Qed.
Lemma apart_kept : forall os o s' g h, let s := run start os in target o = Some g -> step s o = Some s' ->
  h <> g -> apart s g h -> kept s s' h.
Proof.
  intros os o s' g h s T H N A. destruct (target_writes _ _ _ _ H T) as (addrs & f & W).
  split; [|split].
  - intros k. apply (writes_other s s' g addrs f h k); [apply run_wf, start_wf | exact W | intros m; apply A].
  - eapply writes_nodata; eauto.
  - eapply writes_nbands; eauto.
Qed.

Lemma assigned : forall os g f s' h k i j v, let s := run start os in step s (Assign g f) = Some s' -> seen s h k i j = Some v ->
  (exists m u, same_band s g m h k /\ f m i j = Some u /\
     (forall m', m < m' -> same_band s g m' h k -> f m' i j = None) /\ seen s' h k i j = Some u) \/
  ((forall m, same_band s g m h k -> f m i j = None) /\ seen s' h k i j = Some v).
Proof.
  intros os g f s' h k i j v s H S. assert (W : wf s) by apply run_wf, start_wf. cbn [step] in H.
  destruct (nth_error (grids s) g) as [G|] eqn:Q; [|discriminate].
  assert (E : exists bs, own_bands s G = bs /\ s' = with_bands s (put_all (bands s) bs 0 f)).
  { destruct (own_bands s G); [discriminate|]. injection H as <-. eauto. }
  destruct E as (bs & O & ->). clear H.
  destruct (band_at s h k) as [a|] eqn:B; [|unfold seen in S; rewrite B in S; discriminate].
  assert (BG : forall m, band_at s g m = nth_error bs m) by (intro m; rewrite band_at_items, Q; fold (own_bands s G); now rewrite O).
  rewrite (seen_put s _ bs f h k i j a eq_refl B W (with_bands s (put_all (bands s) bs 0 f)) (fun _ _ => eq_refl) eq_refl), S.
  destruct (lastp bs 0 f a i j) as [u|] eqn:L.
  - left. destruct (lastp_some _ _ _ _ _ _ _ L) as (m & E & F & Z). exists m, u.
    split; [exists a; rewrite BG; auto|]. split; [exact F|]. split; [|reflexivity].
    intros m' Hm (a' & E1 & E2). rewrite BG in E1. rewrite B in E2. injection E2 as <-. now apply (Z m').
  - right. split; [|reflexivity]. intros m (a' & E1 & E2). rewrite BG in E1. rewrite B in E2. injection E2 as <-.
    apply (lastp_none _ _ _ _ _ _ L m E1).
Qed.

(** * New grids *)
Definition fresh_op (o : op) : bool :=
  match o with FromValues _ _ _ _ _ | FromArray _ _ _ | Copy _ | Method _ _ _ _ _ | Resize _ _ _ _ | ApplyNew _ _ => true | _ => false end.
Lemma fresh_spec : forall s o s', wf s -> fresh_op o = true -> step s o = Some s' -> fresh_grid s s'.
Proof.
  intros s o s' W M H. destruct o; cbn [fresh_op] in M; try discriminate; cbn [step] in H.
  - injection H as <-. apply make_fresh.
  - destruct (nth_error (arrays s) a) as [[r k f | b y x r k]|]; try discriminate.
    + injection H as <-. apply make_fresh.
    + destruct (nth_error (bands s) b); [|discriminate]. injection H as <-. apply make_fresh.
  - destruct (nth_error (grids s) g) as [G|] eqn:Q; [|discriminate]. injection H as <-. apply deepcopy_fresh.
  - destruct (nth_error (grids s) g); [|discriminate]. injection H as <-. apply make_fresh.
  - destruct (nth_error (grids s) g) as [G|]; [|discriminate]. destruct (items s (blist G)); [discriminate|].
    injection H as <-. apply make_fresh.
  - destruct (nth_error (grids s) g) as [G|] eqn:Q; [|discriminate].
    destruct (single s G) as [[a b]|]; [|discriminate].
    destruct (nth_error (grids (deepcopy s G)) (length (grids s))) as [G'|] eqn:Q'; [|discriminate].
    injection H as <-. apply deepcopy_fresh.
Qed.
Lemma fresh_apart : forall os o s' h, let s := run start os in fresh_op o = true -> step s o = Some s' ->
  length (grids s') = S (length (grids s)) /\ (h < length (grids s) -> apart s' (length (grids s)) h).
Proof.
  intros os o s' h s F H. assert (W : wf s) by apply run_wf, start_wf.
  destruct (fresh_spec _ _ _ W F H) as [L N]. split; [exact L|]. intros Hh k m (a & E1 & E2).
  assert (M : makes o = true) by (destruct o; auto; discriminate).
  destruct (makes_spec _ _ _ W M H) as [_ E]. rewrite (band_at_ext _ _ _ _ W E Hh) in E2.
  apply N in E1. apply (band_at_lt _ _ _ _ W) in E2. lia.
Qed.

(** What bands grids have stays, but for [append]. *)
Lemma band_at_step : forall s o s' g k, wf s -> appends o = false -> step s o = Some s' -> g < length (grids s) ->
  band_at s' g k = band_at s g k.
Proof.
  intros s o s' g k W A H Hg. destruct (makes o) eqn:M.
  { destruct (makes_spec _ _ _ W M H) as [_ E]. now apply band_at_ext. }
  destruct (target o) as [t|] eqn:T.
  { destruct (target_writes _ _ _ _ H T) as (addrs & f & Wr). eapply writes_band_at; eauto. }
  destruct o; try discriminate; cbn [step] in H.
  - destruct (nth_error (grids s) g0) as [G|] eqn:Q; [|discriminate].
    destruct (list_addr s l) as [n|] eqn:L; [|discriminate].
    destruct (items s (ilist G)) as [|a r]; [discriminate|]. destruct (items s n) as [|a' r'] eqn:I; [discriminate|].
    destruct (uniform s (a :: a' :: r')); [|discriminate]. injection H as <-.
    rewrite !band_at_items. cbn [grids]. destruct (Nat.eq_dec g0 g) as [-> | N].
    + rewrite (lset_nth_same _ _ _ _ _ Q), Q. reflexivity.
    + rewrite lset_other by exact N. reflexivity.
  - destruct (nth_error (arrays s) a) as [[r c f | b y x r c]|] eqn:Q; [| |discriminate];
      destruct ((i <? r) && (j <? c)); try discriminate; injection H as <-; reflexivity.
Qed.
Lemma grids_step : forall s o s', wf s -> step s o = Some s' -> length (grids s) <= length (grids s').
Proof.
  intros s o s' W H. destruct (makes o) eqn:M.
  { destruct (makes_spec _ _ _ W M H) as [_ E]. apply (ext_glen _ _ E). }
  destruct (target o) as [t|] eqn:T.
  { destruct (target_writes _ _ _ _ H T) as (addrs & f & Wr). rewrite (w_len _ _ _ _ _ Wr). lia. }
  destruct o; try discriminate; cbn [step] in H.
  - destruct (list_addr s l); [|discriminate]. destruct (band_addr s b); [|discriminate].
    destruct (uniform s (items s n ++ [n0])); [|discriminate]. injection H as <-. cbn. lia.
  - destruct (nth_error (grids s) g) as [G|] eqn:Q; [|discriminate].
    destruct (list_addr s l) as [n|] eqn:L; [|discriminate].
    destruct (items s (ilist G)) as [|a r]; [discriminate|]. destruct (items s n) as [|a' r'] eqn:I; [discriminate|].
    destruct (uniform s (a :: a' :: r')); [|discriminate]. injection H as <-. cbn. rewrite lset_length. lia.
  - destruct (nth_error (arrays s) a) as [[r c f | b y x r c]|] eqn:Q; [| |discriminate];
      destruct ((i <? r) && (j <? c)); try discriminate; injection H as <-; cbn; lia.
Qed.
Lemma band_at_run : forall os s g k, wf s -> existsb appends os = false -> g < length (grids s) ->
  band_at (run s os) g k = band_at s g k.
Proof.
  induction os as [|o os IH]; intros s g k W A Hg; [reflexivity|].
  cbn in A. apply orb_false_iff in A. destruct A as [A A']. cbn [run fold_left]. fold (run (next s o) os).
  unfold next. destruct (step s o) as [s'|] eqn:E; [|now apply IH].
  pose proof (grids_step _ _ _ W E). rewrite (IH s' g k (step_wf _ _ _ W E) A') by lia.
  eapply band_at_step; eauto.
Qed.
Lemma run_app : forall s a b, run s (a ++ b) = run (run s a) b.
Proof. intros. unfold run. apply fold_left_app. Qed.
Lemma grids_run : forall os s, wf s -> length (grids s) <= length (grids (run s os)).
Proof.
  induction os as [|o os IH]; intros s W; [cbn; lia|]. cbn [run fold_left]. fold (run (next s o) os).
  pose proof (IH _ (next_wf _ o W)). unfold next in *. destruct (step s o) eqn:E; [|lia].
  pose proof (grids_step _ _ _ W E). lia.
Qed.
Lemma stays_apart : forall os os' g h, let s := run start os in existsb appends os' = false ->
  g < length (grids s) -> h < length (grids s) -> apart s g h -> apart (run start (os ++ os')) g h.
Proof.
  intros os os' g h s A Hg Hh N. rewrite run_app. fold s. intros k m (a & E1 & E2).
  assert (W : wf s) by apply run_wf, start_wf.
  rewrite band_at_run in E1, E2 by assumption. apply (N k m). exists a. auto.
Qed.

(** Without handing on bands, each grid has bands of its own. *)
Definition separate (s : state) : Prop := forall g k h m, same_band s g k h m -> g = h.
Lemma new_grid_only : forall s o s', wf s -> makes o = true -> hands_on o = false -> step s o = Some s' ->
  fresh_grid s s' \/ length (grids s') = length (grids s).
Proof.
  intros s o s' W M F H. destruct (fresh_op o) eqn:E; [left; eapply fresh_spec; eauto|]. right.
  destruct o; try discriminate; cbn [step] in H.
  - injection H as <-. reflexivity.
  - destruct (all_some (map (band_addr s) bs)); [|discriminate]. injection H as <-. reflexivity.
  - destruct (nth_error (grids s) g) as [G|]; [|discriminate].
    destruct (nth_error (own_bands s G) (k mod length (own_bands s G))) as [a|]; [|discriminate].
    destruct (nth_error (bands s) a); [|discriminate]. injection H as <-. reflexivity.
  - destruct (nth_error (grids s) g) as [G|]; [|discriminate].
    destruct (own_bands s G) as [|a rest]; [discriminate|].
    destruct (nth_error (bands s) a) as [b|] eqn:B; [|discriminate]. destruct (i <? rows b); [|discriminate].
    destruct rest as [|a' rest]; [destruct (bcls b)|]; injection H as <-; reflexivity.
  - destruct (band_addr s b) as [a|]; [|discriminate].
    destruct (nth_error (bands s) a) as [B|] eqn:Q; [|discriminate].
    destruct ((y + h <=? rows B) && (x + w <=? cols B)); [|discriminate].
    destruct (bcls B); injection H as <-; reflexivity.
Qed.
Lemma band_at_grid : forall s g k a, band_at s g k = Some a -> g < length (grids s).
Proof. intros s g k a H. unfold band_at in H. destruct (nth_error (grids s) g) eqn:Q; [|discriminate]. eapply some_lt; eauto. Qed.
Lemma step_separate : forall s o s', wf s -> hands_on o = false -> step s o = Some s' -> separate s -> separate s'.
Proof.
  intros s o s' W F H S g k h m (a & E1 & E2).
  assert (A : appends o = false) by (destruct o; auto; discriminate).
  assert (L : length (grids s) <= length (grids s')) by (eapply grids_step; eauto).
  destruct (lt_dec g (length (grids s))) as [Lg|Lg]; destruct (lt_dec h (length (grids s))) as [Lh|Lh].
  - rewrite (band_at_step _ _ _ g k W A H) in E1 by assumption. rewrite (band_at_step _ _ _ h m W A H) in E2 by assumption. apply (S g k h m). exists a. auto.
  - destruct (makes o) eqn:M.
    + destruct (new_grid_only _ _ _ W M F H) as [[L' N] | L'].
      * pose proof (band_at_grid _ _ _ _ E2) as Lh'. replace h with (length (grids s)) in E2 by lia. apply N in E2.
        rewrite (band_at_step _ _ _ _ _ W A H) in E1 by assumption. apply (band_at_lt _ _ _ _ W) in E1. lia.
      * pose proof (band_at_grid _ _ _ _ E2). lia.
    + exfalso. pose proof (band_at_grid _ _ _ _ E2).
      assert (length (grids s') = length (grids s)); [|lia].
      destruct (target o) as [t|] eqn:T.
      { destruct (target_writes _ _ _ _ H T) as (addrs & f & Wr). apply (w_len _ _ _ _ _ Wr). }
      destruct o; try discriminate; cbn [step] in H.
      destruct (nth_error (arrays s) a0) as [[r c f | b y x r c]|] eqn:Q; [| |discriminate];
        destruct ((i <? r) && (j <? c)); try discriminate; injection H as <-; reflexivity.
  - destruct (makes o) eqn:M.
    + destruct (new_grid_only _ _ _ W M F H) as [[L' N] | L'].
      * pose proof (band_at_grid _ _ _ _ E1) as Lh'. replace g with (length (grids s)) in E1 by lia. apply N in E1.
        rewrite (band_at_step _ _ _ _ _ W A H) in E2 by assumption. apply (band_at_lt _ _ _ _ W) in E2. lia.
      * pose proof (band_at_grid _ _ _ _ E1). lia.
    + exfalso. pose proof (band_at_grid _ _ _ _ E1).
      assert (length (grids s') = length (grids s)); [|lia].
      destruct (target o) as [t|] eqn:T.
      { destruct (target_writes _ _ _ _ H T) as (addrs & f & Wr). apply (w_len _ _ _ _ _ Wr). }
      destruct o; try discriminate; cbn [step] in H.
      destruct (nth_error (arrays s) a0) as [[r c f | b y x r c]|] eqn:Q; [| |discriminate];
        destruct ((i <? r) && (j <? c)); try discriminate; injection H as <-; reflexivity.
  - destruct (le_lt_dec (length (grids s')) (length (grids s))) as [Z|Z].
    + pose proof (band_at_grid _ _ _ _ E1). pose proof (band_at_grid _ _ _ _ E2). lia.
    + pose proof (band_at_grid _ _ _ _ E1). pose proof (band_at_grid _ _ _ _ E2).
      destruct (makes o) eqn:M.
      * destruct (new_grid_only _ _ _ W M F H) as [[L' N] | L']; lia.
      * exfalso. assert (length (grids s') = length (grids s)); [|lia].
        destruct (target o) as [t|] eqn:T.
        { destruct (target_writes _ _ _ _ H T) as (addrs & f & Wr). apply (w_len _ _ _ _ _ Wr). }
        destruct o; try discriminate; cbn [step] in H.
        destruct (nth_error (arrays s) a0) as [[r c f | b y x r c]|] eqn:Q; [| |discriminate];
          destruct ((i <? r) && (j <? c)); try discriminate; injection H as <-; reflexivity.
Qed.
Lemma run_separate : forall os s, wf s -> existsb hands_on os = false -> separate s -> separate (run s os).
Proof.
  induction os as [|o os IH]; intros s W F S; [exact S|]. cbn in F. apply orb_false_iff in F. destruct F as [F F'].
  cbn [run fold_left]. fold (run (next s o) os). apply IH; [now apply next_wf | exact F' |].
  unfold next. destruct (step s o) eqn:E; [eapply step_separate; eauto | exact S].
Qed.
Lemma start_separate : separate start.
Proof. intros g k h m (a & E & _). unfold band_at in E. cbn in E. destruct g; discriminate. Qed.
Lemma independent : forall os o s' g h, let s := run start os in existsb hands_on os = false ->
  target o = Some g -> step s o = Some s' -> h <> g -> kept s s' h.
Proof.
  intros os o s' g h s F T H N. eapply apart_kept; eauto. intros k m B.
  apply N. symmetry. eapply (run_separate os start start_wf F start_separate); eauto.
Qed.

(** * Grids with one list *)
Definition one_list (s : state) (g h : nat) : Prop :=
  exists G H, nth_error (grids s) g = Some G /\ nth_error (grids s) h = Some H /\
              blist G = ilist G /\ blist H = ilist H /\ ilist G = ilist H.
Definition never_rebound (s : state) : Prop := forall g G, nth_error (grids s) g = Some G -> blist G = ilist G.
Lemma make_never : forall s c r k p nd, never_rebound s -> never_rebound (make s c r k p nd).
Proof.
  intros s c r k p nd N g G H. cbn in H. destruct (lt_dec g (length (grids s))) as [L|L].
  - rewrite app_old in H by lia. eapply N; eauto.
  - pose proof (some_lt _ _ _ _ H) as L'. rewrite app_length in L'; cbn in L'.
    replace g with (length (grids s)) in H by lia. rewrite app_new in H. injection H as <-. reflexivity.
Qed.
Lemma deepcopy_never : forall s G, blist G = ilist G -> never_rebound s -> never_rebound (deepcopy s G).
Proof.
  intros s G E N g G' H. cbn in H. destruct (lt_dec g (length (grids s))) as [L|L].
  - rewrite app_old in H by lia. eapply N; eauto.
  - pose proof (some_lt _ _ _ _ H) as L'. rewrite app_length in L'; cbn in L'.
    replace g with (length (grids s)) in H by lia. rewrite app_new in H. injection H as <-. cbn.
    now rewrite E, Nat.eqb_refl.
Qed.
(** The lists of grids stay the same objects, but for [Rebind]. *)
Lemma lists_step : forall s o s' g G, wf s -> rebinds o = false -> step s o = Some s' -> nth_error (grids s) g = Some G ->
  exists G', nth_error (grids s') g = Some G' /\ blist G' = blist G /\ ilist G' = ilist G.
Proof.
  intros s o s' g G W R H Q. destruct (makes o) eqn:M.
  { destruct (makes_spec _ _ _ W M H) as [_ E]. exists G. rewrite (ext_grids _ _ E); [auto | eapply some_lt; eauto]. }
  destruct (target o) as [t|] eqn:T.
  { destruct (target_writes _ _ _ _ H T) as (addrs & f & Wr). destruct (Nat.eq_dec g t) as [-> | N].
    - destruct (w_grid _ _ _ _ _ Wr) as (G0 & G' & Q0 & Q' & B & I & _). exists G'. rewrite Q in Q0. injection Q0 as <-. auto.
    - exists G. rewrite (w_grids _ _ _ _ _ Wr g N). auto. }
  destruct o; try discriminate; cbn [step] in H.
  - destruct (list_addr s l); [|discriminate]. destruct (band_addr s b); [|discriminate].
    destruct (uniform s (items s n ++ [n0])); [|discriminate]. injection H as <-. exists G. auto.
  - destruct (nth_error (arrays s) a) as [[r c f | b y x r c]|]; [| |discriminate];
      destruct ((i <? r) && (j <? c)); try discriminate; injection H as <-; exists G; auto.
Qed.
Lemma lists_run : forall os s g G, wf s -> existsb rebinds os = false -> nth_error (grids s) g = Some G ->
  exists G', nth_error (grids (run s os)) g = Some G' /\ blist G' = blist G /\ ilist G' = ilist G.
Proof.
  induction os as [|o os IH]; intros s g G W R Q; [exists G; auto|].
  cbn in R. apply orb_false_iff in R. destruct R as [R R']. cbn [run fold_left]. fold (run (next s o) os).
  unfold next. destruct (step s o) as [s'|] eqn:E; [|now apply IH].
  destruct (lists_step _ _ _ _ _ W R E Q) as (G' & Q' & B & I).
  destruct (IH s' g G' (step_wf _ _ _ W E) R' Q') as (G2 & Q2 & B2 & I2). exists G2. split; [exact Q2|].
  split; congruence.
Qed.
Lemma never_step : forall s o s', wf s -> rebinds o = false -> step s o = Some s' -> never_rebound s -> never_rebound s'.
Proof.
  intros s o s' W R H N g G' Q'. destruct (lt_dec g (length (grids s))) as [L|L].
  - destruct (lt_some _ _ _ L) as (G & Q). destruct (lists_step _ _ _ _ _ W R H Q) as (G2 & Q2 & B & I).
    rewrite Q' in Q2. injection Q2 as <-. rewrite B, I. eapply N; eauto.
  - destruct (makes o) eqn:M.
    + destruct o; try discriminate; cbn [step] in H.
      * injection H as <-. eapply make_never; eauto.
      * destruct (nth_error (arrays s) a) as [[r k f | b y x r k]|]; try discriminate.
        { injection H as <-. eapply make_never; eauto. }
        { destruct (nth_error (bands s) b); [|discriminate]. injection H as <-. eapply make_never; eauto. }
      * destruct (list_addr s l) as [n|]; [|discriminate]. destruct (items s n) as [|a rest]; [discriminate|].
        destruct (uniform s (a :: rest)); [|discriminate].
        destruct (nth_error (bands s) a) as [b|]; [|discriminate]. injection H as <-. cbn in Q'.
        pose proof (some_lt _ _ _ _ Q') as L'. rewrite app_length in L'; cbn in L'.
        replace g with (length (grids s)) in Q' by lia. rewrite app_new in Q'. injection Q' as <-. reflexivity.
      * destruct (nth_error (grids s) g0) as [G|] eqn:Q; [|discriminate]. injection H as <-.
        eapply deepcopy_never; eauto.
      * destruct (nth_error (grids s) g0); [|discriminate]. injection H as <-. eapply make_never; eauto.
      * destruct (nth_error (grids s) g0) as [G|]; [|discriminate]. destruct (items s (blist G)); [discriminate|].
        injection H as <-. eapply make_never; eauto.
      * destruct (nth_error (grids s) g0) as [G|] eqn:Q; [|discriminate].
        destruct (single s G) as [[a b]|]; [|discriminate].
        destruct (nth_error (grids (deepcopy s G)) (length (grids s))) as [G2|] eqn:Q2; [|discriminate].
        injection H as <-. eapply (deepcopy_never s G); eauto.
      * injection H as <-. cbn in Q'. pose proof (some_lt _ _ _ _ Q'). lia.
      * destruct (all_some (map (band_addr s) bs)); [|discriminate]. injection H as <-. cbn in Q'. pose proof (some_lt _ _ _ _ Q'). lia.
      * destruct (nth_error (grids s) g0) as [G|]; [|discriminate].
        destruct (nth_error (own_bands s G) (k mod length (own_bands s G))) as [a|]; [|discriminate].
        destruct (nth_error (bands s) a); [|discriminate]. injection H as <-. cbn in Q'. pose proof (some_lt _ _ _ _ Q'). lia.
      * destruct (nth_error (grids s) g0) as [G|]; [|discriminate].
        destruct (own_bands s G) as [|a rest]; [discriminate|].
        destruct (nth_error (bands s) a) as [b|] eqn:B; [|discriminate]. destruct (i <? rows b); [|discriminate].
        destruct rest as [|a' rest]; [destruct (bcls b)|]; injection H as <-; cbn in Q'; pose proof (some_lt _ _ _ _ Q'); lia.
      * destruct (band_addr s b) as [a|]; [|discriminate].
        destruct (nth_error (bands s) a) as [B|] eqn:Q; [|discriminate].
        destruct ((y + h <=? rows B) && (x + w <=? cols B)); [|discriminate].
        destruct (bcls B); injection H as <-; cbn in Q'; pose proof (some_lt _ _ _ _ Q'); lia.
    + exfalso. pose proof (some_lt _ _ _ _ Q').
      assert (length (grids s') = length (grids s)); [|lia].
      destruct (target o) as [t|] eqn:T.
      { destruct (target_writes _ _ _ _ H T) as (addrs & f & Wr). apply (w_len _ _ _ _ _ Wr). }
      destruct o; try discriminate; cbn [step] in H.
      * destruct (list_addr s l); [|discriminate]. destruct (band_addr s b); [|discriminate].
        destruct (uniform s (items s n ++ [n0])); [|discriminate]. injection H as <-. reflexivity.
      * destruct (nth_error (arrays s) a) as [[r c f | b y x r c]|] eqn:Q; [| |discriminate];
          destruct ((i <? r) && (j <? c)); try discriminate; injection H as <-; reflexivity.
Qed.
Lemma never_run : forall os s, wf s -> existsb rebinds os = false -> never_rebound s -> never_rebound (run s os).
Proof.
  induction os as [|o os IH]; intros s W R N; [exact N|].
  cbn in R. apply orb_false_iff in R. destruct R as [R R']. cbn [run fold_left]. fold (run (next s o) os).
  apply IH; [now apply next_wf | exact R' |]. unfold next. destruct (step s o) eqn:E; [eapply never_step; eauto | exact N].
Qed.
Lemma start_never : never_rebound start.
Proof. intros g G H. cbn in H. destruct g; discriminate. Qed.

Lemma same_list : forall os os' g nd s1, let s := run start os in
  existsb rebinds (os ++ os') = false -> step s (FromBands (BandsOf g) nd) = Some s1 ->
  let n := length (grids s) in let s2 := run s1 os' in
  (forall k, band_at s2 n k = band_at s2 g k) /\ (forall k i j, seen s2 n k i j = seen s2 g k i j) /\ nbands s2 n = nbands s2 g.
Proof.
  intros os os' g nd s1 s R H n s2. rewrite existsb_app in R. apply orb_false_iff in R. destruct R as [R R'].
  assert (W : wf s) by apply run_wf, start_wf.
  assert (N : never_rebound s) by (apply never_run; [apply start_wf | exact R | apply start_never]).
  assert (W1 : wf s1) by (eapply step_wf; eauto).
  cbn [step list_addr] in H. destruct (nth_error (grids s) g) as [G|] eqn:Q; [|discriminate]. cbn [option_map] in H.
  destruct (items s (blist G)) as [|a rest] eqn:I; [discriminate|]. destruct (uniform s (a :: rest)); [|discriminate].
  destruct (nth_error (bands s) a) as [b|]; [|discriminate]. injection H as <-.
  assert (Qg : nth_error (grids (mkS (bands s) (lists s) (grids s ++ [mkG (blist G) (blist G) nd (bcls b)]) (arrays s))) g = Some G)
    by (cbn; rewrite app_old; [exact Q | eapply some_lt; eauto]).
  assert (Qn : nth_error (grids (mkS (bands s) (lists s) (grids s ++ [mkG (blist G) (blist G) nd (bcls b)]) (arrays s))) n
               = Some (mkG (blist G) (blist G) nd (bcls b))) by (cbn; apply app_new).
  destruct (lists_run os' _ _ _ W1 R' Qg) as (G' & Qg' & Bg & Ig).
  destruct (lists_run os' _ _ _ W1 R' Qn) as (N' & Qn' & Bn & In'). cbn [blist ilist] in Bn, In'.
  fold s2 in Qg', Qn'. pose proof (N _ _ Q) as E.
  assert (BA : forall k, band_at s2 n k = band_at s2 g k).
  { intros k. unfold band_at. rewrite Qg', Qn'. now rewrite Ig, In', E. }
  split; [exact BA|]. split.
  - intros k i j. unfold seen. now rewrite BA.
  - unfold nbands. rewrite Qg', Qn'. cbn [option_map]. now rewrite Bn, Bg.
Qed.

(** * Nodata values *)
Lemma lastp_uniform : forall addrs k f a i j u,
  (forall m, nth_error addrs m = Some a -> f (k + m) i j = u) -> In a addrs -> lastp addrs k f a i j = u.
Proof.
  intros addrs k f a i j u F I. destruct (lastp addrs k f a i j) as [w|] eqn:L.
  - destruct (lastp_some _ _ _ _ _ _ _ L) as (m & E & V & _). rewrite <- V. now apply F.
  - destruct (In_nth_error _ _ I) as (m & E). rewrite <- (F m E). symmetry. eapply lastp_none; eauto.
Qed.
Lemma nodata_set : forall os g v s' h k m i j, let s := run start os in existsb rebinds os = false ->
  step s (SetNodata g v) = Some s' ->
  nodata_of s' g = Some v /\ (h <> g -> nodata_of s' h = nodata_of s h) /\
  (same_band s g m h k ->
     forall nd, nodata_of s g = Some nd ->
     seen s' h k i j = option_map (fun x => if missing nd x then v else x) (seen s h k i j)).
Proof.
  intros os g v s' h k m i j s R H. assert (W : wf s) by apply run_wf, start_wf.
  assert (N : never_rebound s) by (apply never_run; [apply start_wf | exact R | apply start_never]).
  assert (T : target (SetNodata g v) = Some g) by reflexivity.
  destruct (target_writes _ _ _ _ H T) as (addrs0 & f0 & Wr0). clear T.
  cbn [step] in H. destruct (nth_error (grids s) g) as [G|] eqn:Q; [|discriminate].
  destruct (nodata_cells s G v) as [f|] eqn:F; [|discriminate]. injection H as <-.
  set (s' := mkS _ _ _ _) in *. split; [|split].
  - unfold nodata_of, s'. cbn. now rewrite (lset_nth_same _ _ _ _ _ Q).
  - intros Hh. eapply writes_nodata; eauto.
  - intros (a & E1 & E2) nd Hnd. unfold nodata_of in Hnd. rewrite Q in Hnd. cbn in Hnd. injection Hnd as <-.
    rewrite (seen_put s _ (own_bands s G) f h k i j a eq_refl E2 W s' (writes_band_at _ _ _ _ _ Wr0) eq_refl).
    assert (Eg : forall m, band_at s g m = nth_error (own_bands s G) m) by (intros; rewrite band_at_items, Q; reflexivity).
    rewrite Eg in E1.
    unfold nodata_cells in F. unfold own_bands in F. rewrite (N _ _ Q) in F.
    destruct (length (items s (ilist G)) =? 0); [discriminate|]. rewrite Nat.eqb_refl in F. cbn in F. injection F as <-.
    unfold seen. rewrite E2. destruct (lt_some _ _ _ (band_at_lt _ _ _ _ W E2)) as (b & Qb). rewrite Qb.
    destruct ((i <? rows b) && (j <? cols b)); [|reflexivity]. cbn [option_map].
    rewrite (lastp_uniform _ _ _ _ _ _ (if missing (nodata G) (cell b i j) then Some v else None)).
    + destruct (missing (nodata G) (cell b i j)); reflexivity.
    + intros m' E. cbn [Nat.add]. fold (own_bands s G). rewrite E, Qb. reflexivity.
    + eapply nth_error_In; eauto.
Qed.
Lemma missing_refl : forall v, missing v v = true.
Proof. destruct v; cbn; [apply Z.eqb_refl | reflexivity]. Qed.
Lemma nodata_mask : forall os g v s' k i j x nd, let s := run start os in existsb rebinds os = false ->
  step s (SetNodata g v) = Some s' -> nodata_of s g = Some nd -> seen s g k i j = Some x ->
  masked s' g k i j = Some (missing nd x || missing v x).
Proof.
  intros os g v s' k i j x nd s R H Hnd S.
  assert (B : exists a, band_at s g k = Some a).
  { unfold seen in S. destruct (band_at s g k); [eauto | discriminate]. }
  destruct B as (a & B).
  destruct (nodata_set os g v s' g k k i j R H) as (E & _ & F).
  assert (SB : same_band s g k g k) by (exists a; auto). specialize (F SB nd Hnd). fold s in F. rewrite S in F. cbn in F.
  unfold masked. rewrite E, F. destruct (missing nd x); cbn; [|reflexivity]. now rewrite missing_refl.
Qed.

(** * Copies *)
Lemma copy_same : forall os g s', let s := run start os in let n := length (grids s) in
  step s (Copy g) = Some s' ->
  (forall k i j, seen s' n k i j = seen s g k i j) /\ nodata_of s' n = nodata_of s g /\ nbands s' n = nbands s g /\
  (forall k m, same_band s' n k n m <-> same_band s g k g m).
Proof.
  intros os g s' s n H. assert (W : wf s) by apply run_wf, start_wf.
  cbn [step] in H. destruct (nth_error (grids s) g) as [G|] eqn:Q; [|discriminate]. injection H as <-.
  assert (B : forall k, band_at (deepcopy s G) n k =
    option_map (fun a => length (bands s) + index a (old_of s G)) (band_at s g k)).
  { intros k. rewrite !band_at_items, Q. unfold n. rewrite deepcopy_new_grid. cbn [ilist].
    rewrite deepcopy_own. apply nth_error_map. }
  assert (I : forall k a, band_at s g k = Some a -> In a (old_of s G)).
  { intros k a E. rewrite band_at_items, Q in E. apply old_i. eapply nth_error_In; eauto. }
  split; [|split; [|split]].
  - intros k i j. unfold seen. rewrite B. destruct (band_at s g k) as [a|] eqn:E; [|reflexivity]. cbn [option_map].
    assert (X : nth_error (bands (deepcopy s G)) (length (bands s) + index a (old_of s G)) = nth_error (bands s) a).
    { cbn [deepcopy bands]. rewrite nth_error_app2 by lia.
      replace (length (bands s) + index a (old_of s G) - length (bands s)) with (index a (old_of s G)) by lia.
      fold (old_of s G). rewrite nth_error_map, (index_nth _ _ (I _ _ E)). cbn [option_map].
      destruct (lt_some _ _ _ (band_at_lt _ _ _ _ W E)) as (b & Qb). rewrite nth_nth_error, Qb. reflexivity. }
    now rewrite X.
  - unfold nodata_of, n. rewrite deepcopy_new_grid, Q. reflexivity.
  - unfold nbands, n. rewrite deepcopy_new_grid, Q. cbn [option_map blist]. rewrite deepcopy_blist. now rewrite map_length.
  - intros k m. split.
    + intros (a & E1 & E2). rewrite B in E1, E2.
      destruct (band_at s g k) as [x|] eqn:Ex; [|discriminate]. destruct (band_at s g m) as [y|] eqn:Ey; [|discriminate].
      cbn in E1, E2. exists x. split; [exact Ex|]. rewrite Ey. f_equal.
      apply (index_inj y x (old_of s G)); [eapply I; eauto | eapply I; eauto |]. injection E1 as E1. injection E2 as E2. lia.
    + intros (a & E1 & E2). exists (length (bands s) + index a (old_of s G)). rewrite !B, E1, E2. auto.
Qed.

(** * Arrays *)
Lemma own_step : forall s o s' a r c f, wf s -> step s o = Some s' -> nth_error (arrays s) a = Some (Own r c f) ->
  (forall i j v, o <> SetArr a i j v) -> nth_error (arrays s') a = Some (Own r c f).
Proof.
  intros s o s' a r c f W H Q N. destruct (makes o) eqn:M.
  { destruct (makes_spec _ _ _ W M H) as [_ E]. rewrite (ext_arrays _ _ E); [exact Q | eapply some_lt; eauto]. }
  destruct (target o) as [t|] eqn:T.
  { destruct (target_writes _ _ _ _ H T) as (addrs & f' & Wr). now rewrite (w_arrays _ _ _ _ _ Wr). }
  destruct o; try discriminate; cbn [step] in H.
  - destruct (list_addr s l); [|discriminate]. destruct (band_addr s b); [|discriminate].
    destruct (uniform s (items s n ++ [n0])); [|discriminate]. injection H as <-. exact Q.
  - destruct (nth_error (grids s) g) as [G|]; [|discriminate].
    destruct (list_addr s l) as [n|] eqn:L; [|discriminate].
    destruct (items s (ilist G)) as [|x y]; [discriminate|]. destruct (items s n) as [|a' r'] eqn:I; [discriminate|].
    destruct (uniform s (x :: a' :: r')); [|discriminate]. injection H as <-. exact Q.
  - destruct (nth_error (arrays s) a0) as [[r' c' f' | b y x r' c']|] eqn:Q'; [| |discriminate];
      destruct ((i <? r') && (j <? c')); try discriminate; injection H as <-; cbn; [|exact Q].
    rewrite lset_other; [exact Q|]. intros ->. now apply (N i j v).
Qed.
Lemma own_run : forall os s a r c f, wf s -> nth_error (arrays s) a = Some (Own r c f) ->
  (forall i j v, ~ In (SetArr a i j v) os) -> nth_error (arrays (run s os)) a = Some (Own r c f).
Proof.
  induction os as [|o os IH]; intros s a r c f W Q N; [exact Q|]. cbn [run fold_left]. fold (run (next s o) os).
  apply IH; [now apply next_wf | | intros i j v I; apply (N i j v); now right].
  unfold next. destruct (step s o) eqn:E; [|exact Q]. eapply own_step; eauto. intros i j v ->. apply (N i j v). now left.
Qed.
Lemma read_array : forall os g k y x h w s1, let s := run start os in step s (Read g k y x h w) = Some s1 ->
  let a := length (arrays s) in
  exists r c f, nth_error (arrays s1) a = Some (Own r c f).
Proof.
  intros os g k y x h w s1 s H a. cbn [step] in H. destruct (nth_error (grids s) g) as [G|]; [|discriminate].
  destruct (nth_error (own_bands s G) (k mod length (own_bands s G))) as [b|]; [|discriminate].
  destruct (nth_error (bands s) b) as [B|]; [|discriminate]. injection H as <-. cbn. rewrite app_new. eauto.
Qed.
Lemma read_entry : forall os g k y x h w s1 i j, let s := run start os in
  step s (Read g k y x h w) = Some s1 -> band_at s g k <> None -> i < h -> j < w ->
  entry s1 (length (arrays s)) i j = seen s g k (y + i) (x + j).
Proof.
  intros os g k y x h w s1 i j s H B Hi Hj. cbn [step] in H. unfold seen. rewrite band_at_items in *.
  destruct (nth_error (grids s) g) as [G|]; [|discriminate]. fold (own_bands s G) in *.
  destruct (nth_error (own_bands s G) k) as [b0|] eqn:K; [|congruence].
  rewrite Nat.mod_small, K in H by (eapply some_lt; eauto).
  destruct (nth_error (bands s) b0) as [b|]; [|discriminate]. injection H as <-.
  unfold entry. cbn [with_array arrays]. rewrite app_new. unfold window.
  assert (X : forall n y i h, i < h -> (i <? Nat.min h (n - y)) = (y + i <? n)).
  { intros n y' i' h' L. destruct (Nat.ltb_spec i' (Nat.min h' (n - y'))); destruct (Nat.ltb_spec (y' + i') n); auto; lia. }
  rewrite !X by assumption. reflexivity.
Qed.
Lemma read_stays : forall os g k y x h w s1 os' i j, let s := run start os in
  step s (Read g k y x h w) = Some s1 -> let a := length (arrays s) in
  (forall i j v, ~ In (SetArr a i j v) os') -> entry (run s1 os') a i j = entry s1 a i j.
Proof.
  intros os g k y x h w s1 os' i j s H a N. destruct (read_array _ _ _ _ _ _ _ _ H) as (r & c & f & Q).
  assert (W1 : wf s1) by (eapply step_wf; [apply run_wf, start_wf | exact H]).
  fold s in Q. pose proof (own_run os' _ _ _ _ _ W1 Q N) as Q2. fold a in Q, Q2. unfold entry. rewrite Q2, Q. reflexivity.
Qed.
Lemma read_detached : forall os g k y x h w s1 os' i j v s3 g', let s := run start os in
  step s (Read g k y x h w) = Some s1 -> let a := length (arrays s) in
  let s2 := run s1 os' in step s2 (SetArr a i j v) = Some s3 -> kept s2 s3 g'.
Proof.
  intros os g k y x h w s1 os' i j v s3 g' s H a s2 H2.
  assert (W1 : wf s1) by (eapply step_wf; [apply run_wf, start_wf | exact H]).
  destruct (read_array _ _ _ _ _ _ _ _ H) as (r & c & f & Q).
  assert (O : exists r c f, nth_error (arrays s2) a = Some (Own r c f)).
  { assert (K : forall os s a, wf s -> (exists r c f, nth_error (arrays s) a = Some (Own r c f)) ->
              exists r c f, nth_error (arrays (run s os)) a = Some (Own r c f)).
    { clear. induction os as [|o os IH]; intros s a W E; [exact E|]. cbn [run fold_left]. fold (run (next s o) os).
      apply IH; [now apply next_wf|]. unfold next. destruct (step s o) as [s'|] eqn:S; [|exact E].
      destruct E as (r & c & f & Q).
      assert (D : (exists i j v, o = SetArr a i j v) \/ (forall i j v, o <> SetArr a i j v)).
      { destruct o; try (right; intros; discriminate).
        destruct (Nat.eq_dec a0 a) as [-> | N]; [left; eauto | right; congruence]. }
      destruct D as [(i & j & v & ->) | D].
      - cbn [step] in S. rewrite Q in S. destruct ((i <? r) && (j <? c)); [|discriminate]. injection S as <-. cbn.
        rewrite (lset_nth_same _ _ _ _ _ Q). eauto.
      - exists r, c, f. eapply own_step; eauto. }
    apply K; eauto. }
  destruct O as (r2 & c2 & f2 & Q2). cbn [step] in H2. fold s2 in H2. rewrite Q2 in H2.
  destruct ((i <? r2) && (j <? c2)); [|discriminate]. injection H2 as <-. split; [|split]; reflexivity.
Qed.

(** Rows of [for row in g.values]. *)
Lemma row_entry : forall os g i s1 j, let s := run start os in step s (Row g i) = Some s1 -> band_at s g 1 = None ->
  entry s1 (length (arrays s)) 0 j = seen s g 0 i j.
Proof.
  intros os g i s1 j s H B. cbn [step] in H. unfold seen. rewrite band_at_items in *.
  destruct (nth_error (grids s) g) as [G|]; [|discriminate]. fold (own_bands s G) in *.
  destruct (own_bands s G) as [|a rest] eqn:O; [discriminate|]. cbn [nth_error] in *.
  destruct rest; [|discriminate]. destruct (nth_error (bands s) a) as [b|] eqn:Qb; [|discriminate].
  destruct (Nat.ltb_spec i (rows b)); [|discriminate].
  destruct (bcls b); injection H as <-; unfold entry; cbn; rewrite app_new; rewrite ?Qb; unfold window; rewrite Nat.add_0_r;
    destruct (j <? cols b); reflexivity.
Qed.
Lemma row_live : forall os g i s1 a b j v s2, let s := run start os in step s (Row g i) = Some s1 ->
  band_at s g 1 = None -> band_at s g 0 = Some a -> nth_error (bands s) a = Some b ->
  step s1 (SetArr (length (arrays s)) 0 j v) = Some s2 ->
  seen s2 g 0 i j = match bcls b with Simple => Some v | Compressed => seen s g 0 i j end.
Proof.
  intros os g i s1 a b j v s2 s H B B0 Qb H2. assert (W : wf s) by apply run_wf, start_wf.
  assert (M : makes (Row g i) = true) by reflexivity.
  destruct (makes_spec _ _ _ W M H) as [W1 E].
  assert (Hg : g < length (grids s)) by (eapply band_at_grid; eauto).
  assert (K : forall k, band_at s1 g k = band_at s g k) by (intros; now apply band_at_ext).
  cbn [step] in H. destruct (nth_error (grids s) g) as [G|] eqn:Q; [|discriminate].
  assert (Eg : forall m, band_at s g m = nth_error (own_bands s G) m) by (intros; rewrite band_at_items, Q; reflexivity).
  rewrite Eg in B, B0. destruct (own_bands s G) as [|a' rest] eqn:O; [discriminate|]. cbn in B, B0. injection B0 as ->.
  destruct rest; [|discriminate]. rewrite Qb in H. destruct (Nat.ltb_spec i (rows b)) as [Li|]; [|discriminate].
  unfold seen. rewrite Eg. cbn [nth_error].
  destruct (bcls b) eqn:C; injection H as <-; cbn [step with_array arrays] in H2; rewrite app_new in H2.
  - destruct (Nat.ltb_spec j (cols b)) as [Lj|]; [|discriminate]. cbn in H2. injection H2 as <-.
    assert (B2 : band_at (with_bands (with_array s (View a i 0 1 (cols b)))
       (put_at (bands s) a (fun i' j' => if (i' =? i + 0) && (j' =? j) then Some v else None))) g 0 = Some a)
      by (rewrite band_at_with_bands, K, Eg; reflexivity).
    cbn [with_bands with_array bands] in *. rewrite B2, (put_at_same _ _ _ _ Qb). cbn [put rows cols cell].
    apply Nat.ltb_lt in Li, Lj. rewrite Li, Lj. cbn. rewrite Nat.add_0_r, !Nat.eqb_refl. reflexivity.
  - destruct (Nat.ltb_spec j (cols b)) as [Lj|]; [|discriminate]. cbn in H2. injection H2 as <-.
    unfold band_at in *. cbn [grids lists bands] in *. rewrite Q in *. fold (items s (ilist G)). fold (own_bands s G).
    rewrite O. cbn [nth_error]. rewrite Qb. reflexivity.
Qed.
(** * Sizes *)
Lemma size_step : forall s o s' a, wf s -> step s o = Some s' -> a < length (bands s) -> size s' a = size s a.
Proof.
  intros s o s' a W H L. unfold size. destruct (makes o) eqn:M.
  { destruct (makes_spec _ _ _ W M H) as [_ E]. now rewrite (ext_bands _ _ E). }
  destruct (lt_some _ _ _ L) as (b & Q).
  destruct (target o) as [t|] eqn:T.
  { destruct (target_writes _ _ _ _ H T) as (addrs & f' & Wr). rewrite (w_bands _ _ _ _ _ Wr), Q.
    destruct (put_all_spec addrs (bands s) 0 f' a b Q) as (b' & -> & _ & R & C & _). cbn. now rewrite R, C. }
  destruct o; try discriminate; cbn [step] in H.
  - destruct (list_addr s l); [|discriminate]. destruct (band_addr s b0); [|discriminate].
    destruct (uniform s (items s n ++ [n0])); [|discriminate]. injection H as <-. reflexivity.
  - destruct (nth_error (grids s) g) as [G|]; [|discriminate].
    destruct (list_addr s l) as [n|]; [|discriminate].
    destruct (items s (ilist G)) as [|x y]; [discriminate|]. destruct (items s n) as [|a' r'] eqn:I; [discriminate|].
    destruct (uniform s (x :: a' :: r')); [|discriminate]. injection H as <-. reflexivity.
  - destruct (nth_error (arrays s) a0) as [[r' c' f' | b' y x r' c']|] eqn:Q'; [| |discriminate];
      destruct ((i <? r') && (j <? c')); try discriminate; injection H as <-; [reflexivity|].
    cbn [with_bands bands]. destruct (Nat.eq_dec b' a) as [-> | N]; [|now rewrite put_at_other].
    rewrite (put_at_same _ _ _ _ Q), Q. reflexivity.
Qed.

(** Bands stay: the k-th band of a grid is the same object from then on. *)
Lemma band_stays_step : forall s o s' g k a, wf s -> step s o = Some s' -> band_at s g k = Some a -> band_at s' g k = Some a.
Proof.
  intros s o s' g k a W H B. destruct (appends o) eqn:A.
  - destruct o; try discriminate. cbn [step] in H. destruct (list_addr s l) as [n|] eqn:L; [|discriminate].
    destruct (band_addr s b) as [c|]; [|discriminate].
    destruct (uniform s (items s n ++ [c])); [|discriminate]. injection H as <-.
    rewrite band_at_items in *. cbn [grids]. destruct (nth_error (grids s) g) as [G|]; [|discriminate].
    change (nth_error (nth (ilist G) (lset (lists s) n (items s n ++ [c])) []) k = Some a). rewrite nth_nth_error.
    destruct (Nat.eq_dec n (ilist G)) as [-> | N].
    + rewrite lset_same by (eapply list_addr_lt; eauto). rewrite app_old; [exact B | eapply some_lt; eauto].
    + rewrite lset_other by exact N. unfold items in B. now rewrite nth_nth_error in B.
  - rewrite <- B. eapply band_at_step; eauto. eapply band_at_grid; eauto.
Qed.
Lemma blen_step : forall s o s', wf s -> step s o = Some s' -> length (bands s) <= length (bands s').
Proof.
  intros s o s' W H. destruct (le_lt_dec (length (bands s)) (length (bands s'))) as [L|L]; [exact L|].
  exfalso. pose proof (size_step s o s' (length (bands s')) W H L) as E. unfold size in E.
  destruct (lt_some _ _ _ L) as (b & Q). rewrite Q in E.
  rewrite (proj2 (nth_error_None (bands s') (length (bands s')))) in E by lia. discriminate.
Qed.
Lemma bands_stay : forall os os' g k a, band_at (run start os) g k = Some a ->
  band_at (run start (os ++ os')) g k = Some a /\
  forall i j, seen (run start (os ++ os')) g k i j = None <-> seen (run start os) g k i j = None.
Proof.
  intros os os' g k a B. rewrite run_app. remember (run start os) as s eqn:Es.
  assert (W : wf s) by (subst s; apply run_wf, start_wf). clear Es.
  assert (K : band_at (run s os') g k = Some a /\ size (run s os') a = size s a).
  { revert s W B. induction os' as [|o os' IH]; intros s W B; [split; [exact B | reflexivity]|].
    cbn [run fold_left]. fold (run (next s o) os'). unfold next. destruct (step s o) as [s'|] eqn:E; [|now apply IH].
    destruct (IH s' (step_wf _ _ _ W E) (band_stays_step _ _ _ _ _ _ W E B)) as [X Y].
    split; [exact X|]. rewrite Y. eapply size_step; eauto. eapply band_at_lt; eauto. }
  destruct K as [B' S]. split; [exact B'|]. intros i j. unfold seen. rewrite B, B'. unfold size in S.
  destruct (nth_error (bands s) a) as [b|]; destruct (nth_error (bands (run s os')) a) as [b'|]; cbn in S; try discriminate; [|tauto].
  injection S as -> ->. destruct ((i <? rows b) && (j <? cols b)); split; congruence.
Qed.

(** Masks. *)
Lemma map_mod_seq : forall (bs : list nat), map (fun k => nth (k mod length bs) bs 0) (seq 0 (length bs)) = bs.
Proof.
  intros bs. apply nth_ext with (d := 0) (d' := 0); [now rewrite map_length, seq_length|].
  intros n H. rewrite map_length, seq_length in H.
  set (F := fun k => nth (k mod length bs) bs 0).
  rewrite (nth_indep (map F (seq 0 (length bs))) 0 (F 0)) by (now rewrite map_length, seq_length).
  rewrite map_nth, seq_nth by exact H. unfold F. cbn [Nat.add]. now rewrite Nat.mod_small.
Qed.
Lemma mask_set : forall os g inside s' h k m i j nd, let s := run start os in existsb rebinds os = false ->
  step s (Mask g inside) = Some s' -> same_band s g m h k -> nodata_of s g = Some nd ->
  seen s' h k i j = option_map (fun x => if inside i j then x else nd) (seen s h k i j).
Proof.
  intros os g inside s' h k m i j nd s R H (a & E1 & E2) Hnd. assert (W : wf s) by apply run_wf, start_wf.
  assert (N : never_rebound s) by (apply never_run; [apply start_wf | exact R | apply start_never]).
  cbn [step] in H. rewrite band_at_items in E1. unfold nodata_of in Hnd.
  destruct (nth_error (grids s) g) as [G|] eqn:Q; [|discriminate]. cbn in Hnd. injection Hnd as <-.
  rewrite (N _ _ Q) in H. fold (own_bands s G) in E1.
  assert (S : s' = with_bands s (put_all (bands s) (own_bands s G) 0 (fun _ i j => if inside i j then None else Some (nodata G)))).
  { pose proof (map_mod_seq (own_bands s G)) as MM. unfold own_bands in *. destruct (items s (ilist G)); [discriminate|].
    rewrite MM in H. congruence. }
  subst s'. set (F := fun _ i j : nat => if inside i j then None else Some (nodata G)) in *.
  rewrite (seen_put s _ (own_bands s G) F h k i j a eq_refl E2 W
             (with_bands s (put_all (bands s) (own_bands s G) 0 F)) (fun _ _ => eq_refl) eq_refl).
  rewrite (lastp_uniform _ _ _ _ _ _ (if inside i j then None else Some (nodata G))).
  - destruct (seen s h k i j); cbn; [|reflexivity]. destruct (inside i j); reflexivity.
  - reflexivity.
  - eapply nth_error_In; eauto.
Qed.
(** Functions applied in place. *)
Lemma apply_set : forall os g f s' h k m i j nd, let s := run start os in
  step s (Apply g f) = Some s' -> same_band s g m h k -> nodata_of s g = Some nd ->
  seen s' h k i j = option_map (fun x => if missing nd x then x else f i j) (seen s h k i j).
Proof.
  intros os g f s' h k m i j nd s H (a & E1 & E2) Hnd. assert (W : wf s) by apply run_wf, start_wf.
  cbn [step] in H. rewrite band_at_items in E1. unfold nodata_of in Hnd.
  destruct (nth_error (grids s) g) as [G|] eqn:Q; [|discriminate]. cbn in Hnd. injection Hnd as <-.
  fold (own_bands s G) in E1. unfold single in H.
  destruct (items s (blist G)) as [|? [|? ?]]; try discriminate.
  destruct (own_bands s G) as [|a' [|? ?]] eqn:O; try discriminate.
  destruct m; cbn in E1; [injection E1 as -> | destruct m; discriminate].
  destruct (nth_error (bands s) a) as [b|] eqn:Qb; [|discriminate]. cbn [option_map] in H. apply some_inj in H. subst s'.
  rewrite (seen_put s _ [a] (applied b (nodata G) f) h k i j a eq_refl E2 W
             (with_bands s (put_all (bands s) [a] 0 (applied b (nodata G) f))) (fun _ _ => eq_refl) eq_refl).
  unfold seen. rewrite E2, Qb. destruct ((i <? rows b) && (j <? cols b)); [|reflexivity]. cbn.
  rewrite Nat.eqb_refl. unfold applied. destruct (missing (nodata G) (cell b i j)); reflexivity.
Qed.

(** * Classes of bands *)
Lemma class_step : forall s o s' a, wf s -> step s o = Some s' -> a < length (bands s) ->
  option_map bcls (nth_error (bands s') a) = option_map bcls (nth_error (bands s) a).
Proof.
  intros s o s' a W H L. destruct (makes o) eqn:M.
  { destruct (makes_spec _ _ _ W M H) as [_ E]. now rewrite (ext_bands _ _ E). }
  destruct (lt_some _ _ _ L) as (b & Q).
  destruct (target o) as [t|] eqn:T.
  { destruct (target_writes _ _ _ _ H T) as (addrs & f' & Wr). rewrite (w_bands _ _ _ _ _ Wr), Q.
    destruct (put_all_spec addrs (bands s) 0 f' a b Q) as (b' & -> & C & _). cbn. now rewrite C. }
  destruct o; try discriminate; cbn [step] in H.
  - destruct (list_addr s l); [|discriminate]. destruct (band_addr s b0); [|discriminate].
    destruct (uniform s (items s n ++ [n0])); [|discriminate]. injection H as <-. reflexivity.
  - destruct (nth_error (grids s) g) as [G|]; [|discriminate].
    destruct (list_addr s l) as [n|]; [|discriminate].
    destruct (items s (ilist G)) as [|x y]; [discriminate|]. destruct (items s n) as [|a' r'] eqn:I; [discriminate|].
    destruct (uniform s (x :: a' :: r')); [|discriminate]. injection H as <-. reflexivity.
  - destruct (nth_error (arrays s) a0) as [[r' c' f' | b' y x r' c']|] eqn:Q'; [| |discriminate];
      destruct ((i <? r') && (j <? c')); try discriminate; injection H as <-; [reflexivity|].
    cbn [with_bands bands]. destruct (Nat.eq_dec b' a) as [-> | N]; [|now rewrite put_at_other].
    rewrite (put_at_same _ _ _ _ Q), Q. reflexivity.
Qed.
Lemma make_class : forall s c r k p nd m, class_at (make s c r k p nd) (length (grids s)) m =
  if m <? length p then Some c else None.
Proof.
  intros. unfold class_at. rewrite band_at_items. cbn [make grids]. rewrite app_new. cbn [ilist].
  unfold items. cbn [make lists]. rewrite items_app, Nat.eqb_refl.
  destruct (nth_error (seq (length (bands s)) (length p)) m) as [a|] eqn:E.
  - apply seq_nth_error in E. destruct E as [-> L]. rewrite (proj2 (Nat.ltb_lt _ _) L). cbn [make bands].
    rewrite nth_error_app2 by lia. replace (length (bands s) + m - length (bands s)) with m by lia.
    rewrite nth_error_map. destruct (lt_some _ _ _ L) as (f & ->). reflexivity.
  - apply nth_error_None in E. rewrite seq_length in E. rewrite (proj2 (Nat.ltb_ge _ _) E). reflexivity.
Qed.
Lemma deepcopy_class : forall s G g m, wf s -> nth_error (grids s) g = Some G ->
  class_at (deepcopy s G) (length (grids s)) m = class_at s g m.
Proof.
  intros s G g m W Q. unfold class_at. rewrite !band_at_items, Q, deepcopy_new_grid. cbn [ilist]. rewrite deepcopy_own, nth_error_map.
  destruct (nth_error (items s (ilist G)) m) as [a|] eqn:E; [|reflexivity]. cbn [option_map deepcopy bands].
  rewrite nth_error_app2 by lia.
  replace (length (bands s) + index a (old_of s G) - length (bands s)) with (index a (old_of s G)) by lia.
  fold (old_of s G). rewrite nth_error_map, (index_nth a) by (apply old_i; eapply nth_error_In; eauto). cbn [option_map].
  destruct (lt_some _ _ _ (wf_items _ W _ _ _ E)) as (b & Qb). now rewrite nth_nth_error, Qb.
Qed.
(** The class used for new bands is that of the first band. *)
Definition first_class (s : state) : Prop :=
  forall g G c, nth_error (grids s) g = Some G -> class_at s g 0 = Some c -> gcls G = c.
Lemma class_at_step : forall s o s' g k, wf s -> appends o = false -> step s o = Some s' -> g < length (grids s) ->
  class_at s' g k = class_at s g k.
Proof.
  intros s o s' g k W A H L. unfold class_at. rewrite (band_at_step _ _ _ _ _ W A H L).
  destruct (band_at s g k) eqn:B; [|reflexivity]. apply (class_step _ _ _ _ W H). eapply band_at_lt; eauto.
Qed.
Lemma gcls_step : forall s o s' g G, wf s -> step s o = Some s' -> nth_error (grids s) g = Some G ->
  exists G', nth_error (grids s') g = Some G' /\ gcls G' = gcls G.
Proof.
  intros s o s' g G W H Q. destruct (makes o) eqn:M.
  { destruct (makes_spec _ _ _ W M H) as [_ E]. exists G. rewrite (ext_grids _ _ E); [auto | eapply some_lt; eauto]. }
  destruct o; try discriminate; cbn [step] in H.
  - destruct (list_addr s l); [|discriminate]. destruct (band_addr s b); [|discriminate].
    destruct (uniform s (items s n ++ [n0])); [|discriminate]. injection H as <-. exists G. auto.
  - destruct (nth_error (grids s) g0) as [G0|] eqn:Q0; [|discriminate].
    destruct (list_addr s l) as [n|]; [|discriminate].
    destruct (items s (ilist G0)) as [|x y]; [discriminate|]. destruct (items s n) as [|a' r'] eqn:I; [discriminate|].
    destruct (uniform s (x :: a' :: r')); [|discriminate]. injection H as <-. cbn.
    destruct (Nat.eq_dec g0 g) as [-> | N].
    + rewrite (lset_nth_same _ _ _ _ _ Q0). rewrite Q in Q0. injection Q0 as <-. eauto.
    + rewrite lset_other by exact N. eauto.
  - destruct (nth_error (grids s) g0) as [G0|]; [|discriminate]. destruct (own_bands s G0); [discriminate|].
    apply some_inj in H. subst s'. exists G. auto.
  - destruct (nth_error (grids s) g0) as [G0|] eqn:Q0; [|discriminate]. destruct (nodata_cells s G0 v); [|discriminate].
    injection H as <-. cbn. destruct (Nat.eq_dec g0 g) as [-> | N].
    + rewrite (lset_nth_same _ _ _ _ _ Q0). rewrite Q in Q0. injection Q0 as <-. eauto.
    + rewrite lset_other by exact N. eauto.
  - destruct (nth_error (grids s) g0) as [G0|]; [|discriminate]. destruct (items s (blist G0)); [discriminate|].
    destruct (own_bands s G0); [discriminate|]. apply some_inj in H. subst s'. exists G. auto.
  - destruct (nth_error (grids s) g0) as [G0|]; [|discriminate]. destruct (single s G0) as [[a b]|]; [|discriminate].
    apply some_inj in H. subst s'. exists G. auto.
  - destruct (nth_error (arrays s) a) as [[r c f | b y x r c]|]; [| |discriminate];
      destruct ((i <? r) && (j <? c)); try discriminate; injection H as <-; exists G; auto.
Qed.
Lemma make_first : forall s c r k p nd, forall G c', nth_error (grids (make s c r k p nd)) (length (grids s)) = Some G ->
  class_at (make s c r k p nd) (length (grids s)) 0 = Some c' -> gcls G = c'.
Proof.
  intros s c r k p nd G c' Q C. rewrite make_class in C. cbn in Q. rewrite app_new in Q. injection Q as <-. cbn.
  destruct (0 <? length p); congruence.
Qed.
Lemma first_step : forall s o s', wf s -> appends o = false -> step s o = Some s' -> first_class s -> first_class s'.
Proof.
  intros s o s' W A H F g G' c Q' C. destruct (lt_dec g (length (grids s))) as [L|L].
  - destruct (lt_some _ _ _ L) as (G & Q). destruct (gcls_step _ _ _ _ _ W H Q) as (G2 & Q2 & E).
    rewrite Q' in Q2. injection Q2 as <-. rewrite E. rewrite (class_at_step _ _ _ _ _ W A H L) in C. eapply F; eauto.
  - pose proof (some_lt _ _ _ _ Q') as L'.
    assert (Z : g = length (grids s) /\ (fresh_op o = true \/ exists l nd, o = FromBands l nd)).
    { destruct (makes o) eqn:M.
      - destruct (fresh_op o) eqn:Fr.
        + destruct (fresh_spec _ _ _ W Fr H) as [Lg _]. split; [lia | auto].
        + destruct (hands_on o) eqn:Ho.
          * destruct o; try discriminate. split; [|right; eauto]. cbn [step] in H.
            destruct (list_addr s l); [|discriminate]. destruct (items s n) as [|x y]; [discriminate|].
            destruct (uniform s (x :: y)); [|discriminate]. destruct (nth_error (bands s) x); [|discriminate].
            injection H as <-. cbn in L'. rewrite app_length in L'. cbn in L'. lia.
          * destruct (new_grid_only _ _ _ W M Ho H) as [[Lg _] | Lg]; [|lia]. exfalso.
            destruct o; try discriminate; cbn [step] in H.
            { injection H as <-. cbn in Lg. lia. }
            { destruct (all_some (map (band_addr s) bs)); [|discriminate]. injection H as <-. cbn in Lg. lia. }
            { destruct (nth_error (grids s) g0) as [G|]; [|discriminate].
              destruct (nth_error (own_bands s G) (k mod length (own_bands s G))) as [a|]; [|discriminate].
              destruct (nth_error (bands s) a); [|discriminate]. injection H as <-. cbn in Lg. lia. }
            { destruct (nth_error (grids s) g0) as [G|]; [|discriminate].
              destruct (own_bands s G) as [|a rest]; [discriminate|].
              destruct (nth_error (bands s) a) as [b|]; [|discriminate]. destruct (i <? rows b); [|discriminate].
              destruct rest as [|a' rest]; [destruct (bcls b)|]; injection H as <-; cbn in Lg; lia. }
            { destruct (band_addr s b) as [a|]; [|discriminate].
              destruct (nth_error (bands s) a) as [B|]; [|discriminate].
              destruct ((y + h <=? rows B) && (x + w <=? cols B)); [|discriminate].
              destruct (bcls B); injection H as <-; cbn in Lg; lia. }
      - exfalso. assert (length (grids s') = length (grids s)); [|lia].
        destruct (target o) as [t|] eqn:T.
        { destruct (target_writes _ _ _ _ H T) as (addrs & f & Wr). apply (w_len _ _ _ _ _ Wr). }
        destruct o; try discriminate; cbn [step] in H.
        + destruct (nth_error (grids s) g0) as [G0|]; [|discriminate].
          destruct (list_addr s l) as [n|]; [|discriminate].
          destruct (items s (ilist G0)) as [|x y]; [discriminate|]. destruct (items s n) as [|a' r'] eqn:I; [discriminate|].
          destruct (uniform s (x :: a' :: r')); [|discriminate]. injection H as <-. cbn. apply lset_length.
        + destruct (nth_error (arrays s) a) as [[r c0 f | b y x r c0]|] eqn:Q; [| |discriminate];
            destruct ((i <? r) && (j <? c0)); try discriminate; injection H as <-; reflexivity. }
    destruct Z as [-> [Fr | (l & nd & ->)]].
    + destruct o; try discriminate; cbn [step] in H.
      * injection H as <-. eapply make_first; eauto.
      * destruct (nth_error (arrays s) a) as [[r k f | b y x r k]|]; try discriminate.
        { injection H as <-. eapply make_first; eauto. }
        { destruct (nth_error (bands s) b); [|discriminate]. injection H as <-. eapply make_first; eauto. }
      * destruct (nth_error (grids s) g) as [G|] eqn:Q; [|discriminate]. injection H as <-.
        rewrite deepcopy_new_grid in Q'. injection Q' as <-. cbn.
        rewrite (deepcopy_class s G g 0 W Q) in C. eapply F; eauto.
      * destruct (nth_error (grids s) g); [|discriminate]. injection H as <-. eapply make_first; eauto.
      * destruct (nth_error (grids s) g) as [G|]; [|discriminate]. destruct (items s (blist G)); [discriminate|].
        apply some_inj in H. subst s'. eapply make_first; eauto.
      * destruct (nth_error (grids s) g) as [G|] eqn:Q; [|discriminate].
        destruct (single s G) as [[a b]|]; [|discriminate].
        destruct (nth_error (grids (deepcopy s G)) (length (grids s))) as [G2|] eqn:Q2; [|discriminate].
        apply some_inj in H. subst s'. cbn [with_bands grids] in Q'. rewrite Q2 in Q'. injection Q' as <-.
        assert (C2 : class_at (deepcopy s G) (length (grids s)) 0 = Some c).
        { unfold class_at in *. rewrite band_at_with_bands in C. destruct (band_at (deepcopy s G) (length (grids s)) 0) as [x|]; [|discriminate].
          cbn [with_bands bands] in C. destruct (nth_error (bands (deepcopy s G)) x) as [bx|] eqn:Qx.
          - destruct (put_all_spec (own_bands (deepcopy s G) G2) _ 0 (applied b (nodata G) f) x bx Qx) as (b' & Eb & Cb & _).
            rewrite Eb in C. cbn in *. now rewrite <- Cb.
          - rewrite put_all_none in C by exact Qx. discriminate. }
        rewrite (deepcopy_class s G g 0 W Q) in C2. rewrite deepcopy_new_grid in Q2. injection Q2 as <-. cbn. eapply F; eauto.
    + cbn [step] in H. destruct (list_addr s l) as [n|]; [|discriminate]. destruct (items s n) as [|x y] eqn:I; [discriminate|].
      destruct (uniform s (x :: y)); [|discriminate]. destruct (nth_error (bands s) x) as [b|] eqn:Qx; [|discriminate].
      injection H as <-. cbn in Q'. rewrite app_new in Q'. injection Q' as <-. cbn.
      unfold class_at in C. rewrite band_at_items in C. cbn [grids bands] in C. rewrite app_new in C. cbn [ilist] in C.
      change (items (mkS (bands s) (lists s) (grids s ++ [mkG n n nd (bcls b)]) (arrays s)) n) with (items s n) in C.
      rewrite I in C. cbn [nth_error] in C. rewrite Qx in C. cbn in C. congruence.
Qed.
Lemma first_run : forall os s, wf s -> existsb appends os = false -> first_class s -> first_class (run s os).
Proof.
  induction os as [|o os IH]; intros s W A F; [exact F|]. cbn in A. apply orb_false_iff in A. destruct A as [A A'].
  cbn [run fold_left]. fold (run (next s o) os). apply IH; [now apply next_wf | exact A' |].
  unfold next. destruct (step s o) eqn:E; [eapply first_step; eauto | exact F].
Qed.
Lemma classes : forall os g s' m, let s := run start os in let n := length (grids s) in
  (forall r k p nd, step s (Method g r k p nd) = Some s' -> class_at s' n m = if m <? length p then Some Compressed else None) /\
  (step s (Copy g) = Some s' -> class_at s' n m = class_at s g m) /\
  (forall r k cells nb, existsb appends os = false -> class_at s g 0 <> None ->
     step s (Resize g r k cells) = Some s' -> nbands s g = Some nb -> class_at s' n m = if m <? nb then class_at s g 0 else None).
Proof.
  intros os g s' m s n. assert (W : wf s) by apply run_wf, start_wf. split; [|split].
  - intros r k p nd H. cbn [step] in H. destruct (nth_error (grids s) g); [|discriminate]. injection H as <-. apply make_class.
  - intros H. cbn [step] in H. destruct (nth_error (grids s) g) as [G|] eqn:Q; [|discriminate]. injection H as <-.
    now apply deepcopy_class.
  - intros r k cells nb A C H N. cbn [step] in H. unfold nbands in N. destruct (nth_error (grids s) g) as [G|] eqn:Q; [|discriminate].
    cbn [option_map] in N. fold (items s (blist G)) in N.
    destruct (items s (blist G)) as [|a l]; [discriminate|]. apply some_inj in H. subst s'. injection N as <-.
    rewrite make_class, map_length, seq_length.
    assert (F : first_class s). { apply first_run; [apply start_wf | exact A |]. intros g' G' c' Q' _. destruct g'; discriminate. }
    destruct (class_at s g 0) as [c|] eqn:E; [|congruence]. now rewrite (F _ _ _ Q E).
Qed.

(** * Assigning to arrays *)
Lemma array_set : forall os a i j v s', let s := run start os in step s (SetArr a i j v) = Some s' ->
  entry s' a i j = Some v /\ forall i' j', (i', j') <> (i, j) -> entry s' a i' j' = entry s a i' j'.
Proof.
  intros os a i j v s' s H. assert (W : wf s) by apply run_wf, start_wf. cbn [step] in H. unfold entry.
  destruct (nth_error (arrays s) a) as [[r c f | b y x r c]|] eqn:Q; [| |discriminate];
    destruct ((i <? r) && (j <? c)) eqn:L; try discriminate; injection H as <-.
  - cbn [arrays bands]. rewrite (lset_nth_same _ _ _ _ _ Q). rewrite L, !Nat.eqb_refl. split; [reflexivity|].
    intros i' j' N. destruct (Nat.eqb_spec i' i) as [-> | Ni]; destruct (Nat.eqb_spec j' j) as [-> | Nj]; cbn [andb]; congruence.
  - cbn [with_bands arrays bands]. rewrite Q. destruct (lt_some _ _ _ (wf_arr _ W _ _ _ _ _ _ Q)) as (B & QB).
    rewrite (put_at_same _ _ _ _ QB), QB, L. cbn [put cell]. rewrite !Nat.eqb_refl. split; [reflexivity|].
    intros i' j' N. destruct (Nat.eqb_spec (y + i') (y + i)) as [Ei | Ni]; destruct (Nat.eqb_spec (x + j') (x + j)) as [Ej | Nj]; cbn [andb]; try reflexivity.
    destruct N. f_equal; lia.
Qed.
Lemma blocks : forall os b y x h w s1 a B g k, let s := run start os in step s (Block b y x h w) = Some s1 ->
  band_addr s b = Some a -> nth_error (bands s) a = Some B -> band_at s g k = Some a ->
  (forall i j, i < h -> j < w -> entry s1 (length (arrays s)) i j = seen s g k (y + i) (x + j)) /\
  (forall i j v s2, step s1 (SetArr (length (arrays s)) i j v) = Some s2 ->
     seen s2 g k (y + i) (x + j) = match bcls B with Simple => Some v | Compressed => seen s g k (y + i) (x + j) end).
Proof.
  intros os b y x h w s1 a B g k s H Ab QB Bg. assert (W : wf s) by apply run_wf, start_wf.
  cbn [step] in H. rewrite Ab, QB in H. destruct ((y + h <=? rows B) && (x + w <=? cols B)) eqn:L; [|discriminate].
  apply andb_true_iff in L. destruct L as [L1 L2]. apply Nat.leb_le in L1, L2.
  assert (R : forall i j, i < h -> j < w -> ((y + i <? rows B) && (x + j <? cols B)) = true /\ ((i <? h) && (j <? w)) = true).
  { intros i j Hi Hj. split; apply andb_true_iff; split; apply Nat.ltb_lt; lia. }
  split.
  - intros i j Hi Hj. destruct (R i j Hi Hj) as [R1 R2]. unfold seen. rewrite Bg, QB, R1.
    destruct (bcls B); injection H as <-; unfold entry; cbn [with_array arrays bands]; rewrite app_new, ?QB, R2; reflexivity.
  - intros i j v s2 H2. destruct (bcls B) eqn:C; injection H as <-; cbn [step with_array arrays bands] in H2; rewrite app_new in H2;
      destruct ((i <? h) && (j <? w)) eqn:L; try discriminate; apply andb_true_iff in L; destruct L as [Li Lj];
      apply Nat.ltb_lt in Li, Lj; destruct (R i j Li Lj) as [R1 R2]; injection H2 as <-.
    + unfold seen. rewrite band_at_with_bands.
      change (band_at (with_array s (View a y x h w)) g k) with (band_at s g k). rewrite Bg. cbn [with_bands bands with_array].
      rewrite (put_at_same _ _ _ _ QB). cbn [put rows cols cell]. rewrite R1, !Nat.eqb_refl. reflexivity.
    + reflexivity.
Qed.
