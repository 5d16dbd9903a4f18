(** Proofs about shared objects. *)
From Coq Require Import String.
From Coq Require Import List Arith Bool Lia.
From Verif Require Import Share_Model Share_Spec.
Import ListNotations.
Open Scope nat_scope.

Lemma lset_length {A} (l : list A) : forall i x, length (lset l i x) = length l.
Proof. induction l as [| y l IH]; intros [| i] x; cbn; auto. Qed.
Lemma lset_other {A} (l : list A) : forall i j x d, i <> j -> nth j (lset l i x) d = nth j l d.
Proof. induction l as [| y l IH]; intros [| i] [| j] x d H; cbn; auto; lia. Qed.
Lemma lset_same {A} (l : list A) : forall i x d, i < length l -> nth i (lset l i x) d = x.
Proof. induction l as [| y l IH]; intros [| i] x d H; cbn in *; [lia | lia | reflexivity | apply IH; lia]. Qed.
Lemma lset_error {A} (l : list A) : forall i j x, i <> j -> nth_error (lset l i x) j = nth_error l j.
Proof. induction l as [| y l IH]; intros [| i] [| j] x H; cbn; auto; lia. Qed.
Lemma lset_error_same {A} (l : list A) : forall i x, i < length l -> nth_error (lset l i x) i = Some x.
Proof. induction l as [| y l IH]; intros [| i] x H; cbn in *; [lia | lia | reflexivity | apply IH; lia]. Qed.
Lemma error_lt {A} (l : list A) i x : nth_error l i = Some x -> i < length l.
Proof. intros H. apply nth_error_Some. congruence. Qed.

Section Proofs.
Variables (V : Type) (none : V) (C : Type) (order : list string -> list string).
Notation state := (state V C).
Notation op := (op V C).
Notation step := (step none order).
Notation planned := (planned none order).

(** Which objects a new geometry takes over. *)
Record plan_ok (s : state) (o : op) (p : plan V C) : Prop := {
  k_recv : receiver o = None;
  k_props : match pp p with
            | Same a => exists j g, same_properties s o = Some j /\ nth_error (geoms s) j = Some g /\ a = prp g
            | Fresh _ => same_properties s o = None
            end;
  k_data : match pd p with
           | Some (TSame t) | Some (TCopy t) =>
               exists j g, same_data s o = Some j /\ nth_error (geoms s) j = Some g /\ dat g = Some t
           | _ => True
           end;
  k_coords : forall a, In (Same a) (pc p) ->
     pk p <> Multipoint /\ exists j g, nth_error (geoms s) j = Some g /\ In a (prt g) /\ kd g <> Multipoint }.

Lemma no_same (cs : list (list C)) a : ~ In (Same a) (map (fun x => Fresh x) cs).
Proof. intros H. apply in_map_iff in H as (x & H & _). discriminate. Qed.
Lemma no_same_strings k (cs : list (list C)) a : ~ In (Same a) (strings k cs).
Proof. destruct k; cbn; try (intros [H | []]; discriminate); apply no_same. Qed.
Lemma no_same_1 (x : list C) a : ~ In (Same a) [Fresh x].
Proof. intros [H | []]; discriminate. Qed.
Lemma parg_ok (s : state) (p : parg V) q : parg_source s p = Some q ->
  match q with
  | Same a => exists j g, p = PropsOf j /\ nth_error (geoms s) j = Some g /\ a = prp g
  | Fresh _ => forall j, p <> PropsOf j
  end.
Proof.
  destruct p as [| d | j]; cbn; [intros [= <-] | intros [= <-] |]; try discriminate.
  destruct (nth_error (geoms s) j) as [g |] eqn:E; [intros [= <-]; eauto | discriminate].
Qed.
Lemma darg_ok (s : state) n d q : darg_source s n d = Some q ->
  match q with
  | TSame t => exists j g, d = DataOf j /\ nth_error (geoms s) j = Some g /\ dat g = Some t
  | TCopy t => exists j g, d = TableOf j /\ nth_error (geoms s) j = Some g /\ dat g = Some t
  | TFresh _ => True
  end.
Proof.
  destruct d as [| x | j | j]; cbn; [intros [= <-]; exact I | intros [= <-]; exact I | |];
    (destruct (nth_error (geoms s) j) as [g |] eqn:E; [| discriminate]; destruct (dat g) as [t |] eqn:D; cbn; [| discriminate];
     intros [= <-]; eauto).
Qed.

Lemma planned_ok (s : state) o p : planned s o = Some p -> plan_ok s o p.
Proof.
  destruct o as [k cs pa da | i f | i idxs | i k | i | i | i f | i f | is pa | is | | | | | | | | ]; cbn [Share_Model.planned]; try discriminate.
  - destruct (parg_source s pa) as [ps |] eqn:Ep; [| discriminate]. apply parg_ok in Ep.
    assert (Pp : match ps with Same a => exists j g, same_properties s (Make k cs pa da) = Some j /\ nth_error (geoms s) j = Some g /\ a = prp g
            | Fresh _ => same_properties s (Make k cs pa da) = None end).
    { destruct ps as [a | x]; [destruct Ep as (j & g & -> & H); exists j, g; auto |]. destruct pa; cbn; auto. destruct (Ep j eq_refl). }
    destruct (multi k) eqn:Em.
    + destruct (darg_source s (members k cs) da) as [ts |] eqn:Ed; [| discriminate]. apply darg_ok in Ed. intros [= <-].
      constructor; cbn; auto.
      * destruct ts as [t | t | x]; auto; destruct Ed as (j & g & -> & H1 & H2); exists j, g; cbn; rewrite Em; auto.
      * intros a H. destruct (no_same_strings _ _ _ H).
    + intros [= <-]. constructor; cbn; auto. intros a H. destruct (no_same_strings _ _ _ H).
  - destruct (nth_error (geoms s) i) as [g |] eqn:Eg; [| discriminate]. intros [= <-]. constructor; cbn; auto.
    + eauto.
    + unfold kind_at. rewrite Eg. cbn. destruct (kd g), (dat g) as [t |] eqn:Ed; cbn; auto. eauto.
    + intros a H. destruct (no_same_strings _ _ _ H).
  - destruct (nth_error (geoms s) i) as [g |] eqn:Eg; [| discriminate]. destruct (kd g) eqn:Ek; try discriminate.
    1, 2: (destruct (pick _ idxs) as [c |]; [| discriminate]; intros [= <-]; constructor; cbn; eauto; intros a [H | []]; discriminate).
    + destruct (pick _ idxs) as [c |]; [| discriminate]. destruct (data_of s g) as [[fs rs] |]; [| discriminate].
      destruct (pick rs idxs) as [r |]; [| discriminate]. intros [= <-]. constructor; cbn; eauto. intros a [H | []]; discriminate.
    + destruct (pick _ idxs) as [c |]; [| discriminate]. destruct (data_of s g) as [[fs rs] |]; [| discriminate].
      destruct (pick rs idxs) as [r |]; [| discriminate]. intros [= <-]. constructor; cbn; eauto. intros a H. destruct (no_same _ _ H).
    + destruct (pick _ idxs) as [c |]; [| discriminate]. destruct (data_of s g) as [[fs rs] |]; [| discriminate].
      destruct (pick rs idxs) as [r |]; [| discriminate]. intros [= <-]. constructor; cbn; eauto. intros a H. destruct (no_same _ _ H).
  - destruct (nth_error (geoms s) i) as [g |] eqn:Eg; [| discriminate].
    assert (Ka : kind_at s i = Some (kd g)) by (unfold kind_at; rewrite Eg; reflexivity).
    destruct (kd g) eqn:Ek; try discriminate.
    1, 2: (destruct (nth_error (concat (coords_of s g)) k) as [c |]; [| discriminate]; intros [= <-]; constructor; cbn; auto;
           [rewrite Ka; cbn; eauto | intros a [H | []]; discriminate]).
    + destruct (data_of s g) as [[fs rs] |]; [| discriminate]. destruct (nth_error rs k) as [r |]; [| discriminate].
      destruct (nth_error (concat (coords_of s g)) k) as [c |]; [| discriminate]. intros [= <-]. constructor; cbn; auto.
      * rewrite Ka; reflexivity.
      * intros a [H | []]; discriminate.
    + destruct (data_of s g) as [[fs rs] |]; [| discriminate]. destruct (nth_error rs k) as [r |]; [| discriminate].
      destruct (nth_error (prt g) k) as [a |] eqn:Ea; [| discriminate]. intros [= <-]. constructor; cbn; auto.
      * rewrite Ka; reflexivity.
      * intros b [[= <-] | []]. split; [discriminate |]. exists i, g. rewrite Ek. split; [assumption |]. split; [| discriminate].
        apply nth_error_In in Ea; assumption.
    + destruct (data_of s g) as [[fs rs] |]; [| discriminate]. destruct (nth_error rs k) as [r |]; [| discriminate].
      destruct (nth_error (prt g) k) as [a |] eqn:Ea; [| discriminate]. intros [= <-]. constructor; cbn; auto.
      * rewrite Ka; reflexivity.
      * intros b [[= <-] | []]. split; [discriminate |]. exists i, g. rewrite Ek. split; [assumption |]. split; [| discriminate].
        apply nth_error_In in Ea; assumption.
  - destruct (nth_error (geoms s) i) as [g |] eqn:Eg; [| discriminate]. destruct (kd g) eqn:Ek; try discriminate.
    intros [= <-]. constructor; cbn; eauto. intros a H. apply in_map_iff in H as (b & [= <-] & H). split; [discriminate |].
    exists i, g. rewrite Ek. repeat split; auto. discriminate.
  - destruct (nth_error (geoms s) i) as [g |] eqn:Eg; [| discriminate]. destruct (kd g) eqn:Ek; try discriminate.
    destruct (concat (coords_of s g)) as [| c cs]; [discriminate |]. intros [= <-]. constructor; cbn; eauto.
    intros a [H | []]; discriminate.
  - destruct (nth_error (geoms s) i) as [g |] eqn:Eg; [| discriminate]. destruct (kd g) eqn:Ek; try discriminate.
    intros [= <-]. constructor; cbn; eauto. intros a [H | []]; discriminate.
  - destruct (nth_error (geoms s) i) as [g |] eqn:Eg; [| discriminate]. destruct (kd g) eqn:Ek; try discriminate;
    (intros [= <-]; constructor; cbn; eauto; intros a [H | []]; discriminate).
  - destruct (all_some _) as [[| g0 gs] |]; try discriminate. destruct (parg_source s pa) as [ps |] eqn:Ep; [| discriminate].
    apply parg_ok in Ep. destruct (_ && _); [| discriminate]. intros [= <-]. constructor; cbn; auto.
    + destruct ps as [a | x]; [destruct Ep as (j & g & -> & H); exists j, g; auto |]. destruct pa; cbn; auto. destruct (Ep j eq_refl).
    + intros a H. destruct (no_same_strings _ _ _ H).
  - destruct (all_some _) as [[| g0 gs] |]; try discriminate. destruct (forallb _ gs); [| discriminate].
    intros [= <-]. constructor; cbn; auto. intros a H. destruct (no_same_strings _ _ _ H).
Qed.

(** The changes an assignment makes, one object at a time. *)
Inductive prim (i : nat) (s : state) : state -> Prop :=
  | p_dict g d : nth_error (geoms s) i = Some g -> prim i s (put_dict s (prp g) d)
  | p_table g t f r : nth_error (geoms s) i = Some g -> dat g = Some t -> prim i s (put_table s t f r)
  | p_rows g t r : nth_error (geoms s) i = Some g -> dat g = Some t ->
      prim i s (put_rows s (snd (nth t (tables s) ([], 0))) r)
  | p_coords g a c : nth_error (geoms s) i = Some g -> kd g = Multipoint -> In a (prt g) -> prim i s (put_coords s a c)
  | p_new g c : nth_error (geoms s) i = Some g -> prim i s (new_coords s i g c).
Inductive prims (i : nat) (s : state) : state -> Prop :=
  | ps_nil : prims i s s
  | ps_cons s1 s2 : prim i s s1 -> prims i s1 s2 -> prims i s s2.
Lemma prims_1 i s s' : prim i s s' -> prims i s s'.
Proof. intros H; econstructor; [exact H | constructor]. Qed.

Lemma set_row_prims i (s : state) g k r : nth_error (geoms s) i = Some g -> prims i s (fst (set_row s g k r)).
Proof.
  intros H. unfold set_row. destruct (dat g) as [t |] eqn:D; [| constructor].
  destruct (_ <? _); [| constructor]. cbn [fst]. eapply prims_1, p_rows; eauto.
Qed.
Lemma not_planned (s : state) o i : receiver o = Some i -> planned s o = None.
Proof. destruct (planned s o) as [p |] eqn:E; [| reflexivity]. apply planned_ok in E as [H _ _ _]. congruence. Qed.
Lemma update_prims s o i : receiver o = Some i -> prims i s (fst (step s o)).
Proof.
  intros R. unfold Share_Model.step. rewrite (not_planned s o i R).
  destruct o as [ | | | | | | | | | | i' k v | i' f vs | i' k r | i' k | i' j | i' k j | i' k c | i' j]; try discriminate R;
    injection R as ->; destruct (nth_error (geoms s) i) as [g |] eqn:Eg; try (constructor; fail).
  - cbn [fst]. apply prims_1, p_dict; assumption.
  - destruct (dat g) as [t |] eqn:D; [| constructor]. destruct (setfield _ f vs) as [[fs rs] |]; [| constructor].
    cbn [fst]. eapply prims_1, p_table; eauto.
  - apply set_row_prims; assumption.
  - destruct (dat g) as [t |] eqn:D; [| constructor]. destruct (_ <? _); [| constructor]. cbn [fst]. eapply prims_1, p_rows; eauto.
  - destruct (nth_error (geoms s) j) as [g' |]; [| constructor]. destruct (dat g) as [t |] eqn:D; [| constructor].
    destruct (data_of s g') as [x |]; [| constructor]. cbn [fst]. eapply prims_1, p_rows; eauto.
  - destruct (nth_error (geoms s) j) as [g' |]; [| constructor]. destruct (kd g) eqn:Ek; try (constructor; fail).
    destruct (kd g'); try (constructor; fail). destruct (prt g) as [| a l] eqn:Ep; [constructor |].
    destruct (concat _) as [| c cs]; [constructor |]. destruct (_ <? _); [| constructor].
    eapply ps_cons; [eapply p_coords; [exact Eg | exact Ek |]; rewrite Ep; left; reflexivity |]. apply set_row_prims. exact Eg.
  - destruct (kd g) eqn:Ek; try (constructor; fail). destruct (prt g) as [| a l] eqn:Ep; [constructor |].
    destruct (_ <? _); [| constructor].
    eapply ps_cons; [eapply p_new; exact Eg |]. apply set_row_prims. unfold new_coords. cbn [geoms]. rewrite Ek.
    apply lset_error_same. eapply error_lt; exact Eg.
  - destruct (nth_error (geoms s) j) as [g' |]; [| constructor]. destruct (kd g) eqn:Ek; try (constructor; fail).
    destruct (kd g'); try (constructor; fail). cbn [fst]. eapply prims_1, p_new; exact Eg.
Qed.

(** The invariant: [F] and [G] are the families. *)
Record inv (s : state) (F G : list nat) : Prop := {
  v_F : length F = length (geoms s);
  v_G : length G = length (geoms s);
  v_Fb : forall i, i < length F -> nth i F 0 <= i;
  v_Gb : forall i, i < length G -> nth i G 0 <= i;
  v_range : forall i g, nth_error (geoms s) i = Some g ->
    prp g < length (dicts s) /\ (forall t, dat g = Some t -> t < length (tables s)) /\ (forall a, In a (prt g) -> a < length (coords s));
  v_rows : forall t, t < length (tables s) -> snd (nth t (tables s) ([], 0)) < length (rows s);
  v_props : forall i j g g', nth_error (geoms s) i = Some g -> nth_error (geoms s) j = Some g' ->
    (prp g = prp g' <-> nth i F 0 = nth j F 0);
  v_data : forall i j g g' t t', nth_error (geoms s) i = Some g -> nth_error (geoms s) j = Some g' ->
    dat g = Some t -> dat g' = Some t' ->
    t = t' \/ snd (nth t (tables s) ([], 0)) = snd (nth t' (tables s) ([], 0)) -> nth i G 0 = nth j G 0;
  v_coords : forall i j g g' a, nth_error (geoms s) i = Some g -> nth_error (geoms s) j = Some g' -> i <> j ->
    kd g = Multipoint -> In a (prt g) -> ~ In a (prt g') }.

Lemma inv_start : inv start [] [].
Proof. constructor; cbn; try reflexivity; try lia; try (intros [|]; discriminate); try (intros [|] ?; discriminate). Qed.

Lemma place_ok (l : list (source (list C))) : forall cs cs' r, place cs l = (cs', r) ->
  (exists more, cs' = cs ++ more) /\ forall a, In a r -> In (Same a) l \/ length cs <= a < length cs'.
Proof.
  induction l as [| x l IH]; intros cs cs' r; cbn [place].
  - intros [= <- <-]. split; [exists []; rewrite app_nil_r; reflexivity | intros a []].
  - destruct x as [b | c].
    + destruct (place cs l) as [cs1 r1] eqn:E. intros [= <- <-]. destruct (IH _ _ _ E) as [H1 H2]. split; [assumption |].
      intros a [<- | H]; [left; left; reflexivity |]. destruct (H2 a H); [left; right; assumption | auto].
    + destruct (place (cs ++ [c]) l) as [cs1 r1] eqn:E. intros [= <- <-]. destruct (IH _ _ _ E) as [(more & ->) H2]. split.
      * exists (c :: more). rewrite <- app_assoc. reflexivity.
      * intros a [<- | H].
        -- right. rewrite !app_length. cbn. lia.
        -- destruct (H2 a H) as [H' | H']; [left; right; assumption | right]. rewrite !app_length in *. cbn in *. lia.
Qed.
Lemma nth_snoc {A} (l : list A) x i d : nth i (l ++ [x]) d = if i <? length l then nth i l d else if i =? length l then x else d.
Proof.
  destruct (Nat.ltb_spec i (length l)); [apply app_nth1; assumption |]. rewrite app_nth2 by assumption.
  destruct (Nat.eqb_spec i (length l)) as [-> | H']; [rewrite Nat.sub_diag; reflexivity |].
  destruct (i - length l) as [| [|]] eqn:E; [lia | reflexivity | reflexivity].
Qed.
Lemma error_snoc {A} (l : list A) x i y : nth_error (l ++ [x]) i = Some y <-> nth_error l i = Some y \/ (i = length l /\ y = x).
Proof.
  split.
  - intros H. destruct (lt_dec i (length l)) as [L | L].
    + rewrite nth_error_app1 in H by assumption. auto.
    + rewrite nth_error_app2 in H by lia. right. destruct (i - length l) as [| [|]] eqn:E; cbn in H; try discriminate.
      injection H as <-. split; [lia | reflexivity].
  - intros [H | [-> ->]]; [rewrite nth_error_app1; [assumption | apply error_lt in H; assumption] |].
    rewrite nth_error_app2, Nat.sub_diag by lia. reflexivity.
Qed.

Lemma create_shape (s : state) p : exists g, geoms (create s p) = geoms s ++ [g] /\ kd g = pk p /\
  (prp g = match pp p with Same a => a | Fresh _ => length (dicts s) end) /\
  (dat g = match pd p with None => None | Some (TSame t) => Some t | Some _ => Some (length (tables s)) end) /\
  (exists more, dicts (create s p) = dicts s ++ more /\ match pp p with Same _ => more = [] | Fresh d => more = [d] end) /\
  (exists more, coords (create s p) = coords s ++ more) /\
  (forall a, In a (prt g) -> In (Same a) (pc p) \/ length (coords s) <= a < length (coords (create s p))) /\
  (exists more, rows (create s p) = rows s ++ more /\ match pd p with Some (TFresh x) => more = [snd x] | _ => more = [] end) /\
  (exists more, tables (create s p) = tables s ++ more /\
     match pd p with Some (TFresh x) => more = [(fst x, length (rows s))] | Some (TCopy t) => more = [nth t (tables s) ([], 0)] | _ => more = [] end).
Proof.
  unfold create. destruct (place (coords s) (pc p)) as [cs r] eqn:E. destruct (place_ok _ _ _ _ E) as [(mc & ->) Hr].
  destruct (pp p) as [a | d]; destruct (pd p) as [[t | t | [f x]] |]; cbn [geoms dicts coords rows tables];
    (eexists; split; [reflexivity |]; cbn [kd prp dat prt]; split; [reflexivity |]; split; [reflexivity |]; split; [reflexivity |];
     split; [eexists; split; [| reflexivity]; rewrite ?app_nil_r; reflexivity |];
     split; [eexists; reflexivity |]; split; [exact Hr |];
     split; (eexists; split; [| reflexivity]; rewrite ?app_nil_r; reflexivity)).
Qed.

Lemma create_inv s o p F G : inv s F G -> planned s o = Some p ->
  inv (create s p) (F ++ [match same_properties s o with Some j => nth j F 0 | None => length F end])
                   (G ++ [match same_data s o with Some j => nth j G 0 | None => length G end]).
Proof.
  intros I E. apply planned_ok in E as [_ Kp Kd Kc]. destruct I as [VF VG VFb VGb VR Vr Vp Vd Vc].
  destruct (create_shape s p) as (g & Eg & Ek & Ep & Ed & (md & Edi & Hmd) & (mc & Eco) & Hprt & (mr & Ero & Hmr) & (mt & Eta & Hmt)).
  assert (LT : length (tables (create s p)) = length (tables s) + length mt) by (rewrite Eta, app_length; reflexivity).
  assert (LR : length (rows (create s p)) = length (rows s) + length mr) by (rewrite Ero, app_length; reflexivity).
  assert (LD : length (dicts (create s p)) = length (dicts s) + length md) by (rewrite Edi, app_length; reflexivity).
  assert (LC : length (coords (create s p)) = length (coords s) + length mc) by (rewrite Eco, app_length; reflexivity).
  assert (TO : forall t, t < length (tables s) -> nth t (tables (create s p)) ([], 0) = nth t (tables s) ([], 0)).
  { intros t Ht. rewrite Eta. apply app_nth1; assumption. }
  assert (Gn : prp g < length (dicts (create s p)) /\ (forall t, dat g = Some t -> t < length (tables (create s p))) /\
               (forall a, In a (prt g) -> a < length (coords (create s p)))).
  { split; [| split].
    - rewrite Ep, LD. destruct (pp p) as [a | d].
      + destruct Kp as (j & g' & _ & Hj & ->). destruct (VR j g' Hj). lia.
      + subst md; cbn; lia.
    - intros t Ht. rewrite Ed in Ht. rewrite LT. destruct (pd p) as [[t' | t' | x] |]; try discriminate; injection Ht as <-.
      + destruct Kd as (j & g' & _ & Hj & H). destruct (VR j g' Hj) as (_ & H' & _). specialize (H' _ H). lia.
      + subst mt; cbn; lia.
      + subst mt; cbn; lia.
    - intros a Ha. destruct (Hprt a Ha) as [H | H]; [| lia]. destruct (Kc a H) as (_ & j & g' & Hj & Hin & _).
      destruct (VR j g' Hj) as (_ & _ & H'). specialize (H' _ Hin). lia. }
  assert (Pn : forall j g', nth_error (geoms s) j = Some g' ->
     (prp g = prp g' <-> match same_properties s o with Some j => nth j F 0 | None => length F end = nth j F 0)).
  { intros j g' Hj. rewrite Ep. destruct (pp p) as [a | d].
    - destruct Kp as (j0 & g0 & -> & H0 & ->). apply Vp; assumption.
    - rewrite Kp. destruct (VR j g' Hj) as (H & _). pose proof (error_lt _ _ _ Hj). specialize (VFb j). lia. }
  assert (Dn : forall j g' t t', nth_error (geoms s) j = Some g' -> dat g = Some t -> dat g' = Some t' ->
     t = t' \/ snd (nth t (tables (create s p)) ([], 0)) = snd (nth t' (tables (create s p)) ([], 0)) ->
     match same_data s o with Some j => nth j G 0 | None => length G end = nth j G 0).
  { intros j g' t t' Hj Ht Ht' H. destruct (VR j g' Hj) as (_ & Ht'' & _). specialize (Ht'' _ Ht').
    rewrite (TO t' Ht'') in H. rewrite Ed in Ht. destruct (pd p) as [[t0 | t0 | x] |]; try discriminate; injection Ht as <-.
    - destruct Kd as (j0 & g0 & -> & H0 & D0). destruct (VR j0 g0 H0) as (_ & Q & _). specialize (Q _ D0).
      rewrite (TO t0 Q) in H. eapply Vd; eassumption.
    - destruct Kd as (j0 & g0 & -> & H0 & D0). eapply Vd; eauto. destruct H as [H | H]; [lia |]. right.
      rewrite Eta, app_nth2, Nat.sub_diag in H by lia. subst mt. exact H.
    - exfalso. destruct H as [H | H]; [lia |]. rewrite Eta, app_nth2, Nat.sub_diag in H by lia. subst mt. cbn in H.
      specialize (Vr _ Ht''). lia. }
  constructor.
  - rewrite Eg, !app_length. cbn. lia.
  - rewrite Eg, !app_length. cbn. lia.
  - intros i Hi. rewrite nth_snoc. destruct (Nat.ltb_spec i (length F)); [auto |]. rewrite app_length in Hi. cbn in Hi.
    assert (i = length F) by lia. subst i. rewrite Nat.eqb_refl. destruct (same_properties s o) as [j |]; [| lia].
    destruct (lt_dec j (length F)) as [L | L]; [specialize (VFb j L); lia | rewrite nth_overflow; lia].
  - intros i Hi. rewrite nth_snoc. destruct (Nat.ltb_spec i (length G)); [auto |]. rewrite app_length in Hi. cbn in Hi.
    assert (i = length G) by lia. subst i. rewrite Nat.eqb_refl. destruct (same_data s o) as [j |]; [| lia].
    destruct (lt_dec j (length G)) as [L | L]; [specialize (VGb j L); lia | rewrite nth_overflow; lia].
  - intros i h Hi. rewrite Eg in Hi. apply error_snoc in Hi as [Hi | [-> ->]]; [| exact Gn].
    destruct (VR i h Hi) as (A & B & D). split; [lia |]. split; [intros t Ht; specialize (B t Ht); lia | intros a Ha; specialize (D a Ha); lia].
  - intros t Ht. rewrite LR. destruct (lt_dec t (length (tables s))) as [L | L].
    + rewrite (TO t L). specialize (Vr t L). lia.
    + rewrite Eta, app_nth2 by lia. destruct (pd p) as [[t0 | t0 | x] |]; subst mt mr; cbn [length] in *; try lia.
      * replace (t - length (tables s)) with 0 by lia. cbn. destruct Kd as (j0 & g0 & _ & H0 & D0).
        destruct (VR j0 g0 H0) as (_ & Q & _). specialize (Q _ D0). specialize (Vr t0 Q). lia.
      * replace (t - length (tables s)) with 0 by lia. cbn. lia.
  - intros i j h h' Hi Hj. rewrite Eg in Hi, Hj. rewrite !nth_snoc, VF.
    apply error_snoc in Hi as [Hi | [-> ->]]; apply error_snoc in Hj as [Hj | [-> ->]].
    + pose proof (error_lt _ _ _ Hi). pose proof (error_lt _ _ _ Hj).
      destruct (Nat.ltb_spec i (length (geoms s))); [| lia]. destruct (Nat.ltb_spec j (length (geoms s))); [| lia]. auto.
    + pose proof (error_lt _ _ _ Hi). destruct (Nat.ltb_spec i (length (geoms s))); [| lia].
      rewrite Nat.ltb_irrefl, Nat.eqb_refl. rewrite <- VF. specialize (Pn i h Hi).
      split; intros H'; symmetry; apply Pn; symmetry; assumption.
    + pose proof (error_lt _ _ _ Hj). destruct (Nat.ltb_spec j (length (geoms s))); [| lia].
      rewrite Nat.ltb_irrefl, Nat.eqb_refl. rewrite <- VF. apply Pn; assumption.
    + tauto.
  - intros i j h h' t t' Hi Hj Ht Ht' H. rewrite Eg in Hi, Hj. rewrite !nth_snoc, VG.
    apply error_snoc in Hi as [Hi | [-> ->]]; apply error_snoc in Hj as [Hj | [-> ->]].
    + pose proof (error_lt _ _ _ Hi). pose proof (error_lt _ _ _ Hj).
      destruct (Nat.ltb_spec i (length (geoms s))); [| lia]. destruct (Nat.ltb_spec j (length (geoms s))); [| lia].
      destruct (VR i h Hi) as (_ & Q1 & _). destruct (VR j h' Hj) as (_ & Q2 & _).
      rewrite (TO t (Q1 t Ht)), (TO t' (Q2 t' Ht')) in H. eauto.
    + pose proof (error_lt _ _ _ Hi). destruct (Nat.ltb_spec i (length (geoms s))); [| lia].
      rewrite Nat.ltb_irrefl, Nat.eqb_refl. rewrite <- VG. symmetry. apply (Dn i h t' t Hi Ht' Ht).
      destruct H as [H | H]; [left | right]; congruence.
    + pose proof (error_lt _ _ _ Hj). destruct (Nat.ltb_spec j (length (geoms s))); [| lia].
      rewrite Nat.ltb_irrefl, Nat.eqb_refl. rewrite <- VG. exact (Dn j h' t t' Hj Ht Ht' H).
    + reflexivity.
  - intros i j h h' a Hi Hj Hne Hk Ha. rewrite Eg in Hi, Hj.
    apply error_snoc in Hi as [Hi | [-> ->]]; apply error_snoc in Hj as [Hj | [-> ->]].
    + eauto.
    + intros Hb. destruct (Hprt a Hb) as [H | H].
      * destruct (Kc a H) as (_ & j & g' & Hj & Hin & Hnk). destruct (Nat.eq_dec i j) as [-> | Hij]; [congruence |].
        exact (Vc i j h g' a Hi Hj Hij Hk Ha Hin).
      * destruct (VR i h Hi) as (_ & _ & Q). specialize (Q a Ha). lia.
    + intros Hb. destruct (Hprt a Ha) as [H | H]; [destruct (Kc a H); congruence |].
      destruct (VR j h' Hj) as (_ & _ & Q). specialize (Q a Hb). lia.
    + congruence.
Qed.

(** Nothing that exists changes when a geometry is made. *)
Lemma create_look s o p F G j : inv s F G -> planned s o = Some p -> j < length (geoms s) -> look (create s p) j = look s j.
Proof.
  intros I E Hj. destruct I as [VF VG VFb VGb VR Vr Vp Vd Vc].
  destruct (create_shape s p) as (g & Eg & _ & _ & _ & (md & Edi & _) & (mc & Eco) & _ & (mr & Ero & _) & (mt & Eta & _)).
  unfold look. rewrite Eg, nth_error_app1 by assumption. destruct (nth_error (geoms s) j) as [h |] eqn:Eh; [| reflexivity].
  destruct (VR j h Eh) as (A & B & D). cbn [option_map]. f_equal. f_equal; [f_equal; [f_equal |] |].
  - unfold coords_of. apply map_ext_in. intros a Ha. rewrite Eco. apply app_nth1. auto.
  - unfold props_of. rewrite Edi. apply app_nth1. assumption.
  - unfold data_of. destruct (dat h) as [t |] eqn:Et; [| reflexivity]. specialize (B t eq_refl). cbn [option_map]. f_equal.
    unfold table_of. rewrite Eta, app_nth1 by assumption. specialize (Vr t B).
    destruct (nth t (tables s) ([], 0)) as [f r]. cbn in Vr. rewrite Ero, app_nth1 by assumption. reflexivity.
Qed.

(** Each change keeps the invariant and what is not related. *)
Lemma prim_inv i s s' F G : inv s F G -> prim i s s' -> inv s' F G.
Proof.
  intros I P. destruct I as [VF VG VFb VGb VR Vr Vp Vd Vc]. destruct P as [g d Hg | g t f r Hg Ht | g t r Hg Ht | g a c Hg Hk Ha | g c Hg].
  - constructor; cbn [put_dict dicts coords rows tables geoms]; rewrite ?lset_length; auto.
  - constructor; cbn [put_table dicts coords rows tables geoms]; rewrite ?lset_length; auto.
    + intros t' Ht'. rewrite app_length; cbn. destruct (Nat.eq_dec t t') as [<- | Hn].
      * rewrite lset_same by assumption. cbn. lia.
      * rewrite lset_other by assumption. specialize (Vr t' Ht'). lia.
    + intros x y h h' u u' Hx Hy Hu Hu' H. destruct (VR x h Hx) as (_ & Q1 & _). destruct (VR y h' Hy) as (_ & Q2 & _).
      specialize (Q1 u Hu). specialize (Q2 u' Hu').
      destruct (Nat.eq_dec u u') as [<- | Huu]; [eapply Vd; eauto |]. destruct H as [H | H]; [contradiction |].
      destruct (Nat.eq_dec t u) as [<- | N1].
      * rewrite lset_same, lset_other in H by assumption. cbn in H. specialize (Vr u' Q2). lia.
      * rewrite lset_other in H by assumption. destruct (Nat.eq_dec t u') as [<- | N2].
        -- rewrite lset_same in H by assumption. cbn in H. specialize (Vr u Q1). lia.
        -- rewrite lset_other in H by assumption. eapply Vd; eauto.
  - constructor; cbn [put_rows dicts coords rows tables geoms]; rewrite ?lset_length; auto.
  - constructor; cbn [put_coords dicts coords rows tables geoms]; rewrite ?lset_length; auto.
  - pose proof (error_lt _ _ _ Hg) as Li. set (g1 := mkG (kd g) (prp g) (dat g) [length (coords s)]).
    assert (L : forall x h, nth_error (lset (geoms s) i g1) x = Some h ->
       exists h0, nth_error (geoms s) x = Some h0 /\ kd h = kd h0 /\ prp h = prp h0 /\ dat h = dat h0 /\
         (prt h = prt h0 \/ (x = i /\ prt h = [length (coords s)]))).
    { intros x h Hx. destruct (Nat.eq_dec i x) as [<- | Hn].
      - rewrite lset_error_same in Hx by assumption. injection Hx as <-. exists g. cbn. auto 10.
      - rewrite lset_error in Hx by assumption. exists h. auto 10. }
    constructor; cbn [new_coords dicts coords rows tables geoms]; fold g1; rewrite ?lset_length; auto.
    + intros x h Hx. destruct (L x h Hx) as (h0 & H0 & E1 & E2 & E3 & E4). destruct (VR x h0 H0) as (A & B & D).
      rewrite E2, E3, app_length. split; [assumption |]. split; [assumption |]. intros b Hb. cbn.
      destruct E4 as [E4 | [_ E4]]; rewrite E4 in Hb; [specialize (D b Hb); lia | destruct Hb as [<- | []]; lia].
    + intros x y h h' Hx Hy. destruct (L x h Hx) as (h0 & H0 & _ & -> & _). destruct (L y h' Hy) as (h1 & H1 & _ & -> & _). auto.
    + intros x y h h' u u' Hx Hy. destruct (L x h Hx) as (h0 & H0 & _ & _ & -> & _). destruct (L y h' Hy) as (h1 & H1 & _ & _ & -> & _). eauto.
    + intros x y h h' b Hx Hy Hxy Hk Hb Hb'. destruct (L x h Hx) as (h0 & H0 & E1 & _ & _ & E4).
      destruct (L y h' Hy) as (h1 & H1 & _ & _ & _ & E4'). destruct (VR x h0 H0) as (_ & _ & D0). destruct (VR y h1 H1) as (_ & _ & D1).
      rewrite E1 in Hk. destruct E4 as [E4 | [-> E4]], E4' as [E4' | [-> E4']]; rewrite E4 in Hb; rewrite E4' in Hb'.
      * exact (Vc x y h0 h1 b H0 H1 Hxy Hk Hb Hb').
      * destruct Hb' as [<- | []]. specialize (D0 _ Hb). lia.
      * destruct Hb as [<- | []]. specialize (D1 _ Hb'). lia.
      * contradiction.
Qed.

Lemma prim_frame i s s' F G j : inv s F G -> prim i s s' -> j <> i ->
  length (geoms s') = length (geoms s) /\ kind_at s' j = kind_at s j /\ coords_at s' j = coords_at s j /\
  (nth i F 0 <> nth j F 0 -> props_at s' j = props_at s j) /\ (nth i G 0 <> nth j G 0 -> data_at s' j = data_at s j).
Proof.
  intros I P Hji. destruct I as [VF VG VFb VGb VR Vr Vp Vd Vc].
  unfold kind_at, coords_at, props_at, data_at.
  destruct P as [g d Hg | g t f r Hg Ht | g t r Hg Ht | g a c Hg Hk Ha | g c Hg];
    cbn [put_dict put_table put_rows put_coords new_coords geoms]; rewrite ?lset_length, ?lset_error by auto;
    (split; [reflexivity |]); (split; [reflexivity |]);
    destruct (nth_error (geoms s) j) as [h |] eqn:Eh; cbn [option_map]; [| auto | | auto | | auto | | auto | | auto];
    destruct (VR j h Eh) as (A & B & D).
  - split; [reflexivity |]. split; [| reflexivity]. intros N. f_equal. unfold props_of. cbn. apply lset_other.
    intros E. apply N. exact (proj1 (Vp i j g h Hg Eh) E).
  - split; [reflexivity |]. split; [reflexivity |]. intros N. f_equal. unfold data_of. destruct (dat h) as [u |] eqn:Eu; [| reflexivity].
    cbn [option_map]. f_equal. unfold table_of, put_table, put_rows. cbn [tables rows]. rewrite lset_other.
    + specialize (B u eq_refl). specialize (Vr u B). destruct (nth u (tables s) ([], 0)). cbn in Vr. rewrite app_nth1 by assumption. reflexivity.
    + intros <-. apply N. exact (Vd i j g h t t Hg Eh Ht Eu (or_introl eq_refl)).
  - split; [reflexivity |]. split; [reflexivity |]. intros N. f_equal. unfold data_of. destruct (dat h) as [u |] eqn:Eu; [| reflexivity].
    cbn [option_map]. f_equal. unfold table_of, put_table, put_rows. cbn [tables rows].
    assert (Hn : snd (nth t (tables s) ([], 0)) <> snd (nth u (tables s) ([], 0))).
    { intros E. apply N. exact (Vd i j g h t u Hg Eh Ht Eu (or_intror E)). }
    destruct (nth u (tables s) ([], 0)) as [fu ru]. cbn in Hn. rewrite lset_other by assumption. reflexivity.
  - split; [| auto]. f_equal. unfold coords_of. apply map_ext_in. intros b Hb. unfold put_coords, new_coords. cbn [coords]. apply lset_other. intros <-.
    exact (Vc i j g h a Hg Eh (fun E => Hji (eq_sym E)) Hk Ha Hb).
  - split; [| auto]. f_equal. unfold coords_of. apply map_ext_in. intros b Hb. unfold put_coords, new_coords. cbn [coords]. apply app_nth1. auto.
Qed.
Lemma prim_range i s s' F G : inv s F G -> prim i s s' -> length (geoms s') = length (geoms s).
Proof. intros _ P. destruct P; cbn; rewrite ?lset_length; reflexivity. Qed.
Lemma prims_frame i s s' : prims i s s' -> forall F G, inv s F G ->
  inv s' F G /\ length (geoms s') = length (geoms s) /\ forall j, j <> i ->
    kind_at s' j = kind_at s j /\ coords_at s' j = coords_at s j /\
    (nth i F 0 <> nth j F 0 -> props_at s' j = props_at s j) /\ (nth i G 0 <> nth j G 0 -> data_at s' j = data_at s j).
Proof.
  induction 1 as [s | s s1 s2 P Ps IH]; intros F G I; [auto 10 |].
  pose proof (prim_inv _ _ _ _ _ I P) as I1. destruct (IH F G I1) as (I2 & L2 & Fr). split; [assumption |].
  split; [rewrite L2; eapply prim_range; eauto |]. intros j Hj. destruct (Fr j Hj) as (A & B & D & E).
  destruct (prim_frame _ _ _ _ _ j I P Hj) as (_ & A' & B' & D' & E').
  split; [congruence |]. split; [congruence |]. split; intros N; [rewrite D, D' by assumption | rewrite E, E' by assumption]; reflexivity.
Qed.

(** One step. *)
Lemma step_inv s o F G : inv s F G ->
  inv (fst (step s o))
      (if length (geoms s) <? length (geoms (fst (step s o)))
       then F ++ [match same_properties s o with Some j => nth j F 0 | None => length F end] else F)
      (if length (geoms s) <? length (geoms (fst (step s o)))
       then G ++ [match same_data s o with Some j => nth j G 0 | None => length G end] else G).
Proof.
  intros I. destruct (planned s o) as [p |] eqn:E.
  - unfold Share_Model.step. rewrite E. cbn [fst]. destruct (create_shape s p) as (g & Eg & _).
    rewrite Eg, app_length. cbn [length]. destruct (Nat.ltb_spec (length (geoms s)) (length (geoms s) + 1)); [| lia].
    eapply create_inv; eassumption.
  - destruct (receiver o) as [i |] eqn:R.
    + destruct (prims_frame i s _ (update_prims s o i R) F G I) as (I' & L & _). rewrite L, Nat.ltb_irrefl. exact I'.
    + unfold Share_Model.step. rewrite E. destruct o; try discriminate R; cbn [fst]; rewrite Nat.ltb_irrefl; exact I.
Qed.
Lemma run_inv : forall os s F G, inv s F G ->
  inv (run none order s os) (families none order same_properties s os F) (families none order same_data s os G).
Proof.
  induction os as [| o os IH]; intros s F G I; [exact I |]. cbn [families]. unfold run. cbn [fold_left].
  apply IH. apply step_inv. assumption.
Qed.
Lemma reach_inv (os : list op) : inv (run none order start os) (property_families none order os) (data_families none order os).
Proof. apply run_inv, inv_start. Qed.

Lemma look_of (s : state) j : look s j =
  match kind_at s j, coords_at s j, props_at s j, data_at s j with
  | Some k, Some c, Some p, Some d => Some (k, c, p, d) | _, _, _, _ => None end.
Proof. unfold look, kind_at, coords_at, props_at, data_at. destruct (nth_error (geoms s) j); reflexivity. Qed.

(** ** The theorems *)
Lemma methods (os : list op) o j : receiver o = None -> j < length (geoms (run none order start os)) ->
  look (fst (step (run none order start os) o)) j = look (run none order start os) j.
Proof.
  intros R Hj. pose proof (reach_inv os) as I. set (s := run none order start os) in *.
  destruct (planned s o) as [p |] eqn:E; unfold Share_Model.step; rewrite E.
  - cbn [fst]. eapply create_look; eassumption.
  - destruct o; try discriminate R; reflexivity.
Qed.
Lemma coordinates (os : list op) o j : receiver o <> Some j -> j < length (geoms (run none order start os)) ->
  coords_at (fst (step (run none order start os) o)) j = coords_at (run none order start os) j.
Proof.
  intros R Hj. destruct (receiver o) as [i |] eqn:Er.
  - pose proof (reach_inv os) as I. destruct (prims_frame i _ _ (update_prims _ o i Er) _ _ I) as (_ & _ & Fr).
    apply Fr. congruence.
  - pose proof (methods os o j Er Hj) as H. unfold look in H. unfold coords_at.
    destruct (nth_error (geoms (fst (step (run none order start os) o))) j), (nth_error (geoms (run none order start os)) j); cbn in *; congruence.
Qed.
Lemma independent (os : list op) o i j : receiver o = Some i -> j <> i ->
  nth i (property_families none order os) 0 <> nth j (property_families none order os) 0 ->
  nth i (data_families none order os) 0 <> nth j (data_families none order os) 0 ->
  look (fst (step (run none order start os) o)) j = look (run none order start os) j.
Proof.
  intros R Hj NF NG. pose proof (reach_inv os) as I.
  destruct (prims_frame i _ _ (update_prims _ o i R) _ _ I) as (_ & _ & Fr). destruct (Fr j Hj) as (A & B & D & E).
  rewrite !look_of, A, B, (D NF), (E NG). reflexivity.
Qed.
Lemma data_kept (os : list op) o i j : receiver o = Some i -> j <> i ->
  nth i (data_families none order os) 0 <> nth j (data_families none order os) 0 ->
  data_at (fst (step (run none order start os) o)) j = data_at (run none order start os) j.
Proof.
  intros R Hj NG. pose proof (reach_inv os) as I.
  destruct (prims_frame i _ _ (update_prims _ o i R) _ _ I) as (_ & _ & Fr). apply (Fr j Hj). assumption.
Qed.
Lemma properties_set (os : list op) i j k v : let s := run none order start os in let F := property_families none order os in
  i < length (geoms s) -> j < length (geoms s) ->
  props_at (fst (step s (SetProp i k v))) j =
  option_map (fun d => if nth i F 0 =? nth j F 0 then dset d k v else d) (props_at s j).
Proof.
  intros s F Hi Hj. pose proof (reach_inv os) as I. fold s in I. destruct I as [VF VG VFb VGb VR Vr Vp Vd Vc].
  destruct (nth_error (geoms s) i) as [g |] eqn:Eg; [| apply nth_error_None in Eg; lia].
  destruct (nth_error (geoms s) j) as [h |] eqn:Eh; [| apply nth_error_None in Eh; lia].
  unfold Share_Model.step. cbn [Share_Model.planned]. rewrite Eg. cbn [fst]. unfold props_at. cbn [put_dict geoms]. rewrite Eh.
  cbn [option_map]. f_equal. unfold props_of, put_dict. cbn [dicts]. specialize (Vp i j g h Eg Eh). fold F in Vp.
  destruct (VR i g Eg) as (A & _). destruct (Nat.eqb_spec (nth i F 0) (nth j F 0)) as [E | E].
  - apply Vp in E. rewrite <- E. apply lset_same. assumption.
  - apply lset_other. intros X. apply E, Vp. assumption.
Qed.
Lemma families_prefix (from : state -> op -> option nat) : forall os s acc, exists more, families none order from s os acc = acc ++ more.
Proof.
  induction os as [| o os IH]; intros s acc; cbn [families]; [exists []; rewrite app_nil_r; reflexivity |].
  destruct (IH (fst (step s o)) (if length (geoms s) <? length (geoms (fst (step s o)))
         then acc ++ [match from s o with Some j => nth j acc 0 | None => length acc end] else acc)) as (more & E).
  rewrite E. destruct (_ <? _); [rewrite <- app_assoc |]; eexists; reflexivity.
Qed.
Lemma families_app (from : state -> op -> option nat) : forall os os' s acc,
  families none order from s (os ++ os') acc = families none order from (run none order s os) os' (families none order from s os acc).
Proof. induction os as [| o os IH]; intros os' s acc; [reflexivity |]. cbn [app families]. rewrite IH. reflexivity. Qed.

(** Tables held by several geometries. *)
Definition tinv (s : state) (T : list nat) : Prop :=
  length T = length (geoms s) /\ (forall i, i < length T -> nth i T 0 <= i) /\
  forall i j g g', nth_error (geoms s) i = Some g -> nth_error (geoms s) j = Some g' -> nth i T 0 = nth j T 0 -> dat g = dat g'.
Lemma planned_table (s : state) o p : planned s o = Some p ->
  match same_table s o with
  | Some j => exists g, nth_error (geoms s) j = Some g /\ pd p = option_map TSame (dat g)
  | None => True
  end.
Proof.
  destruct o as [k cs pa da | i f | i idxs | i k | i | i | i f | i f | is pa | is | | | | | | | | ]; cbn [Share_Model.planned same_table]; trivial.
  - destruct (parg_source s pa) as [ps |]; [| discriminate]. destruct da as [| x | j | j]; trivial. destruct (multi k); trivial.
    cbn [darg_source]. destruct (nth_error (geoms s) j) as [g |] eqn:E; [| discriminate].
    destruct (dat g) as [t |] eqn:D; cbn [option_map]; [| discriminate]. intros [= <-]. exists g. rewrite D. auto.
  - unfold kind_at. destruct (nth_error (geoms s) i) as [g |] eqn:E; [| discriminate]. cbn [option_map].
    destruct (kd g) eqn:K; trivial. intros [= <-]. exists g. auto.
Qed.
Lemma prims_dat i (s s' : state) : prims i s s' -> length (geoms s') = length (geoms s) /\
  forall x, option_map dat (nth_error (geoms s') x) = option_map dat (nth_error (geoms s) x).
Proof.
  induction 1 as [s | s s1 s2 P Ps [L IH]]; [auto |].
  assert (Q : length (geoms s1) = length (geoms s) /\ forall x, option_map dat (nth_error (geoms s1) x) = option_map dat (nth_error (geoms s) x)).
  { destruct P as [g d Hg | g t f r Hg Ht | g t r Hg Ht | g a c Hg Hk Ha | g c Hg]; cbn; auto.
    rewrite lset_length. split; [reflexivity |]. intros x. destruct (Nat.eq_dec i x) as [<- | N].
    - rewrite Hg, lset_error_same by (eapply error_lt; eauto). reflexivity.
    - rewrite lset_error by assumption. reflexivity. }
  destruct Q as [L' Q]. split; [congruence |]. intros x. rewrite IH. apply Q.
Qed.
Lemma step_tinv (s : state) o T : tinv s T ->
  tinv (fst (step s o))
      (if length (geoms s) <? length (geoms (fst (step s o)))
       then T ++ [match same_table s o with Some j => nth j T 0 | None => length T end] else T).
Proof.
  intros (VT & VTb & Vt). destruct (planned s o) as [p |] eqn:E.
  - unfold Share_Model.step. rewrite E. cbn [fst]. destruct (create_shape s p) as (g & Eg & _ & _ & Ed & _).
    rewrite Eg, app_length. cbn [length]. destruct (Nat.ltb_spec (length (geoms s)) (length (geoms s) + 1)); [| lia].
    apply planned_table in E. split; [rewrite Eg, !app_length; cbn; lia |]. split.
    + intros i Hi. rewrite nth_snoc. destruct (Nat.ltb_spec i (length T)); [auto |]. rewrite app_length in Hi. cbn in Hi.
      assert (i = length T) by lia. subst i. rewrite Nat.eqb_refl. destruct (same_table s o) as [j |]; [| lia].
      destruct (lt_dec j (length T)) as [L | L]; [specialize (VTb j L); lia | rewrite nth_overflow; lia].
    + assert (N : forall j g', nth_error (geoms s) j = Some g' ->
         match same_table s o with Some j => nth j T 0 | None => length T end = nth j T 0 -> dat g = dat g').
      { intros j g' Hj. destruct (same_table s o) as [j0 |].
        - destruct E as (g0 & H0 & E). intros H1. rewrite <- (Vt j0 j g0 g' H0 Hj H1), Ed, E. destruct (dat g0); reflexivity.
        - intros H1. pose proof (error_lt _ _ _ Hj). rewrite <- VT in H0. specialize (VTb j H0). lia. }
      intros i j h h' Hi Hj. rewrite Eg in Hi, Hj. rewrite !nth_snoc, VT.
      apply error_snoc in Hi as [Hi | [-> ->]]; apply error_snoc in Hj as [Hj | [-> ->]].
      * pose proof (error_lt _ _ _ Hi). pose proof (error_lt _ _ _ Hj).
        destruct (Nat.ltb_spec i (length (geoms s))); [| lia]. destruct (Nat.ltb_spec j (length (geoms s))); [| lia]. eauto.
      * pose proof (error_lt _ _ _ Hi). destruct (Nat.ltb_spec i (length (geoms s))); [| lia].
        rewrite Nat.ltb_irrefl, Nat.eqb_refl, <- VT. intros H2. symmetry. apply (N i h Hi). symmetry. exact H2.
      * pose proof (error_lt _ _ _ Hj). destruct (Nat.ltb_spec j (length (geoms s))); [| lia].
        rewrite Nat.ltb_irrefl, Nat.eqb_refl, <- VT. exact (N j h' Hj).
      * reflexivity.
  - assert (K : length (geoms (fst (step s o))) = length (geoms s) /\
                forall x, option_map dat (nth_error (geoms (fst (step s o))) x) = option_map dat (nth_error (geoms s) x)).
    { destruct (receiver o) as [i |] eqn:R.
      - exact (prims_dat i s _ (update_prims s o i R)).
      - unfold Share_Model.step. rewrite E. destruct o; try discriminate R; cbn [fst]; auto. }
    destruct K as [L K]. rewrite L, Nat.ltb_irrefl. split; [congruence |]. split; [assumption |].
    intros i j g g' Hi Hj H. pose proof (K i) as Ki. pose proof (K j) as Kj. rewrite Hi in Ki. rewrite Hj in Kj.
    destruct (nth_error (geoms s) i) as [h |] eqn:Ei; [| discriminate]. destruct (nth_error (geoms s) j) as [h' |] eqn:Ej; [| discriminate].
    cbn in Ki, Kj. injection Ki as ->. injection Kj as ->. eauto.
Qed.
Lemma run_tinv : forall os s T, tinv s T -> tinv (run none order s os) (families none order same_table s os T).
Proof.
  induction os as [| o os IH]; intros s T I; [exact I |]. cbn [families]. unfold run. cbn [fold_left].
  apply IH. apply step_tinv. assumption.
Qed.
Lemma in_common (os : list op) i j : let s := run none order start os in i < length (geoms s) -> j < length (geoms s) ->
  (nth i (property_families none order os) 0 = nth j (property_families none order os) 0 -> props_at s i = props_at s j) /\
  (nth i (table_families none order os) 0 = nth j (table_families none order os) 0 -> data_at s i = data_at s j).
Proof.
  intros s Hi Hj. destruct (reach_inv os) as [_ _ _ _ _ _ Vp _ _]. fold s in Vp.
  assert (T : tinv s (table_families none order os)).
  { apply run_tinv. split; [reflexivity |]. split; [cbn; lia |]. intros [|] ? ? ? H; discriminate. }
  destruct T as (_ & _ & Vt). unfold props_at, data_at.
  destruct (nth_error (geoms s) i) as [g |] eqn:Eg; [| apply nth_error_None in Eg; lia].
  destruct (nth_error (geoms s) j) as [h |] eqn:Eh; [| apply nth_error_None in Eh; lia].
  cbn [option_map]. split; intros H; f_equal.
  - unfold props_of. rewrite (proj2 (Vp i j g h Eg Eh) H). reflexivity.
  - unfold data_of. rewrite (Vt i j g h Eg Eh H). reflexivity.
Qed.

(** Copies. *)
Lemma run_snoc os o (s : state) : run none order s (os ++ [o]) = fst (step (run none order s os) o).
Proof. unfold run. rewrite fold_left_app. reflexivity. Qed.
Lemma snoc_family (os : list op) o : let s := run none order start os in
  length (geoms s) < length (geoms (fst (step s o))) ->
  (property_families none order (os ++ [o]) = property_families none order os ++
     [match same_properties s o with Some j => nth j (property_families none order os) 0 | None => length (geoms s) end]) /\
  (data_families none order (os ++ [o]) = data_families none order os ++
     [match same_data s o with Some j => nth j (data_families none order os) 0 | None => length (geoms s) end]).
Proof.
  intros s L. destruct (reach_inv os) as [VF VG _ _ _ _ _ _ _]. fold s in VF, VG.
  unfold property_families, data_families in *. rewrite !families_app. cbn [families]. fold s.
  destruct (Nat.ltb_spec (length (geoms s)) (length (geoms (fst (step s o))))); [| lia]. rewrite VF, VG. auto.
Qed.
Lemma step_length (s : state) o : length (geoms (fst (step s o))) <= S (length (geoms s)).
Proof.
  destruct (planned s o) as [p |] eqn:E.
  - unfold Share_Model.step. rewrite E. cbn [fst]. destruct (create_shape s p) as (g & Eg & _). rewrite Eg, app_length. cbn. lia.
  - destruct (receiver o) as [i |] eqn:R.
    + destruct (prims_dat i s _ (update_prims s o i R)). lia.
    + unfold Share_Model.step. rewrite E. destruct o; try discriminate R; cbn [fst]; lia.
Qed.
Lemma copies (os : list op) o u i j : let s := run none order start os in let n := length (geoms s) in
  let s1 := fst (step s o) in
  n < length (geoms s1) -> same_properties s o = None -> same_data s o = None ->
  receiver u = Some i -> (i = n /\ j < n) \/ (i < n /\ j = n) ->
  look (fst (step s1 u)) j = look s1 j.
Proof.
  intros s n s1 L Np Nd R Hij. destruct (snoc_family os o L) as [EF EG]. fold s in EF, EG. rewrite Np in EF. rewrite Nd in EG.
  destruct (reach_inv os) as [VF VG VFb VGb _ _ _ _ _]. fold s in VF, VG.
  unfold s1, s. rewrite <- (run_snoc os o start). apply (independent (os ++ [o]) u i j R); [lia | |].
  - rewrite EF, !nth_snoc, VF. fold n. specialize (VFb (if i <? n then i else j)). rewrite VF in VFb. fold n in VFb.
    destruct Hij as [[-> H] | [H ->]]; rewrite Nat.ltb_irrefl, Nat.eqb_refl in *;
      (destruct (Nat.ltb_spec j n) + destruct (Nat.ltb_spec i n)); try lia; specialize (VFb H); lia.
  - rewrite EG, !nth_snoc, VG. fold n. specialize (VGb (if i <? n then i else j)). rewrite VG in VGb. fold n in VGb.
    destruct Hij as [[-> H] | [H ->]]; rewrite Nat.ltb_irrefl, Nat.eqb_refl in *;
      (destruct (Nat.ltb_spec j n) + destruct (Nat.ltb_spec i n)); try lia; specialize (VGb H); lia.
Qed.
Lemma stable (os os' : list op) i : i < length (geoms (run none order start os)) ->
  nth i (property_families none order (os ++ os')) 0 = nth i (property_families none order os) 0 /\
  nth i (data_families none order (os ++ os')) 0 = nth i (data_families none order os) 0.
Proof.
  intros Hi. destruct (reach_inv os) as [VF VG _ _ _ _ _ _ _]. unfold property_families, data_families in *. rewrite !families_app.
  destruct (families_prefix same_properties os' (run none order start os) (families none order same_properties start os [])) as (m & ->).
  destruct (families_prefix same_data os' (run none order start os) (families none order same_data start os [])) as (m' & ->).
  split; apply app_nth1; lia.
Qed.
End Proofs.
