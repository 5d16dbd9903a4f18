(** Proofs about shapefile attributes. *)
From Coq Require Import String Ascii.
From Coq Require Import List Bool Arith ZArith Lia ZifyBool ZifyNat FinFun.
From Verif Require Import Shp_Model Shp_Spec.
Import ListNotations.
Open Scope string_scope.
Notation slen := String.length.

(* ---- strings *)
Lemma slen_app : forall s t, slen (s ++ t) = slen s + slen t.
Proof. induction s; intros; cbn; [reflexivity | rewrite IHs; reflexivity]. Qed.
Lemma take_len : forall s n, slen (take n s) = Nat.min n (slen s).
Proof. unfold take. induction s; intros [| n]; cbn; try reflexivity. rewrite IHs. reflexivity. Qed.
Lemma take_all : forall s t, take (slen s) (s ++ t) = s.
Proof. unfold take. induction s; intros t; cbn; [destruct t; reflexivity | rewrite IHs; reflexivity]. Qed.
Lemma drop_last_app : forall s t, drop_last (slen t) (s ++ t) = s.
Proof. intros. unfold drop_last. rewrite slen_app. replace (slen s + slen t - slen t) with (slen s) by lia. apply take_all. Qed.
Lemma drop_last_len : forall n s, slen (drop_last n s) = slen s - n.
Proof. intros. unfold drop_last. rewrite take_len. lia. Qed.
Lemma app_inv_same : forall s t u v, slen s = slen t -> s ++ u = t ++ v -> s = t /\ u = v.
Proof.
  induction s; intros [| b t] u v L H; cbn in *; try discriminate; auto.
  injection H as -> H. destruct (IHs t u v) as [-> ->]; auto.
Qed.
Lemma app_inv_prefix : forall s u v, s ++ u = s ++ v -> u = v.
Proof. induction s; cbn; intros u v H; auto. injection H as H. auto. Qed.
Lemma snoc_inj : forall s t a b, s ++ String a "" = t ++ String b "" -> s = t /\ a = b.
Proof.
  intros s t a b H. assert (slen s = slen t) as L.
  { apply (f_equal slen) in H. rewrite !slen_app in H. cbn in H. lia. }
  destruct (app_inv_same _ _ _ _ L H) as [-> E]. split; congruence.
Qed.

(* ---- decimal numbers *)
Lemma digit_inj : forall a b, a < 10 -> b < 10 -> digit a = digit b -> a = b.
Proof.
  unfold digit. intros a b A B H. apply (f_equal nat_of_ascii) in H.
  rewrite !nat_ascii_embedding in H by lia. lia.
Qed.
Lemma dec_len : forall m f n, n < f -> 10 ^ m <= n < 10 ^ S m -> slen (dec f n) = S m.
Proof.
  induction m as [| m IH]; intros [| f] n F N; try lia; cbn [dec].
  - rewrite (proj2 (Nat.ltb_lt n 10)) by (cbn in N; lia). reflexivity.
  - assert (10 ^ S m = 10 * 10 ^ m) as E by (cbn [Nat.pow]; lia).
    assert (10 ^ S (S m) = 10 * 10 ^ S m) as E' by (cbn [Nat.pow]; lia).
    assert (0 < 10 ^ m) by (apply Nat.neq_0_lt_0, Nat.pow_nonzero; lia).
    rewrite (proj2 (Nat.ltb_ge n 10)) by lia.
    rewrite slen_app. cbn [slen]. rewrite IH; [lia | |].
    + pose proof (Nat.div_lt n 10). lia.
    + split; [apply Nat.div_le_lower_bound | apply Nat.div_lt_upper_bound]; lia.
Qed.
Lemma str_len : forall m n, 10 ^ m <= n < 10 ^ S m -> slen (str n) = S m.
Proof. intros. apply dec_len; lia. Qed.
Lemma dec_len_le : forall m f n, (Z.of_nat n < 10 ^ Z.of_nat (S m))%Z -> slen (dec f n) <= S m.
Proof.
  induction m as [| m IH]; intros [| f] n N; cbn [dec]; try (cbn; lia).
  - rewrite (proj2 (Nat.ltb_lt n 10)) by (cbn in N; lia). cbn. lia.
  - destruct (Nat.ltb n 10). { cbn. lia. }
    rewrite slen_app. cbn [slen].
    assert (slen (dec f (n / 10)) <= S m); [| lia].
    apply IH. rewrite Nat2Z.inj_succ, Z.pow_succ_r in N by lia.
    change 10%nat with (Z.to_nat 10). rewrite Nat2Z.inj_div. apply Z.div_lt_upper_bound; [cbn; lia |]. cbn. lia.
Qed.
Lemma dec_snoc : forall f n, 0 < f -> exists s, dec f n = s ++ String (digit (n mod 10)) "".
Proof.
  intros [| f] n F; [lia |]. cbn [dec]. destruct (Nat.ltb n 10) eqn:E.
  - exists "". rewrite Nat.mod_small by lia. reflexivity.
  - eexists. reflexivity.
Qed.
Lemma dec_nonempty : forall f n, 0 < f -> slen (dec f n) <> 0.
Proof. intros f n F. destruct (dec_snoc f n F) as (s & ->). rewrite slen_app. cbn. lia. Qed.
Lemma dec_inj : forall f f' n n', n < f -> n' < f' -> dec f n = dec f' n' -> n = n'.
Proof.
  induction f as [| f IH]; intros [| f'] n n' F F' H; try lia. cbn [dec] in H.
  destruct (Nat.ltb n 10) eqn:E; destruct (Nat.ltb n' 10) eqn:E'.
  - injection H as H. apply digit_inj; [lia | lia | exact H].
  - apply Nat.ltb_ge in E'. assert (slen (dec f' (n' / 10)) <> 0) by (apply dec_nonempty; lia).
    apply (f_equal slen) in H. rewrite slen_app in H. cbn [slen] in H. lia.
  - apply Nat.ltb_ge in E. assert (slen (dec f (n / 10)) <> 0) by (apply dec_nonempty; lia).
    apply (f_equal slen) in H. rewrite slen_app in H. cbn [slen] in H. lia.
  - apply snoc_inj in H. destruct H as [H D].
    apply digit_inj in D; try (apply Nat.mod_upper_bound; lia).
    apply IH in H; [| pose proof (Nat.div_lt n 10); lia | pose proof (Nat.div_lt n' 10); lia].
    rewrite (Nat.div_mod_eq n 10), (Nat.div_mod_eq n' 10). lia.
Qed.
Lemma str_inj : forall n n', str n = str n' -> n = n'.
Proof. intros n n'. apply dec_inj; lia. Qed.

(* ---- the renaming loop *)
Definition step (s : string) (i : nat) : string := drop_last (slen (str i)) s ++ str i.
Fixpoint nm (base : string) (j : nat) : string := match j with O => base | S j' => step (nm base j') (j' + 2) end.

Lemma existsb_used : forall name used, existsb (String.eqb name) used = true <-> In name used.
Proof.
  intros. rewrite existsb_exists. split.
  - intros (x & X & E). apply String.eqb_eq in E. subst. exact X.
  - intros H. exists name. split; [exact H | apply String.eqb_refl].
Qed.
Lemma rename_none : forall f used base j, rename f used (nm base j) (j + 2) = None -> forall k, k <= f -> In (nm base (j + k)) used.
Proof.
  induction f as [| f IH]; intros used base j H k K; cbn [rename] in H;
    destruct (existsb (String.eqb (nm base j)) used) eqn:E; try discriminate; apply existsb_used in E.
  - replace (j + k) with j by lia. exact E.
  - destruct k as [| k]. { rewrite Nat.add_0_r. exact E. }
    replace (j + S k) with (S j + k) by lia. apply IH; [exact H | lia].
Qed.
Lemma rename_some : forall f used base j name, rename f used (nm base j) (j + 2) = Some name -> exists k, k <= f /\ name = nm base (j + k) /\ ~ In name used.
Proof.
  induction f as [| f IH]; intros used base j name H; cbn [rename] in H;
    destruct (existsb (String.eqb (nm base j)) used) eqn:E; try discriminate.
  1,3: injection H as <-; exists 0; rewrite Nat.add_0_r; repeat split; [lia |]; rewrite <- existsb_used, E; discriminate.
  destruct (IH used base (S j) name H) as (k & K & N & U). exists (S k). repeat split; [lia | | exact U].
  rewrite N. f_equal. lia.
Qed.
Lemma nm_block : forall base m k, 10 <= 10 ^ m -> 10 ^ m + k < 10 ^ S m -> exists p, forall q, q <= k -> nm base (10 ^ m + q - 1) = p ++ str (10 ^ m + q).
Proof.
  intros base m k M K. set (b := 10 ^ m) in *. exists (drop_last (S m) (nm base (b - 2))).
  assert (forall q, q <= k -> slen (str (b + q)) = S m) as L by (intros q Q; apply str_len; fold b; lia).
  induction q as [| q IH]; intros Q.
  - replace (b + 0 - 1) with (S (b - 2)) by lia. cbn [nm]. unfold step.
    replace (b - 2 + 2) with (b + 0) by lia. rewrite (L 0) by lia. reflexivity.
  - replace (b + S q - 1) with (S (b + q - 1)) by lia. cbn [nm]. rewrite IH by lia. unfold step.
    replace (b + q - 1 + 2) with (b + S q) by lia. rewrite (L (S q)) by lia.
    rewrite <- (L q) by lia. rewrite drop_last_app. rewrite (L q) by lia. reflexivity.
Qed.
Lemma pow_above : forall n, 1 <= n -> exists m, 10 <= 10 ^ m /\ n < 10 ^ m /\ 10 ^ m <= 10 * n.
Proof.
  intros n N. induction n as [| n IH]; [lia |]. destruct n as [| n].
  - exists 1. cbn. lia.
  - destruct IH as (m & A & B & C); [lia |]. destruct (Nat.eq_dec (S (S n)) (10 ^ m)) as [E | E].
    + exists (S m). cbn [Nat.pow]. lia.
    + exists m. lia.
Qed.
Lemma rename_ends : forall used base, rename (12 * List.length used + 12) used base 2 <> None.
Proof.
  intros used base H. pose proof (rename_none _ _ base 0 H) as A. cbn [Nat.add] in A.
  assert (1 <= List.length used) as N.
  { destruct used; cbn; [exact (False_ind _ (A 0 ltac:(lia))) | lia]. }
  set (n := List.length used) in *. destruct (pow_above n N) as (m & B & C & D).
  assert (10 ^ S m = 10 * 10 ^ m) as E by (cbn [Nat.pow]; lia).
  destruct (nm_block base m n) as (p & P); [lia | lia |].
  assert (NoDup (map (fun q => p ++ str (10 ^ m + q)) (seq 0 (S n)))) as ND.
  { apply Injective_map_NoDup; [| apply seq_NoDup].
    intros q q' Q. apply app_inv_prefix in Q. apply str_inj in Q. lia. }
  assert (List.length (map (fun q => p ++ str (10 ^ m + q)) (seq 0 (S n))) <= n) as L.
  { apply NoDup_incl_length; [exact ND |]. intros x X. apply in_map_iff in X. destruct X as (q & <- & Q).
    apply in_seq in Q. rewrite <- P by lia. apply A. lia. }
  rewrite map_length, seq_length in L. lia.
Qed.
Lemma dbase_key_spec : forall used k, exists name, dbase_key used k = Some name /\ ~ In name used /\
  ((Z.of_nat (List.length used) < 800000000)%Z -> slen name <= 10).
Proof.
  intros used k. unfold dbase_key. destruct (rename _ _ _ _) as [name |] eqn:E.
  2: exfalso; exact (rename_ends _ _ E).
  exists name. split; [reflexivity |].
  destruct (rename_some _ _ (upper (take 10 k)) 0 _ E) as (j & J & -> & U). split; [exact U |].
  intros N. clear - J N. cbn [Nat.add] in *. set (n := List.length used) in *. clearbody n. clear used.
  assert (forall s, slen (upper s) = slen s) as UL by (induction s; cbn; auto).
  induction j as [| j IH].
  - cbn [nm]. rewrite UL, take_len. lia.
  - cbn [nm]. unfold step. rewrite slen_app, drop_last_len.
    specialize (IH ltac:(lia)).
    assert (slen (str (j + 2)) <= 10); [| lia]. apply dec_len_le. change (10 ^ Z.of_nat 10)%Z with 10000000000%Z. lia.
Qed.

(** Every character of a name is a capital letter as far as letters go. *)
Fixpoint no_lower (s : string) : Prop := match s with EmptyString => True | String c s' => upper_char c = c /\ no_lower s' end.
Lemma no_lower_upper : forall s, no_lower s <-> upper s = s.
Proof.
  induction s; cbn; [tauto |]. rewrite IHs. split; [intros [-> ->]; reflexivity | intros H; injection H; auto].
Qed.
Lemma upper_char_idem : forall c, upper_char (upper_char c) = upper_char c.
Proof. intros [[] [] [] [] [] [] [] []]; reflexivity. Qed.
Lemma upper_idem : forall s, upper (upper s) = upper s.
Proof. induction s; cbn; [reflexivity | rewrite upper_char_idem, IHs; reflexivity]. Qed.
Lemma upper_app : forall s t, upper (s ++ t) = upper s ++ upper t.
Proof. induction s; intros; cbn; [| rewrite IHs]; reflexivity. Qed.
Lemma upper_take : forall s n, upper (take n s) = take n (upper s).
Proof. unfold take. induction s; intros [| n]; cbn; try reflexivity. rewrite IHs. reflexivity. Qed.
Lemma upper_len : forall s, slen (upper s) = slen s.
Proof. induction s; cbn; auto. Qed.
Lemma upper_digit : forall n, n < 10 -> upper_char (digit n) = digit n.
Proof. intros n N. do 10 (destruct n as [| n]; [reflexivity |]). lia. Qed.
Lemma upper_dec : forall f n, upper (dec f n) = dec f n.
Proof.
  induction f; intros; cbn [dec]; [reflexivity |]. destruct (Nat.ltb n 10) eqn:E.
  - cbn [upper]. rewrite upper_digit by lia. reflexivity.
  - rewrite upper_app, IHf. cbn [upper]. rewrite upper_digit; [reflexivity |]. apply Nat.mod_upper_bound. lia.
Qed.
Lemma dbase_key_upper : forall used k name, dbase_key used k = Some name -> upper name = name.
Proof.
  intros used k name H. unfold dbase_key in H.
  destruct (rename_some _ _ (upper (take 10 k)) 0 _ H) as (j & _ & -> & _). clear H. cbn [Nat.add].
  induction j as [| j IH]; cbn [nm]; [apply upper_idem |].
  unfold step, drop_last. rewrite upper_app, upper_take, IH. unfold str. rewrite upper_dec. reflexivity.
Qed.
Lemma dbase_key_free : forall used k, ~ In (upper (take 10 k)) used -> dbase_key used k = Some (upper (take 10 k)).
Proof.
  intros used k N. unfold dbase_key.
  assert (existsb (String.eqb (upper (take 10 k))) used = false) as E.
  { destruct (existsb _ used) eqn:E; [| reflexivity]. apply existsb_used in E. contradiction. }
  destruct (12 * List.length used + 12); cbn [rename]; rewrite E; reflexivity.
Qed.

(* ---- types *)
Lemma fieldtype_index : forall v, ogr_get_fieldtype v = Raise IndexError <-> starts_empty v = true.
Proof.
  fix IH 1. intros [z | m e | m e | s | s | z | z | z | [| x l] | z]; cbn [ogr_get_fieldtype starts_empty];
    try (split; congruence).
  rewrite <- (IH x). destruct (ogr_get_fieldtype x) as [[] | e]; split; intros; congruence.
Qed.
Lemma fieldtype_errors : forall v e, ogr_get_fieldtype v = Raise e -> e = TypeError \/ e = IndexError.
Proof.
  fix IH 1. intros [z | m x | m x | s | s | z | z | z | [| x l] | z] e; cbn [ogr_get_fieldtype];
    try (intros [= <-]; auto; fail); try discriminate.
  specialize (IH x). destruct (ogr_get_fieldtype x) as [[] | e']; intros H; try discriminate; injection H as <-; auto.
Qed.
Lemma get_in : forall (A : Type) k (d : list (string * A)), In k (map fst d) -> exists v, get k d = Some v.
Proof.
  induction d as [| [k' v] d IH]; cbn; [contradiction |]. intros H.
  destruct (String.eqb k k') eqn:E; [eexists; reflexivity |]. apply IH. destruct H as [-> | H]; [| exact H].
  rewrite String.eqb_refl in E. discriminate.
Qed.
Lemma get_some_in : forall (A : Type) k (d : list (string * A)) v, get k d = Some v -> In (k, v) d.
Proof.
  induction d as [| [k' v'] d IH]; cbn; intros v H; [discriminate |]. destruct (String.eqb k k') eqn:E.
  - apply String.eqb_eq in E. left. congruence.
  - right. auto.
Qed.
Lemma get_nodup : forall (A : Type) k (d : list (string * A)) v, NoDup (map fst d) -> In (k, v) d -> get k d = Some v.
Proof.
  induction d as [| [k' v'] d IH]; cbn; intros v N H; [contradiction |].
  inversion N as [| ? ? N1 N2]; subst. destruct H as [[= -> ->] | H].
  - rewrite String.eqb_refl. reflexivity.
  - destruct (String.eqb k k') eqn:E; [| auto]. apply String.eqb_eq in E. subst.
    exfalso. apply N1. apply in_map_iff. exists (k', v). auto.
Qed.
(** The outcome of looking for a type. *)
Lemma infer_spec : forall n objs k r, infer n objs k = Ok r ->
  match r with
  | Some t => exists i o v, i < n /\ nth_error objs i = Some o /\ has o k v /\ ogr_get_fieldtype v = Ok t /\
      forall j o' v', j < i -> nth_error objs j = Some o' -> has o' k v' -> ogr_get_fieldtype v' = Raise TypeError
  | None => forall i o v, i < n -> nth_error objs i = Some o -> has o k v -> ogr_get_fieldtype v = Raise TypeError
  end.
Proof.
  induction n as [| n IH]; intros objs k r H.
  { cbn in H. injection H as <-. intros; lia. }
  destruct objs as [| o objs]; cbn [infer] in H.
  { injection H as <-. intros [|]; discriminate. }
  destruct (get k o) as [v |] eqn:G; [| discriminate].
  destruct (ogr_get_fieldtype v) as [t | e] eqn:T.
  - injection H as <-. exists 0, o, v. repeat split; auto; lia.
  - destruct (fieldtype_errors _ _ T) as [-> | ->]; [| discriminate].
    apply IH in H. destruct r as [t |].
    + destruct H as (i & o1 & v1 & I & N & V & T1 & F). exists (S i), o1, v1. repeat split; auto; [lia |].
      intros [| j] o' v' J N' V'.
      * cbn in N'. injection N' as <-. unfold has in V'. congruence.
      * cbn in N'. apply (F j o' v'); auto; lia.
    + intros [| i] o1 v1 I N V.
      * cbn in N. injection N as <-. unfold has in V. congruence.
      * cbn in N. apply (H i o1 v1); auto; lia.
Qed.
Lemma infer_total : forall n objs k, (forall o, In o objs -> In k (map fst o)) -> no_empty objs -> exists r, infer n objs k = Ok r.
Proof.
  induction n as [| n IH]; intros objs k K NE; [cbn; eexists; reflexivity |].
  destruct objs as [| o objs]; cbn [infer]; [eexists; reflexivity |].
  destruct (get_in _ k o) as (v & G); [apply K; left; reflexivity |]. rewrite G.
  destruct (ogr_get_fieldtype v) as [t | e] eqn:T; [eexists; reflexivity |].
  destruct (fieldtype_errors _ _ T) as [-> | ->].
  - apply IH; [intros; apply K; right; assumption |]. intros o1 k1 v1 O1 K1. apply (NE o1 k1 v1); auto. right. exact O1.
  - exfalso. apply fieldtype_index in T. apply get_some_in in G. rewrite (NE o k v) in T; [discriminate | left; reflexivity | exact G].
Qed.

(* ---- fields *)
Lemma nodup_snoc : forall (A : Type) (l : list A) x, NoDup l -> ~ In x l -> NoDup (l ++ [x])%list.
Proof.
  induction l as [| y l IH]; intros x N X; cbn; [repeat constructor; auto |].
  inversion N as [| ? ? N1 N2]; subst. constructor.
  - rewrite in_app_iff. cbn. intros [I | [I | []]]; [contradiction |]. subst. apply X. left. reflexivity.
  - apply IH; [exact N2 |]. intros I. apply X. right. exact I.
Qed.
Definition fname (f : string * ftype * string) : string := fst (fst f).
Definition fkey (f : string * ftype * string) : string := snd f.
Lemma make_fields_spec : forall objs keys fields out, NoDup (map fname fields) -> NoDup (map fkey fields ++ keys) ->
  make_fields objs keys fields = Ok out ->
  NoDup (map fname out) /\ NoDup (map fkey out) /\
  (forall f, In f out <-> In f fields \/ (In f out /\ In (fkey f) keys)) /\
  (forall f, In f fields -> In f out) /\
  (forall n t k, In (n, t, k) out -> In k keys -> ~ In k (map fkey fields) -> infer_field_type objs k = Ok (Some t)) /\
  (forall k, In k keys -> (exists f, In f out /\ fkey f = k) \/ infer_field_type objs k = Ok None).
Proof.
  induction keys as [| k keys IH]; intros fields out N K H; cbn [make_fields] in H.
  { injection H as <-. rewrite app_nil_r in K. split; [exact N |]. split; [exact K |].
    split; [intros f; cbn; tauto |]. split; [auto |]. split; [cbn; contradiction | cbn; contradiction]. }
  destruct (dbase_key_spec (map (fun f => fst (fst f)) fields) k) as (name & D & F & _). rewrite D in H.
  destruct (infer_field_type objs k) as [[t |] | e] eqn:T; [| | discriminate].
  - assert (NoDup (map fname (fields ++ [(name, t, k)]))) as N'.
    { rewrite map_app. apply nodup_snoc; [exact N | exact F]. }
    assert (NoDup (map fkey (fields ++ [(name, t, k)]) ++ keys)) as K'.
    { rewrite map_app. cbn. rewrite <- app_assoc. exact K. }
    destruct (IH _ _ N' K' H) as (A & B & C & D' & E & G).
    split; [exact A |]. split; [exact B |]. split; [| split; [| split]].
    + intros f. split; [| intros [I | [I _]]; [apply D', in_app_iff; auto | exact I]]. intros I. apply C in I. destruct I as [I | [I J]]; [| cbn; tauto].
      apply in_app_iff in I. destruct I as [I | [<- | []]]; [tauto |]. right. split; [| cbn; auto]. apply D'. apply in_app_iff. cbn. auto.
    + intros f I. apply D'. apply in_app_iff. auto.
    + intros n1 t1 k1 I J M. destruct J as [-> | J].
      * (* the new field *)
        assert (In (name, t, k1) out) as I2 by (apply D', in_app_iff; cbn; auto).
        assert ((n1, t1, k1) = (name, t, k1)) as EQ; [| congruence].
        clear - B I I2. revert I I2 B. induction out as [| g out IHo]; cbn; [contradiction |].
        intros I I2 B. inversion B as [| ? ? B1 B2]; subst.
        destruct I as [-> | I]; destruct I2 as [E2 | I2]; auto.
        -- exfalso. apply B1. cbn. apply in_map_iff. exists (name, t, k1). auto.
        -- subst g. exfalso. apply B1. cbn. apply in_map_iff. exists (n1, t1, k1). auto.
      * apply (E n1 t1 k1 I J). rewrite map_app, in_app_iff. cbn. intros [M' | [M' | []]]; [contradiction |]. subst k1.
        apply NoDup_remove_2 in K. apply K. apply in_app_iff. auto.
    + intros k1 [<- | J]; [| auto]. left. exists (name, t, k). split; [apply D', in_app_iff; cbn; auto | reflexivity].
  - assert (NoDup (map fkey fields ++ keys)) as K' by (apply NoDup_remove_1 in K; exact K).
    destruct (IH _ _ N K' H) as (A & B & C & D' & E & G).
    split; [exact A |]. split; [exact B |]. split; [| split; [| split]].
    + intros f. rewrite (C f). cbn. tauto.
    + auto.
    + intros n1 t1 k1 I J M. destruct J as [-> | J]; [| eauto].
      exfalso. apply C in I. destruct I as [I | [I J]].
      * apply M. apply in_map_iff. exists (n1, t1, k1). auto.
      * cbn in J. apply NoDup_remove_2 in K. apply K. apply in_app_iff. auto.
    + intros k1 [<- | J]; [auto | auto].
Qed.
Lemma make_fields_names : forall objs keys fields out, make_fields objs keys fields = Ok out ->
  (Z.of_nat (List.length fields + List.length keys) < 800000000)%Z ->
  (forall f, In f fields -> slen (fname f) <= 10 /\ upper (fname f) = fname f) ->
  forall f, In f out -> slen (fname f) <= 10 /\ upper (fname f) = fname f.
Proof.
  induction keys as [| k keys IH]; intros fields out H L A; cbn [make_fields] in H.
  { injection H as <-. exact A. }
  destruct (dbase_key_spec (map (fun f => fst (fst f)) fields) k) as (name & D & F & S). rewrite D in H.
  destruct (infer_field_type objs k) as [[t |] | e] eqn:T; [| | discriminate].
  - apply (IH _ _ H).
    + rewrite app_length. cbn in *. lia.
    + intros f I. apply in_app_iff in I. destruct I as [I | [<- | []]]; [auto |]. cbn. split.
      * apply S. rewrite map_length. cbn in L. lia.
      * exact (dbase_key_upper _ _ _ D).
  - apply (IH _ _ H); [cbn in L; lia | exact A].
Qed.
Lemma make_fields_upper : forall objs keys fields out, make_fields objs keys fields = Ok out ->
  (forall f, In f fields -> upper (fname f) = fname f) ->
  forall f, In f out -> upper (fname f) = fname f.
Proof.
  induction keys as [| k keys IH]; intros fields out H A; cbn [make_fields] in H.
  { injection H as <-. exact A. }
  destruct (dbase_key_spec (map (fun f => fst (fst f)) fields) k) as (name & D & F & S). rewrite D in H.
  destruct (infer_field_type objs k) as [[t |] | e] eqn:T; [| | discriminate].
  - apply (IH _ _ H). intros f I. apply in_app_iff in I. destruct I as [I | [<- | []]]; [auto |]. exact (dbase_key_upper _ _ _ D).
  - apply (IH _ _ H A).
Qed.
Lemma make_fields_total : forall objs keys fields, (forall k, In k keys -> forall o, In o objs -> In k (map fst o)) -> no_empty objs ->
  exists out, make_fields objs keys fields = Ok out.
Proof.
  induction keys as [| k keys IH]; intros fields K NE; cbn [make_fields]; [eexists; reflexivity |].
  destruct (dbase_key_spec (map (fun f => fst (fst f)) fields) k) as (name & D & F & S). rewrite D.
  destruct (infer_total 100 objs k (K k (or_introl eq_refl)) NE) as (r & R). unfold infer_field_type. rewrite R.
  destruct r; apply IH; auto; intros k' K'; apply K; right; exact K'.
Qed.
(** An attribute whose ten-letter name no other attribute shares keeps that name. *)
Lemma make_fields_plain : forall objs keys fields out, make_fields objs keys fields = Ok out ->
  NoDup (map (fun k => upper (take 10 k)) (map fkey fields ++ keys)) ->
  (forall f, In f fields -> fname f = upper (take 10 (fkey f))) ->
  forall f, In f out -> fname f = upper (take 10 (fkey f)).
Proof.
  induction keys as [| k keys IH]; intros fields out H N A; cbn [make_fields] in H.
  { injection H as <-. exact A. }
  rewrite dbase_key_free in H.
  2:{ intros C. rewrite map_app in N. cbn [map] in N. apply NoDup_remove_2 in N. apply N. apply in_app_iff. left.
      apply in_map_iff in C. destruct C as (f & E & I). rewrite <- E. change (fst (fst f)) with (fname f). rewrite (A f I). rewrite map_map. apply in_map_iff. exists f. auto. }
  destruct (infer_field_type objs k) as [[t |] | e] eqn:T; [| | discriminate].
  - apply (IH _ _ H).
    + rewrite (map_app fkey). cbn [map]. rewrite <- app_assoc. exact N.
    + intros f I. apply in_app_iff in I. destruct I as [I | [<- | []]]; [auto |]. reflexivity.
  - apply (IH _ _ H); [| exact A]. rewrite map_app in *. cbn [map] in N. apply NoDup_remove_1 in N. exact N.
Qed.

(* ---- features *)
Lemma write_values_spec : forall km o names r, write_values km o names = Ok r ->
  map fst r = names /\ forall n, In n names -> exists v, In (n, v) r /\ has o (match get n km with Some k => k | None => n end) v.
Proof.
  induction names as [| n names IH]; intros r H; cbn [write_values] in H.
  { injection H as <-. cbn. split; [reflexivity | contradiction]. }
  destruct (get (match get n km with Some k => k | None => n end) o) as [v |] eqn:G; [| discriminate].
  destruct (write_values km o names) as [r' | e]; [| discriminate]. injection H as <-.
  destruct (IH r' eq_refl) as [A B]. cbn. split; [congruence |].
  intros n' [<- | N]; [exists v; auto |]. destruct (B n' N) as (v' & V & X). exists v'. auto.
Qed.
Lemma write_values_total : forall km o names, (forall n, In n names -> exists k, get n km = Some k /\ In k (map fst o)) ->
  exists r, write_values km o names = Ok r.
Proof.
  induction names as [| n names IH]; intros H; cbn [write_values]; [eexists; reflexivity |].
  destruct (H n (or_introl eq_refl)) as (k & K & I). rewrite K. destruct (get_in _ k o I) as (v & V). rewrite V.
  destruct IH as (r & R); [intros n' N'; apply H; right; exact N' |]. rewrite R. eexists. reflexivity.
Qed.
Lemma write_features_spec : forall km objs names i rows, write_features km objs names i = Ok rows ->
  List.length rows = List.length objs /\
  forall j o, nth_error objs j = Some o -> exists r, nth_error rows j = Some (("id", VInt (i + Z.of_nat j)) :: r) /\ write_values km o names = Ok r.
Proof.
  induction objs as [| o objs IH]; intros names i rows H; cbn [write_features] in H.
  { injection H as <-. split; [reflexivity |]. intros [|]; discriminate. }
  destruct (write_values km o names) as [r | e] eqn:W; [| discriminate].
  destruct (write_features km objs names (i + 1)) as [rs | e] eqn:F; [| discriminate]. injection H as <-.
  destruct (IH _ _ _ F) as [A B]. split; [cbn; congruence |].
  intros [| j] o' N.
  - cbn in N. injection N as <-. exists r. split; [| exact W]. cbn. rewrite Z.add_0_r. reflexivity.
  - cbn in N. destruct (B j o' N) as (r' & R & W'). exists r'. split; [| exact W']. cbn [nth_error]. rewrite R.
    replace (i + Z.of_nat (S j))%Z with (i + 1 + Z.of_nat j)%Z by lia. reflexivity.
Qed.
Lemma write_features_total : forall km objs names i, (forall o, In o objs -> exists r, write_values km o names = Ok r) ->
  exists rows, write_features km objs names i = Ok rows.
Proof.
  induction objs as [| o objs IH]; intros names i H; cbn [write_features]; [eexists; reflexivity |].
  destruct (H o (or_introl eq_refl)) as (r & R). rewrite R.
  destruct (IH names (i + 1)%Z) as (rs & RS); [intros o' O'; apply H; right; exact O' |]. rewrite RS. eexists. reflexivity.
Qed.
Lemma mapping_names : forall fields, map fst (mapping fields) = map fname fields.
Proof. intros. unfold mapping. rewrite map_map. reflexivity. Qed.
Lemma mapping_get : forall fields n t k, NoDup (map fname fields) -> In (n, t, k) fields -> get n (mapping fields) = Some k.
Proof.
  intros fields n t k N I. apply get_nodup; [rewrite mapping_names; exact N |].
  unfold mapping. apply in_map_iff. exists (n, t, k). auto.
Qed.

(* ---- the table *)
Theorem table_ok : forall objs keys, key_order objs keys -> no_empty objs -> exists fields rows, write_table objs keys = Ok (fields, rows).
Proof.
  intros objs keys [N K] NE. unfold write_table.
  destruct (make_fields_total objs keys []) as (fields & F).
  { intros k I. apply K in I. apply I. } { exact NE. }
  rewrite F. destruct (make_fields_spec objs keys [] fields (NoDup_nil _) N F) as (A & B & C & _ & _ & G).
  destruct (write_features_total (mapping fields) objs (map (fun f => fst (fst f)) fields) 0) as (rows & R).
  - intros o O. apply write_values_total. intros n I. apply in_map_iff in I. destruct I as ([[n' t] k] & <- & I).
    exists k. split; [exact (mapping_get _ _ _ _ A I) |]. apply C in I. destruct I as [[] | [_ I]]. apply K in I. exact (proj1 I o O).
  - rewrite R. eauto.
Qed.
Theorem table_names : forall objs keys fields rows, key_order objs keys -> write_table objs keys = Ok (fields, rows) ->
  NoDup (map (fun f => upper (fst (fst f))) fields) /\
  ((Z.of_nat (List.length keys) < 800000000)%Z -> forall name t k, In (name, t, k) fields -> String.length name <= 10).
Proof.
  intros objs keys fields rows [N K] H. unfold write_table in H.
  destruct (make_fields objs keys []) as [fs | e] eqn:F; [| discriminate].
  destruct (write_features _ _ _ _) as [rs | e]; [| discriminate]. injection H as -> ->.
  destruct (make_fields_spec objs keys [] fields (NoDup_nil _) N F) as (A & _).
  split.
  - replace (map (fun f => upper (fst (fst f))) fields) with (map fname fields); [exact A |].
    apply map_ext_in. intros f I. symmetry. apply (make_fields_upper _ _ _ _ F); [cbn; contradiction | exact I].
  - intros L name t k I.
    exact (proj1 (make_fields_names _ _ _ _ F L (fun f (X : In f []) => match X with end) (name, t, k) I)).
Qed.
Theorem table_fields : forall objs keys fields rows, key_order objs keys -> write_table objs keys = Ok (fields, rows) ->
  NoDup (map snd fields) /\
  forall k, In k (map snd fields) <-> exported objs k /\ exists i o v, i < 100 /\ nth_error objs i = Some o /\ has o k v /\ typed v.
Proof.
  intros objs keys fields rows [N K] H. unfold write_table in H.
  destruct (make_fields objs keys []) as [fs | e] eqn:F; [| discriminate].
  destruct (write_features _ _ _ _) as [rs | e]; [| discriminate]. injection H as -> ->.
  destruct (make_fields_spec objs keys [] fields (NoDup_nil _) N F) as (A & B & C & _ & E & G).
  split; [exact B |]. intros k. split.
  - intros I. apply in_map_iff in I. destruct I as ([[n t] k'] & <- & I). cbn [snd].
    pose proof I as I'. apply C in I'. destruct I' as [[] | [_ J]]. split; [apply K; exact J |].
    pose proof (E n t k' I J (fun x => x)) as T. apply infer_spec in T.
    destruct T as (i & o & v & X & Y & Z & W & _). exists i, o, v. repeat split; auto. exists t. exact W.
  - intros [X (i & o & v & I & O & V & t & T)]. apply K in X. destruct (G k X) as [(f & Y & <-) | Y].
    + apply in_map_iff. exists f. auto.
    + apply infer_spec in Y. rewrite (Y i o v I O V) in T. discriminate.
Qed.
Theorem table_values : forall objs keys fields rows, key_order objs keys -> write_table objs keys = Ok (fields, rows) ->
  List.length rows = List.length objs /\
  forall i o, nth_error objs i = Some o -> exists row, nth_error rows i = Some row /\
    map fst row = "id" :: map (fun f => fst (fst f)) fields /\ NoDup (map fst row) /\
    In ("id", VInt (Z.of_nat i)) row /\
    forall name t k, In (name, t, k) fields -> exists v, has o k v /\ In (name, v) row.
Proof.
  intros objs keys fields rows [N K] H. unfold write_table in H.
  destruct (make_fields objs keys []) as [fs | e] eqn:F; [| discriminate].
  destruct (write_features _ _ _ _) as [rs | e] eqn:R; [| discriminate]. injection H as -> ->.
  destruct (make_fields_spec objs keys [] fields (NoDup_nil _) N F) as (A & _).
  destruct (write_features_spec _ _ _ _ _ R) as [L S]. split; [exact L |].
  intros i o O. destruct (S i o O) as (r & X & W). apply write_values_spec in W. destruct W as [W1 W2].
  eexists. split; [exact X |]. cbn [map fst]. rewrite W1. split; [reflexivity |]. split.
  - constructor; [| exact A]. intros I. apply in_map_iff in I. destruct I as (f & E & I).
    pose proof (make_fields_upper _ _ _ _ F (fun f (X : In f []) => match X with end) f I) as U. unfold fname in U. rewrite E in U. discriminate.
  - split; [left; f_equal; f_equal; lia |]. intros name t k I.
    destruct (W2 name) as (v & V & G); [apply in_map_iff; exists (name, t, k); auto |].
    rewrite (mapping_get _ _ _ _ A I) in G. exists v. split; [exact G | right; exact V].
Qed.
Theorem table_plain : forall objs keys fields rows, key_order objs keys -> write_table objs keys = Ok (fields, rows) ->
  NoDup (map (fun k => upper (substring 0 10 k)) keys) ->
  forall name t k, In (name, t, k) fields -> name = upper (substring 0 10 k).
Proof.
  intros objs keys fields rows [N K] H D name t k I. unfold write_table in H.
  destruct (make_fields objs keys []) as [fs | e] eqn:F; [| discriminate].
  destruct (write_features _ _ _ _) as [rs | e] eqn:R; [| discriminate]. injection H as -> ->.
  exact (make_fields_plain _ _ _ _ F D (fun f (X : In f []) => match X with end) (name, t, k) I).
Qed.
Theorem rename_terminates : forall used name, exists n out, forall fuel, n <= fuel -> rename fuel used name 2 = Some out.
Proof.
  intros used name. destruct (rename (12 * List.length used + 12) used name 2) as [out |] eqn:E; [| exfalso; exact (rename_ends _ _ E)].
  exists (12 * List.length used + 12), out. intros fuel L.
  revert L E. generalize (12 * List.length used + 12) as f. generalize 2 as i. intros i f. revert fuel i name.
  induction f as [| f IH]; intros fuel i name L E; cbn [rename] in E.
  - destruct (existsb (String.eqb name) used) eqn:X; [discriminate |].
    destruct fuel; cbn [rename]; rewrite X; exact E.
  - destruct fuel as [| fuel]; [lia |]. cbn [rename]. destruct (existsb (String.eqb name) used); [| exact E]. apply IH; [lia | exact E].
Qed.
(** Findings. *)
Theorem id_clash : exists objs keys fields rows, key_order objs keys /\ write_table objs keys = Ok (fields, rows) /\
  exists name t k, In (name, t, k) fields /\ upper name = upper "id".
Proof.
  exists [[("id", VInt 7)]], ["id"]. eexists. eexists. split.
  - split; [repeat constructor; cbn; tauto |]. intros k. split.
    + intros [<- | []]. split; [intros o [<- | []]; cbn; auto | reflexivity].
    + intros [A _]. specialize (A _ (or_introl eq_refl)). cbn in *. tauto.
  - split; [reflexivity |]. exists "ID", OFTInteger, "id". split; [left; reflexivity | reflexivity].
Qed.
Theorem empty_list_raises : exists objs keys, key_order objs keys /\ (forall o, In o objs -> In "name" (map fst o)) /\ write_table objs keys = Raise IndexError.
Proof.
  exists [[("name", VStr "a"); ("tags", VList [])]], ["name"; "tags"]. split.
  - split; [repeat constructor; cbn; intuition discriminate |]. intros k. split.
    + intros [<- | [<- | []]]; (split; [intros o [<- | []]; cbn; auto | reflexivity]).
    + intros [A _]. specialize (A _ (or_introl eq_refl)). cbn in *. tauto.
  - split; [intros o [<- | []]; cbn; auto | vm_compute; reflexivity].
Qed.
Theorem late_value_lost : exists objs keys fields rows o k v, key_order objs keys /\ write_table objs keys = Ok (fields, rows) /\
  In o objs /\ exported objs k /\ has o k v /\ typed v /\ ~ In k (map snd fields).
Proof.
  exists (repeat [("depth", VOther 0)] 100 ++ [[("depth", VInt 5)]])%list, ["depth"]. eexists. eexists.
  exists [("depth", VInt 5)], "depth", (VInt 5).
  assert (exported (repeat [("depth", VOther 0)] 100 ++ [[("depth", VInt 5)]])%list "depth") as E.
  { split; [| reflexivity]. intros o O. apply in_app_iff in O. destruct O as [O | [<- | []]]; [apply repeat_spec in O; subst o |]; cbn; auto. }
  split; [split |].
  - repeat constructor; cbn; tauto.
  - intros k. split; [intros [<- | []]; exact E |]. intros [A _].
    specialize (A [("depth", VInt 5)] ltac:(apply in_app_iff; right; left; reflexivity)). exact A.
  - split; [vm_compute; reflexivity |]. split; [apply in_app_iff; right; left; reflexivity |].
    split; [exact E |]. split; [reflexivity |]. split; [exists OFTInteger; reflexivity | cbn; tauto].
Qed.
(** Which of two clashing attributes keeps its name depends on the order of the set. *)
Theorem order_matters : exists objs keys1 keys2 f1 r1 f2 r2, key_order objs keys1 /\ key_order objs keys2 /\
  write_table objs keys1 = Ok (f1, r1) /\ write_table objs keys2 = Ok (f2, r2) /\
  In ("TEMPERATUR", OFTInteger, "temperature_a") f1 /\ In ("TEMPERATUR", OFTInteger, "temperature_b") f2 /\
  In ("TEMPERATU2", OFTInteger, "temperature_b") f1 /\ In ("TEMPERATU2", OFTInteger, "temperature_a") f2.
Proof.
  exists [[("temperature_a", VInt 1); ("temperature_b", VInt 2)]], ["temperature_a"; "temperature_b"], ["temperature_b"; "temperature_a"].
  eexists. eexists. eexists. eexists.
  assert (forall k, In k ["temperature_a"; "temperature_b"] <-> exported [[("temperature_a", VInt 1); ("temperature_b", VInt 2)]] k) as E.
  { intros k. split.
    - intros [<- | [<- | []]]; (split; [intros o [<- | []]; cbn; auto | reflexivity]).
    - intros [A _]. specialize (A _ (or_introl eq_refl)). exact A. }
  split; [split; [repeat constructor; cbn; intuition discriminate | exact E] |].
  split; [split; [repeat constructor; cbn; intuition discriminate | intros k; rewrite <- E; cbn; tauto] |].
  split; [vm_compute; reflexivity |]. split; [vm_compute; reflexivity |].
  cbn. auto 10.
Qed.
