(** Assignments to grids that raise. *)
From Coq Require Import List ZArith Bool Lia ZifyBool.
From Verif Require Import Band_Model Band_Spec Band_Proofs Band_IndexModel Band_IndexSpec Band_IndexProofs Band_MaskProofs Grid_Model Grid_Spec Atom_Spec.
Import ListNotations.
Open Scope Z_scope.

Section G.
Variable V : Type.

Lemma item_unit n it col s e : 0 <= n -> parse_item n it = Ok (col, (s, e, 1)) -> 0 <= s <= n /\ 0 <= e <= n.
Proof.
  intros Hn. destruct it as [z | a b c |]; cbn [parse_item]; [| | discriminate].
  - destruct (n =? 0) eqn:E; [discriminate |]. intros H. injection H as <- <- <-. pose proof (Z.mod_pos_bound z n). lia.
  - destruct (slice_indices n a b c) as [[[s' e'] st] |] eqn:E; cbn [bind]; [| discriminate]. intros H. injection H as <- <- <- ->.
    destruct (slice_indices_spec n a b c s' e' 1 Hn E) as (_ & P & _). apply P. lia.
Qed.
Lemma bands_unit nb rest col ids : 0 <= nb -> parse_bands nb rest = Ok (col, ids) -> NoDup ids /\ forall k, In k ids -> 0 <= k < nb.
Proof.
  intros Hn. unfold parse_bands. destruct rest as [| [z | a b c |] [|]]; try discriminate.
  - intros H. injection H as <- <-. split; [apply NoDup_zrange |]. intros k I. apply in_zrange in I. lia.
  - destruct (nb =? 0) eqn:E; [discriminate |]. intros H. injection H as <- <-. split; [repeat constructor; intros [] |].
    intros k [<- | []]. pose proof (Z.mod_pos_bound z nb). lia.
  - destruct (slice_indices nb a b c) as [[[s e] st] |] eqn:E; cbn [bind]; [| discriminate]. intros H. injection H as <- <-.
    assert (S : selects nb (KSlice a b c) false (py_range s e st)) by (constructor; assumption).
    destruct (slice_indices_spec nb a b c s e st Hn E) as (N0 & _).
    split; [apply NoDup_py_range; assumption |]. intros k I. eapply selects_range; eassumption.
Qed.
Lemma planes_shape is_nd (value : nd V) h w b planes : val_array is_nd value h w b = Ok planes ->
  0 <= h /\ 0 <= w /\ forall i, nrow (planes i) = h /\ ncol (planes i) = w.
Proof.
  unfold val_array. destruct (is_nd && (Z.of_nat (length (shp value)) =? 1) && ((h =? w) && (w =? 1)))%bool eqn:E.
  - assert (h = 1 /\ w = 1) as [-> ->] by lia. unfold reshape_1_1. destruct (shp value) as [| n [|]]; try discriminate.
    destruct (n =? b); [| discriminate]. intros H. injection H as <-. split; [lia |]. split; [lia |]. intros i. split; reflexivity.
  - unfold broadcast_to. destruct ((h <? 0) || (w <? 0) || (b <? 0))%bool eqn:N; [discriminate |].
    destruct (shp (atleast_3d value)) as [| n0 [| n1 [| n2 [|]]]]; try discriminate.
    destruct (fits n0 h && fits n1 w && fits n2 b)%bool; [| discriminate]. intros H. injection H as <-. split; [lia |]. split; [lia |]. intros i. split; reflexivity.
Qed.
Lemma enumerate_snd {A} (l : list A) : map snd (enumerate l) = l.
Proof.
  unfold enumerate, zrange. rewrite Z.sub_0_r, Nat2Z.id. rewrite <- (map_length id l) at 1. rewrite map_length.
  generalize 0%nat. induction l as [| a l IH]; intros k; [reflexivity |]. cbn. f_equal. apply IH.
Qed.
Lemma stack_size (bands : list (band V)) H W F : stack_holds bands H W F -> 0 <= H /\ 0 <= W.
Proof.
  intros [N K]. destruct bands as [| b bands]; [congruence |]. destruct (K 0%nat b eq_refl) as (U & S & _).
  pose proof (usable_size V b U) as P. rewrite S in P. exact P.
Qed.
Lemma setitem_all (bands : list (band V)) H W F k is_nd value : stack_holds bands H W F ->
  match setitem bands k is_nd value with
  | (bands', Some _) => bands' = bands
  | (bands', None) => length bands' = length bands /\ exists F', stack_holds bands' H W F'
  end.
Proof.
  intros SH. destruct (stack_size _ _ _ _ SH) as [H0 W0]. unfold setitem.
  destruct (parse_key bands k) as [[[[cr [[ys ye] yst]] [cc [[xs xe] xst]]] [cb ids]] | e] eqn:E; [| reflexivity].
  destruct (negb ((xst =? yst) && (yst =? 1))) eqn:St; [reflexivity |]. assert (xst = 1 /\ yst = 1) as [-> ->] by lia.
  destruct (val_array is_nd value _ _ _) as [planes | e] eqn:Va; [| reflexivity].
  unfold parse_key in E. destruct (key_items k) as [items |]; cbn [bind] in E; [| discriminate].
  pose proof SH as [NE KB]. destruct bands as [| b0 rest]; [congruence |]. destruct (KB 0%nat b0 eq_refl) as (_ & S0 & _). rewrite S0 in E.
  destruct items as [| k0 [| k1 more]]; [discriminate | destruct (parse_item H k0); discriminate |].
  destruct (parse_item H k0) as [r |] eqn:E0; cbn [bind] in E; [| discriminate].
  destruct (parse_item W k1) as [c |] eqn:E1; cbn [bind] in E; [| discriminate].
  destruct (parse_bands _ more) as [bs |] eqn:E2; cbn [bind] in E; [| discriminate]. injection E as -> -> ->.
  apply item_unit in E0, E1; try assumption. apply bands_unit in E2 as [ND R]; [| lia].
  apply planes_shape in Va as (h0 & w0 & PS). unfold out_len in *. change (Z.abs 1) with 1 in *. rewrite !Z.div_1_r in *.
  destruct (write_planes_spec V (enumerate ids) (b0 :: rest) H W F ys xs (1 + (ye - ys - 1)) (1 + (xe - xs - 1)) planes SH) as (bands' & F' & -> & L & SH' & _).
  - unfold in_bounds. lia.
  - exact PS.
  - intros i ib I. apply R. rewrite <- (enumerate_snd ids). apply in_map_iff. exists (i, ib). split; [reflexivity | exact I].
  - rewrite enumerate_snd. exact ND.
  - split; [exact L |]. exists F'. exact SH'.
Qed.
Lemma setitem_raise (bands : list (band V)) H W F k is_nd value : stack_holds bands H W F ->
  unchanged_if_raised bands (setitem bands k is_nd value).
Proof. intros SH b' e E. pose proof (setitem_all bands H W F k is_nd value SH) as A. rewrite E in A. exact A. Qed.

Lemma mask_set_shape (A A' : arr V) h w m vs : mask_set A h w m vs = Ok A' -> nrow A' = nrow A /\ ncol A' = ncol A.
Proof.
  unfold mask_set. destruct ((h =? nrow A) && (w =? ncol A))%bool; [| discriminate]. destruct vs as [v | [| v [| v' vs]]].
  - intros E. injection E as <-. rewrite const_puts. apply puts_shape.
  - destruct (Nat.eqb _ _); [| discriminate]. intros E. injection E as <-. apply puts_shape.
  - intros E. injection E as <-. rewrite const_puts. apply puts_shape.
  - destruct (Nat.eqb _ _); [| discriminate]. intros E. injection E as <-. apply puts_shape.
Qed.
Lemma mask_set_same (A B : arr V) h w m vs : nrow A = nrow B -> ncol A = ncol B ->
  match mask_set A h w m vs, mask_set B h w m vs with Ok _, Ok _ | Err _, Err _ => True | _, _ => False end.
Proof.
  intros R C. unfold mask_set. rewrite R, C. destruct ((h =? nrow B) && (w =? ncol B))%bool; [| exact I].
  destruct vs as [v | [| v [| v' vs]]]; try exact I; destruct (Nat.eqb _ _); exact I.
Qed.
Lemma mask_band_raise junk (b : band V) H W f i m value : holds b H W f -> unchanged_if_raised b (mask_band junk b i m value).
Proof.
  intros Hb b' e. pose proof Hb as (U & S & G). unfold mask_band. rewrite S.
  assert (SZ : 0 <= H /\ 0 <= W) by (pose proof (usable_size V b U) as P; rewrite S in P; exact P).
  destruct (G junk 0 0 H W) as (tmp & Et & R1 & R2 & _); [unfold in_bounds; lia |]. rewrite Et.
  assert (K : forall h w mm vs, match mask_set tmp h w mm vs with Ok t => setblock b 0 0 t | Err x => (b, Some x) end = (b', Some e) -> b' = b).
  { intros h w mm vs. destruct (mask_set tmp h w mm vs) as [t |] eqn:E; [| congruence]. destruct (mask_set_shape _ _ _ _ _ _ E) as [N1 N2].
    destruct (setblock_holds V b H W f 0 0 t Hb) as (b2 & -> & _); [unfold in_bounds; lia |]. discriminate. }
  destruct (match value with MReal v => Ok (inl v) | M1 vs => Ok (inr vs) | M2 rows => bind (column rows i) (fun c => Ok (inr c)) end) as [vs |];
    destruct m as [h w m2 | h w nb m3 |]; cbn [bind]; try congruence.
  - apply K.
  - destruct (py_index nb (Z.of_nat i)); cbn [bind]; [apply K | congruence].
  - destruct (py_index nb (Z.of_nat i)); cbn [bind]; congruence.
Qed.
Lemma one_band_raise junk (bands : list (band V)) H W F m value : stack_holds bands H W F -> length bands = 1%nat ->
  unchanged_if_raised bands (set_mask junk bands m value).
Proof.
  intros [_ K] L b' e. destruct bands as [| b [|]]; try discriminate. unfold set_mask. cbn [mask_bands].
  pose proof (mask_band_raise junk b H W _ 0 m value (K 0%nat b eq_refl)) as A. destruct (mask_band junk b 0 m value) as [b2 [x |]]; [| discriminate].
  intros E. injection E as <- <-. rewrite (A b2 x eq_refl). reflexivity.
Qed.

Lemma real_ok (A : arr V) h w m v : (exists t, mask_set A h w m (inl v) = Ok t) <-> h = nrow A /\ w = ncol A.
Proof.
  unfold mask_set. destruct ((h =? nrow A) && (w =? ncol A))%bool eqn:E; split; intros H.
  - lia.
  - eexists; reflexivity.
  - destruct H; discriminate.
  - lia.
Qed.
Lemma alike_step junk (b c : band V) H W f g i j m value nb b' c' e : holds b H W f -> holds c H W g -> alike m value nb -> Z.of_nat i < nb -> Z.of_nat j < nb ->
  mask_band junk b i m value = (b', None) -> mask_band junk c j m value = (c', Some e) -> False.
Proof.
  intros Hb Hc Al Hi Hj. pose proof Hb as (U & S & G). pose proof Hc as (U2 & S2 & G2).
  assert (SZ : 0 <= H /\ 0 <= W) by (pose proof (usable_size V b U) as P; rewrite S in P; exact P).
  destruct (G junk 0 0 H W) as (t1 & Et & R1 & R2 & _); [unfold in_bounds; lia |]. destruct (G2 junk 0 0 H W) as (t2 & Et2 & Q1 & Q2 & _); [unfold in_bounds; lia |].
  unfold mask_band. rewrite S, S2, Et, Et2.
  assert (K : forall h w m1 m2 vs, match mask_set t1 h w m1 vs, mask_set t2 h w m2 vs with Ok _, Ok _ | Err _, Err _ => True | _, _ => False end ->
     match mask_set t1 h w m1 vs with Ok t => setblock b 0 0 t | Err x => (b, Some x) end = (b', None) ->
     match mask_set t2 h w m2 vs with Ok t => setblock c 0 0 t | Err x => (c, Some x) end = (c', Some e) -> False).
  { intros h w m1 m2 vs Sm. destruct (mask_set t1 h w m1 vs) eqn:E1, (mask_set t2 h w m2 vs) as [t |] eqn:E2; try contradiction; [| discriminate].
    intros _. destruct (mask_set_shape _ _ _ _ _ _ E2) as [N1 N2]. destruct (setblock_holds V c H W g 0 0 t Hc) as (b2 & -> & _); [unfold in_bounds; lia |]. discriminate. }
  destruct m as [h w m2 | h w n m3 |]; cbn [alike] in Al; [| | discriminate].
  - destruct value as [v | vs | rows]; [| | contradiction]; cbn [bind]; apply K, mask_set_same; congruence.
  - destruct value as [v | vs | rows]; [| contradiction | contradiction]. rewrite !py_index_in by lia. cbn [bind]. apply K.
    destruct (mask_set t1 h w (fun y x => m3 y x (Z.of_nat i)) (inl v)) as [u1 | x1] eqn:E1, (mask_set t2 h w (fun y x => m3 y x (Z.of_nat j)) (inl v)) as [u2 | x2] eqn:E2; try exact I.
    + assert (X : exists t, mask_set t2 h w (fun y x => m3 y x (Z.of_nat j)) (inl v) = Ok t); [| destruct X; congruence].
      apply real_ok. assert (Y : h = nrow t1 /\ w = ncol t1) by (eapply real_ok; eexists; exact E1). lia.
    + assert (X : exists t, mask_set t1 h w (fun y x => m3 y x (Z.of_nat i)) (inl v) = Ok t); [| destruct X; congruence].
      apply real_ok. assert (Y : h = nrow t2 /\ w = ncol t2) by (eapply real_ok; eexists; exact E2). lia.
Qed.
Lemma alike_bands junk (bands : list (band V)) : forall c H W g F i j m value nb c', (forall k b, nth_error bands k = Some b -> holds b H W (F k)) -> holds c H W g -> alike m value nb ->
  Z.of_nat (i + length bands) <= nb -> Z.of_nat j < nb -> mask_band junk c j m value = (c', None) -> snd (mask_bands junk bands i m value) = None.
Proof.
  induction bands as [| b bands IH]; intros c H W g F i j m value nb c' K Hc Al Hi Hj E; [reflexivity |]. cbn [mask_bands length] in *.
  destruct (mask_band junk b i m value) as [b' [e |]] eqn:Eb.
  - exfalso. apply (alike_step junk c b H W g (F 0%nat) j i m value nb c' b' e); try assumption; [apply K; reflexivity | lia].
  - assert (X : snd (mask_bands junk bands (S i) m value) = None).
    { apply (IH c H W g (fun k => F (S k)) (S i) j m value nb c'); try assumption; [intros k d Ed; apply K; exact Ed | lia]. }
    destruct (mask_bands junk bands (S i) m value). exact X.
Qed.
Lemma mask_raise junk (bands : list (band V)) H W F m value : stack_holds bands H W F -> alike m value (Z.of_nat (length bands)) ->
  unchanged_if_raised bands (set_mask junk bands m value).
Proof.
  intros [NE K] Al b' e. destruct bands as [| b bands]; [congruence |]. unfold set_mask. cbn [mask_bands].
  pose proof (mask_band_raise junk b H W _ 0 m value (K 0%nat b eq_refl)) as A. destruct (mask_band junk b 0 m value) as [b2 [x |]] eqn:Eb.
  - intros E. injection E as <- <-. rewrite (A b2 x eq_refl). reflexivity.
  - assert (X : snd (mask_bands junk bands 1 m value) = None).
    { apply (alike_bands junk bands b H W (F (Z.of_nat 0)) (fun k => F (Z.of_nat (S k))) 1 0 m value (Z.of_nat (length (b :: bands))) b2); try assumption; try (cbn [length]; lia).
      - intros k d Ed. apply (K (S k)). exact Ed.
      - apply K. reflexivity. }
    destruct (mask_bands junk bands 1 m value) as [r [y |]]; [discriminate | discriminate].
Qed.
Lemma apply_raise junk isnan veq (g : grid V) T H W F nodata func : grid_is g T H W 1 F nodata ->
  unchanged_if_raised g (apply junk isnan veq g func).
Proof.
  intros (_ & SH & L & _) g' e. unfold apply. destruct (data_mask_full junk isnan veq g) as [m |]; [| congruence].
  destruct (get_mask junk (gbands g) m) as [[|] |]; try congruence.
  pose proof (one_band_raise junk (gbands g) H W F m (M1 (func l)) SH ltac:(lia)) as A. destruct (set_mask junk (gbands g) m (M1 (func l))) as [bands x].
  intros E. injection E as <- ->. rewrite (A bands e eq_refl). destruct g; reflexivity.
Qed.
End G.
