(** The life of a tree in memory: construction, searches, destruction. *)
From Coq Require Import List ZArith Bool Lia Permutation.
From Verif Require Import QuadTree_Model QuadTree_Spec QuadTree_Proofs QMem_Model QMem_Spec QMem_Base QMem_Split QMem_Insert QMem_Search.
Import ListNotations.

Section Build.
Context {num : Type} (ltb eqb : num -> num -> bool) (mid : num -> num -> num) (cap : Z).
Hypothesis L : coordinate_laws ltb eqb mid.
Notation heapn := (heap num).
Notation rep := (rep cap).
Local Tactic Notation "step" tactic3(t) := erewrite seq_done by t; cbv beta iota.

(** The memory holds the tree, the blocks [lost] and nothing else. *)
Definition owns (h : heapn) t a f lost : Prop :=
  rep h t a None f /\ NoDup f /\ fresh h /\ (forall x, In x lost -> at_ h x <> None /\ ~ In x f) /\
  (forall x, ~ In x f -> ~ In x lost -> at_ h x = None).

Lemma step_ok fuel t t' d p : (1 <= cap)%Z ->
  QuadTree_Model.qt_insert ltb eqb mid fuel cap t p = Ok (t', d) ->
  Inv ltb mid t -> in_bb ltb (tree_bbox t) p -> leaves_below cap t -> forall fd h a f, depth t <= fd -> owns h t a f [] ->
  exists h' o r f', (seq_ (qt_new_position (pid p) (px p) (py p)) (fun pos => seq_ (load pos) (fun b =>
     match b with
     | Posn p => seq_ (qt_insert ltb eqb mid cap fuel fd true a p) (fun r => seq_ (free pos) (fun _ => ret r))
     | _ => bad end))) h = Done (o, d) h' /\ (d <> None -> r = a) /\ match o with Some r' => r' = r | None => r = a end /\ owns h' t' r f' [].
Proof.
  intros C1 E IV IB LV fd h a f HD (R & ND & FR & _ & EX).
  unfold qt_new_position. destruct (malloc_ok (Posn (mkPos (pid p) (px p) (py p))) h _ FR eq_refl) as (h1 & R1 & N1 & F1 & A1 & X1).
  assert (NF : ~ In (next h) f).
  { intros K. apply (rep_live cap h t _ _ _ _ R K). apply FR. lia. }
  step (exact R1). step (apply load_ok; exact A1).
  replace (mkPos (pid p) (px p) (py p)) with p in * by now destruct p.
  destruct (insert_sim ltb eqb mid cap L fuel p C1 t h1 a None f true fd UPPERLEFT t' d E) as
    (h2 & o & r & f' & R2 & O2 & D2 & RP2 & ND2 & F2 & NX2 & FF2 & FX2 & FZ2 & _); auto.
  { apply rep_ext with (h := h); [|exact R]. intros x Hx. apply X1. congruence. }
  { exact I. }
  step (exact R2).
  assert (P2 : at_ h2 (next h) = Some (Posn p)).
  { rewrite FX2; [exact A1|lia|exact NF|discriminate]. }
  step (eapply free_at; exact P2).
  exists (del h2 (next h)), o, r, f'. split; [reflexivity|]. split; [intros K; apply D2, K|]. split; [exact O2|].
  assert (NF' : ~ In (next h) f').
  { intros K. destruct (FF2 _ K) as [K'|K']; [contradiction|lia]. }
  split; [|split; [exact ND2|split; [|split; [intros x []|]]]].
  - apply rep_ext with (h := h2); [|exact RP2]. intros x Hx. cbn. rewrite upd_other; [reflexivity|congruence].
  - intros x Hx. cbn in *. apply upd_none, F2, Hx.
  - intros x Hx _. cbn. destruct (Nat.eq_dec x (next h)) as [->|N]; [apply upd_same|]. rewrite upd_other by exact N.
    destruct (in_dec Nat.eq_dec x f) as [K|K]; [apply FZ2; auto|].
    destruct (le_lt_dec (next h1) x) as [G|G]; [apply FZ2; auto|]. rewrite FX2 by (auto; discriminate). rewrite X1 by exact N. apply EX; auto.
Qed.

Lemma loop_sim fuel : (1 <= cap)%Z -> forall rest i t d qt, 
  Inv ltb mid t -> leaves_below cap t -> (forall x y, In (x, y) rest -> forall j, in_bb ltb (tree_bbox t) (mkPos j x y)) ->
  build_loop ltb eqb mid fuel cap i (numbers rest) t d = Ok qt ->
  exists d0, depth (root qt) <= d0 /\ forall fd, d0 <= fd -> forall h a f suf, owns h t a f [] ->
  exists h' a' f', cinit_loop ltb eqb mid cap fuel fd i (numbers rest ++ suf) a d h =
    cinit_loop ltb eqb mid cap fuel fd (count qt) suf a' (duplicates qt) h' /\ owns h' (root qt) a' f' [].
Proof.
  intros C1 rest. induction rest as [|[x y] rest IH]; intros i t d qt IV LV IB E.
  - cbn in E. injection E as <-. cbn [root duplicates count]. exists (depth t). split; [lia|]. intros fd _ h a f suf X.
    exists h, a, f. split; [reflexivity|exact X].
  - cbn [numbers map build_loop fst snd] in E. fold (numbers rest) in E.
    assert (IBp : in_bb ltb (tree_bbox t) (mkPos i x y)) by (apply IB; now left).
    pose proof (insert_spec ltb eqb mid L fuel cap t (mkPos i x y) C1 IV IBp) as SP.
    assert (EB : forall r, QuadTree_Model.qt_insert ltb eqb mid fuel cap t (mkPos i x y) = r ->
      bind r (fun r => match snd r with
                     | Some j => build_loop ltb eqb mid fuel cap (S i) (numbers rest) t (dup_add d j i)
                     | None => build_loop ltb eqb mid fuel cap (S i) (numbers rest) (fst r) d
                     end) = Ok qt) by (intros r <-; exact E). clear E.
    destruct (QuadTree_Model.qt_insert ltb eqb mid fuel cap t (mkPos i x y)) as [[t' o]| | |] eqn:EI; specialize (EB _ eq_refl);
      cbn [bind fst snd] in EB; try discriminate. rename EB into E.
    assert (K : exists d0, depth (root qt) <= d0 /\ forall fd, d0 <= fd -> forall h a f suf, owns h t' a f [] ->
       exists h' a' f', cinit_loop ltb eqb mid cap fuel fd (S i) (numbers rest ++ suf) a (match o with Some j => dup_add d j i | None => d end) h =
         cinit_loop ltb eqb mid cap fuel fd (count qt) suf a' (duplicates qt) h' /\ owns h' (root qt) a' f' []).
    { cbn [insert_ok] in SP. destruct o as [j|].
      - destruct SP as (-> & _). apply (IH (S i) t (dup_add d j i) qt IV LV); [|exact E]. intros x' y' Hx' j'. apply IB. now right.
      - destruct SP as (IV' & BB' & _ & _ & LV'). apply (IH (S i) t' d qt IV' (LV' LV)); [|exact E]. intros x' y' Hx' j'. rewrite BB'. apply IB. now right. }
    destruct K as (d0 & DD & K). exists (Nat.max (depth t) d0). split; [lia|]. intros fd Hfd h a f suf X.
    destruct (step_ok fuel t t' o (mkPos i x y) C1 EI IV IBp LV fd h a f ltac:(lia) X) as (h' & o' & r & f' & R & D & O & X').
    destruct (K fd ltac:(lia) h' r f' suf X') as (h2 & a2 & f2 & R2 & X2).
    exists h2, a2, f2. split; [|exact X2]. rewrite <- R2. cbn [numbers map app cinit_loop fst snd]. fold (numbers rest).
    cbn [pid px py] in R. clear - R D O.
    unfold seq_ in R |- *. destruct (qt_new_position i x y h) as [pos h1| | |]; try discriminate.
    destruct (load pos h1) as [b h3| | |]; try discriminate. destruct b; try discriminate.
    destruct (qt_insert ltb eqb mid cap fuel fd true a p h3) as [rr h4| | |]; try discriminate.
    destruct (free pos h4) as [u h5| | |]; try discriminate. unfold ret in R. injection R as -> ->.
    destruct o as [j|]; [|destruct o' as [r'|]; cbn in O; subst; reflexivity].
    rewrite D by discriminate. now destruct o'.
Qed.

Lemma new_exact bb h0 : fresh h0 -> (forall x, at_ h0 x = None) ->
  exists h' r f, (seq_ (qt_new_bbox bb) (qt_new_leaf cap)) h0 = Done r h' /\ owns h' (Leaf bb []) r f [].
Proof.
  intros F Z. unfold qt_new_bbox. destruct (malloc_ok (Box bb) h0 _ F eq_refl) as (h1 & R1 & N1 & F1 & A1 & X1).
  step (exact R1). destruct (new_leaf_ok cap (next h0) h1 _ F1 eq_refl) as (h2 & R2 & N2 & F2 & A2 & B2 & X2).
  exists h2, (S (next h1)), [S (next h1); next h0; next h1]. split; [exact R2|].
  split; [|split; [|split; [exact F2|split; [intros x []|]]]].
  - exists (next h0), (next h1). split; [reflexivity|]. split; [exact B2|].
    split; [rewrite X2 by lia; exact A1|]. exists (repeat None (Z.to_nat (cap + 1))). split; [exact A2|].
    split; [apply repeat_length|reflexivity].
  - repeat constructor; cbn; lia.
  - intros x Hx _. cbn [In] in Hx. rewrite X2 by lia. rewrite X1 by lia. apply Z.
Qed.

Lemma empty_fresh : fresh (@empty num). Proof. intros x _. reflexivity. Qed.

(** Construction, then [suf]. *)
Lemma cinit_sim fuel bb pts qt : encloses ltb bb pts -> build ltb eqb mid fuel cap bb (numbers pts) = Ok qt ->
  exists d0, size (root qt) <= d0 /\ depth (root qt) <= d0 /\ forall fd, d0 <= fd -> forall suf,
  exists h' a' f', cinit ltb eqb mid cap fuel fd bb (numbers pts ++ suf) empty =
    cinit_loop ltb eqb mid cap fuel fd (count qt) suf a' (duplicates qt) h' /\ owns h' (root qt) a' f' [].
Proof.
  intros EN E. destruct (new_exact bb empty empty_fresh (fun _ => eq_refl)) as (h0 & r & f & R0 & X0).
  assert (C0 : forall fd pts', cinit ltb eqb mid cap fuel fd bb pts' empty = cinit_loop ltb eqb mid cap fuel fd 0 pts' r [] h0).
  { intros fd pts'. unfold cinit. rewrite <- seq_assoc. step (exact R0). reflexivity. }
  destruct pts as [|p pts'] eqn:EP.
  - cbn in E. injection E as <-. cbn [root duplicates count]. exists 1. split; [cbn; lia|]. split; [cbn; lia|]. intros fd _ suf.
    exists h0, r, f. split; [apply C0|exact X0].
  - rewrite <- EP in *. assert (C2 : (2 <= cap)%Z).
    { destruct (build_Ok_cap ltb eqb mid fuel cap bb pts qt E) as [K|K]; [congruence|exact K]. }
    assert (W : wf_bb ltb bb) by (eapply encloses_wf; [exact L|exact EN|congruence]).
    destruct (loop_sim fuel ltac:(lia) pts 0 (Leaf bb []) [] qt) as (d0 & DD & K).
    { split; [exact W|constructor]. } { cbn. lia. }
    { intros x y Hx j. exact (EN x y Hx). }
    { exact E. }
    exists (Nat.max (size (root qt)) d0). split; [lia|]. split; [lia|]. intros fd Hfd suf.
    destruct (K fd ltac:(lia) h0 r f suf X0) as (h' & a' & f' & R' & X'). exists h', a', f'. split; [|exact X']. rewrite C0. exact R'.
Qed.

Lemma searches_sim t fuel o : size t <= fuel -> forall qs h f lost, owns h t (oroot o) f lost -> NoDup lost ->
  exists h' lost', searches ltb fuel o qs h = Done (map (fun q => expand (odups o) (QuadTree_Model.qt_search_within ltb t q)) qs) h' /\
    owns h' t (oroot o) f lost' /\ NoDup lost' /\ length lost' = length lost + 2 * length qs.
Proof.
  intros SZ qs. induction qs as [|q qs IH]; intros h f lost X ND.
  - exists h, lost. split; [reflexivity|]. split; [exact X|]. split; [exact ND|]. cbn; lia.
  - destruct X as (R & NF & FR & LO & EX).
    destruct (search_ok ltb cap fuel h o t f q None FR R SZ) as (h1 & l1 & l2 & R1 & F1 & G1 & G2 & D & V1 & V2 & NX & OLD & NEW).
    assert (LT : forall x, at_ h x <> None -> x < next h).
    { intros x K. destruct (le_lt_dec (next h) x) as [J|J]; [exfalso; apply K, FR, J|exact J]. }
    assert (LTF : forall x, In x f -> x < next h) by (intros x Hx; apply LT; eapply rep_live; eassumption).
    assert (LTL : forall x, In x lost -> x < next h) by (intros x Hx; apply LT; now apply LO).
    destruct (IH h1 f (l1 :: l2 :: lost)) as (h' & lost' & R' & X' & ND' & LE').
    + split; [|split; [exact NF|split; [exact F1|split]]].
      * apply rep_ext with (h := h); [|exact R]. intros x Hx. apply OLD, LTF, Hx.
      * intros x [<- | [<- | Hx]].
        -- split; [exact V1|]. intros K. apply LTF in K. lia.
        -- split; [exact V2|]. intros K. apply LTF in K. lia.
        -- rewrite OLD by (apply LTL, Hx). now apply LO.
      * intros x Hx Hl. cbn [In] in Hl. destruct (le_lt_dec (next h) x) as [J|J].
        -- apply NEW; [exact J| |]; intros ->; tauto.
        -- rewrite OLD by exact J. apply EX; tauto.
    + constructor; [|constructor; [|exact ND]].
      * cbn [In]. intros [K|K]; [congruence|]. apply LTL in K. lia.
      * intros K. apply LTL in K. lia.
    + exists h', lost'. cbn [searches]. step (exact R1). step (exact R'). split; [reflexivity|]. split; [exact X'|].
      split; [exact ND'|]. rewrite LE'. cbn [length]. lia.
Qed.

Lemma live_lost h lost : fresh h -> NoDup lost -> (forall x, In x lost <-> at_ h x <> None) -> Permutation (@live num h) lost.
Proof.
  intros F ND H. apply NoDup_Permutation; [apply NoDup_filter, seq_NoDup|exact ND|]. intros x. unfold live. rewrite filter_In, in_seq, H.
  split.
  - intros (_ & K). destruct (at_ h x); discriminate.
  - intros K. split.
    + split; [lia|]. destruct (le_lt_dec (next h) x) as [J|J]; [exfalso; apply K, F, J|cbn; lia].
    + destruct (at_ h x); congruence.
Qed.

Lemma dealloc_sim h t o f lost fd : owns h t (oroot o) f lost -> NoDup lost -> depth t <= fd ->
  exists h', dealloc fd o h = Done tt h' /\ length (live h') = length lost.
Proof.
  intros (R & NF & FR & LO & EX) ND HD. unfold dealloc.
  destruct (free_ok cap t fd h (oroot o) None f R NF HD) as (h' & R' & N' & Z' & O').
  exists h'. split; [exact R'|]. apply Permutation_length, live_lost; [|exact ND|].
  - intros x Hx. destruct (in_dec Nat.eq_dec x f) as [K|K]; [apply Z', K|]. rewrite O' by exact K. apply FR. lia.
  - intros x. split.
    + intros K. destruct (LO x K) as (K1 & K2). rewrite O' by exact K2. exact K1.
    + intros K. destruct (in_dec Nat.eq_dec x lost) as [J|J]; [exact J|]. exfalso. apply K.
      destruct (in_dec Nat.eq_dec x f) as [K1|K1]; [apply Z', K1|]. rewrite O' by exact K1. apply EX; assumption.
Qed.

Lemma life_sim fuel bb pts qt : encloses ltb bb pts -> build ltb eqb mid fuel cap bb (numbers pts) = Ok qt ->
  exists d0, forall fd, d0 <= fd -> forall qs, exists h,
    life ltb eqb mid cap fuel fd bb (numbers pts) qs empty = Done (inr (map (search_within ltb qt) qs)) h /\
    length (live h) = 2 * length qs.
Proof.
  intros EN E. destruct (cinit_sim fuel bb pts qt EN E) as (d0 & S0 & D0 & K). exists d0. intros fd Hfd qs.
  destruct (K fd Hfd []) as (h1 & a & f & R1 & X1). rewrite app_nil_r in R1. cbn [cinit_loop] in R1.
  unfold life. step (exact R1). cbn [snd fst].
  destruct (searches_sim (root qt) fd (mkO a (duplicates qt) (count qt)) ltac:(lia) qs h1 f []) as (h2 & lost & R2 & X2 & ND2 & LE2);
    [exact X1|constructor|].
  step (exact R2). destruct (dealloc_sim h2 (root qt) _ f lost fd X2 ND2 ltac:(lia)) as (h3 & R3 & LE3).
  step (exact R3). exists h3. split; [reflexivity|]. rewrite LE3, LE2. reflexivity.
Qed.

Lemma life_nan fuel bb pre qt x y rest : x = PNaN \/ y = PNaN -> encloses ltb bb pre ->
  build ltb eqb mid fuel cap bb (numbers pre) = Ok qt ->
  exists d0, forall fd, d0 <= fd -> forall qs, exists h,
    life ltb eqb mid cap fuel fd bb (numbers pre ++ (x, y) :: rest) qs empty = Done (inl (length pre)) h /\ live h = [].
Proof.
  intros NA EN E. destruct (cinit_sim fuel bb pre qt EN E) as (d0 & S0 & D0 & K). exists d0. intros fd Hfd qs.
  assert (CT : count qt = length pre) by apply (build_observe ltb eqb mid L fuel cap bb pre qt EN E).
  destruct (K fd Hfd ((x, y) :: rest)) as (h1 & a & f & R1 & X1).
  assert (R2 : cinit ltb eqb mid cap fuel fd bb (numbers pre ++ (x, y) :: rest) empty = Done (mkO a [] 0, Some (length pre)) h1).
  { rewrite R1, CT. destruct NA as [-> | ->]; [reflexivity|destruct x; reflexivity]. }
  unfold life. step (exact R2). cbn [snd fst].
  destruct (dealloc_sim h1 (root qt) (mkO a [] 0) f [] fd X1 (NoDup_nil _) ltac:(lia)) as (h3 & R3 & LE3).
  step (exact R3). exists h3. split; [reflexivity|]. now apply length_zero_iff_nil.
Qed.
End Build.
