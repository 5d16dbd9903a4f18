(** Inserting into the tree in memory does what QuadTree_Model does; building
    leaves the blocks of the tree and no others. *)
From Coq Require Import List ZArith Bool Lia Permutation.
From Verif Require Import QuadTree_Model QuadTree_Spec QuadTree_Proofs QMem_Model QMem_Spec QMem_Base QMem_Split.
Import ListNotations.

Section Insert.
Context {num : Type} (ltb eqb : num -> num -> bool) (mid : num -> num -> num) (cap : Z).
Hypothesis L : coordinate_laws ltb eqb mid.
Notation heapn := (heap num).
Notation getq := (get_quadrant ltb mid).
Notation cbb := (child_bbox mid).
Notation distr := (distribute ltb mid).
Notation leafat := (leafat cap).
Notation rep := (rep cap).
Notation linkq := (link_quadrant ltb mid).
Local Tactic Notation "step" tactic3(t) := erewrite seq_done by t; cbv beta iota.

Lemma isdup_ok (h : heapn) ap cs ps p : at_ h ap = Some (Cells cs) -> holds cap cs ps ->
  forall rem pre, ps = pre ++ rem -> isdup_loop eqb (length rem) (length pre) ap p h = Done (isduplicate eqb rem p) h.
Proof.
  intros A H rem. induction rem as [|c rem IH]; intros pre E; [reflexivity|]. cbn [length isdup_loop isduplicate].
  step (eapply get_cell_ok; [exact A|exact H|]; rewrite E, nth_error_app2, Nat.sub_diag by lia; reflexivity).
  destruct (eqb (px p) (px c) && eqb (py p) (py c)); [reflexivity|].
  specialize (IH (pre ++ [c])). rewrite app_length, Nat.add_comm in IH. apply IH. now rewrite <- app_assoc.
Qed.

(** The child of QuadTree_Model's insertion. *)
Lemma insert_node fuel bb t1 t2 t3 t4 p t' d :
  QuadTree_Model.qt_insert ltb eqb mid fuel cap (Node bb t1 t2 t3 t4) p = Ok (t', d) ->
  let q := getq bb (px p) (py p) in let c := get_child t1 t2 t3 t4 q in
  exists c', QuadTree_Model.qt_insert ltb eqb mid fuel cap c p = Ok (c', d) /\ t' = set_child (Node bb t1 t2 t3 t4) q c' /\
    match c, c' with Leaf b _, Node _ _ _ _ _ => linkq bb b = q | _, _ => True end.
Proof.
  cbn [QuadTree_Model.qt_insert]. cbv zeta. set (q := getq bb (px p) (py p)).
  assert (STEP : forall c, bind (QuadTree_Model.qt_insert ltb eqb mid fuel cap c p)
             (fun r => match c, fst r with
                       | Leaf cbb _, Node _ _ _ _ _ =>
                           if quadrant_eqb (linkq bb cbb) q
                           then Ok (set_child (Node bb t1 t2 t3 t4) q (fst r), snd r)
                           else DanglingPointer
                       | _, _ => Ok (set_child (Node bb t1 t2 t3 t4) q (fst r), snd r)
                       end) = Ok (t', d) ->
     exists c', QuadTree_Model.qt_insert ltb eqb mid fuel cap c p = Ok (c', d) /\ t' = set_child (Node bb t1 t2 t3 t4) q c' /\
       match c, c' with Leaf b _, Node _ _ _ _ _ => linkq bb b = q | _, _ => True end).
  { intros c. destruct (QuadTree_Model.qt_insert ltb eqb mid fuel cap c p) as [[c' o]| | |]; cbn [bind fst snd]; try discriminate.
    destruct c as [b l|b c1 c2 c3 c4].
    - destruct c' as [b' l'|b' e1 e2 e3 e4].
      + intros [= <- <-]. eauto.
      + destruct (quadrant_eqb (linkq bb b) q) eqn:Q; [|discriminate]. apply quadrant_eqb_eq in Q.
        intros E. exists (Node b' e1 e2 e3 e4).
        match type of E with Ok (?x, _) = _ => assert (x = t' /\ o = d) as (<- & <-) by (split; congruence) end. auto.
    - intros E. exists c'.
      match type of E with Ok (?x, _) = _ => assert (x = t' /\ o = d) as (<- & <-) by (split; congruence) end. auto. }
  destruct q; cbn [get_child]; apply STEP.
Qed.

Definition insert_done (h : heapn) (first : bool) a par f t' d (q0 : quadrant) (res : run num (option nat * option nat)) : Prop :=
  exists h' o r f', res = Done (o, d) h' /\ (if first then match o with Some r' => r' = r | None => r = a end else o = None) /\
    (d <> None -> h' = h /\ r = a /\ f' = f) /\
    rep h' t' r par f' /\ NoDup f' /\ fresh h' /\ next h <= next h' /\
    (forall x, In x f' -> In x f \/ next h <= x) /\
    (forall x, x < next h -> ~ In x f -> par <> Some x -> at_ h' x = at_ h x) /\
    (forall x, In x f \/ next h <= x -> ~ In x f' -> at_ h' x = None) /\
    gp_ok h par f (fun gb gbb kk => forall g, par = Some g -> at_ h' g = Some (nodeb gb (setkid kk q0 r))).

Lemma insert_sim fuel p : (1 <= cap)%Z -> forall t h a par f first fd q0 t' d,
  QuadTree_Model.qt_insert ltb eqb mid fuel cap t p = Ok (t', d) ->
  rep h t a par f -> NoDup f -> fresh h -> Inv ltb mid t -> in_bb ltb (tree_bbox t) p -> leaves_below cap t -> depth t <= fd ->
  gp_ok h par f (fun gb gbb kk => kk q0 = Some a /\ match t, t' with Leaf b _, Node _ _ _ _ _ => linkq gbb b = q0 | _, _ => True end) ->
  insert_done h first a par f t' d q0 (qt_insert ltb eqb mid cap fuel fd first a p h).
Proof.
  intros C1 t. induction t as [bb ps|bb t1 t2 t3 t4 IH] using tree_kids;
    intros h a par f first fd q0 t' d E R ND FR INV INB LV HD GP; (destruct fd as [|fd]; [cbn in HD; lia|]).
  - destruct R as (ab & ap & -> & LF). destruct LF as (LA & LB & cs & LC & LH).
    assert (N3 : a <> ab /\ a <> ap /\ ab <> ap).
    { rewrite !NoDup_cons_iff in ND. cbn [In] in ND. intuition congruence. }
    destruct N3 as (D1 & D2 & D3).
    cbn [qt_insert]. step (eapply is_leaf_leaf; exact LA). step (apply load_leaf_ok; exact LA).
    step (apply (isdup_ok h ap cs ps p LC LH ps []); reflexivity).
    assert (KEEP : forall h1, (forall x, x <> a -> x <> ap -> at_ h1 x = at_ h x) ->
       gp_ok h par [a; ab; ap] (fun gb gbb kk => forall g, par = Some g -> at_ h1 g = Some (nodeb gb (setkid kk q0 a)))).
    { intros h1 X1. destruct par as [g|]; [|exact I]. destruct GP as (gb & gbb & kk & K1 & K2 & K3 & K4 & K5 & K6 & _).
      exists gb, gbb, kk. repeat (split; [assumption|]). intros g0 [= <-].
      rewrite X1 by (intros ->; apply K3; cbn; auto). rewrite K1. f_equal. apply nodeb_ext. intros q'. unfold setkid.
      destruct (quadrant_eqb q' q0) eqn:Q; [|reflexivity]. apply quadrant_eqb_eq in Q. now subst q'. }
    cbn [QuadTree_Model.qt_insert] in E. destruct (isduplicate eqb ps p) as [j|] eqn:DU.
    + injection E as <- <-. exists h, None, a, [a; ab; ap]. split; [reflexivity|]. split; [now destruct first|].
      split; [auto|].
      split; [exists ab, ap; split; [reflexivity|]; split; [exact LA|]; split; [exact LB|]; exists cs; auto|].
      split; [exact ND|]. split; [exact FR|]. split; [lia|]. split; [auto|]. split; [auto|]. split.
      * intros x [Hx|Hx] Hx'; [contradiction|]. now apply FR.
      * apply KEEP. reflexivity.
    + cbn [leaves_below] in LV.
      destruct (push_ok cap h a par bb ps ab ap p) as (h1 & P1 & P2 & P3 & P4); auto.
      { split; [exact LA|]. split; [exact LB|]. exists cs. auto. }
      { lia. }
      step (exact P1). step (eapply is_full_ok; exact P3).
      assert (FR1 : fresh h1).
      { intros x Hx. rewrite P2 in Hx. rewrite P4; [now apply FR| |]; intros ->;
          [rewrite (FR a Hx) in LA|rewrite (FR ap Hx) in LC]; discriminate. }
      assert (R1 : rep h1 (Leaf bb (ps ++ [p])) a par [a; ab; ap]) by (exists ab, ap; auto).
      destruct (full cap (ps ++ [p])) eqn:FU.
      * destruct (QuadTree_Model.qt_split ltb mid fuel cap bb (ps ++ [p])) as [ts| | |] eqn:ES; cbn [bind] in E; try discriminate.
        injection E as <- <-. cbn [Inv tree_bbox] in INV, INB.
        assert (NB : exists u1 u2 u3 u4, ts = Node bb u1 u2 u3 u4).
        { pose proof (split_spec ltb eqb mid L fuel cap bb (ps ++ [p]) C1 (proj1 INV)) as SP.
          rewrite ES in SP. cbn in SP. apply SP. apply Forall_app. split; [apply INV|now constructor]. }
        destruct (split_sim ltb eqb mid cap L fuel h1 a par bb (ps ++ [p]) ts [a; ab; ap]) as (h2 & r & f' & S1 & S2 & S3 & S4 & S5 & S6 & S7 & S8 & S9); auto.
        { rewrite app_length. cbn. lia. }
        { apply INV. }
        { apply Forall_app. split; [apply INV|now constructor]. }
        { destruct par as [g|]; [|exact I]. destruct GP as (gb & gbb & kk & K1 & K2 & K3 & K4 & K5 & _).
          exists gb, gbb, kk. rewrite !P4 by (intros ->; first [apply K3; cbn; now auto|apply K4; cbn; now auto]). auto 10. }
        step (exact S1). exists h2, (if first then Some r else None), r, f'. split; [reflexivity|]. split; [now destruct first|].
        split; [congruence|]. split; [apply S2|]. split; [exact S3|]. split; [exact S4|]. split; [lia|]. rewrite P2 in *.
        split; [exact S6|]. split.
        { intros x X1 X2 X3. rewrite S7 by assumption. apply P4; intros ->; apply X2; cbn; auto. }
        split; [exact S8|].
        destruct par as [g|]; [|exact I]. destruct GP as (gb & gbb & kk & K1 & K2 & K3 & K4 & K5 & K6 & K7).
        destruct NB as (u1 & u2 & u3 & u4 & ->).
        destruct S9 as (gb' & gbb' & kk' & J1 & J2 & _ & _ & _ & J6). 
        rewrite P4 in J1 by (intros ->; apply K3; cbn; auto). rewrite K1 in J1.
        assert (gb' = gb) as -> by (unfold nodeb in J1; injection J1; auto).
        assert (KE : forall q, kk' q = kk q) by (unfold nodeb in J1; injection J1; intros ? ? ? ?; intros []; congruence).
        rewrite P4 in J2 by (intros ->; apply K4; cbn; auto). rewrite K2 in J2. injection J2 as <-.
        exists gb, gbb, kk. repeat (split; [assumption|]). intros g0 G0. rewrite (J6 g0 G0), K7. f_equal. apply nodeb_ext.
        intros q'. unfold setkid. now rewrite KE.
      * injection E as <- <-. exists h1, None, a, [a; ab; ap]. split; [reflexivity|]. split; [now destruct first|].
        split; [congruence|]. split; [exact R1|]. split; [exact ND|]. split; [exact FR1|]. split; [lia|]. split; [auto|].
        split; [intros x X1 X2 _; apply P4; intros ->; apply X2; cbn; auto|]. split.
        { intros x [Hx|Hx] Hx'; [contradiction|]. apply FR1. lia. }
        apply KEEP. exact P4.
  - apply insert_node in E as (c' & E & -> & LK). cbv zeta in LK.
    apply rep_node in R as (ab & c & F & -> & A & B & K).
    set (q := getq bb (px p) (py p)) in *.
    assert (N0 : ~ In a (ab :: kids4 F) /\ ~ In ab (kids4 F) /\ NoDup (kids4 F)) by (rewrite !NoDup_cons_iff in ND; tauto).
    destruct N0 as (N1 & N2 & N3). apply nodup_kids4_inv in N3 as (N3 & N4). cbn [In] in N1.
    assert (SUBF : forall q x, In x (F q) -> In x (kids4 F)) by (intros; apply in_kids4; eauto).
    cbn [qt_insert]. step (eapply is_leaf_node; exact A).
    destruct (load_node_ok a h ab _ A) as (k & K1 & K2). step (exact K1). cbn [fst snd].
    step (apply load_box_ok; exact B). fold q. rewrite K2. step (reflexivity).
    pose proof (Inv_child ltb mid bb t1 t2 t3 t4 q) as IC.
    destruct (IH q h (c q) (Some a) (F q) false fd q c' d) as (h1 & o & r & f' & S1 & S2 & S2b & S3 & S4 & S5 & S6 & S7 & S8 & S9 & S10); auto.
    { cbn [tree_bbox] in INB. destruct INV as (_ & TB & _). rewrite TB. apply (in_child ltb eqb mid L). exact INB. }
    { destruct LV as (? & ? & ? & ?). destruct q; assumption. }
    { pose proof (depth_kid bb t1 t2 t3 t4 q). lia. }
    { exists ab, bb, (fun q => Some (c q)). split; [exact A|]. split; [exact B|].
      split; [intros J; apply N1; right; eauto|]. split; [intros J; apply N2; eauto|]. split; [intros ->; apply N1; auto|].
      split; [reflexivity|]. exact LK. }
    rewrite S1. subst o. destruct S10 as (gb & gbb & kk & J1 & J2 & _ & _ & _ & J6). rewrite A in J1.
    assert (gb = ab) as -> by (unfold nodeb in J1; injection J1; auto).
    assert (KE : forall q, kk q = Some (c q)) by (unfold nodeb in J1; injection J1; intros ? ? ? ?; intros []; congruence).
    specialize (J6 a eq_refl).
    assert (LT : forall x b, at_ h x = Some b -> x < next h).
    { intros x b0 J. destruct (le_lt_dec (next h) x) as [G|G]; [|exact G]. rewrite FR in J by lia. discriminate. }
    set (F' := fun q' => if quadrant_eqb q' q then f' else F q').
    assert (FS : F' q = f') by (unfold F'; now rewrite quadrant_eqb_refl).
    assert (FO : forall q', q' <> q -> F' q' = F q' /\ quadrant_eqb q' q = false).
    { intros q' J. unfold F'. destruct (quadrant_eqb q' q) eqn:J'; [apply quadrant_eqb_eq in J'; contradiction|auto]. }
    assert (BAD : forall x, In x f' -> ~ In x (F q) -> next h <= x).
    { intros x J J'. apply S7 in J. tauto. }
    assert (LIVE : forall q x, In x (F q) -> x < next h).
    { intros q' x J. destruct (at_ h x) eqn:EX; [eauto|]. exfalso. revert EX. eapply rep_live; [apply K|exact J]. }
    pose proof (LT _ _ A) as La. pose proof (LT _ _ B) as Lab.
    assert (ABF : at_ h1 ab = Some (Box bb)).
    { rewrite S8; [exact B|exact Lab| |]; [intros J; apply N2; eauto|intros [= J]; apply N1; auto]. }
    exists h1, None, a, (a :: ab :: kids4 F'). split; [reflexivity|]. split; [now destruct first|]. split.
    { intros DN. destruct (S2b DN) as (-> & _ & ->). split; [reflexivity|]. split; [reflexivity|]. unfold F'.
      f_equal. f_equal. unfold kids4. destruct q; reflexivity. }
    assert (NC : forall q', get_child t1 t2 t3 t4 q' = get_child t1 t2 t3 t4 q') by reflexivity. clear NC.
    split.
    { set (T := fun q' => if quadrant_eqb q' q then c' else get_child t1 t2 t3 t4 q').
      replace (set_child (Node bb t1 t2 t3 t4) q c') with (node_with bb T) by (unfold node_with, T; destruct q; reflexivity).
      apply rep_node. exists ab, (fun q' => if quadrant_eqb q' q then r else c q'), F'. split; [reflexivity|].
      split; [rewrite J6; f_equal; apply nodeb_ext; intros q'; unfold setkid; rewrite KE; now destruct (quadrant_eqb q' q)|].
      split; [exact ABF|]. intros q'. rewrite node_with_kid. unfold T. destruct (quadrant_dec q' q) as [->|NQ].
      - rewrite quadrant_eqb_refl, FS. exact S3.
      - destruct (FO q' NQ) as (-> & ->). apply rep_ext with (h := h); [|apply K]. intros x J. apply S8; [eauto| |].
        + intros J'. apply NQ. eauto.
        + intros [= ->]. apply N1. right. eauto. }
    assert (NIN : forall x, In x (a :: ab :: kids4 F') -> In x (a :: ab :: kids4 F) \/ next h <= x).
    { intros x [<-|[<-|J]]; [left; cbn; auto|left; cbn; auto|]. apply in_kids4 in J as (q' & J).
      destruct (quadrant_dec q' q) as [->|NQ].
      - rewrite FS in J. apply S7 in J as [J|J]; [left; cbn; eauto|auto].
      - destruct (FO q' NQ) as (E1 & _). rewrite E1 in J. left; cbn; eauto. }
    split.
    { assert (K4' : forall x, In x (kids4 F') -> In x (kids4 F) \/ next h <= x).
      { intros x J. apply in_kids4 in J as (q' & J). destruct (quadrant_dec q' q) as [->|NQ].
        - rewrite FS in J. apply S7 in J as [J|J]; eauto.
        - destruct (FO q' NQ) as (E1 & _). rewrite E1 in J. eauto. }
      constructor; [|constructor].
      - intros [J|J]; [apply N1; auto|]. apply K4' in J as [J|J]; [apply N1; auto|lia].
      - intros J. apply K4' in J as [J|J]; [auto|lia].
      - apply nodup_kids4.
        + intros q'. destruct (quadrant_dec q' q) as [->|NQ]; [now rewrite FS|destruct (FO q' NQ) as (-> & _); apply N3].
        + assert (DJ : forall q' x, q' <> q -> In x f' -> In x (F q') -> False).
          { intros q' x J J1' J2'. apply S7 in J1' as [J1'|J1']; [apply J; eauto|]. apply LIVE in J2'. lia. }
          intros q1 q2 x J J'. destruct (quadrant_dec q1 q) as [->|NQ1], (quadrant_dec q2 q) as [->|NQ2]; auto.
          * rewrite FS in J. destruct (FO q2 NQ2) as (E2 & _). rewrite E2 in J'. exfalso. eauto.
          * rewrite FS in J'. destruct (FO q1 NQ1) as (E2 & _). rewrite E2 in J. exfalso. eauto.
          * destruct (FO q1 NQ1) as (E1 & _). destruct (FO q2 NQ2) as (E2 & _). rewrite E1 in J. rewrite E2 in J'. eauto. }
    split; [exact S5|]. split; [exact S6|]. split; [exact NIN|]. split.
    { intros x X1 X2 _. apply S8; [exact X1| |].
      - intros J. apply X2. cbn; eauto.
      - intros [= ->]. apply X2. cbn; auto. }
    split.
    { intros x X1 X2. cbn [In] in X2. destruct X1 as [X1|X1].
      - destruct X1 as [<-|[<-|X1]]; [tauto|tauto|]. apply in_kids4 in X1 as (q' & X1).
        destruct (quadrant_dec q' q) as [->|NQ].
        + apply S9; [auto|]. intros J. apply X2. right; right. apply in_kids4. exists q. now rewrite FS.
        + exfalso. apply X2. right; right. apply in_kids4. exists q'. destruct (FO q' NQ) as (-> & _). exact X1.
      - apply S9; [auto|]. intros J. apply X2. right; right. apply in_kids4. exists q. now rewrite FS. }
    destruct par as [g|]; [|exact I]. destruct GP as (gb & gbb' & kk' & G1 & G2 & G3 & G4 & G5 & G6 & _).
    exists gb, gbb', kk'. repeat (split; [assumption|]). intros g0 [= <-]. 
    rewrite S8; [|eauto| |].
    + rewrite G1. f_equal. apply nodeb_ext. intros q'. unfold setkid.
      destruct (quadrant_eqb q' q0) eqn:Q; [|reflexivity]. apply quadrant_eqb_eq in Q. now subst q'.
    + intros J. apply G3. cbn; eauto.
    + intros [= J]. apply G3. cbn; auto.
Qed.
End Insert.
