(** Lemmas about the memory of the quadtree: single accesses, and the memory a
    tree occupies. *)
From Coq Require Import List ZArith Bool Lia Permutation.
From Verif Require Import QuadTree_Model QuadTree_Spec QuadTree_Proofs QMem_Model QMem_Spec.
Import ListNotations.

Section Base.
Context {num : Type} (ltb eqb : num -> num -> bool) (mid : num -> num -> num) (cap : Z).
Notation heapn := (heap num).

Definition put (h : heapn) a b := mkH (next h) (upd (at_ h) a (Some b)).
Definition del (h : heapn) a := mkH (next h) (upd (at_ h) a None).
Definition fresh (h : heapn) := forall x, next h <= x -> at_ h x = None.

Lemma seq_done {A B} (m : heapn -> run num A) (k : A -> heapn -> run num B) h a h' :
  m h = Done a h' -> seq_ m k h = k a h'.
Proof. intros E. unfold seq_. now rewrite E. Qed.

Local Tactic Notation "step" tactic3(t) := erewrite seq_done by t; cbv beta iota.
Lemma upd_same (f : nat -> option (block num)) a b : upd f a b a = b.
Proof. unfold upd. now rewrite Nat.eqb_refl. Qed.
Lemma upd_eq (f : nat -> option (block num)) a b x : x = a -> upd f a b x = b.
Proof. intros ->. apply upd_same. Qed.
Lemma upd_other (f : nat -> option (block num)) a b x : x <> a -> upd f a b x = f x.
Proof. intros N. unfold upd. now apply Nat.eqb_neq in N as ->. Qed.
Lemma upd_none (f : nat -> option (block num)) a x : f x = None -> upd f a None x = None.
Proof. intros N. unfold upd. now destruct (x =? a). Qed.

Lemma store_ok a b h c : at_ h a = Some c -> store a b h = Done tt (put h a b).
Proof. intros E. unfold store. now rewrite E. Qed.
Lemma free_at a h c : at_ h a = Some c -> free a h = Done tt (del h a).
Proof. intros E. unfold free. now rewrite E. Qed.
Lemma load_ok a (h : heapn) b : at_ h a = Some b -> load a h = Done b h.
Proof. intros E. unfold load. now rewrite E. Qed.
Lemma load_box_ok a (h : heapn) b : at_ h a = Some (Box b) -> load_box a h = Done b h.
Proof. intros E. unfold load_box, seq_, load. now rewrite E. Qed.
Lemma load_leaf_ok a (h : heapn) bb c p r : at_ h a = Some (LeafB bb c p r) -> load_leaf a h = Done (bb, c, p, r) h.
Proof. intros E. unfold load_leaf, seq_, load. now rewrite E. Qed.
Lemma is_leaf_leaf a (h : heapn) bb c p r : at_ h a = Some (LeafB bb c p r) -> is_leaf a h = Done true h.
Proof. intros E. unfold is_leaf, seq_, load. now rewrite E. Qed.

(** A nonleaf node with its fields as a function. *)
Definition nodeb (bb : nat) (k : quadrant -> option nat) : block num :=
  NodeB bb (k UPPERLEFT) (k UPPERRIGHT) (k LOWERLEFT) (k LOWERRIGHT).
Definition setkid (k : quadrant -> option nat) q c q' := if quadrant_eqb q' q then Some c else k q'.

Lemma is_leaf_node a (h : heapn) bb k : at_ h a = Some (nodeb bb k) -> is_leaf a h = Done false h.
Proof. intros E. unfold is_leaf, seq_, load. now rewrite E. Qed.
Lemma load_node_ok a (h : heapn) bb k : at_ h a = Some (nodeb bb k) ->
  exists k', load_node a h = Done (bb, k') h /\ forall q, k' q = k q.
Proof. intros E. unfold load_node, seq_, load. rewrite E. cbn. eexists; split; [reflexivity|]. now intros []. Qed.
Lemma set_field_ok a q c (h : heapn) bb k : at_ h a = Some (nodeb bb k) ->
  set_field a q c h = Done tt (put h a (nodeb bb (setkid k q c))).
Proof.
  intros E. unfold set_field, seq_, load. rewrite E. unfold nodeb at 1.
  destruct q; erewrite store_ok by exact E; reflexivity.
Qed.
Lemma nodeb_ext bb k k' : (forall q, k q = k' q) -> nodeb bb k = nodeb bb k'.
Proof. intros E. unfold nodeb. now rewrite !E. Qed.

Lemma set_nth_ok {A} (l : list A) i x : i < length l ->
  exists l', set_nth l i x = Some l' /\ length l' = length l /\ firstn (S i) l' = firstn i l ++ [x] /\
    skipn (S i) l' = skipn (S i) l.
Proof.
  revert i. induction l as [|y l IH]; intros [|i] H; cbn in H; try lia.
  - exists (x :: l). cbn. auto.
  - destruct (IH i ltac:(lia)) as (l' & E & N & F & K). exists (y :: l'). cbn [set_nth]. rewrite E.
    split; [reflexivity|]. cbn [length]. split; [lia|]. cbn [firstn app] in *. now rewrite F.
Qed.

(** The array of a leaf holds the positions. *)
Definition holds (cs : list (option (position num))) (ps : list (position num)) : Prop :=
  length cs = Z.to_nat (cap + 1) /\ firstn (length ps) cs = map Some ps.

Lemma holds_fit cs ps : holds cs ps -> length ps <= Z.to_nat (cap + 1).
Proof.
  intros (A & B). apply (f_equal (@length _)) in B. rewrite firstn_length, map_length in B. lia.
Qed.
Lemma holds_nth cs ps i p : holds cs ps -> nth_error ps i = Some p -> nth_error cs i = Some (Some p).
Proof.
  intros (A & B) N. assert (K : nth_error (firstn (length ps) cs) i = Some (Some p)).
  { rewrite B. apply (map_nth_error Some). exact N. }
  rewrite <- (firstn_skipn (length ps) cs), nth_error_app1; [exact K|].
  apply nth_error_Some. congruence.
Qed.

(** A leaf in memory: the node, its box and its array. *)
Definition leafat (h : heapn) a par bb ps ab ap : Prop :=
  at_ h a = Some (LeafB (Some ab) (length ps) ap par) /\ at_ h ab = Some (Box bb) /\
  exists cs, at_ h ap = Some (Cells cs) /\ holds cs ps.

(** The tree [t] in memory at [a], in the blocks [f]. *)
Fixpoint rep (h : heapn) (t : tree num) (a : nat) (par : option nat) (f : list nat) : Prop :=
  match t with
  | Leaf bb ps => exists ab ap, f = [a; ab; ap] /\ leafat h a par bb ps ab ap
  | Node bb t1 t2 t3 t4 =>
      exists ab (c : quadrant -> nat) (F : quadrant -> list nat),
        f = a :: ab :: F UPPERLEFT ++ F UPPERRIGHT ++ F LOWERLEFT ++ F LOWERRIGHT /\
        at_ h a = Some (nodeb ab (fun q => Some (c q))) /\ at_ h ab = Some (Box bb) /\
        rep h t1 (c UPPERLEFT) (Some a) (F UPPERLEFT) /\
        rep h t2 (c UPPERRIGHT) (Some a) (F UPPERRIGHT) /\
        rep h t3 (c LOWERLEFT) (Some a) (F LOWERLEFT) /\
        rep h t4 (c LOWERRIGHT) (Some a) (F LOWERRIGHT)
  end.

Lemma leafat_ext h h' a par bb ps ab ap : (forall x, In x [a; ab; ap] -> at_ h' x = at_ h x) ->
  leafat h a par bb ps ab ap -> leafat h' a par bb ps ab ap.
Proof.
  intros E (A & B & cs & C & D). unfold leafat. rewrite !E by (cbn; auto). split; [exact A|]. split; [exact B|].
  exists cs. auto.
Qed.

Definition kids4 (F : quadrant -> list nat) := F UPPERLEFT ++ F UPPERRIGHT ++ F LOWERLEFT ++ F LOWERRIGHT.
Lemma in_kids4 F x : In x (kids4 F) <-> exists q, In x (F q).
Proof.
  unfold kids4. rewrite !in_app_iff. split.
  - intros [H|[H|[H|H]]]; eauto.
  - intros ([] & H); auto.
Qed.
Lemma nodup_app {A} (l l' : list A) : NoDup l -> NoDup l' -> (forall x, In x l -> In x l' -> False) -> NoDup (l ++ l').
Proof.
  induction l as [|a l IH]; intros N N' D; [exact N'|]. inversion N; subst. cbn. constructor.
  - rewrite in_app_iff. intros [K|K]; [auto|]. apply (D a); [now left|exact K].
  - apply IH; auto. intros x K K'. apply (D x); [now right|exact K'].
Qed.
Lemma nodup_app_inv {A} (l l' : list A) : NoDup (l ++ l') -> NoDup l /\ NoDup l' /\ forall x, In x l -> In x l' -> False.
Proof.
  induction l as [|a l IH]; cbn; intros N; [repeat split; [constructor|exact N|tauto]|].
  inversion N as [|? ? N1 N2]; subst. destruct (IH N2) as (A1 & A2 & A3). rewrite in_app_iff in N1.
  split; [constructor; tauto|]. split; [exact A2|]. intros x [<-|K] K'; [tauto|eauto].
Qed.
Lemma nodup_kids4 F : (forall q, NoDup (F q)) -> (forall q q' x, In x (F q) -> In x (F q') -> q = q') -> NoDup (kids4 F).
Proof.
  intros N D. unfold kids4. repeat apply nodup_app; auto.
  - intros x A B. discriminate (D _ _ _ A B).
  - intros x A B. rewrite in_app_iff in B. destruct B as [B|B]; discriminate (D _ _ _ A B).
  - intros x A B. rewrite !in_app_iff in B. destruct B as [B|[B|B]]; discriminate (D _ _ _ A B).
Qed.
Lemma nodup_kids4_inv F : NoDup (kids4 F) ->
  (forall q, NoDup (F q)) /\ (forall q q' x, In x (F q) -> In x (F q') -> q = q').
Proof.
  unfold kids4. intros N. apply nodup_app_inv in N as (N1 & N & D1).
  apply nodup_app_inv in N as (N2 & N & D2). apply nodup_app_inv in N as (N3 & N4 & D3).
  split; [intros []; assumption|].
  intros q q' x A B. setoid_rewrite in_app_iff in D2. setoid_rewrite in_app_iff in D1. setoid_rewrite in_app_iff in D1.
  destruct q, q'; try reflexivity; exfalso; eauto 6.
Qed.

Lemma rep_node h bb t1 t2 t3 t4 a par f : rep h (Node bb t1 t2 t3 t4) a par f <->
  exists ab (c : quadrant -> nat) (F : quadrant -> list nat), f = a :: ab :: kids4 F /\
    at_ h a = Some (nodeb ab (fun q => Some (c q))) /\ at_ h ab = Some (Box bb) /\
    forall q, rep h (get_child t1 t2 t3 t4 q) (c q) (Some a) (F q).
Proof.
  cbn [rep]. split; intros (ab & c & F & E & A & B & K); exists ab, c, F.
  - destruct K as (K1 & K2 & K3 & K4). repeat (split; [assumption|]). now intros [].
  - repeat (split; [assumption|]). split; [exact (K UPPERLEFT)|]. split; [exact (K UPPERRIGHT)|].
    split; [exact (K LOWERLEFT)|exact (K LOWERRIGHT)].
Qed.

Lemma tree_kids (P : tree num -> Prop) : (forall bb ps, P (Leaf bb ps)) ->
  (forall bb t1 t2 t3 t4, (forall q, P (get_child t1 t2 t3 t4 q)) -> P (Node bb t1 t2 t3 t4)) -> forall t, P t.
Proof. intros A B t. induction t; [apply A|]. apply B. now intros []. Qed.

Lemma rep_ext h h' t : forall a par f, (forall x, In x f -> at_ h' x = at_ h x) -> rep h t a par f -> rep h' t a par f.
Proof.
  induction t as [bb ps|bb t1 t2 t3 t4 IH] using tree_kids; intros a par f E R.
  - destruct R as (ab & ap & -> & L). exists ab, ap. split; [reflexivity|]. now apply leafat_ext with (h := h).
  - apply rep_node in R as (ab & c & F & -> & A & B & K). apply rep_node. exists ab, c, F.
    split; [reflexivity|]. rewrite !E by (cbn; auto). split; [exact A|]. split; [exact B|].
    intros q. apply IH; [|apply K]. intros x Hx. apply E. right; right. apply in_kids4. eauto.
Qed.
Lemma rep_live h t : forall a par f x, rep h t a par f -> In x f -> at_ h x <> None.
Proof.
  induction t as [bb ps|bb t1 t2 t3 t4 IH] using tree_kids; intros a par f x R I.
  - destruct R as (ab & ap & -> & A & B & cs & C & _). destruct I as [<-|[<-|[<-|[]]]]; congruence.
  - apply rep_node in R as (ab & c & F & -> & A & B & K). destruct I as [<-|[<-|I]]; try congruence.
    apply in_kids4 in I as (q & I). eapply IH; eauto.
Qed.
Lemma rep_head h t a par f : rep h t a par f -> In a f.
Proof. destruct t; [intros (? & ? & -> & _)|intros (? & ? & ? & -> & _)]; now left. Qed.
Lemma rep_par h bb t1 t2 t3 t4 a par par' f : rep h (Node bb t1 t2 t3 t4) a par f -> rep h (Node bb t1 t2 t3 t4) a par' f.
Proof. exact (fun x => x). Qed.

Fixpoint depth (t : tree num) : nat :=
  match t with
  | Leaf _ _ => 1
  | Node _ a b c d => S (Nat.max (Nat.max (depth a) (depth b)) (Nat.max (depth c) (depth d)))
  end.
Lemma depth_kid bb t1 t2 t3 t4 q : depth (get_child t1 t2 t3 t4 q) < depth (Node bb t1 t2 t3 t4).
Proof. destruct q; cbn; lia. Qed.

(** quadtree.h:329-349: freeing a tree frees its blocks and no others. *)
Lemma free_ok t : forall d h a par f, rep h t a par f -> NoDup f -> depth t <= d ->
  exists h', qt_free_node d a h = Done tt h' /\ next h' = next h /\
    (forall x, In x f -> at_ h' x = None) /\ (forall x, ~ In x f -> at_ h' x = at_ h x).
Proof.
  induction t as [bb ps|bb t1 t2 t3 t4 IH] using tree_kids; intros d h a par f R N Hd.
  - destruct d as [|d]; [cbn in Hd; lia|]. destruct R as (ab & ap & -> & A & B & cs & C & _).
    inversion N as [|? ? N1 N']; subst. inversion N' as [|? ? N2 N'']; subst. clear N'' N N'.
    cbn [In] in *.
    cbn [qt_free_node]. step (eapply is_leaf_leaf; exact A).
    step (eapply load_leaf_ok; exact A).
    step (cbn [free_opt]; eapply free_at; exact B).
    step (eapply free_at; cbn; rewrite upd_other by intuition; exact C).
    erewrite free_at by (cbn; rewrite !upd_other by intuition; exact A).
    eexists. split; [reflexivity|]. split; [reflexivity|]. cbn. split.
    + intros x [<-|[<-|[<-|[]]]]; repeat (first [apply upd_same | apply upd_none]).
    + intros x Hx. rewrite !upd_other by intuition. reflexivity.
  - destruct d as [|d]; [cbn in Hd; lia|]. apply rep_node in R as (ab & c & F & -> & A & B & K).
    inversion N as [|? ? N1 N']; subst. inversion N' as [|? ? N2 N3]; subst. clear N N'.
    cbn [In] in N1. apply nodup_kids4_inv in N3 as (N3 & N4).
    (* one child freed *)
    assert (STEP : forall q h1, next h1 = next h -> (forall x, ~ In x (kids4 F) -> at_ h1 x = at_ h x) ->
              (forall x, In x (F q) -> at_ h1 x = at_ h x) ->
              exists k, load_node a h1 = Done (ab, k) h1 /\ deref (k q) h1 = Done (c q) h1 /\
                exists h2, qt_free_node d (c q) h1 = Done tt h2 /\ next h2 = next h /\
                  (forall x, ~ In x (kids4 F) -> at_ h2 x = at_ h x) /\
                  (forall x, In x (F q) -> at_ h2 x = None) /\ (forall x, ~ In x (F q) -> at_ h2 x = at_ h1 x)).
    { intros q h1 E1 E2 E3. destruct (load_node_ok a h1 ab (fun q => Some (c q))) as (k & L & EK).
      { rewrite E2 by intuition. exact A. }
      exists k. split; [exact L|]. rewrite EK. split; [reflexivity|].
      destruct (IH q d h1 (c q) (Some a) (F q)) as (h2 & G1 & G2 & G3 & G4).
      - apply rep_ext with (h := h); [exact E3|apply K].
      - apply N3.
      - pose proof (depth_kid bb t1 t2 t3 t4 q). lia.
      - exists h2. split; [exact G1|]. split; [congruence|]. split; [|split; assumption].
        intros x Hx. rewrite G4; [now apply E2|]. intros Hx'. apply Hx. apply in_kids4. eauto. }
    cbn [qt_free_node]. step (eapply is_leaf_node; exact A).
    destruct (STEP UPPERLEFT h eq_refl (fun _ _ => eq_refl) (fun _ _ => eq_refl)) as (k1 & L1 & D1 & h1 & G1 & X1 & P1 & Q1 & R1).
    step (exact L1). cbn [snd]. step (exact D1). step (exact G1).
    destruct (STEP UPPERRIGHT h1 X1 P1) as (k2 & L2 & D2 & h2 & G2 & X2 & P2 & Q2 & R2).
    { intros x Hx. apply R1. intros Hx'. discriminate (N4 _ _ _ Hx Hx'). }
    step (exact L2). cbn [snd]. step (exact D2). step (exact G2).
    destruct (STEP LOWERLEFT h2 X2 P2) as (k3 & L3 & D3 & h3 & G3 & X3 & P3 & Q3 & R3).
    { intros x Hx. rewrite R2 by (intros Hx'; discriminate (N4 _ _ _ Hx Hx')).
      apply R1. intros Hx'. discriminate (N4 _ _ _ Hx Hx'). }
    step (exact L3). cbn [snd]. step (exact D3). step (exact G3).
    destruct (STEP LOWERRIGHT h3 X3 P3) as (k4 & L4 & D4 & h4 & G4 & X4 & P4 & Q4 & R4).
    { intros x Hx. rewrite R3 by (intros Hx'; discriminate (N4 _ _ _ Hx Hx')).
      rewrite R2 by (intros Hx'; discriminate (N4 _ _ _ Hx Hx')).
      apply R1. intros Hx'. discriminate (N4 _ _ _ Hx Hx'). }
    step (exact L4). cbn [snd]. step (exact D4). step (exact G4).
    destruct (load_node_ok a h4 ab (fun q => Some (c q))) as (k5 & L5 & _).
    { rewrite P4 by intuition. exact A. }
    step (exact L5). cbn [fst].
    step (eapply free_at; rewrite P4 by intuition; exact B).
    erewrite free_at by (cbn; rewrite upd_other by intuition; rewrite P4 by intuition; exact A).
    eexists. split; [reflexivity|]. split; [exact X4|]. cbn. split.
    + intros x [<-|[<-|Hx]].
      * apply upd_same.
      * rewrite upd_other by intuition. apply upd_same.
      * rewrite !upd_other by (intros ->; intuition). 
        assert (W : forall q, In x (F q) -> at_ h4 x = None).
        { intros [] Hq.
          - rewrite R4 by (intros Hx'; discriminate (N4 _ _ _ Hq Hx')).
            rewrite R3 by (intros Hx'; discriminate (N4 _ _ _ Hq Hx')).
            rewrite R2 by (intros Hx'; discriminate (N4 _ _ _ Hq Hx')). auto.
          - rewrite R4 by (intros Hx'; discriminate (N4 _ _ _ Hq Hx')).
            rewrite R3 by (intros Hx'; discriminate (N4 _ _ _ Hq Hx')). auto.
          - rewrite R4 by (intros Hx'; discriminate (N4 _ _ _ Hq Hx')). auto.
          - auto. }
        apply in_kids4 in Hx as (q & Hq). eauto.
    + intros x Hx. rewrite !upd_other by intuition. apply P4. intuition.
Qed.
End Base.
