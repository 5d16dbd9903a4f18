(** Searching the tree in memory finds what QuadTree_Model finds, and leaves
    the pool of results behind. *)
From Coq Require Import List ZArith Bool Lia Permutation.
From Verif Require Import QuadTree_Model QuadTree_Spec QuadTree_Proofs QMem_Model QMem_Spec QMem_Base QMem_Split QMem_Insert.
Import ListNotations.

Section Search.
Context {num : Type} (ltb eqb : num -> num -> bool) (mid : num -> num -> num) (cap : Z).
Notation heapn := (heap num).
Notation rep := (rep cap).
Local Tactic Notation "step" tactic3(t) := erewrite seq_done by t; cbv beta iota.

(** A pool in memory with its members. *)
Definition poolat (h : heapn) p items m : Prop :=
  exists size ss, at_ h p = Some (PoolB size (length items) m) /\ at_ h m = Some (Slots ss) /\ length ss = size /\
    firstn (length items) ss = map Some items /\ 0 < size.

Lemma poolat_ext (h h' : heapn) p items m : at_ h' p = at_ h p -> at_ h' m = at_ h m -> poolat h p items m -> poolat h' p items m.
Proof. intros A B (s & ss & K). exists s, ss. now rewrite A, B. Qed.

Lemma pool_new_ok size (h : heapn) n : 0 < size -> fresh h -> next h = n ->
  exists h', pool_new size h = Done (S n) h' /\ poolat h' (S n) [] n /\ fresh h' /\ next h' = S (S n) /\
    forall x, x < n -> at_ h' x = at_ h x.
Proof.
  intros SZ F E. unfold pool_new. destruct (malloc_ok (Slots (repeat None size)) h n F E) as (h1 & R1 & N1 & F1 & A1 & X1).
  destruct (malloc_ok (PoolB size 0 n) h1 (S n) F1 N1) as (h2 & R2 & N2 & F2 & A2 & X2).
  step (exact R1). exists h2. split; [exact R2|]. split; [|split; [exact F2|split; [exact N2|]]].
  - exists size, (repeat None size). rewrite (X2 n) by lia. rewrite repeat_length. auto 6.
  - intros x Hx. rewrite X2, X1 by lia. reflexivity.
Qed.

Lemma add_room (h : heapn) p items m x : poolat h p items m -> p <> m -> fresh h ->
  (exists s ss, at_ h p = Some (PoolB s (length items) m) /\ at_ h m = Some (Slots ss) /\ length items < length ss /\ length ss = s /\
     firstn (length items) ss = map Some items /\ 0 < s) ->
  exists h', (seq_ (load_pool p) (fun q => let '(s, c, m) := q in
      seq_ (load_slots m) (fun ss => match set_nth ss c (Some x) with
        | Some ss' => seq_ (store m (Slots ss')) (fun _ => store p (PoolB s (S c) m))
        | None => bad end))) h = Done tt h' /\ poolat h' p (items ++ [x]) m /\ fresh h' /\ next h' = next h /\
    forall y, y <> p -> y <> m -> at_ h' y = at_ h y.
Proof.
  intros _ N F (s & ss & A & B & LE & ES & EF & S0).
  step (unfold load_pool; erewrite seq_done by (apply load_ok; exact A); reflexivity).
  step (unfold load_slots; erewrite seq_done by (apply load_ok; exact B); reflexivity).
  destruct (set_nth_ok ss (length items) (Some x) LE) as (ss' & E & E1 & E2 & _). rewrite E.
  destruct (put_ok m (Slots ss') h _ _ F eq_refl B) as (R1 & N1 & F1 & A1 & X1). step (exact R1).
  destruct (put_ok p (PoolB s (S (length items)) m) (put h m (Slots ss')) (PoolB s (length items) m) _ F1 N1) as (R2 & N2 & F2 & A2 & X2).
  { rewrite X1 by exact N. exact A. }
  rewrite R2. eexists. split; [reflexivity|]. split; [|split; [exact F2|split; [exact N2|]]].
  - exists s, ss'. rewrite A2, X2, A1 by congruence. rewrite app_length, Nat.add_comm. cbn [length plus].
    split; [reflexivity|]. split; [reflexivity|]. split; [lia|]. split; [|exact S0]. rewrite E2, EF, map_app. reflexivity.
  - intros y Y1 Y2. rewrite X2, X1 by assumption. reflexivity.
Qed.

(** pool.h:33-45: the pool grows when it is full. *)
Lemma pool_add_ok (h : heapn) p items m x : poolat h p items m -> p <> m -> fresh h ->
  exists h' m', pool_add p x h = Done tt h' /\ poolat h' p (items ++ [x]) m' /\ p <> m' /\ fresh h' /\ next h <= next h' /\
    (m' = m \/ next h <= m') /\ (forall y, y < next h -> y <> p -> y <> m -> at_ h' y = at_ h y) /\
    (forall y, y = m \/ next h <= y -> y <> m' -> at_ h' y = None).
Proof.
  intros P N F. destruct P as (s & ss & A & B & ES & EF & S0).
  assert (LP : forall (h : heapn) s c m, at_ h p = Some (PoolB s c m) -> load_pool p h = Done (s, c, m) h).
  { intros h0 s0 c0 m0 K. unfold load_pool. step (apply load_ok; exact K). reflexivity. }
  assert (LE : length items <= length ss).
  { apply (f_equal (@length _)) in EF. rewrite firstn_length, map_length in EF. lia. }
  unfold pool_add. step (apply LP; exact A). destruct (s =? length items) eqn:FU.
  - apply Nat.eqb_eq in FU.
    assert (Lm : m < next h /\ p < next h).
    { split; [destruct (le_lt_dec (next h) m) as [K|K]; [rewrite F in B by exact K; discriminate|exact K]|].
      destruct (le_lt_dec (next h) p) as [K|K]; [rewrite F in A by exact K; discriminate|exact K]. }
    destruct (malloc_ok (Slots (firstn s ss ++ repeat None s)) h _ F eq_refl) as (h1 & R1 & N1 & F1 & A1 & X1).
    assert (RS : exists h2, pool_resize p h = Done tt h2 /\ at_ h2 p = Some (PoolB (s * 2) (length items) (next h)) /\
       at_ h2 (next h) = Some (Slots (firstn s ss ++ repeat None s)) /\ fresh h2 /\ next h2 = S (next h) /\ at_ h2 m = None /\
       forall y, y < next h -> y <> p -> y <> m -> at_ h2 y = at_ h y).
    { unfold pool_resize. step (apply LP; exact A). step (unfold load_slots; erewrite seq_done by (apply load_ok; exact B); reflexivity).
      step (exact R1). step (eapply free_at; rewrite X1 by lia; exact B).
      assert (F1' : fresh (del h1 m)).
      { intros y Y. cbn in *. apply upd_none. apply F1. exact Y. }
      destruct (put_ok p (PoolB (s * 2) (length items) (next h)) (del h1 m) (PoolB s (length items) m) _ F1' eq_refl) as (R2 & N2 & F2 & A2 & X2).
      { cbn. rewrite upd_other by congruence. rewrite X1 by lia. exact A. }
      eexists. split; [exact R2|]. split; [exact A2|]. split; [rewrite X2 by lia; cbn; rewrite upd_other by lia; exact A1|].
      split; [exact F2|]. split; [rewrite N2; exact N1|]. split; [rewrite X2 by congruence; apply upd_same|].
      intros y Y1 Y2 Y3. rewrite X2 by assumption. cbn. rewrite upd_other by assumption. apply X1. lia. }
    destruct RS as (h2 & R2 & P2 & M2 & F2 & N2 & D2 & X2). step (exact R2).
    assert (LL : length (firstn s ss ++ repeat None s) = s * 2) by (rewrite app_length, firstn_length, repeat_length; lia).
    assert (PF : firstn (length items) (firstn s ss ++ repeat (@None slot) s) = map Some items).
    { rewrite firstn_app, firstn_firstn, firstn_length. rewrite Nat.min_l by lia. rewrite EF.
      replace (length items - Nat.min s (length ss)) with 0 by lia. now rewrite app_nil_r. }
    destruct (add_room h2 p items (next h) x) as (h3 & R3 & P3 & F3 & N3 & X3).
    { exists (s * 2), (firstn s ss ++ repeat None s). repeat (split; [assumption|]). lia. }
    { lia. } { exact F2. }
    { exists (s * 2), (firstn s ss ++ repeat None s). split; [exact P2|]. split; [exact M2|]. split; [lia|]. split; [exact LL|]. split; [exact PF|]. lia. }
    rewrite R3. exists h3, (next h). split; [reflexivity|]. split; [exact P3|]. split; [lia|]. split; [exact F3|]. split; [lia|].
    split; [auto|]. split.
    + intros y Y1 Y2 Y3. rewrite X3 by lia. now apply X2.
    + intros y [-> | Y1] Y2; [rewrite X3 by congruence; exact D2|]. rewrite X3 by lia. apply F2. lia.
  - apply Nat.eqb_neq in FU. step (reflexivity).
    destruct (add_room h p items m x) as (h3 & R3 & P3 & F3 & N3 & X3); auto.
    { exists s, ss. auto. }
    { exists s, ss. repeat (split; [assumption|]). split; [lia|]. auto. }
    rewrite R3. exists h3, m. split; [reflexivity|]. split; [exact P3|]. split; [exact N|]. split; [exact F3|]. split; [lia|].
    split; [auto|]. split; [auto|]. intros y [-> | Y1] Y2; [congruence|]. apply F3. lia.
Qed.

Lemma pool_pop_ok (h : heapn) p items m x : poolat h p (items ++ [x]) m -> p <> m -> fresh h ->
  exists h', pool_pop_last p h = Done x h' /\ poolat h' p items m /\ fresh h' /\ next h' = next h /\
    forall y, y <> p -> at_ h' y = at_ h y.
Proof.
  intros (s & ss & A & B & ES & EF & S0) N F. unfold pool_pop_last.
  rewrite app_length, Nat.add_comm in A, EF. cbn [length plus] in A, EF.
  step (unfold load_pool; erewrite seq_done by (apply load_ok; exact A); reflexivity).
  step (unfold load_slots; erewrite seq_done by (apply load_ok; exact B); reflexivity).
  rewrite map_app in EF. cbn [map] in EF.
  assert (NT : nth_error ss (length items) = Some (Some x)).
  { rewrite <- (firstn_skipn (S (length items)) ss), EF. rewrite <- app_assoc, nth_error_app2 by (rewrite map_length; lia).
    rewrite map_length, Nat.sub_diag. reflexivity. }
  rewrite NT. destruct (put_ok p (PoolB s (length items) m) h _ _ F eq_refl A) as (R1 & N1 & F1 & A1 & X1).
  step (exact R1). eexists. split; [reflexivity|]. split; [|split; [exact F1|split; [exact N1|exact X1]]].
  exists s, ss. rewrite A1, X1 by congruence. split; [reflexivity|]. split; [exact B|]. split; [exact ES|]. split; [|exact S0].
  apply (f_equal (firstn (length items))) in EF. rewrite firstn_firstn, Nat.min_l in EF by lia. rewrite EF.
  rewrite firstn_app, map_length, Nat.sub_diag. cbn [firstn]. rewrite app_nil_r. rewrite <- (map_length Some items). apply firstn_all.
Qed.

(** The memory during a search: that of before and the two pools. *)
Definition st (h0 : heapn) (rp qp : nat) (h : heapn) (ri qi : list slot) : Prop :=
  exists rm qm, poolat h rp ri rm /\ poolat h qp qi qm /\
    rp <> rm /\ qp <> qm /\ rp <> qp /\ rp <> qm /\ rm <> qp /\ rm <> qm /\
    next h0 <= rp /\ next h0 <= rm /\ next h0 <= qp /\ next h0 <= qm /\ fresh h /\ next h0 <= next h /\
    (forall x, x < next h0 -> at_ h x = at_ h0 x) /\
    (forall x, next h0 <= x -> x <> rp -> x <> rm -> x <> qp -> x <> qm -> at_ h x = None).

Lemma poolat_lt (h : heapn) p items m : poolat h p items m -> fresh h -> p < next h /\ m < next h.
Proof.
  intros (s & ss & A & B & _) F. split.
  - destruct (le_lt_dec (next h) p) as [K|K]; [rewrite F in A by exact K; discriminate|exact K].
  - destruct (le_lt_dec (next h) m) as [K|K]; [rewrite F in B by exact K; discriminate|exact K].
Qed.

Lemma st_add_r h0 rp qp h ri qi x : st h0 rp qp h ri qi -> exists h', pool_add rp x h = Done tt h' /\ st h0 rp qp h' (ri ++ [x]) qi.
Proof.
  intros (rm & qm & PR & PQ & D1 & D2 & D3 & D4 & D5 & D6 & G1 & G2 & G3 & G4 & F & NX & OLD & NEW).
  destruct (poolat_lt _ _ _ _ PR F) as (L1 & L2). destruct (poolat_lt _ _ _ _ PQ F) as (L3 & L4).
  destruct (pool_add_ok h rp ri rm x PR D1 F) as (h' & m' & R & P' & N' & F' & NX' & MM & O' & Z').
  exists h'. split; [exact R|]. exists m', qm.
  assert (PQ' : poolat h' qp qi qm).
  { apply poolat_ext with (h := h); [apply O'; congruence|apply O'; congruence|exact PQ]. }
  split; [exact P'|]. split; [exact PQ'|]. repeat (split; [first [assumption|lia]|]).
  split.
  - intros y Y. rewrite O' by lia. now apply OLD.
  - intros y Y1 Y2 Y3 Y4 Y5. destruct (Nat.eq_dec y rm) as [->|NR]; [apply Z'; auto|].
    destruct (le_lt_dec (next h) y) as [K|K]; [apply Z'; auto|]. rewrite O' by assumption. now apply NEW.
Qed.
Lemma st_add_q h0 rp qp h ri qi x : st h0 rp qp h ri qi -> exists h', pool_add qp x h = Done tt h' /\ st h0 rp qp h' ri (qi ++ [x]).
Proof.
  intros (rm & qm & PR & PQ & D1 & D2 & D3 & D4 & D5 & D6 & G1 & G2 & G3 & G4 & F & NX & OLD & NEW).
  destruct (poolat_lt _ _ _ _ PR F) as (L1 & L2). destruct (poolat_lt _ _ _ _ PQ F) as (L3 & L4).
  destruct (pool_add_ok h qp qi qm x PQ D2 F) as (h' & m' & R & P' & N' & F' & NX' & MM & O' & Z').
  exists h'. split; [exact R|]. exists rm, m'.
  assert (PR' : poolat h' rp ri rm).
  { apply poolat_ext with (h := h); [apply O'; congruence|apply O'; congruence|exact PR]. }
  split; [exact PR'|]. split; [exact P'|]. repeat (split; [first [assumption|lia]|]).
  split.
  - intros y Y. rewrite O' by lia. now apply OLD.
  - intros y Y1 Y2 Y3 Y4 Y5. destruct (Nat.eq_dec y qm) as [->|NR]; [apply Z'; auto|].
    destruct (le_lt_dec (next h) y) as [K|K]; [apply Z'; auto|]. rewrite O' by congruence. now apply NEW.
Qed.
Lemma st_pop_q h0 rp qp h ri qi x : st h0 rp qp h ri (qi ++ [x]) -> exists h', pool_pop_last qp h = Done x h' /\ st h0 rp qp h' ri qi.
Proof.
  intros (rm & qm & PR & PQ & D1 & D2 & D3 & D4 & D5 & D6 & G1 & G2 & G3 & G4 & F & NX & OLD & NEW).
  destruct (pool_pop_ok h qp qi qm x PQ D2 F) as (h' & R & P' & F' & NX' & O').
  exists h'. split; [exact R|]. exists rm, qm.
  assert (PR' : poolat h' rp ri rm) by (apply poolat_ext with (h := h); [apply O'; congruence|apply O'; congruence|exact PR]).
  split; [exact PR'|]. split; [exact P'|]. repeat (split; [first [assumption|lia]|]).
  split.
  - intros y Y. rewrite O' by lia. now apply OLD.
  - intros y Y1 Y2 Y3 Y4 Y5. rewrite O' by assumption. now apply NEW.
Qed.

(** What the members of the pools point to. *)
Definition refers (h0 : heapn) (s : slot) (p : position num) : Prop :=
  exists ap j cs, s = SId ap j /\ at_ h0 ap = Some (Cells cs) /\ nth_error cs j = Some (Some p).
Definition leads (h0 : heapn) (s : slot) (t : tree num) : Prop :=
  exists a par f, rep h0 t a par f /\
    match s with SRoot a' => a' = a | SField b qd => exists ab k, at_ h0 b = Some (nodeb ab k) /\ k qd = Some a | SId _ _ => False end.

Section Run.
Variables (h0 : heapn) (rp qp qb : nat) (bb : bbox num).
Hypothesis QB : at_ h0 qb = Some (Box bb).
Hypothesis FR0 : fresh h0.
Notation st := (st h0 rp qp).

Lemma lt0 x b : at_ h0 x = Some b -> x < next h0.
Proof. intros E. destruct (le_lt_dec (next h0) x) as [K|K]; [rewrite FR0 in E by exact K; discriminate|exact K]. Qed.
Lemma st_old h ri qi x b : st h ri qi -> at_ h0 x = Some b -> at_ h x = Some b.
Proof. intros (rm & qm & K) E. decompose [and] K. rewrite <- E. match goal with O : forall x, x < next h0 -> _ |- _ => apply O end. eapply lt0; exact E. Qed.

Lemma scan_ok ap cs ps : at_ h0 ap = Some (Cells cs) -> holds cap cs ps ->
  forall rem pre h ri qi P, ps = pre ++ rem -> st h ri qi -> Forall2 (refers h0) ri P ->
  exists h' ri', scan_loop ltb (length rem) (length pre) ap rp qb h = Done tt h' /\ st h' ri' qi /\
    Forall2 (refers h0) ri' (P ++ filter (iswithin ltb bb) rem).
Proof.
  intros A H rem. induction rem as [|c rem IH]; intros pre h ri qi P E S0 R0.
  - exists h, ri. cbn. rewrite app_nil_r. auto.
  - cbn [length scan_loop].
    assert (NE : nth_error ps (length pre) = Some c) by (rewrite E, nth_error_app2, Nat.sub_diag by lia; reflexivity).
    step (eapply get_cell_ok; [eapply st_old; [exact S0|exact A]|exact H|exact NE]).
    step (apply load_box_ok; eapply st_old; [exact S0|exact QB]).
    cbn [filter]. specialize (IH (pre ++ [c])). rewrite app_length, Nat.add_comm in IH. cbn [length plus] in IH.
    destruct (iswithin ltb bb c) eqn:W.
    + destruct (st_add_r _ _ _ _ _ _ (SId ap (length pre)) S0) as (h1 & R1 & S1). step (exact R1).
      destruct (IH h1 (ri ++ [SId ap (length pre)]) qi (P ++ [c])) as (h' & ri' & R' & S' & F'); auto.
      { now rewrite <- app_assoc. }
      { apply Forall2_app; [exact R0|]. constructor; [|constructor]. exists ap, (length pre), cs.
        split; [reflexivity|]. split; [exact A|]. eapply holds_nth; eassumption. }
      exists h', ri'. split; [exact R'|]. split; [exact S'|]. rewrite <- app_assoc in F'. exact F'.
    + step (reflexivity). apply (IH h ri qi P); auto. now rewrite <- app_assoc.
Qed.

Lemma box_of_ok h ri qi t a par f : st h ri qi -> rep h0 t a par f -> box_of a h = Done (tree_bbox t) h.
Proof.
  intros S0 R. unfold box_of. destruct t as [b ps|b t1 t2 t3 t4].
  - destruct R as (ab & ap & _ & A & B & _). step (apply load_ok; eapply st_old; [exact S0|exact A]).
    apply load_box_ok. eapply st_old; [exact S0|exact B].
  - apply rep_node in R as (ab & c & F & _ & A & B & _). step (apply load_ok; eapply st_old; [exact S0|exact A]).
    apply load_box_ok. eapply st_old; [exact S0|exact B].
Qed.

Lemma visit_ok h ri qi b t1 t2 t3 t4 a par f qd T : st h ri qi -> rep h0 (Node b t1 t2 t3 t4) a par f -> Forall2 (leads h0) qi T ->
  exists h' qi', visit ltb a qd qp qb h = Done tt h' /\ st h' ri qi' /\
    Forall2 (leads h0) qi' (T ++ if overlaps ltb bb (tree_bbox (get_child t1 t2 t3 t4 qd)) then [get_child t1 t2 t3 t4 qd] else []).
Proof.
  intros S0 R FT. apply rep_node in R as (ab & c & F & _ & A & B & K). unfold visit.
  destruct (load_node_ok a h ab (fun q => Some (c q))) as (k & K1 & K2); [eapply st_old; [exact S0|exact A]|].
  step (exact K1). cbn [snd]. rewrite K2. step (reflexivity). step (eapply box_of_ok; [exact S0|apply K]).
  step (apply load_box_ok; eapply st_old; [exact S0|exact QB]).
  destruct (overlaps ltb bb (tree_bbox (get_child t1 t2 t3 t4 qd))).
  - destruct (st_add_q _ _ _ _ _ _ (SField a qd) S0) as (h1 & R1 & S1). exists h1, (qi ++ [SField a qd]).
    split; [exact R1|]. split; [exact S1|]. apply Forall2_app; [exact FT|]. constructor; [|constructor].
    exists (c qd), (Some a), (F qd). split; [apply K|]. exists ab, (fun q => Some (c q)). auto.
  - exists h, qi. rewrite app_nil_r. auto.
Qed.

Lemma st_count h ri qi : st h ri qi -> exists s m, load_pool qp h = Done (s, length qi, m) h.
Proof.
  intros (rm & qm & _ & (s & ss & A & _) & _). exists s, qm. unfold load_pool. step (apply load_ok; exact A). reflexivity.
Qed.
Lemma rev_if (b : bool) (t : tree num) : rev (if b then [t] else []) = if b then [t] else [].
Proof. now destruct b. Qed.

Lemma loop_ok fuel : forall h ri qi stk P, (stack_size stk <= fuel)%nat -> st h ri qi -> Forall2 (refers h0) ri P ->
  Forall2 (leads h0) qi (rev stk) ->
  exists h' ri' P', search_loop ltb fuel rp qp qb h = Done tt h' /\ st h' ri' [] /\ Forall2 (refers h0) ri' P' /\
    map pid P' = map pid P ++ stack_out ltb bb stk.
Proof.
  assert (NIL : forall fuel h ri qi P, st h ri qi -> Forall2 (refers h0) ri P -> Forall2 (leads h0) qi (rev []) ->
    exists h' ri' P', search_loop ltb fuel rp qp qb h = Done tt h' /\ st h' ri' [] /\ Forall2 (refers h0) ri' P' /\
    map pid P' = map pid P ++ stack_out ltb bb []).
  { intros fu h ri qi P S0 FR FL. inversion FL. subst qi. destruct (st_count _ _ _ S0) as (s & m & LP).
    exists h, ri, P. split; [|split; [exact S0|split; [exact FR|cbn; now rewrite app_nil_r]]].
    destruct fu; cbn [search_loop]; step (exact LP); reflexivity. }
  induction fuel as [|fuel IH]; intros h ri qi stk P HS S0 FR FL; destruct stk as [|t stk]; try (eapply NIL; eassumption).
  - rewrite stack_size_cons in HS. destruct t; cbn in HS; lia.
  - rewrite stack_size_cons in HS. cbn [rev] in FL.
    apply Forall2_app_inv_r in FL as (qi0 & qi1 & FL0 & FL1 & ->). inversion FL1 as [|s ? ? ? LD FL2]; subst. inversion FL2; subst. clear FL1 FL2.
    destruct (st_count _ _ _ S0) as (s1 & m1 & LP). cbn [search_loop]. step (exact LP).
    rewrite app_length, Nat.add_comm. cbn [length plus].
    destruct (st_pop_q _ _ _ _ _ _ _ S0) as (h1 & R1 & S1). step (exact R1).
    destruct LD as (a & par & f & RT & LS).
    assert (NO : node_of s h1 = Done a h1).
    { destruct s as [a'|b qd|? ?]; cbn [node_of]; [now subst a'| |contradiction].
      destruct LS as (ab & k & K1 & K2). destruct (load_node_ok b h1 ab k) as (k' & K3 & K4); [eapply st_old; eassumption|].
      step (exact K3). cbn [snd]. rewrite K4, K2. reflexivity. }
    step (exact NO). destruct t as [b ps|b t1 t2 t3 t4].
    + destruct RT as (ab & ap & _ & A & B & cs & CC & HH).
      step (eapply is_leaf_leaf; eapply st_old; [exact S1|exact A]).
      destruct (scan_ok ap cs ps CC HH ps [] h1 ri qi0 P eq_refl S1 FR) as (h2 & ri2 & R2 & S2 & F2).
      assert (LL : load_leaf a h1 = Done (Some ab, length ps, ap, par) h1) by (apply load_leaf_ok; eapply st_old; [exact S1|exact A]).
      rewrite seq_assoc. step (exact LL). cbn [length] in R2. step (exact R2).
      destruct (IH h2 ri2 qi0 stk _ ltac:(cbn in HS; lia) S2 F2 FL0) as (h' & ri' & P' & R' & S' & F' & E').
      exists h', ri', P'. split; [exact R'|]. split; [exact S'|]. split; [exact F'|].
      rewrite E', map_app, <- app_assoc. reflexivity.
    + pose proof RT as RT0. apply rep_node in RT0 as (ab & c & F & _ & A & _).
      step (eapply is_leaf_node; eapply st_old; [exact S1|exact A]).
      rewrite seq_assoc. destruct (visit_ok _ _ _ _ _ _ _ _ _ _ _ UPPERLEFT _ S1 RT FL0) as (h2 & q2 & V2 & S2 & F2). step (exact V2).
      rewrite seq_assoc. destruct (visit_ok _ _ _ _ _ _ _ _ _ _ _ UPPERRIGHT _ S2 RT F2) as (h3 & q3 & V3 & S3 & F3). step (exact V3).
      rewrite seq_assoc. destruct (visit_ok _ _ _ _ _ _ _ _ _ _ _ LOWERLEFT _ S3 RT F3) as (h4 & q4 & V4 & S4 & F4). step (exact V4).
      destruct (visit_ok _ _ _ _ _ _ _ _ _ _ _ LOWERRIGHT _ S4 RT F4) as (h5 & q5 & V5 & S5 & F5). step (exact V5).
      cbn [get_child] in F5. cbn [size] in HS.
      set (o := fun t => if overlaps ltb bb (tree_bbox t) then [t] else []) in *.
      assert (RV : ((((rev stk ++ o t1) ++ o t2) ++ o t3) ++ o t4) = rev (o t4 ++ o t3 ++ o t2 ++ o t1 ++ stk)).
      { rewrite !rev_app_distr. unfold o. rewrite !rev_if, <- !app_assoc. reflexivity. }
      fold (o t1) (o t2) (o t3) (o t4) in F5. rewrite RV in F5.
      assert (SZ : forall t, stack_size (o t) <= size t).
      { intros t. unfold o, stack_size. destruct (overlaps ltb bb (tree_bbox t)); cbn; lia. }
      assert (SA : forall l l' : list (tree num), stack_size (l ++ l') = stack_size l + stack_size l').
      { intros l l'. unfold stack_size. rewrite map_app, list_sum_app. reflexivity. }
      destruct (IH h5 ri q5 (o t4 ++ o t3 ++ o t2 ++ o t1 ++ stk) P) as (h' & ri' & P' & R' & S' & F' & E'); auto.
      { rewrite !SA. pose proof (SZ t1). pose proof (SZ t2). pose proof (SZ t3). pose proof (SZ t4). lia. }
      exists h', ri', P'. split; [exact R'|]. split; [exact S'|]. split; [exact F'|]. rewrite E'. f_equal.
      unfold stack_out. rewrite !flat_map_app. cbn [flat_map QuadTree_Model.qt_search_within].
      assert (OT : forall t, flat_map (fun t => QuadTree_Model.qt_search_within ltb t bb) (o t) =
                if overlaps ltb bb (tree_bbox t) then QuadTree_Model.qt_search_within ltb t bb else []).
      { intros t. unfold o. destruct (overlaps ltb bb (tree_bbox t)); cbn; [apply app_nil_r|reflexivity]. }
      rewrite !OT, <- !app_assoc. reflexivity.
Qed.
End Run.

(** quadtree.pyx:125-129. *)
Lemma collect_ok (h0 : heapn) d rp rm : forall ri P h, poolat h rp ri rm -> rp <> rm -> fresh h -> fresh h0 -> next h0 <= rp -> 
  (forall x, x < next h0 -> at_ h x = at_ h0 x) -> Forall2 (refers h0) ri P ->
  exists h', collect (length ri) rp d h = Done (expand d (map pid P)) h' /\ poolat h' rp [] rm /\ fresh h' /\ next h' = next h /\
    forall x, x <> rp -> at_ h' x = at_ h x.
Proof.
  intros ri. induction ri as [|s ri IH] using rev_ind; intros P h PR D F F0 G OLD FA.
  - inversion FA. exists h. cbn. auto.
  - apply Forall2_app_inv_l in FA as (P0 & P1 & FA0 & FA1 & ->). inversion FA1 as [|? p ? ? RF FA2]; subst. inversion FA2; subst.
    destruct (pool_pop_ok h rp ri rm s PR D F) as (h1 & R1 & PR1 & F1 & N1 & O1).
    rewrite app_length, Nat.add_comm. cbn [length plus collect]. step (exact R1).
    destruct RF as (ap & j & cs & -> & A & NT).
    assert (Lap : ap < next h0) by (destruct (le_lt_dec (next h0) ap) as [K|K]; [rewrite F0 in A by exact K; discriminate|exact K]).
    assert (GC : get_cell ap j h1 = Done p h1).
    { unfold get_cell. step (apply load_ok; rewrite O1, OLD by lia; exact A). rewrite NT. reflexivity. }
    step (exact GC).
    destruct (IH P0 h1) as (h' & R' & PR' & F' & N' & O'); auto.
    { intros x Hx. rewrite O1 by lia. now apply OLD. }
    step (exact R'). exists h'. split.
    + unfold ret. f_equal. unfold expand. rewrite map_app. cbn [map]. rewrite rev_app_distr. reflexivity.
    + split; [exact PR'|]. split; [exact F'|]. split; [congruence|]. intros x Hx. rewrite O', O1 by exact Hx. reflexivity.
Qed.

(** One search: the answer, and two blocks more than before. *)
Lemma search_ok fuel (h : heapn) o t f bb par : fresh h -> rep h t (oroot o) par f -> size t <= fuel ->
  exists h' lost1 lost2, search ltb fuel o bb h = Done (expand (odups o) (QuadTree_Model.qt_search_within ltb t bb)) h' /\ fresh h' /\
    next h <= lost1 /\ next h <= lost2 /\ lost1 <> lost2 /\ at_ h' lost1 <> None /\ at_ h' lost2 <> None /\ next h <= next h' /\
    (forall x, x < next h -> at_ h' x = at_ h x) /\
    (forall x, next h <= x -> x <> lost1 -> x <> lost2 -> at_ h' x = None).
Proof.
  intros F R SZ. unfold search. 
  destruct (malloc_ok (Box bb) h _ F eq_refl) as (h0 & R0 & N0 & F0 & A0 & X0). step (exact R0).
  assert (RT : rep h0 t (oroot o) par f).
  { apply rep_ext with (h := h); [|exact R]. intros x Hx. apply X0. intros ->.
    apply (rep_live cap h t _ _ _ _ R Hx). apply F. lia. }
  unfold qt_search_within.
  destruct (pool_new_ok 64 h0 _ ltac:(lia) F0 eq_refl) as (h1 & R1 & P1 & F1 & N1 & X1). rewrite seq_assoc. step (exact R1).
  destruct (pool_new_ok 16 h1 _ ltac:(lia) F1 eq_refl) as (h2 & R2 & P2 & F2 & N2 & X2). rewrite seq_assoc. step (exact R2).
  set (rp := S (next h0)). set (qp := S (next h1)).
  assert (S2 : st h0 rp qp h2 [] []).
  { exists (next h0), (next h1). split.
    - apply poolat_ext with (h := h1); [apply X2; unfold rp; lia|apply X2; lia|exact P1].
    - split; [exact P2|]. unfold rp, qp. repeat (split; [first [lia|exact F2]|]). split.
      + intros x Hx. rewrite X2, X1 by lia. reflexivity.
      + intros x Y1 Y2 Y3 Y4 Y5. apply F2. lia. }
  destruct (st_add_q _ _ _ _ _ _ (SRoot (oroot o)) S2) as (h3 & R3 & S3). rewrite seq_assoc. step (exact R3).
  destruct (loop_ok h0 rp qp (next h) bb A0 F0 fuel h3 [] [SRoot (oroot o)] [t] []) as (h4 & ri & P & R4 & S4 & FP & EP).
  { unfold stack_size. cbn. lia. }
  { exact S3. } { constructor. }
  { constructor; [|constructor]. exists (oroot o), par, f. auto. }
  rewrite seq_assoc. step (exact R4).
  destruct S4 as (rm & qm & PR & PQ & D1 & D2 & D3 & D4 & D5 & D6 & G1 & G2 & G3 & G4 & F4 & NX4 & OLD & NEW).
  destruct PQ as (s & ss & QA & QB & _).
  unfold pool_destroy. rewrite seq_assoc.
  rewrite seq_assoc. step (unfold load_pool; erewrite seq_done by (apply load_ok; exact QA); reflexivity).
  rewrite seq_assoc. step (eapply free_at; exact QB).
  step (eapply free_at; cbn; rewrite upd_other by exact D2; exact QA).
  set (h5 := del (del h4 qm) qp).
  assert (X5 : forall x, x <> qm -> x <> qp -> at_ h5 x = at_ h4 x).
  { intros x Y1 Y2. cbn. rewrite !upd_other by assumption. reflexivity. }
  assert (F5 : fresh h5).
  { intros x Hx. cbn in *. apply upd_none, upd_none, F4, Hx. }
  assert (PR5 : poolat h5 rp ri rm) by (apply poolat_ext with (h := h4); [apply X5; congruence|apply X5; congruence|exact PR]).
  step (reflexivity). fold h5.
  destruct PR5 as (s5 & ss5 & PA & PB & PC).
  step (unfold load_pool; erewrite seq_done by (apply load_ok; exact PA); reflexivity).
  destruct (collect_ok h0 (odups o) rp rm ri P h5) as (h6 & R6 & PR6 & F6 & N6 & X6); auto.
  { exists s5, ss5. auto. }
  { intros x Hx. rewrite X5 by lia. now apply OLD. }
  step (exact R6).
  assert (Q6 : at_ h6 (next h) = Some (Box bb)).
  { rewrite X6 by (unfold rp; lia). rewrite X5 by lia. rewrite OLD by lia. exact A0. }
  step (eapply free_at; exact Q6).
  cbn [map stack_out flat_map app] in EP. unfold stack_out in EP. cbn [flat_map] in EP. rewrite app_nil_r in EP. rewrite EP.
  exists (del h6 (next h)), rp, rm. split; [reflexivity|]. destruct PR6 as (s6 & ss6 & J1 & J2 & _).
  split; [intros x Hx; cbn in *; apply upd_none, F6, Hx|]. 
  split; [unfold rp; lia|]. split; [lia|]. split; [exact D1|].
  assert (RPN : rp <> next h) by (unfold rp; lia).
  split; [cbn; rewrite upd_other, J1 by lia; discriminate|]. split; [cbn; rewrite upd_other, J2 by lia; discriminate|].
  split; [cbn; rewrite N6; cbn; lia|]. split.
  - intros x Hx. cbn. rewrite upd_other by lia. rewrite X6, X5, OLD, X0 by lia. reflexivity.
  - intros x Hx Y1 Y2. cbn. destruct (Nat.eq_dec x (next h)) as [->|Y3]; [apply upd_same|]. rewrite upd_other by exact Y3.
    rewrite X6 by exact Y1. cbn.
    destruct (Nat.eq_dec x qp) as [->|Y4]; [apply upd_same|]. rewrite upd_other by exact Y4.
    destruct (Nat.eq_dec x qm) as [->|Y5]; [apply upd_same|]. rewrite upd_other by exact Y5.
    apply NEW; auto. lia.
Qed.
End Search.
