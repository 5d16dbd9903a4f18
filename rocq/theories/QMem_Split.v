(** Splitting a leaf in memory does what the split of QuadTree_Model does, and
    frees the old leaf. *)
From Coq Require Import List ZArith Bool Lia Permutation.
From Verif Require Import QuadTree_Model QuadTree_Spec QuadTree_Proofs QMem_Model QMem_Spec QMem_Base.
Import ListNotations.

Section Split.
Context {num : Type} (ltb eqb : num -> num -> bool) (mid : num -> num -> num) (cap : Z).
Hypothesis L : coordinate_laws ltb eqb mid.
Notation heapn := (heap num).
Notation getq := (get_quadrant ltb mid).
Notation cbb := (child_bbox mid).
Notation distr := (distribute ltb mid).
Notation leafat := (leafat cap).
Notation rep := (rep cap).
Local Tactic Notation "step" tactic3(t) := erewrite seq_done by t; cbv beta iota.

Lemma get_cell_ok (h : heapn) ap cs ps i p : at_ h ap = Some (Cells cs) -> holds cap cs ps -> nth_error ps i = Some p ->
  get_cell ap i h = Done p h.
Proof.
  intros A H N. unfold get_cell. step (apply load_ok; exact A). rewrite (holds_nth cap _ _ _ _ H N). reflexivity.
Qed.

Lemma push_ok (h : heapn) a par bb ps ab ap p : leafat h a par bb ps ab ap -> a <> ab -> a <> ap -> ab <> ap ->
  length ps < Z.to_nat (cap + 1) ->
  exists h', push_position a p h = Done tt h' /\ next h' = next h /\ leafat h' a par bb (ps ++ [p]) ab ap /\
    forall x, x <> a -> x <> ap -> at_ h' x = at_ h x.
Proof.
  intros (A & B & cs & C & D1 & D2) N1 N2 N3 F. unfold push_position.
  step (apply load_leaf_ok; exact A). step (apply load_ok; exact C).
  destruct (set_nth_ok cs (length ps) (Some p)) as (cs' & E & E1 & E2 & _); [lia|]. rewrite E.
  step (eapply store_ok; exact C).
  erewrite store_ok by (cbn; rewrite upd_other by congruence; exact A).
  eexists. split; [reflexivity|]. split; [reflexivity|]. split.
  - split; [|split].
    + cbn. rewrite upd_same, app_length, Nat.add_comm. reflexivity.
    + cbn. rewrite !upd_other by congruence. exact B.
    + exists cs'. cbn. rewrite upd_other by congruence. rewrite upd_same. split; [reflexivity|].
      split; [lia|]. rewrite app_length, Nat.add_comm. cbn [length plus]. rewrite E2, D2, map_app. reflexivity.
  - intros x X1 X2. cbn. rewrite !upd_other by congruence. reflexivity.
Qed.

(** Four leaves at different places. *)
Definition apart (A AB AP : quadrant -> nat) : Prop :=
  (forall q q', A q = A q' -> q = q') /\ (forall q q', AB q = AB q' -> q = q') /\ (forall q q', AP q = AP q' -> q = q') /\
  (forall q q', A q <> AB q') /\ (forall q q', A q <> AP q') /\ (forall q q', AB q <> AP q').

Lemma distr_snoc b l p q : distr b (l ++ [p]) q =
  distr b l q ++ if quadrant_eqb (getq b (px p) (py p)) q then [p] else [].
Proof. unfold distribute. rewrite filter_app. cbn. reflexivity. Qed.
Lemma quadrant_eqb_refl q : quadrant_eqb q q = true.
Proof. now destruct q. Qed.
Lemma quadrant_dec (q q' : quadrant) : {q = q'} + {q <> q'}.
Proof. decide equality. Qed.
Lemma distr_length b l q : length (distr b l q) <= length l.
Proof. unfold distribute. induction l as [|x l IH]; cbn; [lia|]. destruct (quadrant_eqb _ _); cbn; lia. Qed.

Lemma dist_ok (A AB AP : quadrant -> nat) par sp sb b all cs : apart A AB AP ->
  (forall q, sp <> A q /\ sp <> AP q /\ sb <> A q /\ sb <> AP q) -> (Z.of_nat (length all) <= cap)%Z ->
  forall rem pre (h : heapn), all = pre ++ rem ->
  at_ h sp = Some (Cells cs) -> holds cap cs all -> at_ h sb = Some (Box b) ->
  (forall q, leafat h (A q) par (cbb b q) (distr b pre q) (AB q) (AP q)) ->
  exists h', distribute_loop ltb mid (length rem) (length pre) sp sb (A UPPERLEFT) (A UPPERRIGHT) (A LOWERLEFT) (A LOWERRIGHT) h
             = Done tt h' /\ next h' = next h /\
    (forall q, leafat h' (A q) par (cbb b q) (distr b all q) (AB q) (AP q)) /\
    (forall x, (forall q, x <> A q /\ x <> AP q) -> at_ h' x = at_ h x).
Proof.
  intros (D1 & D2 & D3 & D4 & D5 & D6) SD Hcap rem. induction rem as [|p rem IH]; intros pre h E HP HC HB HL.
  - exists h. rewrite app_nil_r in E. subst pre. cbn. auto.
  - cbn [length distribute_loop].
    step (eapply get_cell_ok; [exact HP|exact HC|]; rewrite E, nth_error_app2, Nat.sub_diag by lia; reflexivity).
    step (apply load_box_ok; exact HB).
    set (q0 := getq b (px p) (py p)).
    replace (pick q0 (A UPPERLEFT) (A UPPERRIGHT) (A LOWERLEFT) (A LOWERRIGHT)) with (A q0) by (destruct q0; reflexivity).
    destruct (push_ok h (A q0) par (cbb b q0) (distr b pre q0) (AB q0) (AP q0) p) as (h1 & P1 & P2 & P3 & P4); auto.
    { pose proof (distr_length b pre q0) as DL.
      assert (LL : length all = length pre + S (length rem)) by (rewrite E, app_length; reflexivity). lia. }
    step (exact P1).
    assert (E' : all = (pre ++ [p]) ++ rem) by (rewrite E, <- app_assoc; reflexivity).
    destruct (IH (pre ++ [p]) h1 E') as (h' & R1 & R2 & R3 & R4).
    + rewrite P4 by apply SD. exact HP.
    + exact HC.
    + rewrite P4 by apply SD. exact HB.
    + intros q. rewrite distr_snoc. fold q0. destruct (quadrant_eqb q0 q) eqn:EQ.
      * apply quadrant_eqb_eq in EQ. subst q. exact P3.
      * rewrite app_nil_r. assert (NQ : q <> q0) by (intros ->; rewrite quadrant_eqb_refl in EQ; discriminate).
        apply leafat_ext with (h := h); [|apply HL]. intros x HX. apply P4.
        -- destruct HX as [<-|[<-|[<-|[]]]]; intros K; [apply NQ; auto|symmetry in K; exact (D4 _ _ K)|symmetry in K; exact (D5 _ _ K)].
        -- destruct HX as [<-|[<-|[<-|[]]]]; intros K; [exact (D5 _ _ K)|exact (D6 _ _ K)|apply NQ; auto].
    + rewrite app_length in R1. cbn [length] in R1. rewrite Nat.add_comm in R1. cbn [plus] in R1.
      exists h'. split; [exact R1|]. split; [congruence|]. split; [exact R3|].
      intros x HX. rewrite R4 by exact HX. apply P4; apply HX.
Qed.

(** The quadrants in the order of the mallocs. *)
Definition num_of (q : quadrant) : nat :=
  match q with UPPERLEFT => 0 | UPPERRIGHT => 1 | LOWERLEFT => 2 | LOWERRIGHT => 3 end.
Lemma num_of_inj q q' : num_of q = num_of q' -> q = q'.
Proof. destruct q, q'; cbn; congruence. Qed.
Lemma num_of_lt q : num_of q < 4.
Proof. destruct q; cbn; lia. Qed.

(** The parent of the leaf that is split, quadtree.h:213-226. *)
Definition gp_ok (h : heapn) (par : option nat) (f : list nat) (Q : nat -> bbox num -> (quadrant -> option nat) -> Prop) : Prop :=
  match par with
  | None => True
  | Some g => exists gb gbb k, at_ h g = Some (nodeb gb k) /\ at_ h gb = Some (Box gbb) /\ ~ In g f /\ ~ In gb f /\ g <> gb /\
                Q gb gbb k
  end.

(** The first half of quadtree.h:182-275, up to the check of the children. *)
Definition phase (cnt ps bb : nat) (b : bbox num) (gp : option nat) (k : nat -> nat -> nat -> nat -> nat -> heapn -> run num nat) : heapn -> run num nat :=
  seq_ (qt_new_bbox (cbb b UPPERLEFT)) (fun bul =>
  seq_ (qt_new_bbox (cbb b UPPERRIGHT)) (fun bur =>
  seq_ (qt_new_bbox (cbb b LOWERLEFT)) (fun bll =>
  seq_ (qt_new_bbox (cbb b LOWERRIGHT)) (fun blr =>
  seq_ (qt_new_nonleaf bb) (fun parent =>
  seq_ (qt_new_leaf cap bul) (fun ul =>
  seq_ (qt_new_leaf cap bur) (fun ur =>
  seq_ (qt_new_leaf cap bll) (fun ll =>
  seq_ (qt_new_leaf cap blr) (fun lr =>
  seq_ (set_parent ul parent) (fun _ =>
  seq_ (set_parent ur parent) (fun _ =>
  seq_ (set_parent ll parent) (fun _ =>
  seq_ (set_parent lr parent) (fun _ =>
  seq_ (set_field parent UPPERLEFT ul) (fun _ =>
  seq_ (set_field parent UPPERRIGHT ur) (fun _ =>
  seq_ (set_field parent LOWERLEFT ll) (fun _ =>
  seq_ (set_field parent LOWERRIGHT lr) (fun _ =>
  seq_ (match gp with
        | Some g => seq_ (load_node g) (fun n => seq_ (load_box (fst n)) (fun gb =>
            set_field g (getq gb (mid (xmin b) (xmax b)) (mid (ymin b) (ymax b))) parent))
        | None => ret tt end) (fun _ =>
  seq_ (distribute_loop ltb mid cnt 0 ps bb ul ur ll lr) (fun _ =>
  k parent ul ur ll lr))))))))))))))))))).

Lemma malloc_ok b (h : heapn) n : fresh h -> next h = n ->
  exists h', malloc b h = Done n h' /\ next h' = S n /\ fresh h' /\ at_ h' n = Some b /\
    forall x, x <> n -> at_ h' x = at_ h x.
Proof.
  intros F <-. eexists. split; [reflexivity|]. split; [reflexivity|]. cbn. split; [|split].
  - intros x Hx. cbn in *. rewrite upd_other by lia. apply F. lia.
  - apply upd_same.
  - intros x Hx. now apply upd_other.
Qed.
Lemma new_leaf_ok bb (h : heapn) n : fresh h -> next h = n ->
  exists h', qt_new_leaf cap bb h = Done (S n) h' /\ next h' = S (S n) /\ fresh h' /\
    at_ h' n = Some (Cells (repeat None (Z.to_nat (cap + 1)))) /\ at_ h' (S n) = Some (LeafB (Some bb) 0 n None) /\
    forall x, x <> n -> x <> S n -> at_ h' x = at_ h x.
Proof.
  intros F E. unfold qt_new_leaf. destruct (malloc_ok (Cells (repeat None (Z.to_nat (cap + 1)))) h n F E) as (h1 & R1 & N1 & F1 & A1 & X1).
  destruct (malloc_ok (LeafB (Some bb) 0 n None) h1 (S n) F1 N1) as (h2 & R2 & N2 & F2 & A2 & X2).
  step (exact R1). exists h2. split; [exact R2|]. split; [exact N2|]. split; [exact F2|].
  split; [rewrite X2 by lia; exact A1|]. split; [exact A2|]. intros x Y1 Y2. rewrite X2, X1 by lia. reflexivity.
Qed.
Lemma put_ok a b (h : heapn) c n : fresh h -> next h = n -> at_ h a = Some c -> store a b h = Done tt (put h a b) /\
  next (put h a b) = n /\ fresh (put h a b) /\ at_ (put h a b) a = Some b /\ forall x, x <> a -> at_ (put h a b) x = at_ h x.
Proof.
  intros F E A. split; [eapply store_ok; exact A|]. split; [exact E|]. split; [|split].
  - intros x Hx. cbn in *. rewrite upd_other; [apply F; exact Hx|]. intros ->. rewrite (F a Hx) in A. discriminate.
  - apply upd_same.
  - intros x Hx. now apply upd_other.
Qed.
Lemma set_parent_ok a p (h : heapn) bb c ps r n : fresh h -> next h = n -> at_ h a = Some (LeafB bb c ps r) ->
  exists h', set_parent a p h = Done tt h' /\ next h' = n /\ fresh h' /\ at_ h' a = Some (LeafB bb c ps (Some p)) /\
    forall x, x <> a -> at_ h' x = at_ h x.
Proof.
  intros F E A. unfold set_parent. step (apply load_leaf_ok; exact A).
  exists (put h a (LeafB bb c ps (Some p))). eapply put_ok; eassumption.
Qed.
Lemma field_ok a q c (h : heapn) bb k n : fresh h -> next h = n -> at_ h a = Some (nodeb bb k) ->
  exists h', set_field a q c h = Done tt h' /\ next h' = n /\ fresh h' /\ at_ h' a = Some (nodeb bb (setkid k q c)) /\
    forall x, x <> a -> at_ h' x = at_ h x.
Proof.
  intros F E A. exists (put h a (nodeb bb (setkid k q c))). rewrite (set_field_ok _ _ _ _ _ _ A).
  destruct (put_ok a (nodeb bb (setkid k q c)) h _ n F E A) as (_ & K). split; [reflexivity|]. exact K.
Qed.

Local Ltac look := repeat match goal with
  | F : forall x, x <> _ -> at_ ?h x = _ |- at_ ?h ?x = _ => rewrite (F x) by lia
  | F : forall x, x <> _ -> x <> _ -> at_ ?h x = _ |- at_ ?h ?x = _ => rewrite (F x) by lia
  end; try eassumption.
Lemma phase_ok (h : heapn) a par b ps sb sp k : fresh h -> leafat h a par b ps sb sp -> NoDup [a; sb; sp] ->
  (Z.of_nat (length ps) <= cap)%Z -> (1 <= cap)%Z ->
  gp_ok h par [a; sb; sp] (fun _ _ _ => True) ->
  exists h' n (A AB AP : quadrant -> nat), n = next h /\
    phase (length ps) sp sb b par k h = k (n + 4) (A UPPERLEFT) (A UPPERRIGHT) (A LOWERLEFT) (A LOWERRIGHT) h' /\
    (forall q, A q = n + 6 + 2 * num_of q /\ AB q = n + num_of q /\ AP q = n + 5 + 2 * num_of q) /\
    next h' = n + 13 /\ (forall q, leafat h' (A q) (Some (n + 4)) (cbb b q) (distr b ps q) (AB q) (AP q)) /\
    at_ h' (n + 4) = Some (nodeb sb (fun q => Some (A q))) /\
    (forall x, x < n -> par <> Some x -> at_ h' x = at_ h x) /\ fresh h' /\
    gp_ok h par [a; sb; sp] (fun gb gbb kk => forall g, par = Some g ->
       at_ h' g = Some (nodeb gb (setkid kk (link_quadrant ltb mid gbb b) (n + 4)))).
Proof.
  intros FR (LA & LB & cs & LC & LH) ND Hcap Hcap1 GP. remember (next h) as n eqn:En. symmetry in En.
  rewrite !NoDup_cons_iff in ND. destruct ND as (N1 & N2 & _). cbn [In] in N1, N2.
  assert (LT : forall x b, at_ h x = Some b -> x < n).
  { intros x b0 K. destruct (le_lt_dec n x) as [G|G]; [|exact G]. rewrite FR in K by lia. discriminate. }
  pose proof (LT _ _ LA) as La. pose proof (LT _ _ LB) as Lsb. pose proof (LT _ _ LC) as Lsp.
  unfold phase.
  destruct (malloc_ok (Box (cbb b UPPERLEFT)) h n FR En) as (h1 & R & E1 & F1 & A1 & X1). step (exact R). clear R.
  destruct (malloc_ok (Box (cbb b UPPERRIGHT)) h1 _ F1 E1) as (h2 & R & E2 & F2 & A2 & X2). step (exact R). clear R.
  destruct (malloc_ok (Box (cbb b LOWERLEFT)) h2 _ F2 E2) as (h3 & R & E3 & F3 & A3 & X3). step (exact R). clear R.
  destruct (malloc_ok (Box (cbb b LOWERRIGHT)) h3 _ F3 E3) as (h4 & R & E4 & F4 & A4 & X4). step (exact R). clear R.
  destruct (malloc_ok (NodeB sb None None None None) h4 _ F4 E4) as (h5 & R & E5 & F5 & A5 & X5). step (exact R). clear R.
  destruct (new_leaf_ok n h5 _ F5 E5) as (h6 & R & E6 & F6 & A6 & B6 & X6). step (exact R). clear R.
  destruct (new_leaf_ok (S n) h6 _ F6 E6) as (h7 & R & E7 & F7 & A7 & B7 & X7). step (exact R). clear R.
  destruct (new_leaf_ok (S (S n)) h7 _ F7 E7) as (h8 & R & E8 & F8 & A8 & B8 & X8). step (exact R). clear R.
  destruct (new_leaf_ok (S (S (S n))) h8 _ F8 E8) as (h9 & R & E9 & F9 & A9 & B9 & X9). step (exact R). clear R.
  remember (S (S (S (S n)))) as m eqn:Em.
  destruct (set_parent_ok (S (S m)) m h9 (Some n) 0 (S m) None _ F9 E9) as (h10 & R & E10 & F10 & A10 & X10); [look|]. step (exact R). clear R.
  destruct (set_parent_ok (S (S (S (S m)))) m h10 (Some (S n)) 0 (S (S (S m))) None _ F10 E10) as (h11 & R & E11 & F11 & A11 & X11); [look|]. step (exact R). clear R.
  destruct (set_parent_ok (S (S (S (S (S (S m)))))) m h11 (Some (S (S n))) 0 (S (S (S (S (S m))))) None _ F11 E11) as (h12 & R & E12 & F12 & A12 & X12); [look|]. step (exact R). clear R.
  destruct (set_parent_ok (S (S (S (S (S (S (S (S m)))))))) m h12 (Some (S (S (S n)))) 0 (S (S (S (S (S (S (S m))))))) None _ F12 E12) as (h13 & R & E13 & F13 & A13 & X13); [look|]. step (exact R). clear R.
  destruct (field_ok m UPPERLEFT (S (S m)) h13 sb (fun _ => None) _ F13 E13) as (h14 & R & E14 & F14 & A14 & X14); [look|]. step (exact R). clear R.
  destruct (field_ok m UPPERRIGHT (S (S (S (S m)))) h14 sb _ _ F14 E14 A14) as (h15 & R & E15 & F15 & A15 & X15). step (exact R). clear R.
  destruct (field_ok m LOWERLEFT (S (S (S (S (S (S m)))))) h15 sb _ _ F15 E15 A15) as (h16 & R & E16 & F16 & A16 & X16). step (exact R). clear R.
  destruct (field_ok m LOWERRIGHT (S (S (S (S (S (S (S (S m)))))))) h16 sb _ _ F16 E16 A16) as (h17 & R & E17 & F17 & A17 & X17). step (exact R). clear R.
  (* what is there now *)
  set (A := fun q => match q with UPPERLEFT => S (S m) | UPPERRIGHT => S (S (S (S m)))
     | LOWERLEFT => S (S (S (S (S (S m))))) | LOWERRIGHT => S (S (S (S (S (S (S (S m))))))) end).
  set (AB := fun q => match q with UPPERLEFT => n | UPPERRIGHT => S n | LOWERLEFT => S (S n) | LOWERRIGHT => S (S (S n)) end).
  set (AP := fun q => match q with UPPERLEFT => S m | UPPERRIGHT => S (S (S m))
     | LOWERLEFT => S (S (S (S (S m)))) | LOWERRIGHT => S (S (S (S (S (S (S m)))))) end).
  assert (AR : forall q, A q = n + 6 + 2 * num_of q /\ AB q = n + num_of q /\ AP q = n + 5 + 2 * num_of q).
  { intros []; cbn [A AB AP num_of]; lia. }
  assert (OLD : forall x, x < n -> at_ h17 x = at_ h x) by (intros x Hx; look; reflexivity).
  assert (EMPTY : holds cap (repeat (@None (position num)) (Z.to_nat (cap + 1))) []) by (split; [apply repeat_length|reflexivity]).
  assert (NEW : forall q, leafat h17 (A q) (Some m) (cbb b q) (distr b [] q) (AB q) (AP q)).
  { intros q. split; [|split; [|exists (repeat None (Z.to_nat (cap + 1))); split; [|exact EMPTY]]];
      destruct q; cbn [A AB AP length distribute filter]; look. }
  assert (PAR : at_ h17 m = Some (nodeb sb (fun q => Some (A q)))) by (rewrite A17; reflexivity).
  assert (AP0 : apart A AB AP).
  { repeat split; intros q q'; destruct (AR q) as (Q1 & Q2 & Q3); destruct (AR q') as (Q1' & Q2' & Q3'); rewrite ?Q1, ?Q2, ?Q3, ?Q1', ?Q2', ?Q3';
      pose proof (num_of_lt q); pose proof (num_of_lt q'); pose proof (num_of_inj q q'); intros; try apply num_of_inj; lia. }
  change (S (S (S (S (S (S (S (S m)))))))) with (A LOWERRIGHT). change (S (S (S (S (S (S m)))))) with (A LOWERLEFT).
  change (S (S (S (S m)))) with (A UPPERRIGHT). change (S (S m)) with (A UPPERLEFT).
  clearbody A AB AP. clear A1 A2 A3 A4 A5 A6 A7 A8 A9 A10 A11 A12 A13 A14 A15 A16 A17 B6 B7 B8 B9 X1 X2 X3 X4 X5 X6 X7 X8 X9 X10 X11 X12 X13 X14 X15 X16 X17.
  replace (n + 4) with m by lia.
  clear E1 E2 E3 E4 E5 E6 E7 E8 E9 E10 E11 E12 E13 E14 E15 E16 F1 F2 F3 F4 F5 F6 F7 F8 F9 F10 F11 F12 F13 F14 F15 F16.
  (* the link of the grandparent *)
  assert (LK : exists h18, match par with
        | Some g => seq_ (load_node g) (fun n => seq_ (load_box (fst n)) (fun gb =>
            set_field g (getq gb (mid (xmin b) (xmax b)) (mid (ymin b) (ymax b))) m))
        | None => ret tt end h17 = Done tt h18 /\ next h18 = next h17 /\ fresh h18 /\
        (forall x, par <> Some x -> at_ h18 x = at_ h17 x) /\
        gp_ok h par [a; sb; sp] (fun gb gbb kk => forall g, par = Some g ->
          at_ h18 g = Some (nodeb gb (setkid kk (link_quadrant ltb mid gbb b) m))) /\
        (forall g, par = Some g -> g < n /\ ~ In g [a; sb; sp])).
  { destruct par as [g|]; [|exists h17; repeat split; auto; discriminate].
    destruct GP as (gb & gbb & kk & G1 & G2 & G3 & G4 & G5 & _).
    pose proof (LT _ _ G1) as Lg. pose proof (LT _ _ G2) as Lgb.
    destruct (load_node_ok g h17 gb kk) as (k' & K1 & K2); [rewrite OLD by exact Lg; exact G1|].
    step (exact K1). cbn [fst]. step (apply load_box_ok; rewrite OLD by exact Lgb; exact G2).
    destruct (field_ok g (getq gbb (mid (xmin b) (xmax b)) (mid (ymin b) (ymax b))) m h17 gb kk _ F17 eq_refl) as (h18 & R & E18 & F18 & A18 & X18).
    { rewrite OLD by exact Lg. exact G1. }
    exists h18. split; [exact R|]. split; [exact E18|]. split; [exact F18|]. split; [intros x Hx; apply X18; congruence|].
    split.
    - exists gb, gbb, kk. repeat (split; [assumption|]). intros g0 [= <-]. exact A18.
    - intros g0 [= <-]. auto. }
  destruct LK as (h18 & R & E18 & F18 & X18 & G18 & PG). step (exact R). clear R GP.
  (* the positions distributed *)
  assert (NP : forall x, x = sp \/ x = sb -> par <> Some x).
  { intros x Hx K. apply PG in K as (_ & K). apply K. cbn. destruct Hx as [-> | ->]; auto. }
  assert (NM : forall x, n <= x -> par <> Some x).
  { intros x Hx K. apply PG in K as (K & _). lia. }
  destruct (dist_ok A AB AP (Some m) sp sb b ps cs AP0) with (rem := ps) (pre := @nil (position num)) (h := h18) as (h19 & R & E19 & L19 & X19); auto.
  { intros q. destruct (AR q) as (Q1 & Q2 & Q3). lia. }
  { rewrite X18, OLD by auto. exact LC. }
  { rewrite X18, OLD by auto. exact LB. }
  { intros q. apply leafat_ext with (h := h17); [|apply NEW]. intros x Hx. apply X18. apply NM.
    destruct (AR q) as (Q1 & Q2 & Q3). cbn in Hx. lia. }
  cbn [length] in R. step (exact R). clear R.
  assert (NA : forall x, x < n \/ n + 13 <= x \/ x = m -> forall q, x <> A q /\ x <> AP q).
  { intros x Hx q. destruct (AR q) as (Q1 & Q2 & Q3). pose proof (num_of_lt q). lia. }
  exists h19, n, A, AB, AP. split; [reflexivity|]. replace (n + 4) with m by lia. split; [reflexivity|]. split; [exact AR|].
  split; [rewrite E19, E18, E17; lia|]. split; [exact L19|]. split.
  { rewrite X19 by (apply NA; auto). rewrite X18 by (apply NM; lia). exact PAR. }
  split; [intros x Hx Hp; rewrite X19, X18, OLD by auto; reflexivity|]. split.
  { intros x Hx. rewrite E19 in Hx. rewrite X19 by (apply NA; rewrite E18, E17 in Hx; lia). apply F18. exact Hx. }
  destruct par as [g|]; [|exact I]. destruct G18 as (gb & gbb & kk & G1 & G2 & G3 & G4 & G5 & G6).
  exists gb, gbb, kk. repeat (split; [assumption|]). intros g0 [= <-]. rewrite X19; [auto|].
  apply NA. left. eapply PG; reflexivity.
Qed.

(** The second half of quadtree.h:182-275. *)
Definition check4 fuel (parent ul ur ll lr : nat) : heapn -> run num unit :=
  seq_ (is_full cap ul) (fun f1 : bool =>
    if f1 then seq_ (qt_split ltb mid cap fuel ul) (fun s => set_field parent UPPERLEFT s)
    else seq_ (is_full cap ur) (fun f2 : bool =>
    if f2 then seq_ (qt_split ltb mid cap fuel ur) (fun s => set_field parent UPPERRIGHT s)
    else seq_ (is_full cap ll) (fun f3 : bool =>
    if f3 then seq_ (qt_split ltb mid cap fuel ll) (fun s => set_field parent LOWERLEFT s)
    else seq_ (is_full cap lr) (fun f4 : bool =>
    if f4 then seq_ (qt_split ltb mid cap fuel lr) (fun s => set_field parent LOWERRIGHT s)
    else ret tt)))).
Definition finish (a parent : nat) : heapn -> run num nat :=
  seq_ (load_leaf a) (fun l => let '(_, cnt, ps, gp) := l in
  seq_ (store a (LeafB None cnt ps gp)) (fun _ => seq_ (qt_free_node 1 a) (fun _ => ret parent))).
Lemma seq_assoc {A B C} (m : heapn -> run num A) (f : A -> heapn -> run num B) (g : B -> heapn -> run num C) h :
  seq_ (seq_ m f) g h = seq_ m (fun x => seq_ (f x) g) h.
Proof. unfold seq_. now destruct (m h). Qed.
Definition check1 fuel (f1 : bool) (parent ul ur ll lr : nat) : heapn -> run num unit :=
    if f1 then seq_ (qt_split ltb mid cap fuel ul) (fun s => set_field parent UPPERLEFT s)
    else seq_ (is_full cap ur) (fun f2 : bool =>
    if f2 then seq_ (qt_split ltb mid cap fuel ur) (fun s => set_field parent UPPERRIGHT s)
    else seq_ (is_full cap ll) (fun f3 : bool =>
    if f3 then seq_ (qt_split ltb mid cap fuel ll) (fun s => set_field parent LOWERLEFT s)
    else seq_ (is_full cap lr) (fun f4 : bool =>
    if f4 then seq_ (qt_split ltb mid cap fuel lr) (fun s => set_field parent LOWERRIGHT s)
    else ret tt))).
Definition tail_ fuel a (parent ul ur ll lr : nat) : heapn -> run num nat :=
  seq_ (is_full cap ul) (fun f1 : bool => seq_ (check1 fuel f1 parent ul ur ll lr) (fun _ => finish a parent)).
Lemma tail_check fuel a parent ul ur ll lr h :
  tail_ fuel a parent ul ur ll lr h = seq_ (check4 fuel parent ul ur ll lr) (fun _ => finish a parent) h.
Proof. unfold check4. rewrite seq_assoc. reflexivity. Qed.
Lemma split_unfold fuel a : qt_split ltb mid cap (S fuel) a =
  seq_ (load_leaf a) (fun l => let '(obb, cnt, ps, gp) := l in
    seq_ (deref obb) (fun bb => seq_ (load_box bb) (fun b => phase cnt ps bb b gp (tail_ fuel a)))).
Proof. reflexivity. Qed.

(** The result of a split. *)
Definition split_done (h : heapn) par f b t (res : run num nat) : Prop :=
  exists h' r f', res = Done r h' /\ (forall par', rep h' t r par' f') /\ NoDup f' /\ fresh h' /\ next h <= next h' /\
    (forall x, In x f' -> In x f \/ next h <= x) /\
    (forall x, x < next h -> ~ In x f -> par <> Some x -> at_ h' x = at_ h x) /\
    (forall x, In x f \/ next h <= x -> ~ In x f' -> at_ h' x = None) /\
    gp_ok h par f (fun gb gbb kk => forall g, par = Some g ->
       at_ h' g = Some (nodeb gb (setkid kk (link_quadrant ltb mid gbb b) r))).

Lemma is_full_ok (h : heapn) a par bb ps ab ap : leafat h a par bb ps ab ap ->
  is_full cap a h = Done (full cap ps) h.
Proof. intros (A & _). unfold is_full. step (apply load_leaf_ok; exact A). reflexivity. Qed.

Lemma finish_ok (h : heapn) a parent cnt ps par sb c : at_ h a = Some (LeafB (Some sb) cnt ps par) -> at_ h ps = Some c -> a <> ps ->
  exists h', finish a parent h = Done parent h' /\ next h' = next h /\ at_ h' a = None /\ at_ h' ps = None /\
    forall x, x <> a -> x <> ps -> at_ h' x = at_ h x.
Proof.
  intros A B N. unfold finish. step (apply load_leaf_ok; exact A). step (eapply store_ok; exact A).
  cbn [qt_free_node]. rewrite seq_assoc. step (eapply is_leaf_leaf; cbn; apply upd_same).
  rewrite seq_assoc. step (apply load_leaf_ok; cbn; apply upd_same). 
  rewrite seq_assoc. step (reflexivity). rewrite seq_assoc.
  step (eapply free_at; cbn; rewrite upd_other by congruence; exact B).
  step (eapply free_at; cbn; rewrite upd_other by congruence; apply upd_same).
  eexists. split; [reflexivity|]. split; [reflexivity|]. cbn. split; [apply upd_same|]. split.
  - rewrite upd_other by congruence. apply upd_same.
  - intros x X1 X2. rewrite !upd_other by congruence. reflexivity.
Qed.

Definition kid_tree b ps (q0 : quadrant) (sub : tree num) (q : quadrant) : tree num :=
  if quadrant_eqb q q0 then sub else Leaf (cbb b q) (distr b ps q).
Definition node_with b (T : quadrant -> tree num) : tree num := Node b (T UPPERLEFT) (T UPPERRIGHT) (T LOWERLEFT) (T LOWERRIGHT).
Lemma node_with_kid T q : get_child (T UPPERLEFT) (T UPPERRIGHT) (T LOWERLEFT) (T LOWERRIGHT) q = T q :> tree num.
Proof. now destruct q. Qed.

Lemma split_sim fuel : forall (h : heapn) a par b ps t f, (1 <= cap)%Z -> (Z.of_nat (length ps) <= cap)%Z ->
  wf_bb ltb b -> Forall (in_bb ltb b) ps -> QuadTree_Model.qt_split ltb mid fuel cap b ps = Ok t ->
  rep h (Leaf b ps) a par f -> NoDup f -> fresh h -> gp_ok h par f (fun _ _ _ => True) ->
  split_done h par f b t (qt_split ltb mid cap fuel a h).
Proof.
  induction fuel as [|fuel IH]; intros h a par b ps t f C1 C2 W FA E R ND FR GP; [discriminate|].
  destruct R as (sb & sp & -> & LA & LB & cs & LC & LH).
  rewrite split_unfold. step (apply load_leaf_ok; exact LA). step (reflexivity). step (apply load_box_ok; exact LB).
  destruct (phase_ok h a par b ps sb sp (tail_ fuel a)) as (h1 & n & A & AB & AP & En & PH & AR & N1 & L1 & P1 & O1 & F1 & G1); auto.
  { split; [exact LA|]. split; [exact LB|]. exists cs. auto. }
  rewrite PH. clear PH. rewrite tail_check.
  assert (LT : forall x b, at_ h x = Some b -> x < n).
  { intros x b0 K. destruct (le_lt_dec n x) as [G|G]; [|exact G]. rewrite FR in K by lia. discriminate. }
  pose proof (LT _ _ LA) as La. pose proof (LT _ _ LB) as Lsb. pose proof (LT _ _ LC) as Lsp.
  assert (PG : forall g, par = Some g -> g < n /\ ~ In g [a; sb; sp]).
  { intros g ->. destruct GP as (gb & gbb & kk & K1 & K2 & K3 & K4 & K5 & _). split; [eauto|exact K3]. }
  assert (ND' : a <> sb /\ a <> sp /\ sb <> sp).
  { rewrite !NoDup_cons_iff in ND. cbn [In] in ND. intuition congruence. }
  destruct ND' as (D1 & D2 & D3).
  assert (OLD : forall x, In x [a; sb; sp] -> at_ h1 x = at_ h x).
  { intros x Hx. apply O1.
    - cbn in Hx. intuition (subst; assumption).
    - intros K. apply PG in K as (_ & K). exact (K Hx). }
  set (F0 := fun q => [A q; AB q; AP q]).
  assert (F0n : forall q, NoDup (F0 q)).
  { intros q. destruct (AR q) as (Q1 & Q2 & Q3). pose proof (num_of_lt q). unfold F0. rewrite !NoDup_cons_iff. cbn [In].
    repeat split; try (intros K; lia); try constructor; tauto. }
  assert (F0d : forall q q' x, In x (F0 q) -> In x (F0 q') -> q = q').
  { intros q q' x K K'. destruct (AR q) as (Q1 & Q2 & Q3). destruct (AR q') as (Q1' & Q2' & Q3').
    pose proof (num_of_lt q). pose proof (num_of_lt q'). apply num_of_inj. cbn in K, K'. lia. }
  assert (F0r : forall q x, In x (F0 q) -> n <= x < n + 13 /\ x <> n + 4).
  { intros q x K. destruct (AR q) as (Q1 & Q2 & Q3). pose proof (num_of_lt q). cbn in K. lia. }
  assert (COVER : forall x, n <= x < n + 13 -> x <> n + 4 -> exists q, In x (F0 q)).
  { intros x Hx N4. pose proof (AR UPPERLEFT) as (a1 & a2 & a3). pose proof (AR UPPERRIGHT) as (a4 & a5 & a6).
    pose proof (AR LOWERLEFT) as (a7 & a8 & a9). pose proof (AR LOWERRIGHT) as (a10 & a11 & a12). cbn [num_of] in *.
    unfold F0. cbn [In]. clear - a1 a2 a3 a4 a5 a6 a7 a8 a9 a10 a11 a12 Hx N4.
    destruct (le_lt_dec x n); [exists UPPERLEFT; lia|].
    destruct (Nat.eq_dec x (n + 1)); [exists UPPERRIGHT; lia|].
    destruct (Nat.eq_dec x (n + 2)); [exists LOWERLEFT; lia|].
    destruct (Nat.eq_dec x (n + 3)); [exists LOWERRIGHT; lia|].
    destruct (le_lt_dec x (n + 6)); [exists UPPERLEFT; lia|].
    destruct (le_lt_dec x (n + 8)); [exists UPPERRIGHT; lia|].
    destruct (le_lt_dec x (n + 10)); [exists LOWERLEFT; lia|]. exists LOWERRIGHT; lia. }
  (* what must be shown once the children have been checked *)
  assert (FIN : forall h2 (T : quadrant -> tree num) (C : quadrant -> nat) (F : quadrant -> list nat),
    t = node_with b T -> (forall q, rep h2 (T q) (C q) (Some (n + 4)) (F q)) ->
    at_ h2 (n + 4) = Some (nodeb sb (fun q => Some (C q))) ->
    (forall q, NoDup (F q)) -> (forall q q' x, In x (F q) -> In x (F q') -> q = q') ->
    (forall q x, In x (F q) -> n <= x /\ x <> n + 4) -> fresh h2 -> n + 13 <= next h2 ->
    (forall x, x < n -> at_ h2 x = at_ h1 x) -> (forall x, n <= x -> x <> n + 4 -> (forall q, ~ In x (F q)) -> at_ h2 x = None) ->
    split_done h par [a; sb; sp] b t (finish a (n + 4) h2)).
  { intros h2 T C F ET RT PT NF DF RF FR2 N2 O2 Z2.
    destruct (finish_ok h2 a (n + 4) (length ps) sp par sb (Cells cs)) as (h3 & R3 & N3 & Y1 & Y2 & Y3).
    { rewrite O2, OLD by (cbn; auto). exact LA. }
    { rewrite O2, OLD by (cbn; auto). exact LC. }
    { exact D2. }
    exists h3, (n + 4), (n + 4 :: sb :: kids4 F). split; [exact R3|].
    assert (SK : forall x, In x (kids4 F) -> n <= x /\ x <> n + 4).
    { intros x K. apply in_kids4 in K as (q & K). eauto. }
    split.
    { intros par'. rewrite ET. apply rep_node. exists sb, C, F. split; [reflexivity|].
      split; [rewrite Y3 by lia; exact PT|]. split; [rewrite Y3, O2, OLD by (cbn; auto); exact LB|].
      intros q. rewrite node_with_kid. apply rep_ext with (h := h2); [|apply RT].
      intros x K. apply RF in K. apply Y3; lia. }
    split.
    { constructor; [|constructor].
      - intros [K|K]; [lia|]. apply SK in K. lia.
      - intros K. apply SK in K. lia.
      - now apply nodup_kids4. }
    split.
    { intros x K. rewrite N3 in K. rewrite Y3 by lia. apply FR2. exact K. }
    split; [lia|]. rewrite <- En in *. split.
    { intros x [<-|[<-|K]]; [right; lia|left; cbn; auto|right; apply SK in K; lia]. }
    split.
    { intros x Hx K P. rewrite Y3 by (intros ->; apply K; cbn; auto). rewrite O2 by exact Hx. apply O1; assumption. }
    split.
    { intros x Hx K. cbn [In] in K. destruct (Nat.eq_dec x a) as [->|Xa]; [exact Y1|].
      destruct (Nat.eq_dec x sp) as [->|Xp]; [exact Y2|]. rewrite Y3 by assumption.
      destruct Hx as [Hx|Hx]; [cbn in Hx; intuition congruence|]. apply Z2; [exact Hx|intuition|].
      intros q Kq. apply K. right; right. apply in_kids4. eauto. }
    destruct par as [g|]; [|exact I]. destruct G1 as (gb & gbb & kk & K1 & K2 & K3 & K4 & K5 & K6).
    exists gb, gbb, kk. repeat (split; [assumption|]). intros g0 [= <-].
    destruct (PG g eq_refl) as (Lg & Ng). rewrite Y3 by (intros ->; apply Ng; cbn; auto). rewrite O2 by exact Lg. auto. }
  (* a child that is full *)
  assert (SUB : forall q, full cap (distr b ps q) = true ->
    bind (QuadTree_Model.qt_split ltb mid fuel cap (cbb b q) (distr b ps q))
       (fun sub => Ok (set_child (set_child (plain_node ltb mid b ps) (link_quadrant ltb mid b (cbb b q)) sub) q sub)) = Ok t ->
    split_done h par [a; sb; sp] b t
      (seq_ (seq_ (qt_split ltb mid cap fuel (A q)) (fun s => set_field (n + 4) q s)) (fun _ => finish a (n + 4)) h1)).
  { intros q FU ET. destruct (QuadTree_Model.qt_split ltb mid fuel cap (cbb b q) (distr b ps q)) as [sub| | |] eqn:ES; try discriminate.
    cbn [bind] in ET. match type of ET with Ok ?x = _ => assert (ET' : x = t) by congruence end. clear ET. rename ET' into ET.
    assert (LK : link_quadrant ltb mid b (cbb b q) = q).
    { destruct (full_nonempty cap _ C1 FU) as (p & Hp). apply distribute_In in Hp as (Hp & Eq).
      rewrite Forall_forall in FA. apply (link_ok ltb eqb mid L) with (p := p); auto. }
    rewrite LK, set_child_twice in ET.
    destruct (IH h1 (A q) (Some (n + 4)) (cbb b q) (distr b ps q) sub (F0 q)) as (h2 & r & f2 & R2 & RP & N2 & FR2 & NX & IN2 & O2 & Z2 & G2); auto.
    { pose proof (distr_length b ps q). lia. }
    { now apply (wf_child ltb eqb mid L). }
    { apply Forall_forall. intros p Hp. apply distribute_In in Hp as (Hp & Eq). subst q. apply (in_child ltb eqb mid L).
      rewrite Forall_forall in FA. auto. }
    { exists (AB q), (AP q). split; [reflexivity|apply L1]. }
    { exists sb, b, (fun q => Some (A q)). split; [exact P1|]. split; [rewrite OLD by (cbn; auto); exact LB|].
      split; [intros K; apply F0r in K; lia|]. split; [intros K; apply F0r in K; lia|]. split; [lia|exact I]. }
    destruct G2 as (gb & gbb & kk & K1 & K2 & _ & _ & _ & K6). rewrite P1 in K1. 
    assert (gb = sb) as -> by (unfold nodeb in K1; injection K1; auto). 
    rewrite OLD in K2 by (cbn; auto). rewrite LB in K2. injection K2 as <-. specialize (K6 _ eq_refl). rewrite LK in K6.
    destruct (field_ok (n + 4) q r h2 sb _ _ FR2 eq_refl K6) as (h3 & R3 & N3 & FR3 & P3 & O3).
    rewrite seq_assoc. step (exact R2). step (exact R3).
    set (F := fun q' => if quadrant_eqb q' q then f2 else F0 q').
    assert (N4 : forall x, In x f2 -> x <> n + 4).
    { intros x K ->. apply IN2 in K as [K|K]; [apply F0r in K; lia|lia]. }
    assert (FO : forall q', q' <> q -> F q' = F0 q' /\ quadrant_eqb q' q = false).
    { intros q' K. unfold F. destruct (quadrant_eqb q' q) eqn:K'; [apply quadrant_eqb_eq in K'; contradiction|auto]. }
    assert (FS : F q = f2) by (unfold F; now rewrite quadrant_eqb_refl).
    assert (DJ : forall q' x, q' <> q -> In x f2 -> In x (F0 q') -> False).
    { intros q' x K K1' K2'. apply IN2 in K1' as [K1'|K1']; [apply K; eauto|]. apply F0r in K2'. lia. }
    apply FIN with (T := kid_tree b ps q sub) (C := fun q' => if quadrant_eqb q' q then r else A q') (F := F).
    - rewrite <- ET. unfold node_with, kid_tree, plain_node. destruct q; reflexivity.
    - intros q'. unfold kid_tree. destruct (quadrant_dec q' q) as [->|NQ].
      + rewrite quadrant_eqb_refl, FS. apply rep_ext with (h := h2); [intros x K; apply O3; auto|apply RP].
      + destruct (FO q' NQ) as (-> & ->). apply rep_ext with (h := h1).
        * intros x K. pose proof (F0r _ _ K). rewrite O3 by lia. apply O2; [lia| |intros [= K']; lia].
          intros K'. apply NQ. eauto.
        * exists (AB q'), (AP q'). split; [reflexivity|apply L1].
    - rewrite P3. f_equal. apply nodeb_ext. intros q'. unfold setkid.
      assert (KA : forall q, kk q = Some (A q)) by (unfold nodeb in K1; injection K1; intros ? ? ? ?; intros []; congruence).
      destruct (quadrant_eqb q' q); [reflexivity|apply KA].
    - intros q'. destruct (quadrant_dec q' q) as [->|NQ]; [rewrite FS; exact N2|destruct (FO q' NQ) as (-> & _); apply F0n].
    - intros q1 q2 x K K'. destruct (quadrant_dec q1 q) as [->|NQ1], (quadrant_dec q2 q) as [->|NQ2]; auto.
      + rewrite FS in K. destruct (FO q2 NQ2) as (E2 & _). rewrite E2 in K'. exfalso. eauto.
      + rewrite FS in K'. destruct (FO q1 NQ1) as (E2 & _). rewrite E2 in K. exfalso. eauto.
      + destruct (FO q1 NQ1) as (E1 & _). destruct (FO q2 NQ2) as (E2 & _). rewrite E1 in K. rewrite E2 in K'. eauto.
    - intros q' x K. destruct (quadrant_dec q' q) as [->|NQ].
      + rewrite FS in K. split; [|auto]. apply IN2 in K as [K|K]; [apply F0r in K; lia|lia].
      + destruct (FO q' NQ) as (E1 & _). rewrite E1 in K. apply F0r in K. lia.
    - exact FR3.
    - lia.
    - intros x Hx. rewrite O3 by lia. apply O2; [lia| |intros [= K']; lia]. intros K. apply F0r in K. lia.
    - intros x Hx NX4 NI. rewrite O3 by exact NX4.
      assert (NF2 : ~ In x f2) by (rewrite <- FS; apply NI).
      destruct (le_lt_dec (n + 13) x) as [BX|BX]; [apply Z2; [right; lia|exact NF2]|].
      destruct (in_dec Nat.eq_dec x (F0 q)) as [IQ|IQ]; [apply Z2; auto|]. exfalso.
      assert (exists q', In x (F0 q')) as (q' & Kq).
      { apply COVER; lia. }
      destruct (quadrant_dec q' q) as [->|NQ]; [auto|]. destruct (FO q' NQ) as (E1 & _). apply (NI q'). rewrite E1. exact Kq. }
  unfold check4. cbn [QuadTree_Model.qt_split] in E.
  change (Node b (Leaf (cbb b UPPERLEFT) (distr b ps UPPERLEFT)) _ _ _) with (plain_node ltb mid b ps) in E.
  rewrite seq_assoc. step (eapply is_full_ok; apply L1).
  destruct (full cap (distr b ps UPPERLEFT)) eqn:U1; [apply SUB; assumption|].
  rewrite seq_assoc. step (eapply is_full_ok; apply L1).
  destruct (full cap (distr b ps UPPERRIGHT)) eqn:U2; [apply SUB; assumption|].
  rewrite seq_assoc. step (eapply is_full_ok; apply L1).
  destruct (full cap (distr b ps LOWERLEFT)) eqn:U3; [apply SUB; assumption|].
  rewrite seq_assoc. step (eapply is_full_ok; apply L1).
  destruct (full cap (distr b ps LOWERRIGHT)) eqn:U4; [apply SUB; assumption|].
  injection E as E. step (reflexivity).
  apply FIN with (T := fun q => Leaf (cbb b q) (distr b ps q)) (C := A) (F := F0); auto.
  - intros q. exists (AB q), (AP q). split; [reflexivity|apply L1].
  - intros q x K. apply F0r in K. lia.
  - lia.
  - intros x Hx NX NI. destruct (le_lt_dec (n + 13) x) as [BX|BX]; [apply F1; lia|]. exfalso.
    destruct (COVER x) as (q & Kq); [lia|lia|]. exact (NI q Kq).
Qed.
End Split.
