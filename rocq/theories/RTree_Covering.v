(** Trees of two levels: with fewer than [3 M - 1] boxes none of whose ranges lies
    within that of another, splits lose and repeat nothing. *)
From Coq Require Import List ZArith QArith Lqa Lia Bool Arith Permutation.
From Verif Require Import RTree_Model RTree_Spec RTree_Proofs RTree_Unsplit.
Import ListNotations.
Open Scope nat_scope.

(** The pools. *)
Lemma replace_nth_perm {A} (l : list A) : forall i x y, nth_error l i = Some y ->
  Permutation (y :: replace_nth l i x) (x :: l).
Proof.
  induction l as [| z l IH]; intros [| i] x y H; cbn in *; try discriminate.
  - injection H as ->. apply perm_swap.
  - rewrite perm_swap, (IH i x y H). apply perm_swap.
Qed.
Lemma replace_nth_before {A} (l : list A) : forall i j x, j < i -> nth_error (replace_nth l i x) j = nth_error l j.
Proof.
  induction l as [| z l IH]; intros [| i] j x H; cbn; try lia; [reflexivity |].
  destruct j; cbn; [reflexivity |]. apply IH; lia.
Qed.
Lemma nth_error_removelast {A} (l : list A) j : j < length l - 1 -> nth_error (removelast l) j = nth_error l j.
Proof.
  intros H. destruct l as [| x l]; [cbn in H; lia |].
  rewrite (@app_removelast_last A (x :: l) x) at 2 by discriminate.
  rewrite nth_error_app1; [reflexivity |]. rewrite removelast_len. exact H.
Qed.
Lemma pool_pop_perm {A} (l : list A) i l' x : pool_pop l i = Ret l' -> nth_error l i = Some x ->
  Permutation l (x :: l') /\ forall j, j < i -> nth_error l' j = nth_error l j.
Proof.
  unfold pool_pop. intros H Hx.
  assert (Hi : i < length l) by (apply nth_error_Some; congruence).
  destruct (Nat.leb_spec (length l) i) as [? | _]; [lia |].
  destruct l as [| z l0]; [cbn in Hi; lia |].
  pose proof (@app_removelast_last A (z :: l0) z ltac:(discriminate)) as El.
  set (l := z :: l0) in *. set (w := last l z) in *. clearbody w l. clear z l0.
  destruct (Nat.eqb_spec i (length l - 1)) as [E | E].
  - injection H as <-. split.
    + assert (Hw : nth_error l i = Some w).
      { rewrite El. rewrite nth_error_app2 by (rewrite removelast_len; lia).
        rewrite removelast_len, E, Nat.sub_diag. reflexivity. }
      rewrite Hw in Hx. injection Hx as <-. rewrite El at 1. rewrite Permutation_app_comm. reflexivity.
    + intros j Hj. apply nth_error_removelast. lia.
  - assert (Er : rev l = w :: rev (removelast l)) by (rewrite El at 1; rewrite rev_app_distr; reflexivity).
    rewrite Er in H. injection H as <-. split.
    + rewrite (replace_nth_perm (removelast l) i w x) by (rewrite nth_error_removelast by lia; exact Hx).
      rewrite El at 1. rewrite Permutation_app_comm. reflexivity.
    + intros j Hj. rewrite replace_nth_before by exact Hj. apply nth_error_removelast. lia.
Qed.
Lemma without_seeds_perm {A} (l : list A) s0 s1 e0 e1 : s0 <> s1 ->
  nth_error l s0 = Some e0 -> nth_error l s1 = Some e1 -> 2 <= length l ->
  exists r, without_seeds l s0 s1 = Ret r /\ Permutation l (e0 :: e1 :: r).
Proof.
  intros Hn H0 H1 Hl.
  assert (L0 : s0 < length l) by (apply nth_error_Some; congruence).
  assert (L1 : s1 < length l) by (apply nth_error_Some; congruence).
  unfold without_seeds. destruct (Nat.ltb_spec s0 s1) as [Lt | Ge].
  - destruct (pool_pop_spec l s1 L1) as (r1 & E1 & Len1 & _). rewrite E1. cbn [andthen].
    destruct (pool_pop_perm l s1 r1 e1 E1 H1) as [P1 N1].
    destruct (pool_pop_spec r1 s0) as (r & E & _ & _); [lia |]. rewrite E. exists r. split; [reflexivity |].
    destruct (pool_pop_perm r1 s0 r e0 E) as [P _]; [rewrite N1 by lia; exact H0 |].
    rewrite P1, P. apply perm_swap.
  - destruct (pool_pop_spec l s0 L0) as (r1 & E1 & Len1 & _). rewrite E1. cbn [andthen].
    destruct (pool_pop_perm l s0 r1 e0 E1 H0) as [P1 N1].
    destruct (pool_pop_spec r1 s1) as (r & E & _ & _); [lia |]. rewrite E. exists r. split; [reflexivity |].
    destruct (pool_pop_perm r1 s1 r e1 E) as [P _]; [rewrite N1 by lia; exact H1 |].
    rewrite P1, P. reflexivity.
Qed.

(** The seeds differ unless the first box is in the range of all others. *)
Lemma seed_x l : forall i s, ixl s < i -> ixh s < i -> ixl (seed_loop i l s) = ixh (seed_loop i l s) ->
  ixl s = ixh s /\ Forall (fun b => (xmin b <= xl s)%Q /\ (xh s <= xmax b)%Q) l.
Proof.
  induction l as [| b l IH]; intros i s H1 H2; cbn [seed_loop]; [auto |].
  destruct (ltf (xl s) (xmin b)) eqn:E1; [| destruct (ltf (xmax b) (xh s)) eqn:E2];
    destruct (if ltf (yl s) (ymin b) then _ else _) as [[[c1 c2] c3] c4]; intros H; apply IH in H; cbn in *; try lia;
    destruct H as [H F]; try lia.
  split; [exact H |]. constructor; [| exact F].
  split; apply Qnot_lt_le; intros C; apply ltf_t in C; congruence.
Qed.
Lemma seed_y l : forall i s, iyl s < i -> iyh s < i -> iyl (seed_loop i l s) = iyh (seed_loop i l s) ->
  iyl s = iyh s /\ Forall (fun b => (ymin b <= yl s)%Q /\ (yh s <= ymax b)%Q) l.
Proof.
  induction l as [| b l IH]; intros i s H1 H2; cbn [seed_loop]; [auto |].
  destruct (if ltf (xl s) (xmin b) then _ else _) as [[[a1 a2] a3] a4].
  destruct (ltf (yl s) (ymin b)) eqn:E1; [| destruct (ltf (ymax b) (yh s)) eqn:E2];
    intros H; apply IH in H; cbn in *; try lia;
    destruct H as [H F]; try lia.
  split; [exact H |]. constructor; [| exact F].
  split; apply Qnot_lt_le; intros C; apply ltf_t in C; congruence.
Qed.
(** Neither range of [b] lies in that of [c]. *)
Definition not_in_range (b c : bb) : Prop :=
  (~ (xmin c <= xmin b /\ xmax b <= xmax c) /\ ~ (ymin c <= ymin b /\ ymax b <= ymax c))%Q.
Lemma pick_differ b c l : not_in_range b c -> exists s0 s1, pick (b :: c :: l) = Ret (s0, s1) /\ s0 <> s1 /\
  s0 < S (S (length l)) /\ s1 < S (S (length l)).
Proof.
  intros [N1 N2]. destruct (pick_spec (b :: c :: l)) as ([s0 s1] & E & L0 & L1 & _); [cbn; lia |].
  exists s0, s1. split; [exact E |]. cbn [fst snd length] in *. split; [| lia].
  unfold pick, linear_pick_seeds in E.
  set (s := seed_loop 1 (c :: l) _) in E.
  assert (Dx : ixl s <> ixh s).
  { intros C. apply seed_x in C; cbn [ixl ixh xl xh] in *; [| lia | lia]. destruct C as [_ F].
    apply Forall_inv in F. tauto. }
  assert (Dy : iyl s <> iyh s).
  { intros C. apply seed_y in C; cbn [iyl iyh yl yh] in *; [| lia | lia]. destruct C as [_ F].
    apply Forall_inv in F. tauto. }
  destruct (Qeq_bool (mxx s) (mnx s) || Qeq_bool (mxy s) (mny s)).
  - cbn [andthen] in E. injection E as <- <-. lia.
  - destruct (ltf _ _); cbn [andthen] in E; injection E as <- <-; assumption.
Qed.

(** Distribution leaves two for each, and the boxes hold the seeds. *)
Lemma lies_in_refl b : lies_in b b.
Proof. repeat split; apply Qle_refl. Qed.
Lemma lies_in_extend b c d : lies_in b d -> lies_in (RTree_Model.extend b c) d.
Proof.
  unfold lies_in, RTree_Model.extend; cbn. intros (A & B & C & D).
  destruct (minf_spec (xmin b) (xmin c)) as (? & _), (minf_spec (ymin b) (ymin c)) as (? & _),
    (maxf_spec (xmax b) (xmax c)) as (? & _), (maxf_spec (ymax b) (ymax c)) as (? & _).
  repeat split; lra.
Qed.
Lemma distribute_two {A} (bof : A -> bb) pool : forall l0 b0 l1 b1 m0 c0 m1 c1 d0 d1,
  distribute bof pool l0 b0 l1 b1 = (m0, c0, m1, c1) ->
  1 <= length l0 -> 1 <= length l1 -> 3 <= length pool + length l0 -> 3 <= length pool + length l1 ->
  lies_in b0 d0 -> lies_in b1 d1 ->
  2 <= length m0 /\ 2 <= length m1 /\ lies_in c0 d0 /\ lies_in c1 d1 /\
  (forall x, In x l0 -> In x m0) /\ (forall x, In x l1 -> In x m1).
Proof.
  induction pool as [| e rest IH]; intros l0 b0 l1 b1 m0 c0 m1 c1 d0 d1 H H0 H1 H2 H3 L0 L1; cbn [distribute] in H.
  - injection H as <- <- <- <-. cbn [length] in *. repeat split; auto; try lia; try apply L0; try apply L1.
  - cbn [length] in *.
    destruct (ltf _ _).
    + rewrite app_length in H; cbn [length] in H.
      destruct (Nat.eqb_spec (length rest + (length l0 + 1)) 2); [lia |].
      destruct (Nat.eqb_spec (length rest + length l1) 2) as [E | E].
      * injection H as <- <- <- <-. rewrite !app_length; cbn [length].
        split; [lia |]. split; [lia |]. split; [apply lies_in_extend, L0 |]. split; [exact L1 |].
        split; intros x Hx; apply in_or_app; auto.
      * apply IH with (d0 := d0) (d1 := d1) in H; try (rewrite app_length; cbn [length]; lia); try lia;
          [| apply lies_in_extend, L0 | exact L1].
        destruct H as (A1 & A2 & A3 & A4 & A5 & A6). split; [exact A1 |]. split; [exact A2 |]. split; [exact A3 |].
        split; [exact A4 |]. split; [| exact A6]. intros x Hx. apply A5, in_or_app; auto.
    + rewrite app_length in H; cbn [length] in H.
      destruct (Nat.eqb_spec (length rest + length l0) 2) as [E | E].
      * injection H as <- <- <- <-. rewrite !app_length; cbn [length].
        split; [lia |]. split; [lia |]. split; [exact L0 |]. split; [apply lies_in_extend, L1 |].
        split; intros x Hx; apply in_or_app; auto.
      * destruct (Nat.eqb_spec (length rest + (length l1 + 1)) 2); [lia |].
        apply IH with (d0 := d0) (d1 := d1) in H; try (rewrite app_length; cbn [length]; lia); try lia;
          [| exact L0 | apply lies_in_extend, L1].
        destruct H as (A1 & A2 & A3 & A4 & A5 & A6). split; [exact A1 |]. split; [exact A2 |]. split; [exact A3 |].
        split; [exact A4 |]. split; [exact A5 |]. intros x Hx. apply A6, in_or_app; auto.
Qed.

(** Boxes of parents: only those change. *)
Definition up (h : heap) (a fuel : nat) : Prop :=
  (parent (snd h a) = None /\ 1 <= fuel) \/
  (exists p, parent (snd h a) = Some p /\ p < fst h /\ p <> a /\ parent (snd h p) = None /\
     kids (snd h p) <> [] /\ (forall k, In k (kids (snd h p)) -> k < fst h) /\ 2 <= fuel).
Lemma update_box_only h p sib : p < fst h -> (forall k, In k (kids (snd h p)) -> k < fst h) ->
  match sib with Some s => s < fst h | None => kids (snd h p) <> [] end ->
  exists b, update_box h p sib = Ret (put h p (set_box (snd h p) b)).
Proof.
  intros Hp Hk Hs. unfold update_box. rewrite get_ok by exact Hp. cbn [andthen]. destruct sib as [s |].
  - rewrite get_ok by exact Hs. cbn [andthen].
    destruct (union_kids_ok h (kids (snd h p)) (box (snd h s)) Hk) as [b ->]. cbn [andthen]. eauto.
  - destruct (kids (snd h p)) as [| k l]; [congruence |].
    rewrite get_ok by (apply Hk; left; reflexivity). cbn [andthen].
    destruct (union_kids_ok h l (box (snd h k))) as [b ->]; [intros; apply Hk; right; assumption |].
    cbn [andthen]. eauto.
Qed.
Lemma adjust_null_up fuel h a : a < fst h -> up h a fuel ->
  exists h' r, adjust_null fuel h a = Ret (h', r) /\ fst h' = fst h /\
    (forall y, parent (snd h a) <> Some y -> snd h' y = snd h y) /\ forall y, alike (snd h y) (snd h' y).
Proof.
  intros Ha [[P F] | (p & P & Hp & Hpa & Pp & K0 & K & F)].
  - destruct fuel as [| fuel]; [lia |]. cbn [adjust_null]. rewrite get_ok by exact Ha. cbn [andthen]. rewrite P.
    exists h, a. repeat split.
  - destruct fuel as [| [| fuel]]; try lia. cbn [adjust_null]. rewrite get_ok by exact Ha. cbn [andthen]. rewrite P.
    destruct (update_box_only h p None Hp K K0) as [b ->]. cbn [andthen].
    rewrite get_ok by exact Hp. cbn [andthen]. rewrite put_same. cbn [set_box parent]. rewrite Pp.
    exists (put h p (set_box (snd h p) b)), p. split; [reflexivity |]. split; [reflexivity |]. split.
    + intros y Hy. apply put_other. congruence.
    + intros y. destruct (Nat.eq_dec y p) as [-> | Hy]; [rewrite put_same; repeat split | rewrite put_other by exact Hy].
      apply alike_refl.
Qed.
Lemma insert_leaf_up M fuel h a e : a < fst h -> length (ents (snd h a)) <= M -> up h a fuel ->
  exists h', insert_leaf M fuel h a e = Ret h' /\ fst h' = fst h /\
    (forall y, y <> a -> parent (snd h a) <> Some y -> snd h' y = snd h y) /\
    (forall y, y <> a -> alike (snd h y) (snd h' y)) /\
    alike (set_ents (snd h a) (ents (snd h a) ++ [e])) (snd h' a).
Proof.
  intros Ha Hl U. unfold insert_leaf. rewrite get_ok by exact Ha. cbn [andthen]. unfold push_ent.
  destruct (Nat.leb_spec (length (ents (snd h a))) M); [| lia]. cbn [andthen].
  set (n' := set_box _ _). destruct (adjust_null_up fuel (put h a n') a) as (h' & r & -> & F & O & A); [exact Ha | |].
  { unfold up. rewrite put_same. cbn [parent n' set_box set_ents]. destruct U as [U | (p & P & Hp & Hpa & Pp & K0 & K & Fu)].
    - left; exact U.
    - right. exists p. rewrite put_other by exact Hpa. repeat split; auto. }
  cbn [andthen fst]. exists h'. split; [reflexivity |]. split; [exact F |].
  rewrite put_same in O. cbn [parent n' set_box set_ents] in O. split; [| split].
  - intros y Hy P. rewrite (O y P). apply put_other; exact Hy.
  - intros y Hy. rewrite <- (put_other h a n' y Hy). apply A.
  - specialize (A a). rewrite put_same in A. exact A.
Qed.

(** A leaf split in two. *)
Definition holds_one (b : bb) (l : list (bb * Z)) : Prop := exists e, In e l /\ lies_in b (fst e).
Lemma split_leaf_two M fuel h a e0 e1 l : 4 <= M -> a < fst h -> leaf (snd h a) = true ->
  ents (snd h a) = e0 :: e1 :: l -> length (ents (snd h a)) = S M -> not_in_range (fst e0) (fst e1) ->
  up h a fuel ->
  exists h' l0 l1 b0 b1, split_leaf M fuel h a = Ret (h', fst h) /\ fst h' = S (fst h) /\
    Permutation (l0 ++ l1) (ents (snd h a)) /\ 2 <= length l0 /\ 2 <= length l1 /\ holds_one b0 l0 /\ holds_one b1 l1 /\
    snd h' a = mkN true (parent (snd h a)) l0 (kids (snd h a)) b0 /\
    snd h' (fst h) = mkN true (parent (snd h a)) l1 [] b1 /\
    (forall y, y < fst h -> y <> a -> parent (snd h a) <> Some y -> snd h' y = snd h y) /\
    (forall y, y < fst h -> y <> a -> alike (snd h y) (snd h' y)).
Proof.
  intros HM Ha Lf E Len NR U. unfold split_leaf. rewrite get_ok by exact Ha. cbn [andthen].
  rewrite Len, Nat.eqb_refl. cbn [negb new_node].
  set (n := snd h a) in *. set (s := fst h) in *.
  set (h1 := (S s, fun x => if x =? s then mkN true (parent n) [] [] nobox else snd h x) : heap).
  assert (Hsa : s <> a) by lia.
  destruct (pick_differ (fst e0) (fst e1) (map fst l) NR) as (s0 & s1 & Ep & Ds & L0 & L1).
  rewrite map_length in L0, L1.
  assert (Lp : length (ents n) = S (S (length l))) by (rewrite E; reflexivity).
  assert (Epk : pick (map fst (ents n)) = Ret (s0, s1)) by (rewrite E; exact Ep).
  rewrite Epk. cbn [andthen fst snd].
  destruct (at_index_spec (ents n) s0) as (f0 & -> & I0 & N0); [lia |]. cbn [andthen].
  destruct (at_index_spec (ents n) s1) as (f1 & -> & I1 & N1); [lia |]. cbn [andthen].
  set (h2 := put h1 a (set_ents n [])).
  assert (Q2 : forall y, y <> a -> y <> s -> snd h2 y = snd h y).
  { intros y Hy Hs. unfold h2. rewrite put_other by exact Hy. cbn. apply Nat.eqb_neq in Hs. rewrite Hs. reflexivity. }
  assert (Q2a : snd h2 a = set_ents n []) by apply put_same.
  assert (Q2s : snd h2 s = mkN true (parent n) [] [] nobox).
  { unfold h2. rewrite put_other by exact Hsa. cbn. rewrite Nat.eqb_refl. reflexivity. }
  assert (U2 : up h2 a fuel).
  { unfold up. rewrite Q2a. cbn [parent set_ents].
    destruct U as [U | (p & P & Hp & Hpa & Pp & K0 & K & F)]; [left; exact U | right].
    exists p. rewrite Q2 by (unfold s; lia). cbn. repeat split; auto; try (unfold s; lia).
    intros k Hk. specialize (K k Hk). unfold s; lia. }
  assert (F2 : fst h2 = S s) by reflexivity.
  destruct (insert_leaf_up M fuel h2 a f0) as (h3 & -> & F3 & O3 & A3 & A3a); [lia | rewrite Q2a; cbn; lia | exact U2 |].
  cbn [andthen]. rewrite Q2a in O3, A3a. cbn [parent set_ents ents] in O3, A3a.
  assert (Ps3 : parent (snd h3 s) = parent n) by (destruct (A3 s Hsa) as (_ & <- & _); rewrite Q2s; reflexivity).
  assert (Es3 : ents (snd h3 s) = []) by (destruct (A3 s Hsa) as (_ & _ & <- & _); rewrite Q2s; reflexivity).
  destruct (insert_leaf_up M fuel h3 s f1) as (h4 & -> & F4 & O4 & A4 & A4s); [lia | rewrite Es3; cbn; lia | |].
  { unfold up. rewrite Ps3. destruct U as [U | (p & P & Hp & Hpa & Pp & K0 & K & F)]; [left; exact U | right].
    exists p. assert (Hps : p <> s) by (unfold s; lia).
    destruct (A3 p Hpa) as (_ & B2 & _ & B4). rewrite Q2 in B2, B4 by assumption.
    rewrite <- B2, <- B4, F3, F2. repeat split; auto; try (unfold s in *; lia).
    intros k Hk. specialize (K k Hk). unfold s; lia. }
  cbn [andthen].
  destruct (without_seeds_perm (ents n) s0 s1 f0 f1 Ds N0 N1) as (rest & -> & Pr); [lia |]. cbn [andthen].
  destruct (distribute fst (rev rest) [f0] (fst f0) [f1] (fst f1)) as [[[l0 b0] l1] b1] eqn:Ed.
  assert (Lr : length rest = M - 1).
  { apply Permutation_length in Pr. cbn [length] in Pr. lia. }
  destruct (distribute_spec fst (rev rest) _ _ _ _ _ _ _ _ Ed) as (Pd & _ & _).
  destruct (distribute_two fst (rev rest) _ _ _ _ _ _ _ _ (fst f0) (fst f1) Ed) as (D1 & D2 & D3 & D4 & D5 & D6);
    try (cbn [length]; rewrite ?rev_length; lia); try apply lies_in_refl.
  rewrite get_ok by lia. cbn [andthen].
  set (h5 := put h4 a _). rewrite get_ok by (cbn [h5 put fst]; lia). cbn [andthen].
  set (h6 := put h5 s _).
  assert (A4a : alike (set_ents n [f0]) (snd h4 a)).
  { destruct (A4 a) as (C1 & C2 & C3 & C4); [lia |]. destruct A3a as (B1 & B2 & B3 & B4).
    unfold alike. rewrite <- C1, <- C2, <- C3, <- C4. repeat split; assumption. }
  exists h6, l0, l1, b0, b1. split; [reflexivity |]. split; [exact (eq_trans F4 (eq_trans F3 F2)) |]. split.
  { rewrite Pd, Pr. rewrite <- (Permutation_rev rest). reflexivity. }
  split; [exact D1 |]. split; [exact D2 |].
  split; [exists f0; split; [apply D5; left; reflexivity | exact D3] |].
  split; [exists f1; split; [apply D6; left; reflexivity | exact D4] |].
  split; [| split; [| split]].
  - unfold h6. rewrite put_other by lia. unfold h5. rewrite put_same. unfold set_box, set_ents. cbn.
    destruct A4a as (B1 & B2 & _ & B4). cbn in B1, B2, B4. rewrite <- B1, <- B2, <- B4, Lf. reflexivity.
  - unfold h6. rewrite put_same. unfold set_box, set_ents. cbn.
    assert (Eq5 : snd h5 s = snd h4 s) by (apply put_other; exact Hsa). cbn in Eq5. rewrite Eq5.
    destruct A4s as (B1 & B2 & _ & B4). cbn in B1, B2, B4. rewrite <- B1, <- B2, <- B4, Ps3.
    destruct (A3 s Hsa) as (C1 & _ & _ & C4). rewrite <- C1, <- C4, Q2s. reflexivity.
  - intros y Hy Hya P. unfold h6, h5. rewrite !put_other by lia.
    rewrite O4; [| lia | rewrite Ps3; exact P]. rewrite O3 by assumption. apply Q2; lia.
  - intros y Hy Hya. unfold h6, h5. rewrite !put_other by lia.
    destruct (A4 y) as (B1 & B2 & B3 & B4); [lia |]. destruct (A3 y Hya) as (C1 & C2 & C3 & C4).
    rewrite Q2 in C1, C2, C3, C4 by lia. repeat split; congruence.
Qed.

(** A root above leaves. *)
Definition leaf_of (M : nat) (h : heap) (r k : nat) : Prop :=
  k < fst h /\ leaf (snd h k) = true /\ parent (snd h k) = Some r /\ 2 <= length (ents (snd h k)) <= M /\
  holds_one (box (snd h k)) (ents (snd h k)).
Record two (M : nat) (h : heap) (r : nat) (ks : list nat) : Prop := {
  t_r : r < fst h; t_leaf : leaf (snd h r) = false; t_par : parent (snd h r) = None; t_kids : kids (snd h r) = ks;
  t_nd : NoDup ks; t_not : ~ In r ks; t_len : 2 <= length ks <= M; t_kid : forall k, In k ks -> leaf_of M h r k }.
Definition all_ents (h : heap) (ks : list nat) : list (bb * Z) := flat_map (fun k => ents (snd h k)) ks.

Lemma flat_map_ext_in {A B} (f g : A -> list B) l : (forall x, In x l -> f x = g x) -> flat_map f l = flat_map g l.
Proof.
  induction l as [| x l IH]; intros H; [reflexivity |]. cbn. rewrite (H x (or_introl eq_refl)).
  rewrite IH; [reflexivity |]. intros; apply H; right; assumption.
Qed.
Lemma flat_map_change {A B} (f g : A -> list B) ks a x e : NoDup ks -> In a ks ->
  (forall k, In k ks -> k <> a -> g k = f k) -> Permutation (g a ++ x) (e :: f a) ->
  Permutation (flat_map g ks ++ x) (e :: flat_map f ks).
Proof.
  intros N Ha H P. apply in_split in Ha as (k1 & k2 & ->).
  apply NoDup_remove_2 in N.
  assert (E1 : flat_map g k1 = flat_map f k1).
  { apply flat_map_ext_in. intros k Hk. apply H; [apply in_or_app; auto |]. intros ->. apply N, in_or_app; auto. }
  assert (E2 : flat_map g k2 = flat_map f k2).
  { apply flat_map_ext_in. intros k Hk. apply H; [apply in_or_app; right; right; auto |]. intros ->.
    apply N, in_or_app; auto. }
  rewrite !flat_map_app. cbn [flat_map]. rewrite E1, E2.
  rewrite <- !app_assoc. rewrite (Permutation_app_comm (flat_map f k2) x).
  rewrite (app_assoc (g a)), P. cbn [app].
  rewrite <- Permutation_middle. reflexivity.
Qed.
Lemma flat_map_many {A B} (f : A -> list B) a ks : NoDup ks -> In a ks -> (forall k, In k ks -> 2 <= length (f k)) ->
  2 * (length ks - 1) + length (f a) <= length (flat_map f ks).
Proof.
  intros N Ha H. apply in_split in Ha as (k1 & k2 & ->).
  assert (G : forall l, (forall k, In k l -> 2 <= length (f k)) -> 2 * length l <= length (flat_map f l)).
  { induction l as [| k l IH]; intros Hl; [cbn; lia |]. cbn [flat_map length]. rewrite app_length.
    pose proof (Hl k (or_introl eq_refl)). specialize (IH (fun j Hj => Hl j (or_intror Hj))). lia. }
  pose proof (G k1 (fun j Hj => H j (in_or_app _ _ _ (or_introl Hj)))).
  pose proof (G k2 (fun j Hj => H j (in_or_app k1 (a :: k2) j (or_intror (or_intror Hj))))).
  rewrite flat_map_app. cbn [flat_map]. rewrite !app_length. cbn [length]. lia.
Qed.

Lemma choose_two M fuel h r ks b : two M h r ks -> 2 <= fuel -> exists a, choose_leaf fuel h r b = Ret a /\ In a ks.
Proof.
  intros T Hf. destruct fuel as [| [| fuel]]; try lia. cbn [choose_leaf]. rewrite get_ok by apply T. cbn [andthen].
  rewrite (t_leaf _ _ _ _ T), (t_kids _ _ _ _ T).
  assert (K : forall k, In k ks -> k < fst h) by (intros k Hk; apply (t_kid _ _ _ _ T k Hk)).
  assert (E : forall k, In k ks -> choose_leaf (S fuel) h k b = Ret k).
  { intros k Hk. cbn [choose_leaf]. rewrite get_ok by auto. cbn [andthen].
    destruct (t_kid _ _ _ _ T k Hk) as (_ & -> & _). reflexivity. }
  pose proof (t_len _ _ _ _ T) as Len.
  destruct ks as [| c l]; [cbn in Len; lia |].
  rewrite get_ok by (apply K; left; reflexivity). cbn [andthen].
  destruct (best_kid_ok h b l c (volume_expanded (box (snd h c)) b)) as (k & -> & Hk).
  { intros; apply K; right; assumption. }
  cbn [andthen]. exists k. assert (Ik : In k (c :: l)) by (destruct Hk; [left | right]; auto).
  split; [| exact Ik]. specialize (E k Ik). cbn [choose_leaf] in E. exact E.
Qed.

(** The root and its leaves may have changed by a box and a parent only. *)
Lemma insert_two M fuel h r ks e : 4 <= M -> 2 <= fuel -> two M h r ks ->
  M + 1 + 2 * (length ks - 2) <= length (all_ents h ks) -> S (length (all_ents h ks)) <= 3 * M - 2 ->
  (forall k f g l, In k ks -> ents (snd h k) = f :: g :: l -> not_in_range (fst f) (fst g)) ->
  exists h' ks', insert M fuel h r e = Ret (h', r) /\ two M h' r ks' /\
    Permutation (all_ents h' ks') (e :: all_ents h ks) /\
    M + 1 + 2 * (length ks' - 2) <= S (length (all_ents h ks)).
Proof.
  intros HM Hf T Cnt Small NR. unfold insert.
  destruct (choose_two M fuel h r ks (fst e) T Hf) as (a & -> & Ia). cbn [andthen].
  pose proof (t_kid _ _ _ _ T a Ia) as (Ha & La & Pa & Na & Ho).
  pose proof (t_r _ _ _ _ T) as Hr.
  assert (Hra : r <> a) by (intros ->; exact (t_not _ _ _ _ T Ia)).
  rewrite get_ok by exact Ha. cbn [andthen]. unfold push_ent.
  destruct (Nat.leb_spec (length (ents (snd h a))) M); [| lia]. cbn [andthen].
  set (n' := set_ents (snd h a) (ents (snd h a) ++ [e])).
  set (h1 := put h a (set_box n' (RTree_Model.extend (box n') (fst e)))).
  assert (S1a : snd h1 a = set_box n' (RTree_Model.extend (box n') (fst e))) by apply put_same.
  assert (S1 : forall y, y <> a -> snd h1 y = snd h y) by (intros; apply put_other; assumption).
  assert (En : ents n' = ents (snd h a) ++ [e]) by reflexivity.
  rewrite En, app_length. cbn [length].
  assert (Kr : forall k, In k (kids (snd h r)) -> k < fst h).
  { rewrite (t_kids _ _ _ _ T). intros k Hk. apply (t_kid _ _ _ _ T k Hk). }
  assert (Kne : kids (snd h r) <> []).
  { rewrite (t_kids _ _ _ _ T). pose proof (t_len _ _ _ _ T) as Len. intros ->. cbn in Len; lia. }
  destruct (Nat.ltb_spec M (length (ents (snd h a)) + 1)) as [Big | Fit].
  - (* split *)
    assert (L1 : leaf (snd h1 a) = true) by (rewrite S1a; exact La).
    assert (E1 : ents (snd h1 a) = ents (snd h a) ++ [e]) by (rewrite S1a; reflexivity).
    assert (Len1 : length (ents (snd h1 a)) = S M) by (rewrite E1, app_length; cbn [length]; lia).
    assert (P1 : parent (snd h1 a) = Some r) by (rewrite S1a; exact Pa).
    destruct (ents (snd h a)) as [| f [| g l]] eqn:Ea; [cbn in Na; lia | cbn in Na; lia |].
    destruct (split_leaf_two M fuel h1 a f g (l ++ [e])) as
      (h2 & l0 & l1 & b0 & b1 & Es & F2 & Pm & N0 & N1 & O0 & O1 & Qa & Qs & Qo & Qal); auto.
    { exact (NR a f g l Ia Ea). }
    { right. exists r. rewrite (S1 r Hra). repeat split; auto. apply T. }
    unfold split. rewrite (get_ok h1 a) by exact Ha. cbn [andthen]. rewrite L1, Es. cbn [andthen fst snd].
    change (fst h1) with (fst h) in *. set (s := fst h) in *.
    rewrite P1 in Qa, Qs, Qo.
    assert (Lm : length l0 + length l1 = S M) by (rewrite <- app_length; rewrite (Permutation_length Pm); exact Len1).
    (* adjust *)
    destruct fuel as [| [| fuel]]; try lia. remember (S fuel) as fuel1 eqn:Ef1. cbn [adjust].
    rewrite get_ok by (rewrite F2; unfold s; lia). cbn [andthen]. rewrite Qa. cbn [parent].
    destruct (Qal r Hr Hra) as (B1 & B2 & B3 & B4). rewrite (S1 r Hra) in B1, B2, B3, B4.
    destruct (update_box_only h2 r (Some s)) as [b Eu]; [lia | | lia |].
    { rewrite <- B4. intros k Hk. specialize (Kr k Hk). unfold s in *; lia. }
    rewrite Eu. cbn [andthen]. set (h3 := put h2 r (set_box (snd h2 r) b)).
    unfold add_node. rewrite (get_ok h3 r) by (change (fst h3) with (fst h2); lia). cbn [andthen].
    assert (S3r : snd h3 r = set_box (snd h2 r) b) by apply put_same. rewrite S3r. unfold push_kid.
    assert (K3 : kids (set_box (snd h2 r) b) = ks) by (cbn; rewrite <- B4; apply T). rewrite K3.
    destruct (Nat.leb_spec (length ks) M) as [_ | C]; [| pose proof (t_len _ _ _ _ T); lia]. cbn [andthen].
    set (h4 := put h3 r (set_kids (set_box (snd h2 r) b) (ks ++ [s]))).
    rewrite (get_ok h4 s) by (change (fst h4) with (fst h2); lia). cbn [andthen fst snd set_kids kids].
    assert (Hsr : s <> r) by (unfold s in *; lia). assert (Hsa : s <> a) by (unfold s in *; lia).
    assert (S4s : snd h4 s = mkN true (Some r) l1 [] b1).
    { unfold h4. rewrite put_other by exact Hsr. unfold h3. rewrite put_other by exact Hsr. exact Qs. }
    rewrite S4s. unfold set_parent at 1. cbn [leaf ents kids box parent].
    set (h5 := put h4 s _).
    assert (Many : 2 * (length ks - 1) + M <= length (all_ents h ks)).
    { pose proof (flat_map_many (fun k => ents (snd h k)) a ks (t_nd _ _ _ _ T) Ia) as Fm.
      unfold all_ents. cbn beta in Fm. rewrite Ea in Fm. cbn [length] in *.
      assert (length l + 3 = S M) by (rewrite E1, app_length in Len1; cbn [length] in Len1; lia).
      specialize (Fm (fun k Hk => proj1 (proj1 (proj2 (proj2 (proj2 (t_kid _ _ _ _ T k Hk))))))). lia. }
    pose proof (t_len _ _ _ _ T) as Len.
    rewrite app_length. cbn [length].
    destruct (Nat.ltb_spec M (length ks + 1)) as [C | _]; [lia |]. cbn [andthen fst snd].
    assert (S5a : snd h5 a = mkN true (Some r) l0 (kids (snd h1 a)) b0).
    { unfold h5. rewrite put_other by lia. unfold h4. rewrite put_other by lia. unfold h3. rewrite put_other by lia.
      exact Qa. }
    assert (F5 : fst h5 = S s) by exact F2.
    rewrite (get_ok h5 a) by (rewrite F5; unfold s; lia). cbn [andthen]. rewrite S5a. cbn [parent].
    assert (S5r : snd h5 r = set_kids (set_box (snd h2 r) b) (ks ++ [s])).
    { unfold h5. rewrite put_other by lia. apply put_same. }
    assert (S5s : snd h5 s = mkN true (Some r) l1 [] b1) by apply put_same.
    rewrite Ef1. cbn [adjust]. rewrite (get_ok h5 r) by lia. cbn [andthen].
    assert (P5 : parent (snd h5 r) = None) by (rewrite S5r; cbn; rewrite <- B2; apply T).
    rewrite P5.
    assert (S5 : forall k, In k ks -> k <> a -> snd h5 k = snd h k).
    { intros k Hk Hka. pose proof (t_kid _ _ _ _ T k Hk) as (Hk1 & _).
      assert (k <> r) by (intros ->; exact (t_not _ _ _ _ T Hk)).
      unfold h5. rewrite put_other by (unfold s in *; lia). unfold h4. rewrite put_other by assumption.
      unfold h3. rewrite put_other by assumption. rewrite Qo; [apply S1; exact Hka | exact Hk1 | exact Hka | congruence]. }
    exists h5, (ks ++ [s]). split; [reflexivity |]. split; [| split].
    + constructor; auto.
      * lia.
      * rewrite S5r. cbn. rewrite <- B1. apply T.
      * rewrite S5r. reflexivity.
      * apply (Permutation_NoDup (l := s :: ks)); [apply Permutation_cons_append |].
        constructor; [| apply T]. intros Hk. apply (t_kid _ _ _ _ T) in Hk as (Hk & _). unfold s in *; lia.
      * intros Hk. apply in_app_or in Hk as [Hk | [Hk | []]]; [exact (t_not _ _ _ _ T Hk) | congruence].
      * rewrite app_length. cbn [length]. lia.
      * intros k Hk. unfold leaf_of. rewrite F5. apply in_app_or in Hk as [Hk | [<- | []]].
        -- destruct (Nat.eq_dec k a) as [-> | Hka].
           ++ rewrite S5a. cbn. split; [unfold s in *; lia |]. repeat split; auto; lia.
           ++ rewrite (S5 k Hk Hka). destruct (t_kid _ _ _ _ T k Hk) as (G1 & G2).
              split; [unfold s in *; lia | exact G2].
        -- rewrite S5s. cbn. split; [lia |]. repeat split; auto; lia.
    + unfold all_ents. rewrite flat_map_app. cbn [flat_map]. rewrite app_nil_r.
      apply (flat_map_change (fun k => ents (snd h k)) _ ks a); [apply T | exact Ia | |].
      * intros k Hk Hka. rewrite (S5 k Hk Hka). reflexivity.
      * rewrite S5a, S5s. cbn [ents]. rewrite Pm, E1, Ea. symmetry. apply Permutation_cons_append.
    + rewrite app_length. cbn [length]. lia.
  - (* no split *)
    cbn [andthen fst snd]. destruct fuel as [| [| fuel]]; try lia. remember (S fuel) as fuel1 eqn:Ef1. cbn [adjust].
    rewrite get_ok by exact Ha. cbn [andthen].
    assert (P1 : parent (snd h1 a) = Some r) by (rewrite S1a; exact Pa). rewrite P1.
    destruct (update_box_only h1 r None) as [b Eu]; [exact Hr | rewrite (S1 r Hra); exact Kr | rewrite (S1 r Hra); exact Kne |].
    rewrite Eu. cbn [andthen fst snd]. set (h2 := put h1 r (set_box (snd h1 r) b)).
    assert (S2a : snd h2 a = snd h1 a) by (apply put_other; lia).
    rewrite (get_ok h2 a) by exact Ha. cbn [andthen]. rewrite S2a, P1, Ef1. cbn [adjust].
    rewrite (get_ok h2 r) by exact Hr. cbn [andthen].
    assert (S2r : snd h2 r = set_box (snd h1 r) b) by apply put_same.
    assert (P2 : parent (snd h2 r) = None) by (rewrite S2r, (S1 r Hra); exact (t_par _ _ _ _ T)). rewrite P2.
    assert (S2 : forall k, In k ks -> k <> a -> snd h2 k = snd h k).
    { intros k Hk Hka. unfold h2. rewrite put_other; [apply S1; exact Hka |]. intros ->. exact (t_not _ _ _ _ T Hk). }
    exists h2, ks. split; [reflexivity |]. split; [| split].
    + constructor; auto; try apply T.
      * rewrite S2r, (S1 r Hra). cbn. apply T.
      * rewrite S2r, (S1 r Hra). cbn. apply T.
      * intros k Hk. destruct (Nat.eq_dec k a) as [-> | Hka].
        -- unfold leaf_of. rewrite S2a, S1a. cbn [set_box n' set_ents leaf parent ents box].
           split; [exact Ha |]. split; [exact La |]. split; [exact Pa |]. rewrite app_length. cbn [length].
           split; [lia |]. destruct Ho as (f & If & Lf). exists f. split; [apply in_or_app; auto |].
           apply lies_in_extend. exact Lf.
        -- unfold leaf_of. rewrite (S2 k Hk Hka). exact (t_kid _ _ _ _ T k Hk).
    + unfold all_ents.
      assert (Px : Permutation (flat_map (fun k => ents (snd h2 k)) ks ++ []) (e :: flat_map (fun k => ents (snd h k)) ks)).
      { apply (flat_map_change (fun k => ents (snd h k)) _ ks a); [apply T | exact Ia | |].
        - intros k Hk Hka. rewrite (S2 k Hk Hka). reflexivity.
        - rewrite app_nil_r, S2a, S1a. cbn [set_box n' set_ents ents]. symmetry. apply Permutation_cons_append. }
      rewrite app_nil_r in Px. exact Px.
    + lia.
Qed.

(** The first split. *)
Lemma insert_first M fuel h f g l e : 4 <= M -> 1 <= fuel -> one_leaf h (f :: g :: l) -> length (f :: g :: l) = M ->
  not_in_range (fst f) (fst g) ->
  exists h' r ks, insert M fuel h 0 e = Ret (h', r) /\ two M h' r ks /\ length ks = 2 /\
    Permutation (all_ents h' ks) (e :: f :: g :: l).
Proof.
  intros HM Hf (F & L & P & E) Hl NR. set (es := f :: g :: l) in *. unfold insert.
  assert (Hg : get h 0 = Ret (snd h 0)) by (unfold get; rewrite F; reflexivity).
  destruct fuel as [| fuel]; [lia |]. remember (S fuel) as fuel1 eqn:Ef1.
  assert (Ec : choose_leaf fuel1 h 0 (fst e) = Ret 0).
  { rewrite Ef1. cbn [choose_leaf]. rewrite Hg. cbn [andthen]. rewrite L. reflexivity. }
  rewrite Ec. cbn [andthen]. rewrite Hg. cbn [andthen]. unfold push_ent. rewrite E, Hl, Nat.leb_refl. cbn [andthen].
  set (n' := set_ents (snd h 0) (es ++ [e])).
  set (h1 := put h 0 (set_box n' (RTree_Model.extend (box n') (fst e)))).
  assert (S1 : snd h1 0 = set_box n' (RTree_Model.extend (box n') (fst e))) by apply put_same.
  assert (En : ents n' = es ++ [e]) by reflexivity. rewrite En, app_length, Hl. cbn [length].
  destruct (Nat.ltb_spec M (M + 1)) as [_ | C]; [| lia].
  assert (F1 : fst h1 = 1) by exact F.
  destruct (split_leaf_two M fuel1 h1 0 f g (l ++ [e])) as
    (h2 & l0 & l1 & b0 & b1 & Es & F2 & Pm & N0 & N1 & O0 & O1 & Qa & Qs & Qo & Qal); auto.
  { lia. }
  { rewrite S1. cbn [set_box ents]. rewrite En, app_length, Hl. cbn; lia. }
  { left. rewrite S1. split; [exact P | lia]. }
  assert (E1 : ents (snd h1 0) = es ++ [e]) by (rewrite S1; reflexivity).
  assert (P1 : parent (snd h1 0) = None) by (rewrite S1; exact P).
  unfold split. rewrite (get_ok h1 0) by lia. cbn [andthen].
  assert (L1 : leaf (snd h1 0) = true) by (rewrite S1; exact L). rewrite L1, Es, F1. cbn [andthen fst snd].
  rewrite P1 in Qa, Qs. rewrite F1 in *.
  rewrite Ef1. cbn [adjust]. rewrite (get_ok h2 0) by lia. cbn [andthen]. rewrite Qa. cbn [parent andthen].
  cbn [new_node]. rewrite F2.
  set (h3 := (3, fun x => if x =? 2 then mkN false None [] [] nobox else snd h2 x) : heap).
  assert (G3 : get h3 2 = Ret (mkN false None [] [] nobox)) by reflexivity.
  unfold add_node at 1. rewrite G3. cbn [andthen]. unfold push_kid at 1. cbn [kids length].
  destruct (Nat.leb_spec 0 M) as [_ | C]; [| lia]. cbn [andthen set_kids app].
  assert (G4 : forall x, get (put h3 2 x) 0 = Ret (snd h2 0)) by reflexivity.
  rewrite G4. cbn [andthen fst]. rewrite Qa. unfold set_parent at 1. cbn [leaf ents kids box parent].
  set (h4 := put (put h3 2 _) 0 _).
  unfold add_node. assert (G5 : get h4 2 = Ret (mkN false None [] [0] nobox)) by reflexivity.
  rewrite G5. cbn [andthen]. unfold push_kid. cbn [kids length].
  destruct (Nat.leb_spec 1 M) as [_ | C]; [| lia]. cbn [andthen set_kids app leaf parent ents kids box].
  assert (G6 : forall x, get (put h4 2 x) 1 = Ret (snd h2 1)) by reflexivity.
  rewrite G6. cbn [andthen fst]. rewrite Qs. unfold set_parent. cbn [leaf ents kids box parent].
  set (h5 := put (put h4 2 _) 1 _).
  assert (A0 : snd h5 0 = mkN true (Some 2) l0 (kids (snd h1 0)) b0) by reflexivity.
  assert (A1 : snd h5 1 = mkN true (Some 2) l1 [] b1) by reflexivity.
  assert (A2 : snd h5 2 = mkN false None [] [0; 1] nobox) by reflexivity.
  assert (F5 : fst h5 = 3) by reflexivity.
  assert (Lm : length l0 + length l1 = S M).
  { rewrite <- app_length, (Permutation_length Pm), E1, app_length, Hl. cbn; lia. }
  clearbody h5.
  exists h5, 2, [0; 1]. split; [reflexivity |]. split; [| split; [reflexivity |]].
  - constructor; rewrite ?A2, ?F5; auto; try (cbn; lia).
    + constructor; [intros [? | []]; lia |]. constructor; [intros [] | constructor].
    + intros k [<- | [<- | []]]; unfold leaf_of; rewrite ?A0, ?A1, F5; cbn; repeat split; auto; lia.
  - unfold all_ents. cbn [flat_map]. rewrite A0, A1. cbn [ents]. rewrite app_nil_r, Pm, E1.
    symmetry. apply Permutation_cons_append.
Qed.

Lemma indices l : map snd (indexed 0 l) = map Z.of_nat (seq 0 (length l)).
Proof.
  unfold indexed. assert (G : forall (m : list Z), length m = length l -> map snd (combine l m) = m).
  { induction l as [| b l IH]; intros [| z m] H; cbn in *; try lia; [reflexivity |]. f_equal. apply IH; lia. }
  apply G. rewrite map_length, seq_length. reflexivity.
Qed.
Lemma indices_nodup l : NoDup (map snd (indexed 0 l)).
Proof.
  rewrite indices. apply FinFun.Injective_map_NoDup; [| apply seq_NoDup]. intros a b H. lia.
Qed.
Lemma staggered_pair l f g : staggered l -> In f (indexed 0 l) -> In g (indexed 0 l) -> snd f <> snd g ->
  not_in_range (fst f) (fst g).
Proof.
  intros S Hf Hg D. destruct f as [b i], g as [c j]. apply in_indexed0 in Hf as [I1 I2], Hg as [J1 J2]. cbn in *.
  apply (S (Z.to_nat i) (Z.to_nat j) b c); auto. lia.
Qed.
Lemma indexed_pre pre l f : In f (indexed 0 pre) -> In f (indexed 0 (pre ++ l)).
Proof.
  destruct f as [b i]. rewrite !in_indexed0. intros [H1 H2]. split; [exact H1 |].
  rewrite nth_error_app1; [exact H2 |]. apply nth_error_Some. congruence.
Qed.
Lemma indexed_len l : length (indexed 0 l) = length l.
Proof. unfold indexed. rewrite combine_length, map_length, seq_length. lia. Qed.

Definition small (M : nat) (h : heap) (r : nat) (es : list (bb * Z)) : Prop :=
  (r = 0 /\ one_leaf h es /\ length es <= M) \/
  (exists ks, two M h r ks /\ Permutation (all_ents h ks) es /\ M + 1 + 2 * (length ks - 2) <= length es).
Lemma insert_small M fuel all pre b post h r : 4 <= M -> 2 <= fuel -> staggered all -> all = pre ++ b :: post ->
  length all <= 3 * M - 2 -> small M h r (indexed 0 pre) ->
  exists h' r', insert M fuel h r (b, Z.of_nat (length pre)) = Ret (h', r') /\ small M h' r' (indexed 0 (pre ++ [b])).
Proof.
  intros HM Hf St Ea La Sm. rewrite indexed_app. cbn [Nat.add]. set (e := (b, Z.of_nat (length pre))).
  assert (Lp : length pre + 1 <= 3 * M - 2) by (rewrite Ea, app_length in La; cbn [length] in La; lia).
  assert (NR : forall f g, In f (indexed 0 pre) -> In g (indexed 0 pre) -> snd f <> snd g -> not_in_range (fst f) (fst g)).
  { intros f g Hf1 Hg1 D. apply (staggered_pair all); auto; rewrite Ea; apply indexed_pre; assumption. }
  pose proof (indices_nodup pre) as ND.
  destruct Sm as [(-> & O & Le) | (ks & T & Pm & Cnt)].
  - destruct (Nat.eq_dec (length (indexed 0 pre)) M) as [Em | Hn].
    + destruct (indexed 0 pre) as [| f [| g l]] eqn:Ei; [cbn in Em; lia | cbn in Em; lia |].
      destruct (insert_first M fuel h f g l e) as (h' & r & ks & -> & T & Lk & Pm); auto; try lia.
      { apply NR; [left; reflexivity | right; left; reflexivity |]. cbn in ND. inversion ND as [| ? ? H1 _]; subst.
        intros C. apply H1. left. symmetry; exact C. }
      exists h', r. split; [reflexivity |]. right. exists ks. split; [exact T |]. split.
      * rewrite Pm. apply Permutation_cons_append.
      * rewrite app_length, Em, Lk. cbn; lia.
    + destruct (insert_one M fuel h (indexed 0 pre) e) as (h' & -> & O'); auto; try lia.
      exists h', 0. split; [reflexivity |]. left. split; [reflexivity |]. split; [exact O' |].
      rewrite app_length. cbn [length]. lia.
  - assert (Lall : length (all_ents h ks) = length pre) by (rewrite (Permutation_length Pm); apply indexed_len).
    destruct (insert_two M fuel h r ks e) as (h' & ks' & -> & T' & P' & C'); auto.
    + rewrite Lall, <- (indexed_len pre). exact Cnt.
    + rewrite Lall. lia.
    + intros k f g l Hk Ek.
      assert (Sub : forall x, In x (f :: g :: l) -> In x (all_ents h ks)).
      { intros x Hx. unfold all_ents. apply in_flat_map. exists k. rewrite Ek. auto. }
      apply NR; [apply (Permutation_in _ Pm), Sub; left; reflexivity
                | apply (Permutation_in _ Pm), Sub; right; left; reflexivity |].
      intros C. apply in_split in Hk as (k1 & k2 & ->).
      assert (N2 : NoDup (map snd (all_ents h (k1 ++ k :: k2)))).
      { apply (Permutation_NoDup (l := map snd (indexed 0 pre))); [| exact ND]. apply Permutation_map. symmetry; exact Pm. }
      unfold all_ents in N2. rewrite flat_map_app in N2. cbn [flat_map] in N2. rewrite Ek, map_app in N2.
      assert (N3 : forall (x y : list Z), NoDup (x ++ y) -> NoDup y).
      { clear. induction x; cbn; intros y N; [exact N |]. inversion N; auto. }
      apply N3 in N2. cbn [app map] in N2. inversion N2 as [| ? ? H1 _]; subst. apply H1. left. symmetry; exact C.
    + exists h', r. split; [reflexivity |]. right. exists ks'. split; [exact T' |]. split.
      * rewrite P', Pm. apply Permutation_cons_append.
      * rewrite app_length, indexed_len. cbn [length]. lia.
Qed.
Lemma insert_all_small M fuel all : 4 <= M -> 2 <= fuel -> staggered all -> length all <= 3 * M - 2 ->
  forall l pre h r, all = pre ++ l -> small M h r (indexed 0 pre) ->
  exists h' r', insert_all M fuel h r (Z.of_nat (length pre)) l = Ret (h', r') /\ small M h' r' (indexed 0 all).
Proof.
  intros HM Hf St La. induction l as [| b l IH]; intros pre h r E S; cbn [insert_all].
  - exists h, r. rewrite app_nil_r in E. subst pre. auto.
  - destruct (insert_small M fuel all pre b l h r) as (h' & r' & -> & S'); auto. cbn [andthen fst snd].
    destruct (IH (pre ++ [b]) h' r') as (h2 & r2 & E2 & S2); auto.
    { rewrite <- app_assoc. exact E. }
    rewrite app_length in E2. cbn [length] in E2.
    replace (Z.of_nat (length pre + 1)) with (Z.of_nat (length pre) + 1)%Z in E2 by lia.
    rewrite E2. eauto.
Qed.
Lemma rtree_small M fuel l : 4 <= M -> 2 <= fuel -> staggered l -> length l <= 3 * M - 2 ->
  exists h r, rtree M fuel l = Ret (h, r) /\ small M h r (indexed 0 l).
Proof.
  intros HM Hf St La. unfold rtree. destruct (Nat.ltb_spec M 4) as [H | _]; [lia |]. cbn [new_node fst snd].
  apply (insert_all_small M fuel l HM Hf St La l [] _ 0 eq_refl).
  left. split; [reflexivity |]. split; [repeat split | cbn; lia].
Qed.

(** Searching a root above leaves. *)
Definition gather (f : bb -> bool) (h : heap) (stack : list nat) (found : list Z) : list Z :=
  fold_left (fun acc k => rev (map snd (filter (fun e => f (fst e)) (ents (snd h k)))) ++ acc) stack found.
Lemma gather_perm f h : forall stack found,
  Permutation (gather f h stack found) (map snd (filter (fun e => f (fst e)) (all_ents h stack)) ++ found).
Proof.
  induction stack as [| k l IH]; intros found; [reflexivity |].
  unfold gather in *. cbn [fold_left]. rewrite IH. unfold all_ents. cbn [flat_map].
  rewrite filter_app, map_app. rewrite <- (Permutation_rev (map snd _)). rewrite !app_assoc.
  apply Permutation_app_tail. apply Permutation_app_comm.
Qed.
Lemma within_leaves h q : forall stack fuel found, stack <> [] -> length stack <= fuel ->
  (forall k, In k stack -> k < fst h /\ leaf (snd h k) = true) ->
  search_within fuel h q (-1) stack found = Ret (gather (is_within q) h stack found).
Proof.
  induction stack as [| k l IH]; intros [| fuel] found Hne Hl Hk; try congruence; cbn [length] in Hl; [lia |].
  cbn [search_within].
  destruct (Z.eqb_spec (Z.of_nat (length found)) (-1)) as [C | _]; [lia |].
  destruct (Hk k (or_introl eq_refl)) as [K1 K2]. rewrite get_ok by exact K1. cbn [andthen]. rewrite K2.
  cbn [andthen fst snd]. unfold gather. cbn [fold_left]. destruct l as [| k' l]; [reflexivity |].
  apply IH; [discriminate | lia |]. intros; apply Hk; right; assumption.
Qed.
Lemma overlapping_leaves h q : forall stack fuel found, stack <> [] -> length stack <= fuel ->
  (forall k, In k stack -> k < fst h /\ leaf (snd h k) = true) ->
  search_overlapping fuel h q (-1) stack found = Ret (gather (is_overlapping q) h stack found).
Proof.
  induction stack as [| k l IH]; intros [| fuel] found Hne Hl Hk; try congruence; cbn [length] in Hl; [lia |].
  cbn [search_overlapping Z.eqb].
  destruct (Hk k (or_introl eq_refl)) as [K1 K2]. rewrite get_ok by exact K1. cbn [andthen]. rewrite K2.
  cbn [andthen fst snd]. unfold gather. cbn [fold_left]. destruct l as [| k' l]; [reflexivity |].
  apply IH; [discriminate | lia |]. intros; apply Hk; right; assumption.
Qed.
Lemma filter_length_le {A} (p : A -> bool) l : length (filter p l) <= length l.
Proof. induction l as [| x l IH]; cbn; [lia |]. destruct (p x); cbn; lia. Qed.
Definition visited (h : heap) (q : bb) (ks : list nat) : list nat :=
  rev (filter (fun k => is_overlapping q (box (snd h k))) ks).
Lemma filter_map_fst {A} (g : nat -> A) (p : A -> bool) ks :
  map fst (filter (fun k => p (snd k)) (map (fun k => (k, g k)) ks)) = filter (fun k => p (g k)) ks.
Proof. induction ks as [| k ks IH]; [reflexivity |]. cbn. destruct (p (g k)); cbn; rewrite IH; reflexivity. Qed.
Lemma search_two M h r ks q fuel : two M h r ks -> M < fuel ->
  search_within fuel h q (-1) [r] [] = Ret (gather (is_within q) h (visited h q ks) []) /\
  search_overlapping fuel h q (-1) [r] [] = Ret (gather (is_overlapping q) h (visited h q ks) []).
Proof.
  intros T Hf. destruct fuel as [| fuel]; [lia |]. cbn [search_within search_overlapping length Z.of_nat Z.eqb].
  rewrite get_ok by apply T. cbn [andthen]. rewrite (t_leaf _ _ _ _ T), (t_kids _ _ _ _ T).
  rewrite kid_boxes_ok by (intros k Hk; apply (t_kid _ _ _ _ T k Hk)). cbn [andthen fst snd].
  rewrite (filter_map_fst (fun k => box (snd h k))), app_nil_r. fold (visited h q ks).
  assert (Len : length (visited h q ks) <= fuel).
  { unfold visited. rewrite rev_length. pose proof (t_len _ _ _ _ T).
    pose proof (filter_length_le (fun k => is_overlapping q (box (snd h k))) ks). lia. }
  assert (Hk : forall k, In k (visited h q ks) -> k < fst h /\ leaf (snd h k) = true).
  { intros k Hk. unfold visited in Hk. apply in_rev, filter_In in Hk as [Hk _].
    destruct (t_kid _ _ _ _ T k Hk) as (K1 & K2 & _). auto. }
  destruct (visited h q ks) as [| k l] eqn:Ev; [split; reflexivity |]. rewrite <- Ev in *.
  split; [apply within_leaves | apply overlapping_leaves]; auto; rewrite Ev; discriminate.
Qed.

Lemma nodup_app_l {A} (x y : list A) : NoDup (x ++ y) -> NoDup x.
Proof.
  induction x as [| a x IH]; cbn; intros N; [constructor |]. inversion N as [| ? ? H1 H2]; subst.
  constructor; [| auto]. intros H. apply H1, in_or_app; auto.
Qed.
Lemma filter_split {A} (p : A -> bool) l : Permutation (filter p l ++ filter (fun x => negb (p x)) l) l.
Proof.
  induction l as [| x l IH]; [reflexivity |]. cbn. destruct (p x); cbn.
  - constructor. exact IH.
  - rewrite <- Permutation_middle. constructor. exact IH.
Qed.
Lemma filter_perm {A} (p : A -> bool) l m : Permutation l m -> Permutation (filter p l) (filter p m).
Proof.
  intros P. induction P as [| x l m P IH | x y l | l m n P1 IH1 P2 IH2]; cbn; [constructor | | |].
  - destruct (p x); [constructor |]; exact IH.
  - destruct (p x), (p y); try reflexivity. apply perm_swap.
  - exact (Permutation_trans IH1 IH2).
Qed.
Lemma all_ents_perm h k1 k2 : Permutation k1 k2 -> Permutation (all_ents h k1) (all_ents h k2).
Proof.
  intros P. unfold all_ents. induction P; cbn [flat_map]; auto.
  - apply Permutation_app_head; assumption.
  - rewrite !app_assoc. apply Permutation_app_tail, Permutation_app_comm.
  - etransitivity; eassumption.
Qed.
Lemma nodup_filter_map {A B} (g : A -> B) (p : A -> bool) l : NoDup (map g l) -> NoDup (map g (filter p l)).
Proof.
  intros N. apply nodup_app_l with (y := map g (filter (fun x => negb (p x)) l)). rewrite <- map_app.
  apply (Permutation_NoDup (l := map g l)); [| exact N]. apply Permutation_map. symmetry. apply filter_split.
Qed.
Lemma gather_nodup f M h r ks q es : two M h r ks -> Permutation (all_ents h ks) es -> NoDup (map snd es) ->
  NoDup (gather f h (visited h q ks) []).
Proof.
  intros T P N. eapply Permutation_NoDup; [symmetry; apply gather_perm |]. rewrite app_nil_r.
  apply nodup_filter_map.
  set (p := fun k => is_overlapping q (box (snd h k))).
  apply nodup_app_l with (y := map snd (all_ents h (filter (fun x => negb (p x)) ks))). rewrite <- map_app.
  eapply Permutation_NoDup; [| exact N]. apply Permutation_map. rewrite <- P.
  unfold all_ents. rewrite <- flat_map_app. apply all_ents_perm.
  unfold visited. rewrite <- Permutation_rev. symmetry. apply filter_split.
Qed.
Lemma meets_outer q b c : lies_in b c -> interiors_meet q c -> interiors_meet q b.
Proof.
  intros (A1 & A2 & A3 & A4) (x & y & I & J1 & J2 & J3 & J4). exists x, y. split; [exact I |].
  unfold inside. repeat split; lra.
Qed.
Lemma gather_in f M h r ks q es i : two M h r ks -> Permutation (all_ents h ks) es ->
  (forall e, In e es -> interiors_meet q (fst e)) ->
  In i (gather f h (visited h q ks) []) <-> exists e, In e es /\ snd e = i /\ f (fst e) = true.
Proof.
  intros T P Me.
  assert (V : filter (fun k => is_overlapping q (box (snd h k))) ks = ks).
  { assert (G : forall l : list nat, (forall k, In k l -> is_overlapping q (box (snd h k)) = true) ->
      filter (fun k => is_overlapping q (box (snd h k))) l = l).
    { induction l as [| k l IH]; intros H; [reflexivity |]. cbn. rewrite (H k (or_introl eq_refl)). f_equal.
      apply IH. intros; apply H; right; assumption. }
    apply G. intros k Hk. apply is_overlapping_spec.
    destruct (t_kid _ _ _ _ T k Hk) as (_ & _ & _ & _ & e & He & Le). apply (meets_outer q _ (fst e) Le), Me.
    apply (Permutation_in _ P). unfold all_ents. apply in_flat_map. exists k; auto. }
  assert (Q : Permutation (gather f h (visited h q ks) []) (map snd (filter (fun e => f (fst e)) (all_ents h ks)))).
  { rewrite gather_perm, app_nil_r. apply Permutation_map. unfold visited. rewrite V.
    apply filter_perm, all_ents_perm. symmetry. apply Permutation_rev. }
  split.
  - intros H. apply (Permutation_in _ Q), in_map_iff in H as (e & <- & H). apply filter_In in H as [H1 H2].
    exists e. split; [exact (Permutation_in _ P H1) | auto].
  - intros (e & H1 & <- & H2). apply (Permutation_in _ (Permutation_sym Q)), in_map_iff. exists e.
    split; [reflexivity |]. apply filter_In. split; [exact (Permutation_in _ (Permutation_sym P) H1) | exact H2].
Qed.

(** With fewer than [3 M - 1] boxes in different ranges, nothing is returned twice,
    and a query that meets all boxes misses nothing. *)
Lemma complete_meeting M l q fb fs : 4 <= M -> staggered l -> length l <= 3 * M - 2 -> 2 <= fb -> M < fs ->
  exists t rw ro, rtree M fb l = Ret t /\
    search_within fs (fst t) q (-1) [snd t] [] = Ret rw /\ search_overlapping fs (fst t) q (-1) [snd t] [] = Ret ro /\
    NoDup rw /\ NoDup ro /\
    ((forall b, In b l -> interiors_meet q b) ->
      (forall i, In i rw <-> exists b, is_box l i b /\
         (xmin q < xmin b /\ xmax b <= xmax q /\ ymin q < ymin b /\ ymax b <= ymax q)%Q) /\
      (forall i, In i ro <-> exists b, is_box l i b)).
Proof.
  intros HM St La Hb Hs. destruct (rtree_small M fb l HM Hb St La) as (h & r & E & S).
  destruct S as [(-> & O & Le) | (ks & T & P & _)].
  - rewrite indexed_len in Le.
    destruct (complete_unsplit M l q fb fs HM Le) as (t & Et & (rw & Ew & Nw & Iw) & (ro & Eo & No & Io)); try lia.
    exists t, rw, ro. do 5 (split; [assumption |]). intros Me. split; [exact Iw |].
    intros i. rewrite Io. split; [intros (b & B1 & _); eauto |]. intros (b & B1). exists b. split; [exact B1 |].
    apply Me. destruct B1 as [_ B1]. apply nth_error_In in B1. exact B1.
  - destruct (search_two M h r ks q fs T Hs) as [Ew Eo].
    exists (h, r), (gather (is_within q) h (visited h q ks) []), (gather (is_overlapping q) h (visited h q ks) []).
    cbn [fst snd]. split; [exact E |]. split; [exact Ew |]. split; [exact Eo |].
    pose proof (indices_nodup l) as N.
    split; [exact (gather_nodup _ M h r ks q _ T P N) |]. split; [exact (gather_nodup _ M h r ks q _ T P N) |].
    intros Me.
    assert (Me' : forall e, In e (indexed 0 l) -> interiors_meet q (fst e)).
    { intros [b i] H. apply in_indexed0 in H as [_ H]. apply Me. exact (nth_error_In _ _ H). }
    split; intros i; rewrite (gather_in _ M h r ks q _ i T P Me'); split.
    + intros ([b j] & H1 & <- & H2). exists b. split; [apply in_indexed0; exact H1 | apply is_within_spec; exact H2].
    + intros (b & H1 & H2). exists (b, i). split; [apply in_indexed0; exact H1 |]. split; [reflexivity |].
      apply is_within_spec; exact H2.
    + intros ([b j] & H1 & <- & H2). exists b. apply in_indexed0; exact H1.
    + intros (b & H1). exists (b, i). apply in_indexed0 in H1. split; [exact H1 |]. split; [reflexivity |].
      apply is_overlapping_spec. exact (Me' _ H1).
Qed.

(** Dropping such an index. *)
Lemma rt_free_two M h r ks fuel : two M h r ks -> 2 <= fuel ->
  rt_free fuel h r = Ret (flat_map (fun k => map (fun e => inl (snd e)) (ents (snd h k)) ++ [inr k]) ks).
Proof.
  intros T Hf. destruct fuel as [| [| fuel]]; try lia. remember (S fuel) as fuel1 eqn:Ef. cbn [rt_free].
  rewrite get_ok by apply T. cbn [andthen]. rewrite (t_leaf _ _ _ _ T), (t_kids _ _ _ _ T).
  assert (K : forall k, In k ks -> rt_free fuel1 h k = Ret (map (fun e => inl (snd e)) (ents (snd h k)) ++ [inr k])).
  { intros k Hk. destruct (t_kid _ _ _ _ T k Hk) as (K1 & K2 & _). rewrite Ef. cbn [rt_free].
    rewrite get_ok by exact K1. cbn [andthen]. rewrite K2. reflexivity. }
  clear T. induction ks as [| k ks IH]; [reflexivity |]. rewrite (K k (or_introl eq_refl)). cbn [andthen].
  rewrite IH by (intros; apply K; right; assumption). reflexivity.
Qed.
Lemma freed_once M l fb ff : 4 <= M -> staggered l -> length l <= 3 * M - 2 -> 2 <= fb -> 2 <= ff ->
  exists t r, rtree M fb l = Ret t /\ rt_free ff (fst t) (snd t) = Ret r /\ NoDup r /\
    forall i, In (inl i) r <-> exists b, is_box l i b.
Proof.
  intros HM St La Hb Hf. destruct (rtree_small M fb l HM Hb St La) as (h & r & E & S).
  exists (h, r). cbn [fst snd].
  destruct S as [(-> & O & Le) | (ks & T & P & _)].
  - destruct (rt_free_one ff h l) as (x & Ex & N); auto; [lia |]. exists x. split; [exact E |]. split; [exact Ex |].
    split; [exact N |]. destruct O as (F & L & Pn & En). destruct ff as [| ff]; [lia |]. cbn [rt_free] in Ex.
    rewrite get_ok in Ex by lia. cbn [andthen] in Ex. rewrite L, En in Ex.
    assert (X : x = map (fun e => inl (snd e)) (indexed 0 l) ++ [inr 0]) by congruence. subst x.
    intros i. rewrite in_app_iff, in_map_iff. split.
    + intros [([b j] & H & I) | [H | []]]; [| discriminate]. injection H as <-. exists b. apply in_indexed0; exact I.
    + intros (b & I). left. exists (b, i). split; [reflexivity |]. apply in_indexed0; exact I.
  - eexists. split; [exact E |]. split; [exact (rt_free_two M h r ks ff T Hf) |].
    assert (Pf : forall k2, Permutation (flat_map (fun k => map (fun e => inl (snd e)) (ents (snd h k)) ++ [inr k]) k2)
      (map inl (map snd (all_ents h k2)) ++ map (@inr Z nat) k2)).
    { induction k2 as [| k l2 IH]; [reflexivity |]. unfold all_ents. cbn [flat_map]. rewrite IH.
      rewrite !map_app, (map_map snd inl (ents _)). cbn [map]. rewrite <- !app_assoc. apply Permutation_app_head. cbn [app].
      apply Permutation_middle. }
    specialize (Pf ks). split.
    + eapply Permutation_NoDup; [symmetry; exact Pf |].
      assert (N1 : NoDup (map snd (all_ents h ks))).
      { eapply Permutation_NoDup; [apply Permutation_map; symmetry; exact P | apply indices_nodup]. }
      assert (App : forall (x y : list (Z + nat)), NoDup x -> NoDup y -> (forall a, In a x -> ~ In a y) -> NoDup (x ++ y)).
      { clear. induction x as [| a x IH]; intros y Nx Ny D; [assumption |]. cbn. inversion Nx; subst. constructor.
        - intros H. apply in_app_or in H as [H | H]; [contradiction |]. exact (D a (or_introl eq_refl) H).
        - apply IH; auto. intros b Hb. apply D; right; assumption. }
      apply App.
      * apply FinFun.Injective_map_NoDup; [| exact N1]. intros a b [= H]; exact H.
      * apply FinFun.Injective_map_NoDup; [| apply T]. intros a b [= H]; exact H.
      * intros a Ha Hc. apply in_map_iff in Ha as (z & <- & _). apply in_map_iff in Hc as (z' & H & _). discriminate.
    + intros i. transitivity (In (@inl Z nat i) (map inl (map snd (all_ents h ks)) ++ map (@inr Z nat) ks)).
      { split; apply Permutation_in; [exact Pf | symmetry; exact Pf]. }
      rewrite in_app_iff, !in_map_iff. split.
      * intros [(j & H & I) | (j & H & _)]; [| discriminate]. injection H as ->. apply in_map_iff in I as ([b j] & <- & I).
        exists b. apply in_indexed0. exact (Permutation_in _ P I).
      * intros (b & I). left. exists i. split; [reflexivity |]. apply in_map_iff. exists (b, i). split; [reflexivity |].
        apply (Permutation_in _ (Permutation_sym P)), in_indexed0. exact I.
Qed.

(** A test of [staggered]. *)
Definition apartb (b c : bb) : bool :=
  negb (Qle_bool (xmin c) (xmin b) && Qle_bool (xmax b) (xmax c)) &&
  negb (Qle_bool (ymin c) (ymin b) && Qle_bool (ymax b) (ymax c)).
Definition staggeredb (l : list bb) : bool :=
  forallb (fun i => forallb (fun j => (i =? j) ||
    match nth_error l i, nth_error l j with Some b, Some c => apartb b c | _, _ => true end)
    (seq 0 (length l))) (seq 0 (length l)).
Lemma staggeredb_ok l : staggeredb l = true -> staggered l.
Proof.
  intros H i j b c D Hb Hc. unfold staggeredb in H. rewrite forallb_forall in H.
  assert (Ii : In i (seq 0 (length l))) by (apply in_seq; split; [lia |]; apply nth_error_Some; congruence).
  assert (Ij : In j (seq 0 (length l))) by (apply in_seq; split; [lia |]; apply nth_error_Some; congruence).
  specialize (H i Ii). rewrite forallb_forall in H. specialize (H j Ij). rewrite Hb, Hc in H.
  destruct (Nat.eqb_spec i j) as [C | _]; [contradiction |]. cbn [orb] in H. unfold apartb in H.
  apply andb_true_iff in H as [H1 H2]. rewrite negb_true_iff in H1, H2. apply andb_false_iff in H1, H2.
  split; intros [A1 A2]; apply Qle_bool_iff in A1, A2; destruct H1, H2; congruence.
Qed.
