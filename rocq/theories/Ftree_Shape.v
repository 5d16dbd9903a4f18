(** The shape of the tree in floats: the argument of RTree_Proofs.v, in which the
    numbers play no part. *)
From Coq Require Import List ZArith Lia Bool Arith.
From Verif Require Import Ftree_Model.
Import ListNotations.
Open Scope nat_scope.

(** The i-th box. *)
Definition is_box (l : list bb) (i : Z) (b : bb) : Prop :=
  (0 <= i)%Z /\ nth_error l (Z.to_nat i) = Some b.

(** * Pools and seeds *)
Lemma replace_nth_length {A} (l : list A) i x : length (replace_nth l i x) = length l.
Proof. revert i; induction l as [| y l IH]; intros [| i]; cbn; auto. Qed.
Lemma replace_nth_in {A} (l : list A) i x y : In y (replace_nth l i x) -> y = x \/ In y l.
Proof.
  revert i; induction l as [| z l IH]; intros [| i]; cbn; auto; intros [H | H]; auto.
  apply IH in H; tauto.
Qed.
Lemma removelast_in {A} (l : list A) y : In y (removelast l) -> In y l.
Proof.
  destruct l as [| x l]; [intros [] |].
  intros H. rewrite (app_removelast_last (l := x :: l) x) by discriminate.
  apply in_or_app; auto.
Qed.
Lemma removelast_len {A} (l : list A) : length (removelast l) = length l - 1.
Proof.
  destruct l as [| x l]; [reflexivity |].
  pose proof (@app_removelast_last A (x :: l) x ltac:(discriminate)) as H.
  apply (f_equal (@length A)) in H. rewrite app_length in H. cbn [length] in H |- *. lia.
Qed.
Lemma pool_pop_spec {A} (l : list A) i : i < length l ->
  exists l', pool_pop l i = Ret l' /\ length l' = length l - 1 /\ forall y, In y l' -> In y l.
Proof.
  intros H. unfold pool_pop. destruct (Nat.leb_spec (length l) i) as [Hl | Hl]; [lia |].
  destruct (Nat.eqb_spec i (length l - 1)).
  - eexists; split; [reflexivity |]. split; [apply removelast_len |]. intros y; apply removelast_in.
  - destruct (rev l) as [| x r] eqn:Er.
    + apply (f_equal (@length A)) in Er. rewrite rev_length in Er. cbn in Er. lia.
    + eexists; split; [reflexivity |]. rewrite replace_nth_length, removelast_len. split; [reflexivity |].
      intros y Hy. apply replace_nth_in in Hy as [-> | Hy]; [| apply removelast_in; assumption].
      apply in_rev. rewrite Er; left; reflexivity.
Qed.
Lemma at_index_spec {A} (l : list A) i : i < length l -> exists a, at_index l i = Ret a /\ In a l /\ nth_error l i = Some a.
Proof.
  intros H. unfold at_index. destruct (nth_error l i) eqn:E.
  - eexists; split; [reflexivity |]; split; [apply nth_error_In in E; assumption | reflexivity].
  - apply nth_error_None in E. lia.
Qed.
(** The two seed indices found in a direction differ, or are both 0. *)
Definition sd_ok (i : nat) (s : seeds) : Prop :=
  ixl s < i /\ ixh s < i /\ iyl s < i /\ iyh s < i /\
  (ixl s = ixh s -> ixl s = 0) /\ (iyl s = iyh s -> iyl s = 0).
Lemma seed_loop_ok l : forall i s, 1 <= i -> sd_ok i s ->
  sd_ok (i + length l) (seed_loop i l s).
Proof.
  induction l as [| b l IH]; intros i s Hi Hs; cbn [seed_loop length].
  - rewrite Nat.add_0_r; assumption.
  - destruct Hs as (A1 & A2 & A3 & A4 & A5 & A6).
    replace (i + S (length l)) with (S i + length l) by lia.
    destruct (ltf (xl s) (xmin b)); [| destruct (ltf (xmax b) (xh s))];
      (destruct (ltf (yl s) (ymin b)); [| destruct (ltf (ymax b) (yh s))]);
      apply IH; unfold sd_ok; cbn; lia.
Qed.
Lemma pick_spec l : 2 <= length l -> exists s, pick l = Ret s /\ fst s < length l /\ snd s < length l /\
  (fst s = snd s -> fst s = 0).
Proof.
  intros Hl. unfold pick, linear_pick_seeds. destruct l as [| b l]; [cbn in Hl; lia |].
  set (s0 := mkSd _ _ _ _ _ _ _ _ _ _ _ _).
  assert (H0 : sd_ok 1 s0) by (unfold s0, sd_ok; cbn; lia).
  pose proof (seed_loop_ok l 1 s0 (le_n 1) H0) as H.
  destruct H as (A1 & A2 & A3 & A4 & A5 & A6).
  destruct (_ || _); cbn [andthen].
  - exists (0, 1); repeat split; cbn in *; lia.
  - destruct (ltf _ _); cbn [andthen]; eexists; (split; [reflexivity |]); cbn in *; lia.
Qed.
Lemma without_seeds_spec {A} (l : list A) s0 s1 : s0 < length l -> s1 < length l ->
  (s0 = s1 -> s0 + 1 < length l) -> 2 <= length l ->
  exists r, without_seeds l s0 s1 = Ret r /\ length r = length l - 2 /\ forall y, In y r -> In y l.
Proof.
  intros H0 H1 He H2. unfold without_seeds. destruct (Nat.ltb_spec s0 s1) as [Hlt | Hge].
  - destruct (pool_pop_spec l s1 H1) as (l1 & -> & Hl1 & Hi1). cbn [andthen].
    destruct (pool_pop_spec l1 s0) as (l2 & -> & Hl2 & Hi2); [lia |].
    eexists; split; [reflexivity |]. split; [lia |]. auto.
  - destruct (pool_pop_spec l s0 H0) as (l1 & -> & Hl1 & Hi1). cbn [andthen].
    destruct (pool_pop_spec l1 s1) as (l2 & -> & Hl2 & Hi2); [destruct (Nat.eq_dec s0 s1); lia |].
    eexists; split; [reflexivity |]. split; [lia |]. auto.
Qed.

From Coq Require Import Permutation.
Lemma distribute_spec {A} (bof : A -> bb) pool : forall l0 b0 l1 b1 m0 c0 m1 c1,
  distribute bof pool l0 b0 l1 b1 = (m0, c0, m1, c1) ->
  Permutation (m0 ++ m1) (l0 ++ l1 ++ pool) /\ length l0 <= length m0 /\ length l1 <= length m1.
Proof.
  induction pool as [| e rest IH]; intros l0 b0 l1 b1 m0 c0 m1 c1; cbn [distribute].
  - intros [= <- <- <- <-]. rewrite app_nil_r. auto.
  - set (st := if ltf _ _ then _ else _). destruct st as [[[k0 d0] k1] d1] eqn:E.
    assert (Hk : Permutation (k0 ++ k1) (l0 ++ l1 ++ [e]) /\ length l0 <= length k0 /\ length l1 <= length k1).
    { unfold st in E; destruct (ltf _ _); injection E as <- <- <- <-; rewrite ?app_length; cbn.
      - split; [| lia]. rewrite <- !app_assoc. apply Permutation_app_head, Permutation_app_comm.
      - split; [reflexivity | lia]. }
    destruct Hk as (Hp & H0 & H1).
    assert (Hp' : Permutation (k0 ++ k1 ++ rest) (l0 ++ l1 ++ e :: rest)).
    { rewrite app_assoc. rewrite Hp, <- !app_assoc. reflexivity. }
    destruct (_ =? 2) eqn:E2; [| destruct (length rest + length k1 =? 2) eqn:E3].
    + intros [= <- <- <- <-]. rewrite app_length. split; [| lia].
      rewrite <- app_assoc, <- Hp'. apply Permutation_app_head, Permutation_app_comm.
    + intros [= <- <- <- <-]. rewrite app_length. split; [| lia]. assumption.
    + intros H. apply IH in H as (Hq & ? & ?). split; [| lia]. rewrite Hq; assumption.
Qed.

(** * The invariant *)
Section Inv.
Variable M : nat.
Hypothesis HM : 4 <= M.
Variable boxes : list bb.
Definition is_ent (e : bb * Z) : Prop := is_box boxes (snd e) (fst e).

(** A node at level [lv a] of a heap of [sz] nodes, with no level above [K]. *)
Record good (sz K : nat) (lv : nat -> nat) (lo hi : nat) (a : nat) (n : node) : Prop := {
  g_ent : Forall is_ent (ents n);
  g_lv : lv a < K;
  g_leaf : leaf n = true -> lv a = 0 /\ kids n = [] /\ length (ents n) <= hi;
  g_non : leaf n = false -> lv a <> 0 /\ lo <= length (kids n) <= hi;
  g_kid : forall k, In k (kids n) -> k < sz /\ S (lv k) = lv a;
  g_par : forall p, parent n = Some p -> p < sz /\ lv p = S (lv a) }.
(** Every node is good; node [x] may have other bounds on its count. *)
Definition wf (K : nat) (lv : nat -> nat) (x lo hi : nat) (h : heap) : Prop :=
  forall a, a < fst h ->
    good (fst h) K lv (if a =? x then lo else 1) (if a =? x then hi else M) a (snd h a).
Definition wf0 (K : nat) (lv : nat -> nat) (h : heap) : Prop :=
  forall a, a < fst h -> good (fst h) K lv 1 M a (snd h a).

Lemma wf0_wf K lv h x : wf0 K lv h -> wf K lv x 1 M h.
Proof. intros H a Ha. specialize (H a Ha). destruct (a =? x); assumption. Qed.
Lemma wf_wf0 K lv h x : wf K lv x 1 M h -> wf0 K lv h.
Proof. intros H a Ha. specialize (H a Ha). destruct (a =? x); assumption. Qed.
Lemma good_le sz K lv lo hi lo' hi' a n : good sz K lv lo hi a n -> lo' <= lo -> hi <= hi' -> good sz K lv lo' hi' a n.
Proof.
  intros [A B C D E F] H1 H2. constructor; auto.
  - intros G; destruct (C G) as (? & ? & ?); repeat split; auto; lia.
  - intros G; destruct (D G) as (? & ?); split; auto; lia.
Qed.
Lemma get_ok h a : a < fst h -> get h a = Ret (snd h a).
Proof. intros H. unfold get. apply Nat.ltb_lt in H. rewrite H; reflexivity. Qed.
Lemma put_fst h a n : fst (put h a n) = fst h.
Proof. reflexivity. Qed.
Lemma put_same h a n : snd (put h a n) a = n.
Proof. cbn. rewrite Nat.eqb_refl; reflexivity. Qed.
Lemma put_other h a n b : b <> a -> snd (put h a n) b = snd h b.
Proof. intros H. cbn. apply Nat.eqb_neq in H. rewrite H; reflexivity. Qed.
Lemma wf_put K lv x lo hi h a n : wf K lv x lo hi h ->
  good (fst h) K lv (if a =? x then lo else 1) (if a =? x then hi else M) a n ->
  wf K lv x lo hi (put h a n).
Proof.
  intros H G b Hb. rewrite put_fst in *. destruct (Nat.eq_dec b a) as [-> | Hn].
  - rewrite put_same; assumption.
  - rewrite put_other by assumption. apply H; assumption.
Qed.
Lemma wf_put_x K lv lo hi lo' hi' h a n : wf K lv a lo hi h ->
  good (fst h) K lv lo' hi' a n -> wf K lv a lo' hi' (put h a n).
Proof.
  intros H G b Hb. rewrite put_fst in *. destruct (Nat.eq_dec b a) as [-> | Hn].
  - rewrite put_same, Nat.eqb_refl; assumption.
  - rewrite put_other by assumption. specialize (H b Hb). apply Nat.eqb_neq in Hn. rewrite Hn in *. assumption.
Qed.

(** Same shape: only boxes of nodes differ. *)
Definition alike (n n' : node) : Prop :=
  leaf n = leaf n' /\ parent n = parent n' /\ ents n = ents n' /\ kids n = kids n'.
Definition same (h h' : heap) : Prop := fst h = fst h' /\ forall a, alike (snd h a) (snd h' a).
Lemma alike_refl n : alike n n. Proof. repeat split. Qed.
Lemma same_refl h : same h h. Proof. split; [reflexivity | intros; apply alike_refl]. Qed.
Lemma same_trans h1 h2 h3 : same h1 h2 -> same h2 h3 -> same h1 h3.
Proof.
  intros [A B] [C D]; split; [congruence |]. intros a. destruct (B a) as (? & ? & ? & ?), (D a) as (? & ? & ? & ?).
  repeat split; congruence.
Qed.
Lemma good_alike sz K lv lo hi a n n' : alike n n' -> good sz K lv lo hi a n -> good sz K lv lo hi a n'.
Proof.
  intros (A1 & A2 & A3 & A4) [A B C D E F].
  constructor; rewrite <- ?A1, <- ?A2, <- ?A3, <- ?A4; auto.
Qed.
Lemma wf_same K lv x lo hi h h' : same h h' -> wf K lv x lo hi h -> wf K lv x lo hi h'.
Proof.
  intros [E H] W a Ha. rewrite <- E in *. eapply good_alike; [apply H |]. apply W; assumption.
Qed.
Lemma same_put_box h a b : same h (put h a (set_box (snd h a) b)).
Proof.
  split; [reflexivity |]. intros y. destruct (Nat.eq_dec y a) as [-> | H].
  - rewrite put_same. repeat split.
  - rewrite put_other by assumption. apply alike_refl.
Qed.

Lemma union_kids_ok h l : forall b, (forall k, In k l -> k < fst h) -> exists b', union_kids h b l = Ret b'.
Proof.
  induction l as [| k l IH]; intros b H; cbn [union_kids]; [eexists; reflexivity |].
  rewrite get_ok by (apply H; left; reflexivity). cbn [andthen].
  apply IH. intros; apply H; right; assumption.
Qed.
Lemma update_box_ok h p sib : p < fst h -> (forall k, In k (kids (snd h p)) -> k < fst h) ->
  match sib with Some s => s < fst h | None => kids (snd h p) <> [] end ->
  exists h', update_box h p sib = Ret h' /\ same h h'.
Proof.
  intros Hp Hk Hs. unfold update_box. rewrite get_ok by assumption. cbn [andthen]. destruct sib as [s |].
  - rewrite get_ok by assumption. cbn [andthen].
    destruct (union_kids_ok h (kids (snd h p)) (box (snd h s)) Hk) as [b ->]. cbn [andthen].
    eexists; split; [reflexivity |]. apply same_put_box.
  - destruct (kids (snd h p)) as [| k l] eqn:E; [congruence |].
    rewrite get_ok by (apply Hk; left; reflexivity). cbn [andthen].
    destruct (union_kids_ok h l (box (snd h k))) as [b ->]; [intros; apply Hk; right; assumption |].
    cbn [andthen]. eexists; split; [reflexivity |]. apply same_put_box.
Qed.

Lemma nonleaf_parent K lv x lo hi h a p : wf K lv x lo hi h -> a < fst h -> parent (snd h a) = Some p ->
  p < fst h /\ lv p = S (lv a) /\ leaf (snd h p) = false.
Proof.
  intros W Ha Hp. destruct (g_par _ _ _ _ _ _ _ (W a Ha) p Hp) as [H1 H2].
  repeat split; auto. destruct (leaf (snd h p)) eqn:E; [| reflexivity].
  destruct (g_leaf _ _ _ _ _ _ _ (W p H1) E) as [H _]. lia.
Qed.

Lemma adjust_null_ok K lv x lo hi fuel : forall h a, wf K lv x lo hi h -> 1 <= lo -> a < fst h -> K <= fuel + lv a ->
  exists h' r, adjust_null fuel h a = Ret (h', r) /\ same h h'.
Proof.
  induction fuel as [| fuel IH]; intros h a W Hlo Ha HK.
  - pose proof (g_lv _ _ _ _ _ _ _ (W a Ha)). lia.
  - cbn [adjust_null]. rewrite get_ok by assumption. cbn [andthen].
    destruct (parent (snd h a)) as [p |] eqn:Ep.
    2:{ exists h, a; split; [reflexivity | apply same_refl]. }
    destruct (nonleaf_parent _ _ _ _ _ _ _ _ W Ha Ep) as (Hp & Hl & Hn).
    destruct (update_box_ok h p None Hp) as (h1 & -> & S1).
    { intros k Hk. apply (g_kid _ _ _ _ _ _ _ (W p Hp) k Hk). }
    { destruct (g_non _ _ _ _ _ _ _ (W p Hp) Hn) as [_ H]. intros E; rewrite E in H. cbn in H.
      destruct (p =? x); lia. }
    cbn [andthen]. destruct (IH h1 p) as (h' & r & -> & S2).
    + eapply wf_same; eauto.
    + assumption.
    + destruct S1 as [<- _]; assumption.
    + lia.
    + exists h', r; split; [reflexivity |]. eapply same_trans; eauto.
Qed.

Lemma insert_leaf_ok K lv x lo hi fuel h a e : a < fst h -> length (ents (snd h a)) <= M ->
  wf K lv x lo hi (put h a (set_ents (snd h a) (ents (snd h a) ++ [e]))) -> 1 <= lo -> K <= fuel + lv a ->
  exists h', insert_leaf M fuel h a e = Ret h' /\
             same (put h a (set_ents (snd h a) (ents (snd h a) ++ [e]))) h'.
Proof.
  intros Ha Hl W Hlo HK. unfold insert_leaf. rewrite get_ok by assumption. cbn [andthen].
  unfold push_ent. apply Nat.leb_le in Hl; rewrite Hl. cbn [andthen].
  set (h1 := put h a (set_ents _ _)) in *. set (n := set_ents _ _) in *.
  set (h2 := put h a (set_box n _)).
  assert (S2 : same h1 h2).
  { split; [reflexivity |]. intros y. unfold h1, h2. destruct (Nat.eq_dec y a) as [-> | H].
    - rewrite !put_same. repeat split.
    - rewrite !put_other by assumption. apply alike_refl. }
  destruct (adjust_null_ok K lv x lo hi fuel h2 a) as (h' & r & -> & S3); auto.
  - eapply wf_same; eauto.
  - cbn [andthen fst]. exists h'; split; [reflexivity |]. eapply same_trans; eauto.
Qed.

Definition lv_new (lv : nat -> nat) (s v : nat) : nat -> nat := fun y => if y =? s then v else lv y.
Lemma lv_new_old lv s v y : y <> s -> lv_new lv s v y = lv y.
Proof. intros H. unfold lv_new. apply Nat.eqb_neq in H; rewrite H; reflexivity. Qed.
Lemma lv_new_s lv s v : lv_new lv s v s = v.
Proof. unfold lv_new. rewrite Nat.eqb_refl; reflexivity. Qed.
Lemma good_new sz K lv s v lo hi a n : s = sz -> a < sz -> good sz K lv lo hi a n ->
  good (S sz) K (lv_new lv s v) lo hi a n.
Proof.
  intros -> Ha [A B C D E F].
  constructor; rewrite ?(lv_new_old lv sz v a) by lia; auto.
  - intros k Hk. destruct (E k Hk). rewrite lv_new_old by lia. split; lia.
  - intros p Hp. destruct (F p Hp). rewrite lv_new_old by lia. split; lia.
Qed.
Lemma wf0_mono K K' lv h : K <= K' -> wf0 K lv h -> wf0 K' lv h.
Proof. intros H W a Ha. destruct (W a Ha) as [A B C D E F]. constructor; auto. lia. Qed.
Lemma wf0_same K lv h h' : same h h' -> wf0 K lv h -> wf0 K lv h'.
Proof.
  intros [E H] W a Ha. rewrite <- E in *. eapply good_alike; [apply H |]. apply W; assumption.
Qed.

Lemma split_leaf_ok K lv fuel h a : wf K lv a 1 (S M) h -> a < fst h -> leaf (snd h a) = true ->
  length (ents (snd h a)) = S M -> K <= fuel ->
  exists h', split_leaf M fuel h a = Ret (h', fst h) /\ fst h' = S (fst h) /\
    wf0 K (lv_new lv (fst h) (lv a)) h' /\
    (forall y, y < fst h -> parent (snd h' y) = parent (snd h y)).
Proof.
  intros W Ha Hf Hl HK. pose proof (W a Ha) as Ga. rewrite Nat.eqb_refl in Ga.
  destruct (g_leaf _ _ _ _ _ _ _ Ga Hf) as (L0 & Hk & _).
  unfold split_leaf. rewrite get_ok by assumption. cbn [andthen]. rewrite Hl, Nat.eqb_refl. cbn [negb].
  cbn [new_node].
  set (pool := ents (snd h a)) in *. set (s := fst h). set (par := parent (snd h a)).
  set (h1 := (S s, _)). set (h2 := put h1 a _).
  set (lv' := lv_new lv s (lv a)).
  assert (F2 : fst h2 = S s) by reflexivity.
  assert (Hs : s <> a) by (unfold s; lia).
  assert (Sa : snd h2 a = set_ents (snd h a) []) by (unfold h2; apply put_same).
  assert (Ss : snd h2 s = mkN true par [] [] nobox).
  { unfold h2. rewrite put_other by assumption. cbn. rewrite Nat.eqb_refl; reflexivity. }
  assert (So : forall y, y <> a -> y <> s -> snd h2 y = snd h y).
  { intros y H1 H2. unfold h2. rewrite put_other by assumption. cbn.
    apply Nat.eqb_neq in H2; rewrite H2; reflexivity. }
  assert (Hpar : forall p, par = Some p -> p < S s /\ lv' p = S (lv' s)).
  { intros p Hp. destruct (g_par _ _ _ _ _ _ _ Ga p Hp) as [H1 H2]. unfold lv'.
    rewrite lv_new_s, lv_new_old by (unfold s; lia). split; [unfold s; lia | assumption]. }
  (* any heap of this shape, with good short entries at a and s, is well formed *)
  assert (WF : forall (g : heap) l0 l1, fst g = S s ->
     alike (snd g a) (set_ents (snd h a) l0) -> alike (snd g s) (mkN true par l1 [] nobox) ->
     (forall y, y < s -> y <> a -> alike (snd g y) (snd h y)) ->
     Forall is_ent l0 -> Forall is_ent l1 -> length l0 <= M -> length l1 <= M -> wf0 K lv' g).
  { intros g l0 l1 Fg Aa As Ao E0 E1 M0 M1 y Hy. rewrite Fg in *.
    destruct (Nat.eq_dec y a) as [-> | Na].
    - destruct Aa as (B1 & B2 & B3 & B4). cbn in B1, B2, B3, B4.
      constructor; rewrite ?B1, ?B2, ?B3, ?B4; unfold lv'; rewrite ?lv_new_old by lia.
      + assumption.
      + apply (g_lv _ _ _ _ _ _ _ Ga).
      + intros _. auto.
      + congruence.
      + rewrite Hk; intros k [].
      + intros p Hp. destruct (g_par _ _ _ _ _ _ _ Ga p Hp). rewrite lv_new_old by (unfold s; lia).
        unfold s; split; lia.
    - destruct (Nat.eq_dec y s) as [-> | Ns].
      + destruct As as (B1 & B2 & B3 & B4). cbn in B1, B2, B3, B4.
        constructor; rewrite ?B1, ?B2, ?B3, ?B4; unfold lv'; rewrite ?lv_new_s.
        * assumption.
        * apply (g_lv _ _ _ _ _ _ _ Ga).
        * auto.
        * congruence.
        * intros k [].
        * intros p Hp. pose proof (Hpar p Hp) as [? H]. unfold lv' in H; rewrite lv_new_s in H. auto.
      + apply (good_alike _ _ _ _ _ _ (snd h y)).
      * destruct (Ao y ltac:(lia) Na) as (B1 & B2 & B3 & B4). repeat split; auto.
      * apply good_new; [reflexivity | unfold s in *; lia |]. pose proof (W y ltac:(unfold s in *; lia)) as G.
        apply Nat.eqb_neq in Na; rewrite Na in G. assumption. }
  destruct (pick_spec (map fst pool)) as (sd & -> & P0 & P1 & P2); [rewrite map_length; lia |].
  rewrite map_length, Hl in P0, P1. cbn [andthen].
  destruct (at_index_spec pool (fst sd)) as (e0 & -> & I0 & _); [lia |]. cbn [andthen].
  destruct (at_index_spec pool (snd sd)) as (e1 & -> & I1 & _); [lia |]. cbn [andthen].
  pose proof (g_ent _ _ _ _ _ _ _ Ga) as Ge. fold pool in Ge. rewrite Forall_forall in Ge.
  (* the two seeds *)
  destruct (insert_leaf_ok K lv' a 1 M fuel h2 a e0) as (h3 & -> & S3).
  { rewrite F2; lia. } { rewrite Sa; cbn; lia. }
  { apply wf0_wf. eapply (WF _ [e0] []); cbn [length]; try lia; auto.
    - rewrite put_same, Sa. repeat split.
    - rewrite put_other, Ss by assumption. repeat split.
    - intros y H1 H2. rewrite put_other, So by lia. apply alike_refl. }
  { lia. } { lia. }
  cbn [andthen]. destruct S3 as [F3 A3].
  assert (B3a : alike (snd h3 a) (set_ents (snd h a) [e0])).
  { specialize (A3 a). rewrite put_same, Sa in A3. destruct A3 as (B1 & B2 & B3 & B4); cbn in *.
    repeat split; auto. }
  assert (B3s : alike (snd h3 s) (mkN true par [] [] nobox)).
  { specialize (A3 s). rewrite put_other, Ss in A3 by assumption. destruct A3 as (B1 & B2 & B3 & B4); cbn in *.
    repeat split; auto. }
  assert (B3o : forall y, y < s -> y <> a -> alike (snd h3 y) (snd h y)).
  { intros y H1 H2. specialize (A3 y). rewrite put_other, So in A3 by lia.
    destruct A3 as (B1 & B2 & B3 & B4). repeat split; auto. }
  rewrite put_fst, F2 in F3.
  assert (B3e : ents (snd h3 s) = []) by apply B3s.
  destruct (insert_leaf_ok K lv' a 1 M fuel h3 s e1) as (h4 & -> & S4).
  { lia. } { rewrite B3e; cbn; lia. }
  { apply wf0_wf. rewrite B3e. eapply (WF _ [e0] [e1]); cbn [length]; try lia; auto.
    - rewrite put_other by lia. assumption.
    - rewrite put_same. destruct B3s as (B1 & B2 & B3 & B4). cbn in *. repeat split; auto.
    - intros y H1 H2. rewrite put_other by lia. apply B3o; assumption. }
  { lia. } { lia. }
  cbn [andthen]. rewrite B3e in S4. destruct S4 as [F4 A4]. rewrite put_fst in F4.
  destruct (without_seeds_spec pool (fst sd) (snd sd)) as (rest & -> & R1 & R2); try lia.
  cbn [andthen].
  destruct (distribute fst (rev rest) [e0] (fst e0) [e1] (fst e1)) as [[[l0 b0] l1] b1] eqn:D.
  apply distribute_spec in D as (D1 & D2 & D3). cbn [length] in D2, D3.
  assert (Dl : length l0 + length l1 = S M).
  { rewrite <- app_length, (Permutation_length D1). rewrite !app_length, rev_length. cbn [length]. lia. }
  assert (De : forall e, In e (l0 ++ l1) -> is_ent e).
  { intros e He. apply (Permutation_in _ D1) in He. apply Ge. cbn in He.
    destruct He as [<- | [<- | He]]; auto. apply R2. apply in_rev; assumption. }
  rewrite get_ok by lia. cbn [andthen].
  rewrite get_ok by (rewrite put_fst; lia). cbn [andthen].
  rewrite put_other by assumption.
  set (h5 := put h4 a _). set (h6 := put h5 s _).
  assert (C4 : forall y, y < s -> y <> a -> alike (snd h6 y) (snd h y)).
  { intros y H1 H2. unfold h6, h5. rewrite !put_other by lia. specialize (A4 y). rewrite put_other in A4 by lia.
    specialize (B3o y H1 H2). unfold alike in *. intuition congruence. }
  assert (Ca : alike (snd h6 a) (set_ents (snd h a) l0)).
  { unfold h6, h5. rewrite put_other, put_same by lia. specialize (A4 a). rewrite put_other in A4 by lia.
    unfold alike in *; cbn in *. intuition congruence. }
  exists h6. split; [reflexivity |]. split; [unfold h6, h5; rewrite !put_fst; lia |]. split.
  - eapply (WF h6 l0 l1); auto; try lia.
    + unfold h6, h5; rewrite !put_fst; lia.
    + unfold h6. rewrite put_same. specialize (A4 s). rewrite put_same in A4. unfold alike in *; cbn in *.
      intuition congruence.
    + apply Forall_forall; intros; apply De; apply in_or_app; auto.
    + apply Forall_forall; intros; apply De; apply in_or_app; auto.
  - intros y Hy. destruct (Nat.eq_dec y a) as [-> | Na].
    + destruct Ca as (_ & H & _). exact H.
    + destruct (C4 y Hy Na) as (_ & H & _). exact H.
Qed.

Lemma kid_boxes_ok h l : (forall k, In k l -> k < fst h) ->
  kid_boxes h l = Ret (map (fun k => (k, box (snd h k))) l).
Proof.
  induction l as [| k l IH]; intros H; cbn [kid_boxes map]; [reflexivity |].
  rewrite get_ok by (apply H; left; reflexivity). cbn [andthen]. rewrite IH by (intros; apply H; right; assumption).
  reflexivity.
Qed.

Lemma split_nonleaf_ok K lv h a : wf K lv a 1 (S M) h -> a < fst h -> leaf (snd h a) = false ->
  length (kids (snd h a)) = S M ->
  exists h', split_nonleaf M h a = Ret (h', fst h) /\ fst h' = S (fst h) /\
    wf0 K (lv_new lv (fst h) (lv a)) h' /\
    (forall y, y < fst h -> parent (snd h' y) = parent (snd h y) \/
       (In y (kids (snd h a)) /\ (parent (snd h' y) = Some a \/ parent (snd h' y) = Some (fst h)))).
Proof.
  intros W Ha Hf Hl. pose proof (W a Ha) as Ga. rewrite Nat.eqb_refl in Ga.
  destruct (g_non _ _ _ _ _ _ _ Ga Hf) as (L0 & _).
  pose proof (g_kid _ _ _ _ _ _ _ Ga) as Gk.
  unfold split_nonleaf. rewrite get_ok by assumption. cbn [andthen]. rewrite Hl, Nat.eqb_refl. cbn [negb].
  rewrite kid_boxes_ok by (intros k Hk; apply Gk; assumption). cbn [andthen new_node].
  set (pool := map _ (kids (snd h a))). set (s := fst h). set (par := parent (snd h a)).
  set (h1 := (S s, _)).
  set (lv' := lv_new lv s (lv a)).
  assert (Lp : length pool = S M) by (unfold pool; rewrite map_length; assumption).
  assert (Ip : forall k, In k pool -> In (fst k) (kids (snd h a))).
  { intros k Hk. unfold pool in Hk. apply in_map_iff in Hk as (z & <- & Hz). assumption. }
  destruct (pick_spec (map snd pool)) as (sd & -> & P0 & P1 & P2); [rewrite map_length; lia |].
  rewrite map_length, Lp in P0, P1. cbn [andthen].
  destruct (at_index_spec pool (fst sd)) as (k0 & -> & I0 & _); [lia |]. cbn [andthen].
  destruct (at_index_spec pool (snd sd)) as (k1 & -> & I1 & _); [lia |]. cbn [andthen].
  apply Ip in I0 as J0. apply Ip in I1 as J1.
  destruct (Gk _ J0) as [Q0 V0], (Gk _ J1) as [Q1 V1].
  assert (Hs : s <> a) by (unfold s; lia).
  assert (Fs : fst h1 = S s) by reflexivity.
  rewrite get_ok by (rewrite Fs; unfold s; lia). cbn [andthen].
  rewrite get_ok by (rewrite put_fst, Fs; unfold s; lia). cbn [andthen].
  destruct (without_seeds_spec pool (fst sd) (snd sd)) as (rest & -> & R1 & R2); try lia.
  cbn [andthen].
  destruct (distribute snd (rev rest) [k0] (snd k0) [k1] (snd k1)) as [[[l0 b0] l1] b1] eqn:D.
  apply distribute_spec in D as (D1 & D2 & D3). cbn [length] in D2, D3.
  assert (Dl : length l0 + length l1 = S M).
  { rewrite <- app_length, (Permutation_length D1). rewrite !app_length, rev_length. cbn [length]. lia. }
  assert (De : forall e, In e (l0 ++ l1) -> In (fst e) (kids (snd h a))).
  { intros e He. apply (Permutation_in _ D1) in He. apply Ip. cbn in He.
    destruct He as [<- | [<- | He]]; auto. apply R2. apply in_rev; assumption. }
  set (h2 := put h1 (fst k0) _). set (h3 := put h2 (fst k1) _).
  rewrite get_ok by (unfold h3, h2; rewrite !put_fst, Fs; unfold s; lia). cbn [andthen].
  rewrite get_ok by (unfold h3, h2; rewrite !put_fst, Fs; unfold s; lia). cbn [andthen].
  set (h4 := put h3 a _). set (h5 := put h4 s _).
  assert (So : forall y, y <> s -> snd h1 y = snd h y).
  { intros y H. cbn. apply Nat.eqb_neq in H; rewrite H; reflexivity. }
  assert (N0 : fst k0 <> a) by (intros E; rewrite E in V0; lia).
  assert (N1 : fst k1 <> a) by (intros E; rewrite E in V1; lia).
  assert (N0s : fst k0 <> s) by (unfold s; lia).
  assert (N1s : fst k1 <> s) by (unfold s; lia).
  (* the nodes of the final heap *)
  assert (X : forall y, y < S s ->
     let n := snd h5 y in let m := snd h y in
     if y =? s then leaf n = false /\ parent n = par /\ ents n = [] /\ kids n = map fst l1
     else leaf n = leaf m /\ ents n = ents m /\ kids n = (if y =? a then map fst l0 else kids m) /\
          (parent n = parent m \/ (In y (kids (snd h a)) /\ (parent n = Some a \/ parent n = Some s)))).
  { intros y Hy n m. unfold n, m, h5. destruct (Nat.eqb_spec y s) as [-> | Ns].
    - rewrite put_same. unfold h4. rewrite put_other by assumption.
      unfold h3. rewrite put_other by auto. unfold h2. rewrite put_other by auto.
      cbn. rewrite Nat.eqb_refl. repeat split.
    - rewrite put_other by assumption. unfold h4. destruct (Nat.eqb_spec y a) as [-> | Na].
      + rewrite put_same. unfold h3. rewrite put_other by auto. unfold h2. rewrite put_other by auto.
        rewrite So by auto. repeat split; auto.
      + rewrite put_other by assumption. unfold h3. destruct (Nat.eq_dec y (fst k1)) as [-> | Nk1].
        * rewrite put_same. unfold h2. destruct (Nat.eq_dec (fst k1) (fst k0)) as [E | E].
          -- rewrite E, put_same, So by auto. repeat split; auto.
          -- rewrite put_other, So by auto. repeat split; auto.
        * rewrite put_other by assumption. unfold h2. destruct (Nat.eq_dec y (fst k0)) as [-> | Nk0].
          -- rewrite put_same, So by auto. repeat split; auto.
          -- rewrite put_other, So by auto. repeat split; auto. }
  exists h5. split; [reflexivity |]. split; [reflexivity |]. split.
  2:{ intros y Hy. specialize (X y ltac:(unfold s; lia)). cbn zeta in X.
      destruct (Nat.eqb_spec y s); [unfold s in *; lia |]. destruct X as (_ & _ & _ & X). exact X. }
  assert (Lv : forall y, y <> s -> lv' y = lv y) by (intros; apply lv_new_old; assumption).
  assert (Lvs : lv' s = lv a) by apply lv_new_s.
  intros y Hy. change (fst h5) with (S s) in *. specialize (X y Hy). cbn zeta in X.
  destruct (Nat.eqb_spec y s) as [Es | Ns].
  - rewrite Es in *; clear Es y. destruct X as (X1 & X2 & X3 & X4). constructor; rewrite ?X1, ?X2, ?X3, ?X4, ?Lvs.
    + constructor.
    + apply (g_lv _ _ _ _ _ _ _ Ga).
    + congruence.
    + intros _. rewrite map_length. split; [assumption | lia].
    + intros k Hk. apply in_map_iff in Hk as (e & <- & He).
      destruct (Gk (fst e)) as [G1 G2]; [apply De; apply in_or_app; auto |].
      rewrite Lv by (unfold s; lia). unfold s; split; lia.
    + intros p Hp. destruct (g_par _ _ _ _ _ _ _ Ga p Hp) as [H1 H2]. rewrite Lv by (unfold s; lia).
      unfold s; split; lia.
  - destruct X as (X1 & X2 & X3 & X4).
    assert (Hy' : y < fst h) by (unfold s in *; lia).
    pose proof (W y Hy') as Gy.
    assert (Par : forall p, parent (snd h5 y) = Some p -> p < S s /\ lv' p = S (lv' y)).
    { intros p Hp. rewrite (Lv y) by assumption. destruct X4 as [X4 | (X4 & X5)].
      - rewrite X4 in Hp. destruct (g_par _ _ _ _ _ _ _ Gy p Hp) as [H1 H2].
        rewrite Lv by (unfold s; lia). unfold s; split; lia.
      - destruct (Gk y X4) as [_ G]. destruct X5 as [X5 | X5]; rewrite X5 in Hp; injection Hp as <-.
        + rewrite Lv by auto. unfold s; split; lia.
        + rewrite Lvs. split; lia. }
    destruct (Nat.eqb_spec y a) as [-> | Na].
    + constructor; rewrite ?X1, ?X2, ?X3, ?(Lv a) by auto.
      * apply (g_ent _ _ _ _ _ _ _ Ga).
      * apply (g_lv _ _ _ _ _ _ _ Ga).
      * congruence.
      * intros _; rewrite map_length. split; [assumption | lia].
      * intros k Hk. apply in_map_iff in Hk as (e & <- & He).
        destruct (Gk (fst e)) as [G1 G2]; [apply De; apply in_or_app; auto |].
        rewrite Lv by (unfold s; lia). unfold s; split; lia.
      * intros p Hp. apply Par in Hp. rewrite (Lv a) in Hp by assumption. exact Hp.
    + destruct Gy as [A B C E F G].
      constructor; rewrite ?X1, ?X2, ?X3, ?(Lv y) by auto; auto.
      * intros k Hk. destruct (F k Hk). rewrite Lv by (unfold s; lia). unfold s; split; lia.
      * intros p Hp. apply Par in Hp. rewrite (Lv y) in Hp by assumption. exact Hp.
Qed.

Lemma add_node_ok K lv x lo hi h p c : wf K lv x lo hi h -> p < fst h -> c < fst h -> lv p = S (lv c) ->
  leaf (snd h p) = false -> length (kids (snd h p)) <= M ->
  (forall y, y < fst h -> y <> p -> good (fst h) K lv 1 M y (snd h y)) ->
  exists h', add_node M h p c = Ret (h', M <? S (length (kids (snd h p)))) /\ fst h' = fst h /\
    wf K lv p 1 (S M) h' /\ kids (snd h' p) = kids (snd h p) ++ [c] /\ leaf (snd h' p) = false /\
    parent (snd h' p) = parent (snd h p) /\ 
    (forall y, parent (snd h' y) = parent (snd h y) \/ (y = c /\ parent (snd h' y) = Some p)) /\
    (forall y, y <> p -> kids (snd h' y) = kids (snd h y) /\ leaf (snd h' y) = leaf (snd h y)).
Proof.
  intros W Hp Hc Hv Hf Hl Ho. unfold add_node. rewrite get_ok by assumption. cbn [andthen].
  unfold push_kid. apply Nat.leb_le in Hl as Hl'; rewrite Hl'. cbn [andthen].
  rewrite get_ok by (rewrite put_fst; assumption). cbn [andthen].
  assert (Hn : c <> p) by (intros ->; lia).
  rewrite put_other by assumption.
  set (h1 := put h p _). set (h2 := put h1 c _).
  assert (Sp : snd h2 p = set_kids (snd h p) (kids (snd h p) ++ [c])).
  { unfold h2, h1. rewrite put_other, put_same by auto. reflexivity. }
  assert (Sc : snd h2 c = set_parent (snd h c) (Some p)) by (unfold h2; rewrite put_same; reflexivity).
  assert (So : forall y, y <> p -> y <> c -> snd h2 y = snd h y).
  { intros y H1 H2. unfold h2, h1. rewrite !put_other by auto. reflexivity. }
  exists h2. split; [cbn [kids set_kids]; rewrite app_length; cbn [length]; rewrite Nat.add_1_r; reflexivity |].
  split; [reflexivity |]. split; [| split; [rewrite Sp; reflexivity |]].
  - intros y Hy. change (fst h2) with (fst h) in *. destruct (Nat.eqb_spec y p) as [-> | Np].
    + rewrite Sp. destruct (W p Hp) as [A B C D E F].
      constructor; cbn [ents kids leaf parent set_kids]; auto; try congruence.
      * intros _. split; [apply D; assumption |]. rewrite app_length. cbn [length]. lia.
      * intros k Hk. apply in_app_or in Hk as [Hk | [<- | []]]; [apply E; assumption | split; [assumption | lia]].
    + destruct (Nat.eq_dec y c) as [-> | Nc].
      * rewrite Sc. destruct (Ho c Hc Hn) as [A B C D E F].
        constructor; cbn [ents kids leaf parent set_parent]; auto.
        intros q [= <-]. split; assumption.
      * rewrite So by assumption. apply Ho; assumption.
  - rewrite Sp. cbn [leaf parent set_kids]. split; [assumption |]. split; [reflexivity |]. split.
    + intros y. destruct (Nat.eq_dec y c) as [-> | Nc].
      * right; rewrite Sc; auto.
      * left. destruct (Nat.eq_dec y p) as [-> | Np]; [rewrite Sp; reflexivity | rewrite So by assumption; reflexivity].
    + intros y Np. destruct (Nat.eq_dec y c) as [-> | Nc]; [rewrite Sc | rewrite So by assumption]; split; reflexivity.
Qed.

Lemma adjust_ok K fuel : forall lv h a sib, wf0 K lv h -> a < fst h -> K <= fuel + lv a ->
  (forall s, sib = Some s -> s < fst h /\ lv s = lv a) ->
  exists h' o so lv', adjust M fuel h a sib = Ret (h', o, so) /\ wf0 K lv' h' /\ o < fst h' /\
    (forall s, so = Some s -> s < fst h' /\ lv' s = lv' o).
Proof.
  induction fuel as [| fuel IH]; intros lv h a sib W Ha HK Hs.
  - pose proof (g_lv _ _ _ _ _ _ _ (W a Ha)). lia.
  - cbn [adjust]. rewrite get_ok by assumption. cbn [andthen].
    destruct (parent (snd h a)) as [p |] eqn:Ep.
    2:{ exists h, a, sib, lv. auto. }
    destruct (nonleaf_parent _ _ _ _ _ _ _ _ (wf0_wf _ _ _ a W) Ha Ep) as (Hp & Hl & Hn).
    destruct (update_box_ok h p sib Hp) as (h1 & -> & S1).
    { intros k Hk. apply (g_kid _ _ _ _ _ _ _ (W p Hp) k Hk). }
    { destruct sib as [s |]; [apply (Hs s eq_refl) |].
      destruct (g_non _ _ _ _ _ _ _ (W p Hp) Hn) as [_ H]. intros E; rewrite E in H. cbn in H. lia. }
    cbn [andthen]. pose proof (wf0_same _ _ _ _ S1 W) as W1. destruct S1 as [F1 A1].
    assert (Pa : parent (snd h1 a) = Some p) by (destruct (A1 a) as (_ & <- & _); assumption).
    assert (Np : leaf (snd h1 p) = false) by (destruct (A1 p) as (<- & _); assumption).
    destruct sib as [s |].
    2:{ cbn [andthen fst]. rewrite get_ok by lia. cbn [andthen]. rewrite Pa. cbn [snd].
        apply (IH lv h1 p None); [assumption | lia | lia | discriminate]. }
    destruct (Hs s eq_refl) as [Hs1 Hs2].
    destruct (g_non _ _ _ _ _ _ _ (W1 p ltac:(lia)) Np) as [_ Hc].
    destruct (add_node_ok K lv p 1 M h1 p s) as (h2 & -> & F2 & W2 & K2 & L2 & P2 & Q2 & _); auto.
    { apply wf0_wf; assumption. } { lia. } { lia. } { lia. } { lia. }
    cbn [andthen snd fst].
    assert (Pa2 : parent (snd h2 a) = Some p).
    { destruct (Q2 a) as [H | [_ H]]; congruence. }
    destruct (M <? S (length (kids (snd h1 p)))) eqn:Eo.
    + apply Nat.ltb_lt in Eo. unfold split. rewrite get_ok by lia. cbn [andthen]. rewrite L2.
      destruct (split_nonleaf_ok K lv h2 p) as (h3 & -> & F3 & W3 & P3); auto.
      { lia. } { rewrite K2, app_length; cbn [length]; lia. }
      cbn [andthen fst snd].
      rewrite get_ok by lia. cbn [andthen].
      assert (Pq : exists q, parent (snd h3 a) = Some q /\ (q = p \/ q = fst h2)).
      { destruct (P3 a ltac:(lia)) as [H | [_ [H | H]]]; eexists; (split; [exact H || (rewrite H; exact Pa2) |]); auto. }
      destruct Pq as (q & -> & Hq).
      assert (Lq : lv_new lv (fst h2) (lv p) q = lv p).
      { destruct Hq as [-> | ->]; [apply lv_new_old; lia | apply lv_new_s]. }
      apply (IH _ h3 q (Some (fst h2)) W3).
      * destruct Hq as [-> | ->]; lia.
      * rewrite Lq; lia.
      * intros s' [= <-]. rewrite Lq, lv_new_s. split; [lia | reflexivity].
    + apply Nat.ltb_ge in Eo. cbn [andthen fst snd]. rewrite get_ok by lia. cbn [andthen]. rewrite Pa2.
      apply (IH lv h2 p None); [| lia | lia | discriminate].
      intros y Hy. pose proof (W2 y Hy) as G. destruct (Nat.eqb_spec y p) as [-> | ?]; [| assumption].
      destruct G as [A B C D E F]. constructor; auto.
      * rewrite L2; congruence.
      * rewrite K2, app_length. cbn [length]. intros Hf; split; [apply D; assumption |]. lia.
Qed.

Lemma best_kid_ok h b l : forall k v, (forall c, In c l -> c < fst h) ->
  exists r, best_kid h b k v l = Ret r /\ (r = k \/ In r l).
Proof.
  induction l as [| c l IH]; intros k v H; cbn [best_kid]; [eauto |].
  rewrite get_ok by (apply H; left; reflexivity). cbn [andthen].
  assert (H' : forall c, In c l -> c < fst h) by (intros; apply H; right; assumption).
  destruct (ltf _ _).
  - destruct (IH c (volume_expanded (box (snd h c)) b) H') as (r & -> & [-> | Hr]);
      eexists; (split; [reflexivity |]); right; cbn; auto.
  - destruct (IH k v H') as (r & -> & [-> | Hr]); eexists; (split; [reflexivity |]); cbn; auto.
Qed.
Lemma choose_leaf_ok K lv h b fuel : forall a, wf0 K lv h -> a < fst h -> lv a < fuel ->
  exists r, choose_leaf fuel h a b = Ret r /\ r < fst h /\ leaf (snd h r) = true.
Proof.
  induction fuel as [| fuel IH]; intros a W Ha Hf; [lia |].
  cbn [choose_leaf]. rewrite get_ok by assumption. cbn [andthen].
  destruct (leaf (snd h a)) eqn:El; [eauto |].
  destruct (g_non _ _ _ _ _ _ _ (W a Ha) El) as [_ Hc].
  pose proof (g_kid _ _ _ _ _ _ _ (W a Ha)) as Gk.
  destruct (kids (snd h a)) as [| c l]; [cbn in Hc; lia |].
  rewrite get_ok by (apply Gk; left; reflexivity). cbn [andthen].
  destruct (best_kid_ok h b l c (volume_expanded (box (snd h c)) b)) as (r & -> & Hr).
  { intros; apply Gk; right; assumption. }
  cbn [andthen]. destruct (Gk r) as [G1 G2]; [destruct Hr as [-> | Hr]; cbn; auto |].
  apply IH; auto. lia.
Qed.

Lemma insert_ok K lv fuel h root e : wf0 K lv h -> root < fst h -> is_ent e -> K <= fuel ->
  exists h' r lv', insert M fuel h root e = Ret (h', r) /\ wf0 (S K) lv' h' /\ r < fst h'.
Proof.
  intros W Hr He HK. unfold insert.
  destruct (choose_leaf_ok K lv h (fst e) fuel root W Hr) as (a & -> & Ha & Hf).
  { pose proof (g_lv _ _ _ _ _ _ _ (W root Hr)). lia. }
  cbn [andthen]. rewrite get_ok by assumption. cbn [andthen].
  destruct (g_leaf _ _ _ _ _ _ _ (W a Ha) Hf) as (L0 & Hk & Hc).
  unfold push_ent. apply Nat.leb_le in Hc as Hc'; rewrite Hc'. cbn [andthen].
  set (n := set_ents _ _). set (h1 := put h a (set_box n _)).
  assert (Len : length (ents n) = S (length (ents (snd h a)))).
  { unfold n; cbn. rewrite app_length; cbn; lia. }
  assert (W1 : wf K lv a 1 (S M) h1).
  { eapply wf_put_x with (lo := 1) (hi := M); [apply wf0_wf; assumption |].
    destruct (W a Ha) as [A B C D E F]. constructor; cbn; auto; try congruence.
    - apply Forall_app; split; auto.
    - intros _. rewrite app_length; cbn [length]. repeat split; auto; lia. }
  assert (Sa : snd h1 a = set_box n (extend (box n) (fst e))) by apply put_same.
  assert (Adj : forall lv1 h2 sib, wf0 K lv1 h2 -> a < fst h2 -> (forall s, sib = Some s -> s < fst h2 /\ lv1 s = lv1 a) ->
     exists h' r lv', (do r <- adjust M fuel h2 a sib;
        match r with
        | (h2, o, None) => Ret (h2, o)
        | (h2, o, Some s) => let (nr, h3) := new_node h2 false None in
            do h4 <- add_node M h3 nr o; do h5 <- add_node M (fst h4) nr s; Ret (fst h5, nr)
        end) = Ret (h', r) /\ wf0 (S K) lv' h' /\ r < fst h').
  { intros lv1 h2 sib V Ha2 Hs2.
    destruct (adjust_ok K fuel lv1 h2 a sib V Ha2 ltac:(lia) Hs2) as (h3 & o & so & lv3 & -> & V3 & Ho & Hso).
    cbn [andthen]. destruct so as [s |].
    2:{ exists h3, o, lv3. split; [reflexivity |]. split; [| assumption]. eapply wf0_mono; [| eassumption]; lia. }
    destruct (Hso s eq_refl) as [Hs3 Hs4]. cbn [new_node].
    set (nr := fst h3). set (h4 := (S nr, _)).
    set (lv4 := lv_new lv3 nr (S (lv3 o))).
    assert (Snr : snd h4 nr = mkN false None [] [] nobox) by (cbn; rewrite Nat.eqb_refl; reflexivity).
    assert (Sother : forall y, y <> nr -> snd h4 y = snd h3 y).
    { intros y H. cbn. apply Nat.eqb_neq in H; rewrite H; reflexivity. }
    assert (Lo : lv4 o = lv3 o) by (apply lv_new_old; unfold nr; lia).
    assert (Ls : lv4 s = lv3 s) by (apply lv_new_old; unfold nr; lia).
    assert (Ln : lv4 nr = S (lv3 o)) by apply lv_new_s.
    assert (F4 : fst h4 = S nr) by reflexivity.
    assert (W4 : wf (S K) lv4 nr 0 M h4).
    { intros y Hy. destruct (Nat.eqb_spec y nr) as [-> | Hn].
      - rewrite Snr. constructor; cbn [ents leaf kids parent length]; rewrite ?Ln; try discriminate.
        + constructor.
        + pose proof (g_lv _ _ _ _ _ _ _ (V3 o Ho)). lia.
        + intros _. lia.
        + intros k [].
      - rewrite Sother by assumption. rewrite F4 in *. apply good_new; [reflexivity | unfold nr in *; lia |].
        pose proof (wf0_mono K (S K) lv3 h3 ltac:(lia) V3) as V4. apply V4. unfold nr in *; lia. }
    destruct (add_node_ok (S K) lv4 nr 0 M h4 nr o W4) as (h5 & -> & F5 & W5 & K5 & L5 & P5 & Q5 & R5).
    { lia. } { rewrite F4; unfold nr; lia. } { lia. } { rewrite Snr; reflexivity. } { rewrite Snr; cbn; lia. }
    { intros y Hy Hn. pose proof (W4 y Hy) as G. apply Nat.eqb_neq in Hn; rewrite Hn in G; assumption. }
    rewrite Snr in *. cbn [kids app length] in K5 |- *. cbn [andthen fst].
    destruct (add_node_ok (S K) lv4 nr 1 (S M) h5 nr s W5) as (h6 & -> & F6 & W6 & K6 & L6 & P6 & Q6 & R6).
    { lia. } { rewrite F5, F4; unfold nr; lia. } { lia. } { assumption. } { rewrite K5; cbn; lia. }
    { intros y Hy Hn. pose proof (W5 y Hy) as G. apply Nat.eqb_neq in Hn; rewrite Hn in G; assumption. }
    cbn [andthen fst]. exists h6, nr, lv4. split; [reflexivity |]. split; [| lia].
    intros y Hy. pose proof (W6 y Hy) as G. destruct (Nat.eqb_spec y nr) as [-> | ?]; [| assumption].
    destruct G as [A B C D E F]. constructor; auto.
    - rewrite L6; congruence.
    - intros H; split; [apply D; assumption |]. rewrite K6, K5. cbn. lia. }
  rewrite Len. destruct (M <? S (length (ents (snd h a)))) eqn:Eo.
  - apply Nat.ltb_lt in Eo. unfold split. rewrite get_ok by (unfold h1; rewrite put_fst; assumption). cbn [andthen].
    rewrite Sa. change (leaf (set_box n (extend (box n) (fst e)))) with (leaf (snd h a)). rewrite Hf.
    destruct (split_leaf_ok K lv fuel h1 a W1) as (h2 & -> & F2 & W2 & P2).
    { unfold h1; rewrite put_fst; assumption. } { rewrite Sa; assumption. }
    { rewrite Sa. cbn [set_box ents]. lia. } { lia. }
    cbn [andthen fst snd]. eapply (Adj _ h2 (Some (fst h1)) W2).
    + rewrite F2; unfold h1; rewrite put_fst; lia.
    + intros s [= <-]. rewrite lv_new_s, lv_new_old by (unfold h1; rewrite put_fst; lia).
      split; [rewrite F2; apply Nat.lt_succ_diag_r | reflexivity].
  - apply Nat.ltb_ge in Eo. cbn [andthen fst snd]. apply (Adj lv h1 None).
    + intros y Hy. pose proof (W1 y Hy) as G. destruct (Nat.eqb_spec y a) as [-> | ?]; [| assumption].
      destruct G as [A B C D E F]. constructor; auto.
      * intros H. destruct (C H) as (? & ? & ?). rewrite Sa. cbn [set_box ents]. rewrite Len. repeat split; auto.
      * rewrite Sa. cbn. congruence.
    + unfold h1; rewrite put_fst; assumption.
    + discriminate.
Qed.

Lemma insert_all_ok fuel : forall l pre K lv h root, boxes = pre ++ l -> wf0 K lv h -> root < fst h ->
  K + length l <= S fuel ->
  exists h' r K' lv', insert_all M fuel h root (Z.of_nat (length pre)) l = Ret (h', r) /\
    wf0 K' lv' h' /\ r < fst h' /\ K' <= K + length l.
Proof.
  induction l as [| b l IH]; intros pre K lv h root Hb W Hr HK; cbn [insert_all length] in *.
  - exists h, root, K, lv. split; [reflexivity |]. split; [assumption |]. split; [assumption | lia].
  - destruct (insert_ok K lv fuel h root (b, Z.of_nat (length pre)) W Hr) as (h' & r & lv' & -> & W' & Hr').
    { split; [cbn; lia |]. cbn. rewrite Nat2Z.id, Hb, nth_error_app2, Nat.sub_diag by lia. reflexivity. }
    { lia. }
    cbn [andthen fst snd].
    destruct (IH (pre ++ [b]) (S K) lv' h' r) as (h2 & r2 & K2 & lv2 & E2 & W2 & R2 & B2); auto.
    { rewrite <- app_assoc; assumption. } { lia. }
    rewrite app_length in E2. cbn [length] in E2.
    replace (Z.of_nat (length pre + 1)) with (Z.of_nat (length pre) + 1)%Z in E2 by lia.
    rewrite E2. exists h2, r2, K2, lv2. split; [reflexivity |]. split; [assumption |]. split; [assumption | lia].
Qed.

(** ** Searching *)
Fixpoint weight (lv : nat -> nat) (l : list nat) : nat :=
  match l with [] => 0 | a :: l' => S M ^ lv a + weight lv l' end.
Lemma weight_app lv l1 l2 : weight lv (l1 ++ l2) = weight lv l1 + weight lv l2.
Proof. induction l1; cbn [weight app]; lia. Qed.
Lemma weight_kids lv l v : (forall k, In k l -> S (lv k) = v) -> length l <= M -> v <> 0 ->
  weight lv l < S M ^ v.
Proof.
  intros H Hl Hv. destruct v as [| v]; [congruence |].
  assert (E : weight lv l = length l * S M ^ v).
  { clear Hl. induction l as [| k l IH]; [reflexivity |]. cbn [weight length].
    rewrite IH by (intros; apply H; right; assumption).
    assert (Ek : lv k = v) by (specialize (H k (or_introl eq_refl)); lia). rewrite Ek. lia. }
  rewrite E. pose proof (Nat.pow_nonzero (S M) v ltac:(lia)). rewrite Nat.pow_succ_r'. nia.
Qed.
Lemma weight_filter {B} lv (f : B -> bool) (g : B -> nat) l :
  weight lv (rev (map g (filter f l))) <= weight lv (map g l).
Proof.
  assert (Hr : forall l, weight lv (rev l) = weight lv l).
  { clear l. induction l as [| x l IH]; [reflexivity |]. cbn [rev weight]. rewrite weight_app. cbn. lia. }
  rewrite Hr. induction l as [| x l IH]; [cbn; lia |].
  cbn [filter map]. destruct (f x); cbn [map weight]; lia.
Qed.

Lemma search_ok (P : bb -> bool) (found0 : Z -> bool) (srch : nat -> list nat -> list Z -> out (list Z)) q K lv h :
  (forall fuel stack found, srch (S fuel) stack found =
     if found0 (Z.of_nat (length found)) then Ret found
     else match stack with
        | [] => Crash
        | a :: stack' =>
            do n <- get h a;
            do r <- (if leaf n
                     then Ret (stack', rev (map snd (filter (fun e => P (fst e)) (ents n))) ++ found)
                     else do ks <- kid_boxes h (kids n);
                          Ret (rev (map fst (filter (fun k => is_overlapping q (snd k)) ks)) ++ stack', found));
            match fst r with
            | [] => Ret (snd r)
            | _ => srch fuel (fst r) (snd r)
            end
        end) ->
  wf0 K lv h ->
  forall fuel stack found, stack <> [] -> (forall a, In a stack -> a < fst h) -> weight lv stack <= fuel ->
    (forall i, In i found -> exists b, is_box boxes i b /\ P b = true) ->
    exists r, srch fuel stack found = Ret r /\ forall i, In i r -> exists b, is_box boxes i b /\ P b = true.
Proof.
  intros Hs W. induction fuel as [| fuel IH]; intros stack found Hne Hin Hw Hf.
  - destruct stack as [| a stack]; [congruence |]. cbn [weight] in Hw.
    pose proof (Nat.pow_nonzero (S M) (lv a) ltac:(lia)). lia.
  - rewrite Hs. destruct (found0 _); [eauto |].
    destruct stack as [| a stack]; [congruence |]. cbn [weight] in Hw.
    assert (Ha : a < fst h) by (apply Hin; left; reflexivity).
    rewrite get_ok by assumption. cbn [andthen]. pose proof (W a Ha) as G.
    assert (Hin' : forall b, In b stack -> b < fst h) by (intros; apply Hin; right; assumption).
    pose proof (Nat.pow_nonzero (S M) (lv a) ltac:(lia)) as Pw.
    destruct (leaf (snd h a)) eqn:El; cbn [andthen fst snd].
    + assert (Hf' : forall i, In i (rev (map snd (filter (fun e => P (fst e)) (ents (snd h a)))) ++ found) ->
                 exists b, is_box boxes i b /\ P b = true).
      { intros i Hi. apply in_app_or in Hi as [Hi | Hi]; [| auto].
        apply in_rev, in_map_iff in Hi as (e & <- & He). apply filter_In in He as [He1 He2].
        exists (fst e). split; [| assumption].
        pose proof (g_ent _ _ _ _ _ _ _ G) as Ge. rewrite Forall_forall in Ge. apply Ge; assumption. }
      destruct stack as [| c stack]; [eauto |].
      apply IH; auto; [discriminate | lia].
    + pose proof (g_kid _ _ _ _ _ _ _ G) as Gk. destruct (g_non _ _ _ _ _ _ _ G El) as [G1 G2].
      rewrite kid_boxes_ok by (intros k Hk; apply Gk; assumption). cbn [andthen fst snd].
      set (ks := map _ (kids (snd h a))).
      set (st := rev _ ++ stack).
      assert (Wst : weight lv st < S M ^ lv a + weight lv stack).
      { unfold st. rewrite weight_app.
        pose proof (weight_filter lv (fun k => is_overlapping q (snd k)) fst ks) as H1.
        assert (H2 : map fst ks = kids (snd h a)).
        { unfold ks. rewrite map_map. cbn. apply map_id. }
        rewrite H2 in H1.
        pose proof (weight_kids lv (kids (snd h a)) (lv a) (fun k Hk => proj2 (Gk k Hk)) ltac:(lia) G1). lia. }
      assert (Ist : forall b, In b st -> b < fst h).
      { intros b Hb. apply in_app_or in Hb as [Hb | Hb]; [| auto].
        apply in_rev, in_map_iff in Hb as (e & <- & He). apply filter_In in He as [He _].
        unfold ks in He. apply in_map_iff in He as (k & <- & Hk). cbn. apply Gk; assumption. }
      destruct st as [| c st'] eqn:Est; [eauto |]. rewrite <- Est in *.
      apply IH; auto; [congruence | lia].
Qed.
End Inv.

Lemma rtree_wf M boxes fuel : 4 <= M -> length boxes < fuel ->
  exists h r K lv, rtree M fuel boxes = Ret (h, r) /\ wf0 M boxes K lv h /\ r < fst h /\ K <= S (length boxes).
Proof.
  intros HM Hf. unfold rtree. destruct (Nat.ltb_spec M 4) as [H | _]; [lia |]. cbn [new_node].
  destruct (insert_all_ok M HM boxes fuel boxes [] 1 (fun _ => 0)
     (1, fun x => if x =? 0 then mkN true None [] [] nobox else mkN true None [] [] nobox) 0)
    as (h & r & K & lv & E & W & R & B); cbn [length fst] in *; auto.
  - intros a Ha. cbn in *. assert (a = 0) by lia; subst a. cbn.
    constructor; cbn; auto; try discriminate; try lia.
    + intros _. repeat split; lia.
  - exists h, r, K, lv. split; [exact E |]. split; [exact W |]. split; [assumption | lia].
Qed.

(** The searches through the interface. *)
Definition search_fuel (M n : nat) : nat := S M ^ n.
Lemma search_within_sound M boxes h r K lv q maxr fuel : 4 <= M -> wf0 M boxes K lv h -> r < fst h ->
  K <= S (length boxes) -> S M ^ length boxes <= fuel ->
  exists res, search_within fuel h q maxr [r] [] = Ret res /\
    forall i, In i res -> exists b, is_box boxes i b /\ is_within q b = true.
Proof.
  intros HM W Hr HK Hf.
  apply (search_ok M HM boxes (is_within q) (fun z => Z.eqb z maxr)
           (fun fuel stack found => search_within fuel h q maxr stack found) q K lv h); auto.
  - discriminate.
  - intros a [<- | []]; assumption.
  - cbn [weight]. pose proof (g_lv _ _ _ _ _ _ _ _ (W r Hr)).
    assert (S M ^ lv r <= S M ^ length boxes) by (apply Nat.pow_le_mono_r; lia). lia.
  - intros i [].
Qed.
Lemma search_overlapping_sound M boxes h r K lv q maxr fuel : 4 <= M -> wf0 M boxes K lv h -> r < fst h ->
  K <= S (length boxes) -> S M ^ length boxes <= fuel ->
  exists res, search_overlapping fuel h q maxr [r] [] = Ret res /\
    forall i, In i res -> exists b, is_box boxes i b /\ is_overlapping q b = true.
Proof.
  intros HM W Hr HK Hf.
  apply (search_ok M HM boxes (is_overlapping q) (fun _ => Z.eqb 0 maxr)
           (fun fuel stack found => search_overlapping fuel h q maxr stack found) q K lv h); auto.
  - discriminate.
  - intros a [<- | []]; assumption.
  - cbn [weight]. pose proof (g_lv _ _ _ _ _ _ _ _ (W r Hr)).
    assert (S M ^ lv r <= S M ^ length boxes) by (apply Nat.pow_le_mono_r; lia). lia.
  - intros i [].
Qed.
