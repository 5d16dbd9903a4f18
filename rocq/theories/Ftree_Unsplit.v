(** A tree that was never split: at most [M] boxes. *)
From Coq Require Import List ZArith Lia Bool Arith.
From Verif Require Import Ftree_Model Ftree_Shape.
Import ListNotations.
Open Scope nat_scope.

Definition indexed (k : nat) (l : list bb) : list (bb * Z) := combine l (map Z.of_nat (seq k (length l))).
Lemma indexed_app k l b : indexed k (l ++ [b]) = indexed k l ++ [(b, Z.of_nat (k + length l))].
Proof.
  revert k; induction l as [| c l IH]; intros k; unfold indexed in *; cbn [app length seq map combine].
  - rewrite Nat.add_0_r; reflexivity.
  - f_equal. rewrite IH. cbn [app]. do 2 f_equal. f_equal. lia.
Qed.
Definition one_leaf (h : heap) (l : list (bb * Z)) : Prop :=
  fst h = 1 /\ leaf (snd h 0) = true /\ parent (snd h 0) = None /\ ents (snd h 0) = l.
Lemma insert_one M fuel h l e : 0 < fuel -> one_leaf h l -> length l < M ->
  exists h', insert M fuel h 0 e = Ret (h', 0) /\ one_leaf h' (l ++ [e]).
Proof.
  intros Hf (F & L & P & E) Hl. destruct fuel as [| fuel]; [lia |].
  assert (G : get h 0 = Ret (snd h 0)) by (unfold get; rewrite F; reflexivity).
  unfold insert. cbn [choose_leaf]. rewrite G. cbn [andthen]. rewrite L. cbn [andthen]. rewrite G. cbn [andthen].
  unfold push_ent. rewrite E. destruct (Nat.leb_spec (length l) M) as [_ | H]; [| lia]. cbn [andthen].
  cbn [set_ents ents]. rewrite app_length; cbn [length].
  destruct (Nat.ltb_spec M (length l + 1)) as [H | _]; [lia |]. cbn [andthen fst snd adjust].
  set (h' := put h 0 _).
  assert (G' : get h' 0 = Ret (snd h' 0)) by (unfold get; cbn; rewrite F; reflexivity).
  rewrite G'. cbn [andthen].
  assert (P' : parent (snd h' 0) = None) by exact P. rewrite P'.
  exists h'. split; [reflexivity |]. repeat split; auto.
Qed.
Lemma insert_all_one M fuel : forall l pre h, 0 < fuel -> one_leaf h (indexed 0 pre) -> length pre + length l <= M ->
  exists h', insert_all M fuel h 0 (Z.of_nat (length pre)) l = Ret (h', 0) /\ one_leaf h' (indexed 0 (pre ++ l)).
Proof.
  induction l as [| b l IH]; intros pre h Hf Ho Hl; cbn [insert_all length] in *.
  - exists h. rewrite app_nil_r. auto.
  - destruct (insert_one M fuel h (indexed 0 pre) (b, Z.of_nat (length pre)) Hf Ho) as (h' & -> & Ho').
    { unfold indexed. rewrite combine_length, map_length, seq_length. lia. }
    cbn [andthen fst snd].
    destruct (IH (pre ++ [b]) h') as (h2 & E2 & O2); auto.
    { rewrite indexed_app; exact Ho'. } { rewrite app_length; cbn; lia. }
    rewrite app_length in E2. cbn [length] in E2.
    replace (Z.of_nat (length pre + 1)) with (Z.of_nat (length pre) + 1)%Z in E2 by lia.
    rewrite E2. exists h2. rewrite <- app_assoc in O2. auto.
Qed.
Lemma rtree_one M fuel l : 4 <= M -> 0 < fuel -> length l <= M ->
  exists h, rtree M fuel l = Ret (h, 0) /\ one_leaf h (indexed 0 l).
Proof.
  intros HM Hf Hl. unfold rtree. destruct (Nat.ltb_spec M 4) as [H | _]; [lia |]. cbn [new_node fst snd].
  match goal with |- context [insert_all M fuel ?h 0 0%Z l] =>
    destruct (insert_all_one M fuel l [] h) as (h' & E & O) end; auto.
  - repeat split.
  - exists h'. auto.
Qed.
Lemma in_indexed l : forall k i b, In (b, i) (indexed k l) <->
  (Z.of_nat k <= i)%Z /\ nth_error l (Z.to_nat (i - Z.of_nat k)) = Some b.
Proof.
  unfold indexed. induction l as [| c l IH]; intros k i b; cbn [length seq map combine In].
  - split; [intros [] |]. intros [_ H]. destruct (Z.to_nat _); discriminate.
  - rewrite IH. split.
    + intros [[= <- <-] | [H1 H2]].
      * split; [lia |]. rewrite Z.sub_diag. reflexivity.
      * split; [lia |]. replace (Z.to_nat (i - Z.of_nat k)) with (S (Z.to_nat (i - Z.of_nat (S k)))) by lia. assumption.
    + intros [H1 H2]. destruct (Z.eq_dec i (Z.of_nat k)) as [-> | Hn].
      * rewrite Z.sub_diag in H2. cbn in H2. injection H2 as <-. auto.
      * right. split; [lia |]. replace (Z.to_nat (i - Z.of_nat k)) with (S (Z.to_nat (i - Z.of_nat (S k)))) in H2 by lia.
        assumption.
Qed.
Lemma in_indexed0 l i b : In (b, i) (indexed 0 l) <-> is_box l i b.
Proof. rewrite in_indexed. unfold is_box. rewrite Z.sub_0_r. reflexivity. Qed.
Lemma nodup_indices l : forall k (f : bb * Z -> bool), NoDup (map snd (filter f (indexed k l))).
Proof.
  unfold indexed. induction l as [| c l IH]; intros k f; cbn [length seq map combine filter]; [constructor |].
  destruct (f _); [| apply IH]. cbn [map snd]. constructor; [| apply IH].
  intros H. apply in_map_iff in H as ([b i] & E & H). apply filter_In in H as [H _].
  apply (in_indexed l (S k)) in H. cbn in E. lia.
Qed.
Lemma in_result (f : bb -> bool) l i :
  In i (rev (map snd (filter (fun e => f (fst e)) (indexed 0 l)))) <-> exists b, is_box l i b /\ f b = true.
Proof.
  rewrite <- in_rev, in_map_iff. split.
  - intros ([b j] & <- & H). apply filter_In in H as [H1 H2]. exists b. split; [apply in_indexed0; assumption | assumption].
  - intros (b & H1 & H2). exists (b, i). split; [reflexivity |]. apply filter_In. split; [apply in_indexed0; assumption | assumption].
Qed.
Lemma search_within_one fuel h l q : 0 < fuel -> one_leaf h (indexed 0 l) ->
  search_within fuel h q (-1) [0] [] = Ret (rev (map snd (filter (fun e => is_within q (fst e)) (indexed 0 l)))).
Proof.
  intros Hf (F & L & P & E). destruct fuel as [| fuel]; [lia |]. cbn [search_within length Z.of_nat Z.eqb].
  assert (G : get h 0 = Ret (snd h 0)) by (unfold get; rewrite F; reflexivity).
  rewrite G; cbn [andthen]. rewrite L. cbn [andthen fst snd]. rewrite E, app_nil_r. reflexivity.
Qed.
Lemma search_overlapping_one fuel h l q : 0 < fuel -> one_leaf h (indexed 0 l) ->
  search_overlapping fuel h q (-1) [0] [] = Ret (rev (map snd (filter (fun e => is_overlapping q (fst e)) (indexed 0 l)))).
Proof.
  intros Hf (F & L & P & E). destruct fuel as [| fuel]; [lia |]. cbn [search_overlapping Z.eqb].
  assert (G : get h 0 = Ret (snd h 0)) by (unfold get; rewrite F; reflexivity).
  rewrite G; cbn [andthen]. rewrite L. cbn [andthen fst snd]. rewrite E, app_nil_r. reflexivity.
Qed.
(** The box of an unsplit tree. *)
Lemma insert_one_box M fuel h l e : (0 < fuel) -> one_leaf h l -> length l < M ->
  exists h', insert M fuel h 0 e = Ret (h', 0) /\ one_leaf h' (l ++ [e]) /\
    box (snd h' 0) = extend (box (snd h 0)) (fst e).
Proof.
  intros Hf (F & L & P & E) Hl. destruct fuel as [| fuel]; [lia |].
  assert (G : get h 0 = Ret (snd h 0)) by (unfold get; rewrite F; reflexivity).
  unfold insert. cbn [choose_leaf]. rewrite G. cbn [andthen]. rewrite L. cbn [andthen]. rewrite G. cbn [andthen].
  unfold push_ent. rewrite E. destruct (Nat.leb_spec (length l) M) as [_ | H]; [| lia]. cbn [andthen].
  cbn [set_ents ents]. rewrite app_length; cbn [length].
  destruct (Nat.ltb_spec M (length l + 1)) as [H | _]; [lia |]. cbn [andthen fst snd adjust].
  set (h' := put h 0 _).
  assert (G' : get h' 0 = Ret (snd h' 0)) by (unfold get; cbn; rewrite F; reflexivity).
  rewrite G'. cbn [andthen].
  assert (P' : parent (snd h' 0) = None) by exact P. rewrite P'.
  exists h'. split; [reflexivity |]. repeat split; auto.
Qed.
Lemma insert_all_box M fuel : forall l k h m, (0 < fuel) -> one_leaf h m -> length m + length l <= M ->
  exists h', insert_all M fuel h 0 k l = Ret (h', 0) /\ fst h' = 1 /\ box (snd h' 0) = fold_left extend l (box (snd h 0)).
Proof.
  induction l as [| b l IH]; intros k h m Hf Ho Hl; cbn [insert_all length fold_left] in *.
  - exists h. repeat split; auto. apply Ho.
  - destruct (insert_one_box M fuel h m (b, k) Hf Ho) as (h' & -> & Ho' & Hb); [lia |].
    cbn [andthen fst snd]. destruct (IH (k + 1)%Z h' _ Hf Ho') as (h2 & -> & F2 & B2).
    { rewrite app_length; cbn [length]; lia. }
    exists h2. repeat split; auto. rewrite B2, Hb. reflexivity.
Qed.
