(** A tree that was never split: at most [M] boxes. *)
From Coq Require Import List ZArith QArith Lqa Lia Bool Arith.
From Verif Require Import RTree_Model RTree_Spec RTree_Proofs.
Import ListNotations.
Open Scope nat_scope.

Definition indexed (k : nat) (l : list bb) : list (bb * Z) := combine l (map Z.of_nat (seq k (length l))).
Lemma indexed_app k l b : indexed k (l ++ [b]) = indexed k l ++ [(b, Z.of_nat (k + length l))].
Proof.
  revert k; induction l as [| c l IH]; intros k; unfold indexed in *; cbn [app length seq map combine].
  - rewrite Nat.add_0_r; reflexivity.
  - f_equal. rewrite IH. cbn [app]. do 2 f_equal. f_equal. lia.
Qed.
Definition one_leaf (h : heap) (l : list (bb * Z)) : Prop :=
  fst h = 1 /\ leaf (snd h 0) = true /\ parent (snd h 0) = None /\ ents (snd h 0) = l.
Lemma insert_one M fuel h l e : 0 < fuel -> one_leaf h l -> length l < M ->
  exists h', insert M fuel h 0 e = Ret (h', 0) /\ one_leaf h' (l ++ [e]).
Proof.
  intros Hf (F & L & P & E) Hl. destruct fuel as [| fuel]; [lia |].
  assert (G : get h 0 = Ret (snd h 0)) by (unfold get; rewrite F; reflexivity).
  unfold insert. cbn [choose_leaf]. rewrite G. cbn [andthen]. rewrite L. cbn [andthen]. rewrite G. cbn [andthen].
  unfold push_ent. rewrite E. destruct (Nat.leb_spec (length l) M) as [_ | H]; [| lia]. cbn [andthen].
  cbn [set_ents ents]. rewrite app_length; cbn [length].
  destruct (Nat.ltb_spec M (length l + 1)) as [H | _]; [lia |]. cbn [andthen fst snd adjust].
  set (h' := put h 0 _).
  assert (G' : get h' 0 = Ret (snd h' 0)) by (unfold get; cbn; rewrite F; reflexivity).
  rewrite G'. cbn [andthen].
  assert (P' : parent (snd h' 0) = None) by exact P. rewrite P'.
  exists h'. split; [reflexivity |]. repeat split; auto.
Qed.
Lemma insert_all_one M fuel : forall l pre h, 0 < fuel -> one_leaf h (indexed 0 pre) -> length pre + length l <= M ->
  exists h', insert_all M fuel h 0 (Z.of_nat (length pre)) l = Ret (h', 0) /\ one_leaf h' (indexed 0 (pre ++ l)).
Proof.
  induction l as [| b l IH]; intros pre h Hf Ho Hl; cbn [insert_all length] in *.
  - exists h. rewrite app_nil_r. auto.
  - destruct (insert_one M fuel h (indexed 0 pre) (b, Z.of_nat (length pre)) Hf Ho) as (h' & -> & Ho').
    { unfold indexed. rewrite combine_length, map_length, seq_length. lia. }
    cbn [andthen fst snd].
    destruct (IH (pre ++ [b]) h') as (h2 & E2 & O2); auto.
    { rewrite indexed_app; exact Ho'. } { rewrite app_length; cbn; lia. }
    rewrite app_length in E2. cbn [length] in E2.
    replace (Z.of_nat (length pre + 1)) with (Z.of_nat (length pre) + 1)%Z in E2 by lia.
    rewrite E2. exists h2. rewrite <- app_assoc in O2. auto.
Qed.
Lemma rtree_one M fuel l : 4 <= M -> 0 < fuel -> length l <= M ->
  exists h, rtree M fuel l = Ret (h, 0) /\ one_leaf h (indexed 0 l).
Proof.
  intros HM Hf Hl. unfold rtree. destruct (Nat.ltb_spec M 4) as [H | _]; [lia |]. cbn [new_node fst snd].
  match goal with |- context [insert_all M fuel ?h 0 0%Z l] =>
    destruct (insert_all_one M fuel l [] h) as (h' & E & O) end; auto.
  - repeat split.
  - exists h'. auto.
Qed.
Lemma in_indexed l : forall k i b, In (b, i) (indexed k l) <->
  (Z.of_nat k <= i)%Z /\ nth_error l (Z.to_nat (i - Z.of_nat k)) = Some b.
Proof.
  unfold indexed. induction l as [| c l IH]; intros k i b; cbn [length seq map combine In].
  - split; [intros [] |]. intros [_ H]. destruct (Z.to_nat _); discriminate.
  - rewrite IH. split.
    + intros [[= <- <-] | [H1 H2]].
      * split; [lia |]. rewrite Z.sub_diag. reflexivity.
      * split; [lia |]. replace (Z.to_nat (i - Z.of_nat k)) with (S (Z.to_nat (i - Z.of_nat (S k)))) by lia. assumption.
    + intros [H1 H2]. destruct (Z.eq_dec i (Z.of_nat k)) as [-> | Hn].
      * rewrite Z.sub_diag in H2. cbn in H2. injection H2 as <-. auto.
      * right. split; [lia |]. replace (Z.to_nat (i - Z.of_nat k)) with (S (Z.to_nat (i - Z.of_nat (S k)))) in H2 by lia.
        assumption.
Qed.
Lemma in_indexed0 l i b : In (b, i) (indexed 0 l) <-> is_box l i b.
Proof. rewrite in_indexed. unfold is_box. rewrite Z.sub_0_r. reflexivity. Qed.
Lemma nodup_indices l : forall k (f : bb * Z -> bool), NoDup (map snd (filter f (indexed k l))).
Proof.
  unfold indexed. induction l as [| c l IH]; intros k f; cbn [length seq map combine filter]; [constructor |].
  destruct (f _); [| apply IH]. cbn [map snd]. constructor; [| apply IH].
  intros H. apply in_map_iff in H as ([b i] & E & H). apply filter_In in H as [H _].
  apply (in_indexed l (S k)) in H. cbn in E. lia.
Qed.
Lemma in_result (f : bb -> bool) l i :
  In i (rev (map snd (filter (fun e => f (fst e)) (indexed 0 l)))) <-> exists b, is_box l i b /\ f b = true.
Proof.
  rewrite <- in_rev, in_map_iff. split.
  - intros ([b j] & <- & H). apply filter_In in H as [H1 H2]. exists b. split; [apply in_indexed0; assumption | assumption].
  - intros (b & H1 & H2). exists (b, i). split; [reflexivity |]. apply filter_In. split; [apply in_indexed0; assumption | assumption].
Qed.
Lemma search_within_one fuel h l q : 0 < fuel -> one_leaf h (indexed 0 l) ->
  search_within fuel h q (-1) [0] [] = Ret (rev (map snd (filter (fun e => is_within q (fst e)) (indexed 0 l)))).
Proof.
  intros Hf (F & L & P & E). destruct fuel as [| fuel]; [lia |]. cbn [search_within length Z.of_nat Z.eqb].
  assert (G : get h 0 = Ret (snd h 0)) by (unfold get; rewrite F; reflexivity).
  rewrite G; cbn [andthen]. rewrite L. cbn [andthen fst snd]. rewrite E, app_nil_r. reflexivity.
Qed.
Lemma search_overlapping_one fuel h l q : 0 < fuel -> one_leaf h (indexed 0 l) ->
  search_overlapping fuel h q (-1) [0] [] = Ret (rev (map snd (filter (fun e => is_overlapping q (fst e)) (indexed 0 l)))).
Proof.
  intros Hf (F & L & P & E). destruct fuel as [| fuel]; [lia |]. cbn [search_overlapping Z.eqb].
  assert (G : get h 0 = Ret (snd h 0)) by (unfold get; rewrite F; reflexivity).
  rewrite G; cbn [andthen]. rewrite L. cbn [andthen fst snd]. rewrite E, app_nil_r. reflexivity.
Qed.
Lemma rt_free_one fuel h l : 0 < fuel -> one_leaf h (indexed 0 l) ->
  exists r, rt_free fuel h 0 = Ret r /\ NoDup r.
Proof.
  intros Hf (F & L & P & E). destruct fuel as [| fuel]; [lia |]. cbn [rt_free].
  assert (G : get h 0 = Ret (snd h 0)) by (unfold get; rewrite F; reflexivity).
  rewrite G; cbn [andthen]. rewrite L, E. eexists; split; [reflexivity |].
  assert (N : NoDup (map (fun e : bb * Z => @inl Z nat (snd e)) (indexed 0 l))).
  { pose proof (nodup_indices l 0 (fun _ => true)) as N.
    assert (Ef : forall m : list (bb * Z), filter (fun _ => true) m = m).
    { induction m; cbn; congruence. }
    rewrite Ef in N. rewrite <- (map_map snd inl). apply FinFun.Injective_map_NoDup; [| assumption].
    intros a b [= H]; assumption. }
  assert (App : forall (x y : list (Z + nat)), NoDup x -> NoDup y -> (forall a, In a x -> ~ In a y) -> NoDup (x ++ y)).
  { clear. induction x as [| a x IH]; intros y Nx Ny D; [assumption |]. cbn. inversion Nx; subst. constructor.
    - intros H. apply in_app_or in H as [H | H]; [contradiction |]. exact (D a (or_introl eq_refl) H).
    - apply IH; auto. intros b Hb. apply D; right; assumption. }
  apply App; auto.
  - repeat constructor. intros [].
  - intros a Ha [<- | []]. apply in_map_iff in Ha as (e & He & _). discriminate.
Qed.

(** With no more than [M] boxes, each search returns exactly the boxes asked for. *)
Lemma complete_unsplit M l q fb fs : 4 <= M -> length l <= M -> 0 < fb -> 0 < fs ->
  exists t, rtree M fb l = Ret t /\
    (exists rw, search_within fs (fst t) q (-1) [snd t] [] = Ret rw /\ NoDup rw /\
       forall i, In i rw <-> exists b, is_box l i b /\
          (xmin q < xmin b /\ xmax b <= xmax q /\ ymin q < ymin b /\ ymax b <= ymax q)%Q) /\
    (exists ro, search_overlapping fs (fst t) q (-1) [snd t] [] = Ret ro /\ NoDup ro /\
       forall i, In i ro <-> exists b, is_box l i b /\ interiors_meet q b).
Proof.
  intros HM Hl Hb Hs. destruct (rtree_one M fb l HM Hb Hl) as (h & -> & O).
  exists (h, 0). split; [reflexivity |]. cbn [fst snd]. split.
  - rewrite (search_within_one fs h l q Hs O). eexists; split; [reflexivity |]. split.
    + apply NoDup_rev, nodup_indices.
    + intros i. rewrite in_result. split; intros (b & H1 & H2); exists b; (split; [assumption |]);
        apply is_within_spec; assumption.
  - rewrite (search_overlapping_one fs h l q Hs O). eexists; split; [reflexivity |]. split.
    + apply NoDup_rev, nodup_indices.
    + intros i. rewrite in_result. split; intros (b & H1 & H2); exists b; (split; [assumption |]);
        apply is_overlapping_spec; assumption.
Qed.
Lemma sound M l q maxr fb fs : 4 <= M -> length l < fb -> S M ^ length l <= fs ->
  exists t, rtree M fb l = Ret t /\
    (exists rw, search_within fs (fst t) q maxr [snd t] [] = Ret rw /\
       forall i, In i rw -> exists b, is_box l i b /\ lies_in q b) /\
    (exists ro, search_overlapping fs (fst t) q maxr [snd t] [] = Ret ro /\
       forall i, In i ro -> exists b, is_box l i b /\ interiors_meet q b).
Proof.
  intros HM Hb Hs. destruct (rtree_wf M l fb HM Hb) as (h & r & K & lv & -> & W & R & HK).
  exists (h, r). split; [reflexivity |]. cbn [fst snd]. split.
  - destruct (search_within_sound M l h r K lv q maxr fs HM W R HK Hs) as (rw & -> & H).
    exists rw; split; [reflexivity |]. intros i Hi. destruct (H i Hi) as (b & H1 & H2). exists b; split; [assumption |].
    apply is_within_spec in H2. unfold lies_in. repeat split; lra.
  - destruct (search_overlapping_sound M l h r K lv q maxr fs HM W R HK Hs) as (ro & -> & H).
    exists ro; split; [reflexivity |]. intros i Hi. destruct (H i Hi) as (b & H1 & H2). exists b; split; [assumption |].
    apply is_overlapping_spec; assumption.
Qed.

(** The box of an unsplit tree. *)
Lemma insert_one_box M fuel h l e : (0 < fuel) -> one_leaf h l -> length l < M ->
  exists h', insert M fuel h 0 e = Ret (h', 0) /\ one_leaf h' (l ++ [e]) /\
    box (snd h' 0) = extend (box (snd h 0)) (fst e).
Proof.
  intros Hf (F & L & P & E) Hl. destruct fuel as [| fuel]; [lia |].
  assert (G : get h 0 = Ret (snd h 0)) by (unfold get; rewrite F; reflexivity).
  unfold insert. cbn [choose_leaf]. rewrite G. cbn [andthen]. rewrite L. cbn [andthen]. rewrite G. cbn [andthen].
  unfold push_ent. rewrite E. destruct (Nat.leb_spec (length l) M) as [_ | H]; [| lia]. cbn [andthen].
  cbn [set_ents ents]. rewrite app_length; cbn [length].
  destruct (Nat.ltb_spec M (length l + 1)) as [H | _]; [lia |]. cbn [andthen fst snd adjust].
  set (h' := put h 0 _).
  assert (G' : get h' 0 = Ret (snd h' 0)) by (unfold get; cbn; rewrite F; reflexivity).
  rewrite G'. cbn [andthen].
  assert (P' : parent (snd h' 0) = None) by exact P. rewrite P'.
  exists h'. split; [reflexivity |]. repeat split; auto.
Qed.
Lemma insert_all_box M fuel : forall l k h m, (0 < fuel) -> one_leaf h m -> length m + length l <= M ->
  exists h', insert_all M fuel h 0 k l = Ret (h', 0) /\ fst h' = 1 /\ box (snd h' 0) = fold_left extend l (box (snd h 0)).
Proof.
  induction l as [| b l IH]; intros k h m Hf Ho Hl; cbn [insert_all length fold_left] in *.
  - exists h. repeat split; auto. apply Ho.
  - destruct (insert_one_box M fuel h m (b, k) Hf Ho) as (h' & -> & Ho' & Hb); [lia |].
    cbn [andthen fst snd]. destruct (IH (k + 1)%Z h' _ Hf Ho') as (h2 & -> & F2 & B2).
    { rewrite app_length; cbn [length]; lia. }
    exists h2. repeat split; auto. rewrite B2, Hb. reflexivity.
Qed.
Lemma fold_extend l : forall b0,
  let b := fold_left extend l b0 in
  (xmin b <= xmin b0 /\ ymin b <= ymin b0 /\ xmax b0 <= xmax b /\ ymax b0 <= ymax b)%Q /\
  (forall c, In c l -> lies_in b c) /\
  (xmin b = xmin b0 \/ exists c, In c l /\ xmin b = xmin c) /\ (ymin b = ymin b0 \/ exists c, In c l /\ ymin b = ymin c) /\
  (xmax b = xmax b0 \/ exists c, In c l /\ xmax b = xmax c) /\ (ymax b = ymax b0 \/ exists c, In c l /\ ymax b = ymax c).
Proof.
  induction l as [| c l IH]; intros b0; cbn [fold_left].
  - cbn zeta. split; [repeat split; apply Qle_refl |]. split; [intros c [] |]. auto.
  - specialize (IH (extend b0 c)). cbn zeta in *.
    destruct IH as ((A1 & A2 & A3 & A4) & A5 & A6 & A7 & A8 & A9).
    set (b := fold_left extend l (extend b0 c)) in *. unfold extend in *. cbn [xmin ymin xmax ymax] in *.
    destruct (minf_spec (xmin b0) (xmin c)) as (B1 & B2 & B3), (minf_spec (ymin b0) (ymin c)) as (B4 & B5 & B6),
      (maxf_spec (xmax b0) (xmax c)) as (B7 & B8 & B9), (maxf_spec (ymax b0) (ymax c)) as (C1 & C2 & C3).
    split; [repeat split; lra |]. split.
    { intros d [<- | Hd]; [unfold lies_in; repeat split; lra | auto]. }
    split; [| split; [| split]].
    + destruct A6 as [H | (d & Hd & H)]; [destruct B3 as [E | E]; rewrite E in H | right; exists d; cbn; auto]; auto.
      right; exists c; cbn; auto.
    + destruct A7 as [H | (d & Hd & H)]; [destruct B6 as [E | E]; rewrite E in H | right; exists d; cbn; auto]; auto.
      right; exists c; cbn; auto.
    + destruct A8 as [H | (d & Hd & H)]; [destruct B9 as [E | E]; rewrite E in H | right; exists d; cbn; auto]; auto.
      right; exists c; cbn; auto.
    + destruct A9 as [H | (d & Hd & H)]; [destruct C3 as [E | E]; rewrite E in H | right; exists d; cbn; auto]; auto.
      right; exists c; cbn; auto.
Qed.
(** Boxes within the range of C floats. *)
Definition in_range (b : bb) : Prop :=
  (xmin b < 10 ^ 38 /\ ymin b < 10 ^ 38 /\ - 10 ^ 38 < xmax b /\ - 10 ^ 38 < ymax b)%Q.
Lemma bbox_unsplit M l fb : 4 <= M -> length l <= M -> 0 < fb -> l <> [] -> Forall in_range l ->
  exists t b, rtree M fb l = Ret t /\ tree_bbox t = Ret b /\ (forall c, In c l -> lies_in b c) /\
    (exists c, In c l /\ xmin b = xmin c) /\ (exists c, In c l /\ ymin b = ymin c) /\
    (exists c, In c l /\ xmax b = xmax c) /\ (exists c, In c l /\ ymax b = ymax c).
Proof.
  intros HM Hl Hb Hne Hr. unfold rtree. destruct (Nat.ltb_spec M 4) as [H | _]; [lia |]. cbn [new_node fst snd].
  match goal with |- context [insert_all M fb ?h 0 0%Z l] =>
    destruct (insert_all_box M fb l 0%Z h []) as (h' & -> & F & Bx) end; auto.
  { repeat split. }
  exists (h', 0), (box (snd h' 0)). split; [reflexivity |]. split.
  { unfold tree_bbox. cbn [fst snd]. unfold get. rewrite F. reflexivity. }
  rewrite Bx. cbn [snd Nat.eqb box].
  destruct (fold_extend l nobox) as (_ & A1 & A2 & A3 & A4 & A5).
  set (b := fold_left extend l nobox) in *.
  destruct l as [| c0 l]; [congruence |].
  assert (Hc : lies_in b c0) by (apply A1; left; reflexivity).
  apply Forall_inv in Hr as (R1 & R2 & R3 & R4). destruct Hc as (L1 & L2 & L3 & L4).
  assert (Q1 : (xmin nobox == 10 ^ 38)%Q) by reflexivity.
  assert (Q2 : (ymin nobox == 10 ^ 38)%Q) by reflexivity.
  assert (Q3 : (xmax nobox == - 10 ^ 38)%Q) by reflexivity.
  assert (Q4 : (ymax nobox == - 10 ^ 38)%Q) by reflexivity.
  split; [exact A1 |].
  set (big := (10 ^ 38)%Q) in *.
  assert (T1 : (xmin b < big)%Q) by (clear - L1 R1; lra).
  assert (T2 : (ymin b < big)%Q) by (clear - L3 R2; lra).
  assert (T3 : (- big < xmax b)%Q) by (clear - L2 R3; lra).
  assert (T4 : (- big < ymax b)%Q) by (clear - L4 R4; lra).
  clearbody big.
  split; [| split; [| split]].
  - destruct A2 as [E | E]; [| exact E]. rewrite E, Q1 in T1. exfalso; lra.
  - destruct A3 as [E | E]; [| exact E]. rewrite E, Q2 in T2. exfalso; lra.
  - destruct A4 as [E | E]; [| exact E]. rewrite E, Q3 in T3. exfalso; lra.
  - destruct A5 as [E | E]; [| exact E]. rewrite E, Q4 in T4. exfalso; lra.
Qed.
