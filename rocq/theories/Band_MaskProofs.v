From Coq Require Import List ZArith Bool Lia ZifyBool ZifyNat FinFun Sorting.Sorted.
From Verif Require Import Band_Model Band_Spec Band_Proofs Band_IndexModel Band_IndexSpec
  Band_IndexProofs.
Import ListNotations.
Open Scope Z_scope.

Lemma in_cells : forall h w p, In p (cells h w) <-> 0 <= fst p < h /\ 0 <= snd p < w.
Proof.
  intros h w [i j]. unfold cells. rewrite in_flat_map. simpl. split.
  - intros [i' [H1 H2]]. apply in_zrange in H1. apply in_map_iff in H2.
    destruct H2 as [j' [E H2]]. apply in_zrange in H2. inversion E; subst. lia.
  - intros [H1 H2]. exists i. split; [apply in_zrange; lia|].
    apply in_map_iff. exists j. split; [reflexivity|apply in_zrange; lia].
Qed.

Lemma in_true_cells : forall h w m p, In p (true_cells h w m) <->
  (0 <= fst p < h /\ 0 <= snd p < w) /\ m (fst p) (snd p) = true.
Proof. intros. unfold true_cells. rewrite filter_In, in_cells. reflexivity. Qed.

Lemma sorted_app : forall A (R : A -> A -> Prop) l1 l2,
  StronglySorted R l1 -> StronglySorted R l2 ->
  (forall a b, In a l1 -> In b l2 -> R a b) -> StronglySorted R (l1 ++ l2).
Proof.
  induction l1 as [|a l1 IH]; intros l2 S1 S2 H; simpl; [assumption|].
  inversion S1; subst. constructor.
  - apply IH; auto. intros; apply H; [right|]; assumption.
  - apply Forall_app. split; [assumption|]. apply Forall_forall. intros b I. apply H; [left; reflexivity|assumption].
Qed.

Lemma seq_sorted : forall n s, StronglySorted lt (seq s n).
Proof.
  induction n as [|n IH]; intros s; simpl; constructor; auto.
  apply Forall_forall. intros x I. apply in_seq in I. lia.
Qed.

Lemma map_sorted : forall A B (R : A -> A -> Prop) (Q : B -> B -> Prop) (f : A -> B) l,
  (forall a b, R a b -> Q (f a) (f b)) -> StronglySorted R l -> StronglySorted Q (map f l).
Proof.
  intros A B R Q f l H S. induction S; simpl; constructor; auto.
  apply Forall_forall. intros x I. apply in_map_iff in I. destruct I as [y [<- I]].
  rewrite Forall_forall in H0. auto.
Qed.

Lemma zrange_sorted : forall a b, StronglySorted Z.lt (zrange a b).
Proof. intros. unfold zrange. eapply map_sorted; [|apply seq_sorted]. intros; simpl; lia. Qed.

Lemma filter_sorted : forall A (R : A -> A -> Prop) p l,
  StronglySorted R l -> StronglySorted R (filter p l).
Proof.
  intros A R p l S. induction S; simpl; [constructor|]. destruct (p a); [|assumption].
  constructor; [assumption|]. apply Forall_forall. intros x I. apply filter_In in I.
  rewrite Forall_forall in H. apply H, I.
Qed.

Lemma true_cells_sorted : forall h w m, StronglySorted row_major (true_cells h w m).
Proof.
  intros. unfold true_cells. apply filter_sorted. unfold cells.
  pose proof (zrange_sorted 0 h) as S. induction S as [|i l S IH F]; simpl; [constructor|].
  apply sorted_app; [|exact IH|].
  - eapply map_sorted; [|apply zrange_sorted]. intros a b L. right. simpl. lia.
  - intros p q I J. apply in_map_iff in I. destruct I as [j [<- _]].
    apply in_flat_map in J. destruct J as [i' [I' J]]. apply in_map_iff in J.
    destruct J as [j' [<- _]]. left. simpl. rewrite Forall_forall in F. auto.
Qed.

Lemma sorted_NoDup : forall l, StronglySorted row_major l -> NoDup l.
Proof.
  intros l S. induction S as [|a l S IH F]; constructor; auto.
  intros I. rewrite Forall_forall in F. specialize (F a I). unfold row_major in F. lia.
Qed.

Lemma Forall2_length : forall A B (R : A -> B -> Prop) l l', Forall2 R l l' -> length l = length l'.
Proof. intros A B R l l' F. induction F; simpl; congruence. Qed.

Section Proofs.
Variable V : Type.

(** Successive puts. *)
Definition puts (A : arr V) (l : list ((Z * Z) * V)) : arr V :=
  fold_left (fun a pv => put a (fst pv) (snd pv)) l A.

Lemma puts_shape : forall l A, nrow (puts A l) = nrow A /\ ncol (puts A l) = ncol A.
Proof. induction l; intros A; simpl; [auto|]. apply (IHl (put A (fst a) (snd a))). Qed.

Lemma puts_out : forall l A i j, ~ In (i, j) (map fst l) -> at_ (puts A l) i j = at_ A i j.
Proof.
  induction l as [|[[y x] v] l IH]; intros A i j N; simpl; [reflexivity|].
  simpl in N. change (at_ (puts (put A (y, x) v) l) i j = at_ A i j). rewrite IH by tauto. simpl.
  destruct ((i =? y) && (j =? x)) eqn:E; [|reflexivity].
  exfalso. apply N. left. f_equal; lia.
Qed.

Lemma puts_in : forall l A i j v, NoDup (map fst l) -> In ((i, j), v) l -> at_ (puts A l) i j = v.
Proof.
  induction l as [|[[y x] u] l IH]; intros A i j v ND I; [destruct I|].
  simpl in ND. inversion ND; subst. destruct I as [E|I].
  - inversion E; subst. simpl. change (at_ (puts (put A (i, j) v) l) i j = v).
    rewrite puts_out by assumption. simpl. rewrite !Z.eqb_refl. reflexivity.
  - simpl. apply (IH (put A (y, x) u)); assumption.
Qed.

Lemma combine_fst : forall A B (l : list A) (l' : list B), length l' = length l -> map fst (combine l l') = l.
Proof. induction l as [|a l IH]; intros [|b l'] E; simpl in *; try discriminate; f_equal; auto. Qed.

Lemma puts_map : forall cs vs A, NoDup cs -> length vs = length cs ->
  map (fun p => at_ (puts A (combine cs vs)) (fst p) (snd p)) cs = vs.
Proof.
  intros cs vs A ND L.
  assert (K : forall cs' vs', length vs' = length cs' -> (forall p v, In (p, v) (combine cs' vs') -> In (p, v) (combine cs vs)) ->
     map (fun p => at_ (puts A (combine cs vs)) (fst p) (snd p)) cs' = vs').
  { induction cs' as [|[y x] cs' IH]; intros [|v vs'] L' H; simpl in *; try discriminate; [reflexivity|].
    f_equal.
    - apply puts_in; [rewrite combine_fst by assumption; assumption|]. apply H. left; reflexivity.
    - apply IH; [lia|]. intros p v' I. apply H. right; assumption. }
  apply K; auto.
Qed.

Lemma const_puts : forall cs A v,
  fold_left (fun a p => put a p v) cs A = puts A (combine cs (repeat v (length cs))).
Proof. induction cs as [|c cs IH]; intros A v; simpl; [reflexivity|]. apply IH. Qed.

(** Values for a scalar or list. *)
Definition vals_for (vs : V + list V) (n : nat) (l : list V) : Prop :=
  match vs with inl v => l = repeat v n | inr l' => l = l' /\ length l' = n end.

Lemma mask_set_spec : forall A h w m vs l, h = nrow A -> w = ncol A ->
  vals_for vs (length (true_cells h w m)) l ->
  mask_set A h w m vs = Ok (puts A (combine (true_cells h w m) l)) /\
  length l = length (true_cells h w m).
Proof.
  intros A h w m vs l -> -> H. unfold mask_set. rewrite !Z.eqb_refl. simpl.
  destruct vs as [v|vs]; simpl in H.
  - subst l. rewrite const_puts, repeat_length. auto.
  - destruct H as [-> H]. split; [|assumption].
    destruct vs as [|v [|v' vs]].
    + destruct (true_cells (nrow A) (ncol A) m); [reflexivity|discriminate].
    + rewrite const_puts. rewrite <- H. reflexivity.
    + rewrite (proj2 (Nat.eqb_eq _ _) H). reflexivity.
Qed.

Lemma column_spec : forall rows k vs, Forall2 (fun (r : list V) v => nth_error r k = Some v) rows vs ->
  column rows k = Ok vs.
Proof. intros rows k vs F. induction F as [|r v rows vs E F IH]; simpl; [reflexivity|]. rewrite E, IH. reflexivity. Qed.

Lemma mask_band_spec : forall junk (b : band V) i m value H W nb f vs, holds b H W f ->
  mask_fits m H W nb -> Z.of_nat i < nb ->
  mask_values value i (length (true_cells H W (mask_of m i))) vs ->
  exists b' f', mask_band junk b i m value = (b', None) /\ holds b' H W f' /\
    map (fun p => f' (fst p) (snd p)) (true_cells H W (mask_of m i)) = vs /\
    forall y x, mask_of m i y x = false -> f' y x = f y x.
Proof.
  intros junk b i m value H W nb f vs Hb Fm Hi Mv.
  pose proof Hb as (U & S & G).
  assert (SZ : 0 <= H /\ 0 <= W).
  { pose proof (usable_size V b U) as P. rewrite S in P. exact P. }
  destruct (G junk 0 0 H W) as (tmp & Et & R1 & R2 & R3); [unfold in_bounds; lia|].
  set (vals := match value with
              | MReal v => Ok (inl v) | M1 vs => Ok (inr vs)
              | M2 rows => bind (column rows i) (fun c => Ok (inr c)) end).
  assert (Hv : exists v, vals = Ok v /\ vals_for v (length (true_cells H W (mask_of m i))) vs).
  { unfold vals. destruct value as [v|l|rows]; simpl in Mv.
    - eexists; split; [reflexivity|exact Mv].
    - eexists; split; [reflexivity|exact Mv].
    - destruct Mv as [L F]. rewrite (column_spec _ _ _ F). simpl. eexists; split; [reflexivity|].
      simpl. split; [reflexivity|]. apply Forall2_length in F. congruence. }
  destruct Hv as (v & Ev & Hv).
  destruct (mask_set_spec tmp H W (mask_of m i) v vs (eq_sym R1) (eq_sym R2) Hv) as [Em L].
  set (new := puts tmp (combine (true_cells H W (mask_of m i)) vs)) in *.
  destruct (puts_shape (combine (true_cells H W (mask_of m i)) vs) tmp) as [N1 N2].
  destruct (setblock_holds V b H W f 0 0 new Hb) as (b' & Es & Hb').
  { fold new in N1, N2. rewrite N1, N2, R1, R2. unfold in_bounds; lia. }
  assert (Er : match m with
    | Mask3 h w nb m3 =>
        bind (py_index nb (Z.of_nat i)) (fun k =>
        bind (getblock junk b 0 0 H W) (fun tmp =>
        bind vals (fun vs => mask_set tmp h w (fun y x => m3 y x k) vs)))
    | Mask2 h w m2 =>
        bind (getblock junk b 0 0 H W) (fun tmp =>
        bind vals (fun vs => mask_set tmp h w m2 vs))
    | MaskOther => Err IndexError
    end = Ok new).
  { destruct m as [h w m2|h w nb' m3|]; simpl in Fm; [| |contradiction].
    - destruct Fm as [-> ->]. rewrite Et. simpl. rewrite Ev. simpl. exact Em.
    - destruct Fm as [-> [-> ->]]. rewrite py_index_in by lia. simpl. rewrite Et. simpl. rewrite Ev. simpl. exact Em. }
  set (f' := fun y x => if (0 <=? y) && (y <? H) && (0 <=? x) && (x <? W) then at_ new y x else f y x).
  exists b', f'.
  assert (ND : NoDup (true_cells H W (mask_of m i))) by (apply sorted_NoDup, true_cells_sorted).
  split.
  { unfold mask_band. rewrite S. fold vals. fold vals in Er. rewrite Er. exact Es. }
  split; [|split].
  - apply Hb'. fold new in N1, N2. rewrite N1, N2, R1, R2. intros p q Hp Hq. unfold f'.
    destruct ((0 <=? p) && (p <? H) && (0 <=? q) && (q <? W)) eqn:E; [|lia].
    split; [intros _; f_equal; lia|]. intros N. exfalso. apply N. lia.
  - transitivity (map (fun p => at_ new (fst p) (snd p)) (true_cells H W (mask_of m i)));
      [|apply puts_map; assumption].
    apply map_ext_in. intros p I. apply in_true_cells in I. unfold f'.
    destruct ((0 <=? fst p) && (fst p <? H) && (0 <=? snd p) && (snd p <? W)) eqn:E; [reflexivity|lia].
  - intros y x Mf. unfold f'.
    destruct ((0 <=? y) && (y <? H) && (0 <=? x) && (x <? W)) eqn:E; [|reflexivity].
    unfold new. rewrite puts_out.
    + rewrite R3 by lia. rewrite !Z.add_0_l. reflexivity.
    + rewrite combine_fst by assumption. intros I. apply in_true_cells in I. simpl in I. destruct I. congruence.
Qed.

Lemma mask_bands_spec : forall junk m value H W nb (bands : list (band V)) i F,
  (forall k b, nth_error bands k = Some b -> holds b H W (F (Z.of_nat (i + k)))) ->
  mask_fits m H W nb -> Z.of_nat (i + length bands) <= nb ->
  (forall k, (k < length bands)%nat -> exists vs,
     mask_values value (i + k) (length (true_cells H W (mask_of m (i + k)))) vs) ->
  exists bands' F', mask_bands junk bands i m value = (bands', None) /\
    length bands' = length bands /\
    (forall k b, nth_error bands' k = Some b -> holds b H W (F' (Z.of_nat (i + k)))) /\
    (forall k vs, (k < length bands)%nat ->
      mask_values value (i + k) (length (true_cells H W (mask_of m (i + k)))) vs ->
      map (fun p => F' (Z.of_nat (i + k)) (fst p) (snd p)) (true_cells H W (mask_of m (i + k))) = vs) /\
    (forall k y x, (k < length bands)%nat -> mask_of m (i + k) y x = false ->
       F' (Z.of_nat (i + k)) y x = F (Z.of_nat (i + k)) y x).
Proof.
  intros junk m value H W nb. induction bands as [|b bands IH]; intros i F Hh Fm Hn Hv.
  - exists [], F. simpl. split; [reflexivity|]. split; [reflexivity|].
    split; [intros [|k] b E; discriminate|]. split; intros; lia.
  - simpl in Hn. destruct (Hv 0%nat) as [vs0 Hv0]; [simpl; lia|].
    assert (Hb : holds b H W (F (Z.of_nat i))) by (specialize (Hh 0%nat b eq_refl); rewrite Nat.add_0_r in Hh; exact Hh).
    rewrite Nat.add_0_r in Hv0.
    destruct (mask_band_spec junk b i m value H W nb _ vs0 Hb Fm ltac:(lia) Hv0) as (b' & f' & E & Hb' & K1 & K2).
    destruct (IH (S i) F) as (bands' & F' & E' & L & Hh' & K1' & K2').
    { intros k c Ec. replace (S i + k)%nat with (i + S k)%nat by lia. apply Hh. exact Ec. }
    { assumption. } { lia. }
    { intros k Hk. replace (S i + k)%nat with (i + S k)%nat by lia. apply Hv. simpl; lia. }
    exists (b' :: bands'), (fun z => if z =? Z.of_nat i then f' else F' z).
    simpl. rewrite E, E'. split; [reflexivity|]. split; [simpl; congruence|].
    split; [|split].
    + intros [|k] c Ec; simpl in Ec.
      * inversion Ec; subst. rewrite Nat.add_0_r, Z.eqb_refl. assumption.
      * destruct (Z.of_nat (i + S k) =? Z.of_nat i) eqn:E0; [lia|].
        replace (i + S k)%nat with (S i + k)%nat by lia. apply Hh'. assumption.
    + intros [|k] vs Hk Mv.
      * rewrite Nat.add_0_r in *. rewrite Z.eqb_refl. rewrite K1.
        revert Hv0 Mv. clear. unfold mask_values. destruct value as [v|l|rows].
        -- congruence.
        -- intros [? _] [? _]. congruence.
        -- intros [_ F1] [_ F2]. apply column_spec in F1. apply column_spec in F2. congruence.
      * destruct (Z.of_nat (i + S k) =? Z.of_nat i) eqn:E0; [lia|].
        replace (i + S k)%nat with (S i + k)%nat in * by lia. apply K1'; [simpl in Hk; lia|assumption].
    + intros [|k] y x Hk Mf.
      * rewrite Nat.add_0_r in *. rewrite Z.eqb_refl. auto.
      * destruct (Z.of_nat (i + S k) =? Z.of_nat i) eqn:E0; [lia|].
        replace (i + S k)%nat with (S i + k)%nat in * by lia. apply K2'; [simpl in Hk; lia|assumption].
Qed.

Theorem set_mask_spec : forall junk (bands : list (band V)) H W F m value,
  stack_holds bands H W F -> mask_fits m H W (Z.of_nat (length bands)) ->
  (forall k, (k < length bands)%nat -> exists vs,
     mask_values value k (length (true_cells H W (mask_of m k))) vs) ->
  exists bands' F', set_mask junk bands m value = (bands', None) /\
    length bands' = length bands /\ stack_holds bands' H W F' /\
    (forall k vs, (k < length bands)%nat ->
      mask_values value k (length (true_cells H W (mask_of m k))) vs ->
      map (fun p => F' (Z.of_nat k) (fst p) (snd p)) (true_cells H W (mask_of m k)) = vs) /\
    (forall k y x, (k < length bands)%nat -> mask_of m k y x = false ->
       F' (Z.of_nat k) y x = F (Z.of_nat k) y x).
Proof.
  intros junk bands H W F m value [NE SK] Fm Hv.
  destruct (mask_bands_spec junk m value H W _ bands 0 F SK Fm) as (bands' & F' & E & L & K1 & K2 & K3).
  { simpl. lia. } { exact Hv. }
  exists bands', F'. split; [exact E|]. split; [exact L|]. split; [|split; [exact K2|exact K3]].
  split; [|exact K1]. intros ->. destruct bands; [congruence|discriminate].
Qed.

(** * Reading through a mask *)

Lemma full_slice : forall n, 0 <= n -> slice_indices n None None None = Ok (0, n, 1).
Proof. reflexivity. Qed.

Lemma py_range_full : forall n, 0 <= n -> py_range 0 n 1 = zrange 0 n.
Proof.
  intros n Hn. unfold py_range. replace (range_len 0 n 1) with n.
  - rewrite <- (map_id (zrange 0 n)) at 2. apply map_ext. intros. lia.
  - unfold range_len, zceil. simpl. rewrite Z.div_1_r. lia.
Qed.

Lemma whole : forall junk (bands : list (band V)) H W F, stack_holds bands H W F ->
  exists r, getitem junk bands (KeyTuple [KSlice None None None; KSlice None None None; KSlice None None None]) = Ok r /\
    shp r = [H; W; Z.of_nat (length bands)] /\
    forall i j k, 0 <= i < H -> 0 <= j < W -> 0 <= k < Z.of_nat (length bands) -> elt r [i; j; k] = F k i j.
Proof.
  intros junk bands H W F SH. destruct (stack_size V bands H W F SH) as [HH HW].
  assert (FW : forall n, 0 <= n -> forward n (KSlice None None None)).
  { intros n Hn s e st E. rewrite full_slice in E by assumption. inversion E; subst. simpl. assumption. }
  assert (SL : forall n, 0 <= n -> selects n (KSlice None None None) false (zrange 0 n)).
  { intros n Hn. rewrite <- py_range_full by assumption. constructor. apply full_slice. assumption. }
  destruct (getitem_spec V junk bands H W F _ _ _ _ _ _ _ _ _ SH (SL H HH) (SL W HW)
              (selb_one _ _ _ _ (SL _ (Zle_0_nat (length bands)))) (FW H HH) (FW W HW)) as (r & E & S & K).
  exists r. split; [exact E|]. split.
  - rewrite S. simpl. rewrite !zrange_length, !Z.sub_0_r, !Z2Nat.id by lia. reflexivity.
  - intros i j k Hi Hj Hk. specialize (K (Z.to_nat i) (Z.to_nat j) (Z.to_nat k) i j k).
    simpl in K. rewrite !Z2Nat.id in K by lia. apply K.
    all: rewrite zrange_nth_ex by lia; f_equal; lia.
Qed.

Theorem get_mask_spec : forall junk (bands : list (band V)) H W F,
  stack_holds bands H W F ->
  (forall m, get_mask junk bands (Mask2 H W m)
     = Ok (inl (map (fun p => map (fun k => F k (fst p) (snd p)) (zrange 0 (Z.of_nat (length bands))))
                    (true_cells H W m)))) /\
  (forall m, get_mask junk bands (Mask3 H W (Z.of_nat (length bands)) m)
     = Ok (inr (flat_map (fun p => map (fun k => F k (fst p) (snd p))
                   (filter (m (fst p) (snd p)) (zrange 0 (Z.of_nat (length bands))))) (cells H W)))).
Proof.
  intros junk bands H W F SH. destruct (whole junk bands H W F SH) as (r & E & S & K).
  split; intros m; unfold get_mask; rewrite E; unfold bind, nd_mask; rewrite S; rewrite !Z.eqb_refl; simpl; f_equal; f_equal.
  - apply map_ext_in. intros p I. apply in_true_cells in I. apply map_ext_in. intros k Ik.
    apply in_zrange in Ik. apply K; lia.
  - rewrite !flat_map_concat_map. f_equal. apply map_ext_in. intros p I. apply in_cells in I.
    apply map_ext_in. intros k Ik. apply filter_In in Ik. destruct Ik as [Ik _].
    apply in_zrange in Ik. apply K; lia.
Qed.

(** Writing back what a two-dimensional mask read changes nothing. *)
Theorem mask_read_back : forall junk (bands : list (band V)) H W F m rows,
  stack_holds bands H W F -> get_mask junk bands (Mask2 H W m) = Ok (inl rows) ->
  exists bands', set_mask junk bands (Mask2 H W m) (M2 rows) = (bands', None) /\
    stack_holds bands' H W F.
Proof.
  intros junk bands H W F m rows SH G.
  destruct (get_mask_spec junk bands H W F SH) as [G2 _]. rewrite G2 in G. injection G as G'.
  assert (MV : forall k, (k < length bands)%nat ->
     mask_values (M2 rows) k (length (true_cells H W (mask_of (Mask2 H W m) k)))
       (map (fun p => F (Z.of_nat k) (fst p) (snd p)) (true_cells H W m))).
  { intros k Hk. simpl. split; [rewrite <- G'; rewrite map_length; reflexivity|].
    rewrite <- G'. generalize (true_cells H W m). induction l as [|p l IH]; simpl; constructor; [|assumption].
    rewrite nth_error_map, zrange_nth_ex by lia. reflexivity. }
  destruct (set_mask_spec junk bands H W F (Mask2 H W m) (M2 rows) SH) as (bands' & F' & E & L & SH' & K1 & K2).
  { simpl. auto. } { intros k Hk. eexists. apply MV. assumption. }
  exists bands'. split; [exact E|]. destruct SH' as [NE SK]. split; [exact NE|].
  intros k b Eb. specialize (SK k b Eb). apply holds_content in SK. apply holds_content.
  destruct SK as (U & S & C). split; [assumption|]. split; [assumption|].
  intros y x Hy Hx. rewrite <- C by assumption.
  assert (Hk : (k < length bands)%nat) by (rewrite <- L; apply nth_error_Some; congruence).
  destruct (m y x) eqn:Em.
  - specialize (K1 k _ Hk (MV k Hk)).
    change (true_cells H W (mask_of (Mask2 H W m) k)) with (true_cells H W m) in K1.
    assert (I : In (y, x) (true_cells H W m)) by (apply in_true_cells; simpl; auto).
    revert K1 I. generalize (true_cells H W m). induction l as [|p l IH]; intros K1 I; [destruct I|].
    simpl in K1. injection K1 as K0 K1. destruct I as [Ep|I]; [subst p; simpl in K0; congruence|]. apply IH; assumption.
  - rewrite <- (K2 k y x Hk); [reflexivity|exact Em].
Qed.

(** * Stepped assignment, iteration *)

Lemma setitem_stepped : forall (bands : list (band V)) H W F k0 k1 rest cr rows cc cols cb bnds is_nd value,
  stack_holds bands H W F ->
  selects H k0 cr rows -> selects W k1 cc cols ->
  selects_bands (Z.of_nat (length bands)) rest cb bnds ->
  ~ (unit_step k0 /\ unit_step k1) ->
  setitem bands (KeyTuple (k0 :: k1 :: rest)) is_nd value = (bands, Some NotImplementedError).
Proof.
  intros bands H W F k0 k1 rest cr rows cc cols cb bnds is_nd value SH S0 S1 S2 N.
  destruct (selects_bands_spec _ rest cb bnds (Zle_0_nat _) S2) as (P2 & _).
  assert (P : forall n it cl l, selects n it cl l -> exists s e st, parse_item n it = Ok (cl, (s, e, st)) /\
             (unit_step it <-> st = 1)).
  { intros n it cl l S. inversion S as [z Hz|z Hz|a b c s e st E]; subst; simpl.
    - destruct (n =? 0) eqn:E; [lia|]. eexists _, _, _. split; [reflexivity|tauto].
    - destruct (n =? 0) eqn:E; [lia|]. eexists _, _, _. split; [reflexivity|tauto].
    - rewrite E. simpl. eexists _, _, _. split; [reflexivity|].
      unfold slice_indices in E. destruct c as [c|].
      + destruct (c =? 0); [discriminate|]. destruct (0 <? c); inversion E; subst; (split; [intros [X|X]; congruence|intros ->; auto]).
      + simpl in E. inversion E; subst. tauto. }
  destruct (P _ _ _ _ S0) as (s & e & st & P0 & U0).
  destruct (P _ _ _ _ S1) as (s' & e' & st' & P1 & U1).
  unfold setitem. rewrite (parse_key_spec V bands H W F k0 k1 rest _ _ _ SH P0 P1 P2).
  destruct (negb ((st' =? st) && (st =? 1))) eqn:E; [reflexivity|].
  exfalso. apply N. rewrite U0, U1. lia.
Qed.

Lemma mapM_Ok : forall A B (f : A -> res B) (P : A -> B -> Prop) l,
  (forall a, In a l -> exists b, f a = Ok b /\ P a b) ->
  exists bs, mapM f l = Ok bs /\ Forall2 P l bs.
Proof.
  induction l as [|a l IH]; intros H; simpl; [eauto|].
  destruct (H a (or_introl eq_refl)) as (b & E & Pb).
  destruct IH as (bs & E' & F); [intros; apply H; right; assumption|].
  rewrite E. simpl. rewrite E'. simpl. eauto.
Qed.

Theorem iter_spec : forall junk (bands : list (band V)) H W F, stack_holds bands H W F ->
  exists rows, iter junk bands = Ok rows /\ length rows = Z.to_nat H /\
    forall i row, nth_error rows i = Some row ->
      length row = length bands /\
      forall k a, nth_error row k = Some a ->
        shows a 1 W (fun _ j v => v = F (Z.of_nat k) (Z.of_nat i) j).
Proof.
  intros junk bands H W F SH. destruct (stack_size V bands H W F SH) as [HH HW].
  destruct SH as [NE SK]. unfold iter. destruct bands as [|b0 bs]; [congruence|].
  destruct (SK 0%nat b0 eq_refl) as (_ & S0 & _). rewrite S0.
  set (bands := b0 :: bs) in *.
  destruct (mapM_Ok _ _ (fun i => mapM (fun b => getblock junk b i 0 1 W) bands)
     (fun i row => length row = length bands /\
      forall k a, nth_error row k = Some a ->
        shows a 1 W (fun _ j v => v = F (Z.of_nat k) i j)) (zrange 0 H)) as (rows & E & F2).
  { intros i Hi. apply in_zrange in Hi.
    assert (G : forall l off, (forall k b, nth_error l k = Some b -> holds b H W (F (Z.of_nat (off + k)))) ->
      exists row, mapM (fun b => getblock junk b i 0 1 W) l = Ok row /\ length row = length l /\
        forall k a, nth_error row k = Some a -> shows a 1 W (fun _ j v => v = F (Z.of_nat (off + k)) i j)).
    { induction l as [|b l IH]; intros off Hh.
      - exists []. simpl. split; [reflexivity|]. split; [reflexivity|]. intros [|k]; discriminate.
      - destruct (Hh 0%nat b eq_refl) as (_ & _ & G). rewrite Nat.add_0_r in G.
        destruct (G junk i 0 1 W) as (r & Er & R1 & R2 & R3); [unfold in_bounds; lia|].
        destruct (IH (S off)) as (row & E & L & K).
        { intros k c Ec. replace (S off + k)%nat with (off + S k)%nat by lia. apply Hh. exact Ec. }
        exists (r :: row). simpl. rewrite Er. simpl. rewrite E. simpl. split; [reflexivity|].
        split; [congruence|]. intros [|k] a Ea; simpl in Ea.
        + injection Ea as <-. rewrite Nat.add_0_r. split; [assumption|]. split; [assumption|].
          intros p q Hp Hq. rewrite R3 by assumption. f_equal; lia.
        + replace (off + S k)%nat with (S off + k)%nat by lia. apply K. assumption. }
    destruct (G bands 0%nat SK) as (row & E & L & K). exists row. split; [exact E|]. split; [exact L|]. exact K. }
  exists rows. split; [exact E|]. split.
  - apply Forall2_length in F2. rewrite zrange_length in F2. rewrite <- F2. f_equal. lia.
  - intros i row Er.
    assert (X : forall l rs k r, Forall2 (fun i row => length row = length bands /\
      forall k a, nth_error row k = Some a ->
        shows a 1 W (fun _ j v => v = F (Z.of_nat k) i j)) l rs -> nth_error rs k = Some r ->
        exists z, nth_error l k = Some z /\ length r = length bands /\
      forall k a, nth_error r k = Some a ->
        shows a 1 W (fun _ j v => v = F (Z.of_nat k) z j)).
    { clear. intros l rs k r FF. revert k. induction FF as [|z r' l rs P FF IH]; intros [|k] Ek; simpl in *; try discriminate.
      - inversion Ek; subst. eauto.
      - apply IH. assumption. }
    destruct (X _ _ _ _ F2 Er) as (z & Ez & L & K). apply zrange_nth in Ez. destruct Ez as [-> _].
    rewrite Z.add_0_l in K. auto.
Qed.
End Proofs.
