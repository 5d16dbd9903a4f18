From Coq Require Import List ZArith Bool Lia ZifyBool ZifyNat.
From Verif Require Import Band_Model Band_Spec.
Import ListNotations.
Open Scope Z_scope.

Lemma in_zrange : forall a b z, In z (zrange a b) <-> a <= z < b.
Proof.
  intros a b z. unfold zrange. rewrite in_map_iff. split.
  - intros [k [E H]]. apply in_seq in H. lia.
  - intros H. exists (Z.to_nat (z - a)). split; [lia|]. apply in_seq. lia.
Qed.

Lemma div_bounds : forall a b, 0 < b -> b * (a / b) <= a < b * (a / b) + b.
Proof. intros. pose proof (Z.div_mod a b). pose proof (Z.mod_pos_bound a b). lia. Qed.

Lemma zceil_lt : forall a b k, 0 < b -> (k < zceil a b <-> k * b < a).
Proof. intros a b k H. unfold zceil. pose proof (div_bounds (- a) b H). nia. Qed.

Lemma zceil_gt : forall a b, 0 < b -> a <= zceil a b * b.
Proof. intros a b H. unfold zceil. pose proof (div_bounds (- a) b H). nia. Qed.

Lemma zceil_nonneg : forall a b, 0 < b -> 0 <= a -> 0 <= zceil a b.
Proof. intros a b H Ha. unfold zceil. pose proof (div_bounds (- a) b H). nia. Qed.

Lemma clamp_in : forall n a, 0 <= a <= n -> clamp n a = a.
Proof. intros. unfold clamp. destruct (a <? 0) eqn:E; lia. Qed.
Lemma sl_len_in : forall n a b, 0 <= a <= n -> 0 <= b <= n -> sl_len n a b = Z.max 0 (b - a).
Proof. intros. unfold sl_len. rewrite !clamp_in by lia. reflexivity. Qed.

Lemma list_upd_length : forall A (l : list A) n a, length (list_upd l n a) = length l.
Proof. induction l; intros [|n] b; simpl; auto. Qed.
Lemma list_upd_same : forall A (l : list A) n a, (n < length l)%nat ->
  nth_error (list_upd l n a) n = Some a.
Proof. induction l; intros [|n] b H; simpl in *; try lia; auto. apply IHl; lia. Qed.
Lemma list_upd_other : forall A (l : list A) n m a, n <> m ->
  nth_error (list_upd l n a) m = nth_error l m.
Proof.
  induction l; intros [|n] [|m] b H; simpl; auto; try congruence.
  all: try (apply IHl; lia).
Qed.

Section Proofs.
Variable V : Type.
Implicit Types cb : cband V.
Implicit Types A : arr V.

Lemma get2_in : forall A a b c d, 0 <= a <= b -> b <= nrow A -> 0 <= c <= d -> d <= ncol A ->
  nrow (get2 A a b c d) = b - a /\ ncol (get2 A a b c d) = d - c /\
  forall i j, at_ (get2 A a b c d) i j = at_ A (a + i) (c + j).
Proof.
  intros. unfold get2; simpl. rewrite !sl_len_in, !clamp_in by lia. repeat split; lia.
Qed.

Lemma set2_in : forall A a b c d src, 0 <= a <= b -> b <= nrow A -> 0 <= c <= d -> d <= ncol A ->
  nrow src = b - a -> ncol src = d - c ->
  exists A', set2 A a b c d src = Ok A' /\ nrow A' = nrow A /\ ncol A' = ncol A /\
    (forall i j, a <= i < b -> c <= j < d -> at_ A' i j = at_ src (i - a) (j - c)) /\
    (forall i j, ~ (a <= i < b /\ c <= j < d) -> at_ A' i j = at_ A i j).
Proof.
  intros A a b c d src H1 H2 H3 H4 Hr Hc. unfold set2.
  rewrite !sl_len_in, !clamp_in by lia.
  replace (Z.max 0 (b - a)) with (b - a) by lia.
  replace (Z.max 0 (d - c)) with (d - c) by lia.
  rewrite Hr, Hc, !Z.eqb_refl. simpl.
  eexists; split; [reflexivity|]. simpl. split; [reflexivity|]. split; [reflexivity|]. split.
  - intros i j Hi Hj.
    destruct ((a <=? i) && (i <? a + (b - a)) && (c <=? j) && (j <? c + (d - c))) eqn:E; [|lia].
    destruct (b - a =? 1) eqn:E1; destruct (d - c =? 1) eqn:E2; f_equal; lia.
  - intros i j Hn.
    destruct ((a <=? i) && (i <? a + (b - a)) && (c <=? j) && (j <? c + (d - c))) eqn:E; [lia|].
    reflexivity.
Qed.

(** * CompressedBand *)

Definition nych cb := zceil (szy cb) (chy cb).

Record wf cb : Prop := {
  wf_chy : 0 < chy cb; wf_chx : 0 < chx cb;
  wf_szy : 0 <= szy cb; wf_szx : 0 <= szx cb;
  wf_len : Z.of_nat (length (data cb)) = nych cb * nxchunks cb;
  wf_chunk : forall n c, nth_error (data cb) n = Some (Some c) ->
                         nrow c = chy cb /\ ncol c = chx cb }.

Definition content cb (y x : Z) : V :=
  match nth_error (data cb) (Z.to_nat (y / chy cb * nxchunks cb + x / chx cb)) with
  | Some (Some c) => at_ c (y - y / chy cb * chy cb) (x - x / chx cb * chx cb)
  | _ => initval cb
  end.

Definition valid_id cb (ij : Z * Z) : Prop :=
  0 <= fst ij < nych cb /\ 0 <= snd ij < nxchunks cb.

Lemma id_range : forall cb ij, valid_id cb ij ->
  0 <= fst ij * nxchunks cb + snd ij < nych cb * nxchunks cb.
Proof. intros cb [i j] [H1 H2]; simpl in *. nia. Qed.

Lemma id_inj : forall n i j i' j', 0 <= j < n -> 0 <= j' < n ->
  i * n + j = i' * n + j' -> i = i' /\ j = j'.
Proof. intros. assert (i = i') by nia. subst. split; [reflexivity|lia]. Qed.

Lemma fetch_valid : forall cb ij, wf cb -> valid_id cb ij ->
  exists c, nth_error (data cb) (Z.to_nat (fst ij * nxchunks cb + snd ij)) = Some c /\
    fetch cb (cnum (chunk_of cb ij)) = Ok (fst ij * nxchunks cb + snd ij, c).
Proof.
  intros cb ij W Hv. pose proof (id_range cb ij Hv) as R.
  pose proof (wf_len cb W) as L.
  destruct (nth_error (data cb) (Z.to_nat (fst ij * nxchunks cb + snd ij))) eqn:E.
  - exists o. split; [reflexivity|]. destruct ij as [i j]. simpl in *.
    unfold fetch, py_index. rewrite L.
    destruct ((0 <=? i * nxchunks cb + j) && (i * nxchunks cb + j <? nych cb * nxchunks cb)) eqn:B; [|lia].
    simpl. rewrite E. reflexivity.
  - apply nth_error_None in E. lia.
Qed.

(** The cell belongs to the chunk. *)
Definition cell_in cb (ij : Z * Z) (y x : Z) : Prop :=
  y / chy cb = fst ij /\ x / chx cb = snd ij.

Lemma cell_in_iff : forall cb ij y x, wf cb ->
  cell_in cb ij y x <->
  (fst ij * chy cb <= y < (fst ij + 1) * chy cb /\ snd ij * chx cb <= x < (snd ij + 1) * chx cb).
Proof.
  intros cb [i j] y x W. unfold cell_in. simpl.
  pose proof (div_bounds y (chy cb) (wf_chy cb W)).
  pose proof (div_bounds x (chx cb) (wf_chx cb W)).
  pose proof (wf_chy cb W). pose proof (wf_chx cb W).
  split.
  - intros [E1 E2]. nia.
  - intros [E1 E2]. split; [assert (y / chy cb = i) by nia | assert (x / chx cb = j) by nia]; lia.
Qed.

(** The chunk meets (possibly in an empty rectangle) the window. *)
Definition touches cb (ij : Z * Z) (y x h w : Z) : Prop :=
  y / chy cb <= fst ij < zceil (y + h) (chy cb) /\
  x / chx cb <= snd ij < zceil (x + w) (chx cb).

Lemma in_chunk_ids : forall cb y x h w ij,
  In ij (chunk_ids cb y x h w) <-> touches cb ij y x h w.
Proof.
  intros cb y x h w [i j]. unfold chunk_ids, touches. rewrite in_flat_map. simpl. split.
  - intros [i' [H1 H2]]. apply in_zrange in H1. apply in_map_iff in H2.
    destruct H2 as [j' [E H2]]. apply in_zrange in H2. inversion E; subst. lia.
  - intros [H1 H2]. exists i. split; [apply in_zrange; lia|].
    apply in_map_iff. exists j. split; [reflexivity|apply in_zrange; lia].
Qed.

Lemma touches_bounds : forall cb ij y x h w, wf cb -> in_bounds (szy cb) (szx cb) y x h w ->
  touches cb ij y x h w ->
  valid_id cb ij /\
  y < (fst ij + 1) * chy cb /\ fst ij * chy cb < y + h + (if h =? 0 then 1 else 0) /\
  x < (snd ij + 1) * chx cb /\ snd ij * chx cb < x + w + (if w =? 0 then 1 else 0) /\
  fst ij * chy cb < y + h /\ snd ij * chx cb < x + w.
Proof.
  intros cb [i j] y x h w W (B1 & B2 & B3 & B4 & B5 & B6) [[T1 T2] [T3 T4]]. simpl in *.
  pose proof (wf_chy cb W) as P1. pose proof (wf_chx cb W) as P2.
  apply zceil_lt in T2; [|assumption]. apply zceil_lt in T4; [|assumption].
  pose proof (div_bounds y (chy cb) P1). pose proof (div_bounds x (chx cb) P2).
  assert (0 <= y / chy cb) by (apply Z.div_pos; lia).
  assert (0 <= x / chx cb) by (apply Z.div_pos; lia).
  unfold valid_id, nych, nxchunks. simpl.
  assert (i < zceil (szy cb) (chy cb)) by (apply zceil_lt; lia).
  assert (j < zceil (szx cb) (chx cb)) by (apply zceil_lt; lia).
  repeat split; try lia; try nia;
    destruct (h =? 0); destruct (w =? 0); lia.
Qed.

Lemma with_data_wf : forall cb k (c : arr V), wf cb -> nrow c = chy cb -> ncol c = chx cb ->
  wf (with_data cb (list_upd (data cb) k (Some c))).
Proof.
  intros cb k c W Hr Hc. destruct W as [W1 W2 W3 W4 W5 W6]. constructor; simpl; auto.
  - rewrite list_upd_length. exact W5.
  - intros n c' E. destruct (Nat.eq_dec k n) as [E'|N].
    + subst n. destruct (lt_dec k (length (data cb))) as [L|L].
      * rewrite list_upd_same in E by assumption. inversion E; subst. auto.
      * assert (nth_error (list_upd (data cb) k (Some c)) k = None)
          by (apply nth_error_None; rewrite list_upd_length; lia). congruence.
    + rewrite list_upd_other in E by assumption. eauto.
Qed.

Definition same_conf cb cb' : Prop :=
  szy cb' = szy cb /\ szx cb' = szx cb /\ chy cb' = chy cb /\ chx cb' = chx cb /\
  initval cb' = initval cb.

Lemma content_upd_in : forall cb i j (c' : arr V) p q, wf cb -> valid_id cb (i, j) ->
  cell_in cb (i, j) p q ->
  content (with_data cb (list_upd (data cb) (Z.to_nat (i * nxchunks cb + j)) (Some c'))) p q
  = at_ c' (p - i * chy cb) (q - j * chx cb).
Proof.
  intros cb i j c' p q W Hv [E1 E2].
  pose proof (id_range cb (i, j) Hv) as R. simpl in R.
  pose proof (wf_len cb W) as L.
  unfold content, with_data, nxchunks in *. simpl in *.
  rewrite E1, E2. rewrite list_upd_same; [reflexivity|]. clear - R L. lia.
Qed.

Lemma content_upd_out : forall cb i j (c' : arr V) p q, wf cb -> valid_id cb (i, j) ->
  0 <= p < szy cb -> 0 <= q < szx cb -> ~ cell_in cb (i, j) p q ->
  content (with_data cb (list_upd (data cb) (Z.to_nat (i * nxchunks cb + j)) (Some c'))) p q
  = content cb p q.
Proof.
  intros cb i j c' p q W Hv Hp Hq N.
  pose proof (id_range cb (i, j) Hv) as R. simpl in R.
  pose proof (wf_chy cb W) as P1. pose proof (wf_chx cb W) as P2.
  assert (V1 : 0 <= p / chy cb < nych cb).
  { split; [apply Z.div_pos; lia|]. unfold nych. apply zceil_lt; [assumption|].
    pose proof (div_bounds p (chy cb) P1). lia. }
  assert (V2 : 0 <= q / chx cb < nxchunks cb).
  { split; [apply Z.div_pos; lia|]. unfold nxchunks. apply zceil_lt; [assumption|].
    pose proof (div_bounds q (chx cb) P2). lia. }
  pose proof (id_range cb (p / chy cb, q / chx cb) (conj V1 V2)) as R2. simpl in R2.
  unfold content. change (nxchunks (with_data cb _)) with (nxchunks cb). simpl.
  rewrite list_upd_other; [reflexivity|].
  intros E. apply N. unfold cell_in; simpl.
  destruct Hv as [_ Hv]. simpl in Hv.
  destruct (id_inj (nxchunks cb) i j (p / chy cb) (q / chx cb) Hv V2); [|split; congruence].
  clear - R R2 E. lia.
Qed.

Lemma set_chunk_spec : forall cb y x (a : arr V) ij, wf cb ->
  in_bounds (szy cb) (szx cb) y x (nrow a) (ncol a) ->
  touches cb ij y x (nrow a) (ncol a) ->
  exists cb', set_chunk cb y x a ij = Ok cb' /\ wf cb' /\ same_conf cb cb' /\
    forall p q, 0 <= p < szy cb -> 0 <= q < szx cb ->
      (cell_in cb ij p q -> covers (mkW y x a) p q ->
         content cb' p q = at_ a (p - y) (q - x)) /\
      (~ (cell_in cb ij p q /\ covers (mkW y x a) p q) -> content cb' p q = content cb p q).
Proof.
  intros cb y x a ij W B T.
  destruct (touches_bounds cb ij y x _ _ W B T) as (Hv & T1 & _ & T3 & _ & T5 & T6).
  destruct B as (B1 & B2 & B3 & B4 & B5 & B6).
  destruct (fetch_valid cb ij W Hv) as [oc [En Ef]].
  pose proof (wf_chy cb W) as P1. pose proof (wf_chx cb W) as P2.
  unfold set_chunk. rewrite Ef. simpl.
  assert (Hc : exists c, match oc with Some c => Ok c
                         | None => np_full (chy cb) (chx cb) (initval cb) end = Ok c /\
               nrow c = chy cb /\ ncol c = chx cb /\
               forall p q, cell_in cb ij p q ->
                 at_ c (p - fst ij * chy cb) (q - snd ij * chx cb) = content cb p q).
  { destruct oc as [c|].
    - exists c. split; [reflexivity|]. destruct (wf_chunk cb W _ _ En) as [R C].
      split; [assumption|]. split; [assumption|].
      intros p q [E1 E2]. unfold content. rewrite E1, E2, En. reflexivity.
    - unfold np_full. destruct ((chy cb <? 0) || (chx cb <? 0)) eqn:E; [lia|].
      eexists; split; [reflexivity|]. simpl. split; [reflexivity|]. split; [reflexivity|].
      intros p q [E1 E2]. unfold content. rewrite E1, E2, En. reflexivity. }
  destruct Hc as [c [Ec [Rc [Cc Kc]]]]. rewrite Ec. simpl.
  destruct ij as [i j]. simpl in *.
  set (yst := i * chy cb) in *. set (xst := j * chx cb) in *.
  replace (Z.min ((i + 1) * chy cb) (szy cb)) with (Z.min (yst + chy cb) (szy cb)) in * by (subst yst; lia).
  replace (Z.min ((j + 1) * chx cb) (szx cb)) with (Z.min (xst + chx cb) (szx cb)) in * by (subst xst; lia).
  replace ((i + 1) * chy cb) with (yst + chy cb) in T1 by (subst yst; lia).
  replace ((j + 1) * chx cb) with (xst + chx cb) in T3 by (subst xst; lia).
  destruct (get2_in a (Z.max 0 (yst - y)) (Z.min (nrow a) (Z.min (yst + chy cb) (szy cb) - y))
              (Z.max 0 (xst - x)) (Z.min (ncol a) (Z.min (xst + chx cb) (szx cb) - x)))
    as (G1 & G2 & G3); try lia.
  edestruct (set2_in c (Z.max 0 (y - yst)) (Z.min (chy cb) (y + nrow a - yst))
              (Z.max 0 (x - xst)) (Z.min (chx cb) (x + ncol a - xst))
              (get2 a (Z.max 0 (yst - y)) (Z.min (nrow a) (Z.min (yst + chy cb) (szy cb) - y))
              (Z.max 0 (xst - x)) (Z.min (ncol a) (Z.min (xst + chx cb) (szx cb) - x))))
    as (c' & Es & S1 & S2 & S3 & S4); try lia.
  rewrite Es. simpl. eexists; split; [reflexivity|].
  split; [apply with_data_wf; [assumption|congruence|congruence]|].
  split; [repeat split|].
  pose proof (id_range cb (i, j) Hv) as R. simpl in R.
  pose proof (wf_len cb W) as L.
  intros p q Hp Hq.
  assert (Hcell : cell_in cb (i, j) p q \/ ~ cell_in cb (i, j) p q).
  { unfold cell_in; simpl. lia. }
  pose proof (fun C => content_upd_in cb i j c' p q W Hv C) as K1.
  pose proof (fun C => content_upd_out cb i j c' p q W Hv Hp Hq C) as K2.
  fold yst xst in K1. clear R L.
  assert (Kin : cell_in cb (i, j) p q ->
                yst <= p < yst + chy cb /\ xst <= q < xst + chx cb).
  { intros C. apply (cell_in_iff cb (i, j) p q W) in C. simpl in C. subst yst xst. lia. }
  split.
  - intros C D. rewrite (K1 C). specialize (Kin C). unfold covers in D; simpl in D.
    clear K1 K2 S4 S2 S1 G1 G2.
    rewrite S3; [|lia|lia]. rewrite G3. f_equal; clear - Kin D; lia.
  - intros N. destruct Hcell as [C|C]; [|apply K2; assumption].
    rewrite (K1 C). specialize (Kin C).
    assert (~ covers (mkW y x a) p q) as ND by tauto. unfold covers in ND; simpl in ND.
    rewrite S4; [apply Kc; assumption|]. clear - ND Kin. lia.
Qed.

Lemma same_conf_trans : forall cb1 cb2 cb3, same_conf cb1 cb2 -> same_conf cb2 cb3 -> same_conf cb1 cb3.
Proof. unfold same_conf. intros cb1 cb2 cb3 (a1&a2&a3&a4&a5) (b1&b2&b3&b4&b5). repeat split; congruence. Qed.

Lemma touches_conf : forall cb cb' ij y x h w, same_conf cb cb' ->
  touches cb ij y x h w -> touches cb' ij y x h w.
Proof. intros cb cb' ij y x h w (a1&a2&a3&a4&a5). unfold touches. rewrite a3, a4. auto. Qed.

Lemma set_chunks_spec : forall l cb y x (a : arr V), wf cb ->
  in_bounds (szy cb) (szx cb) y x (nrow a) (ncol a) ->
  (forall ij, In ij l -> touches cb ij y x (nrow a) (ncol a)) ->
  exists cb', set_chunks cb y x a l = (cb', None) /\ wf cb' /\ same_conf cb cb' /\
    forall p q, 0 <= p < szy cb -> 0 <= q < szx cb ->
      ((exists ij, In ij l /\ cell_in cb ij p q) -> covers (mkW y x a) p q ->
         content cb' p q = at_ a (p - y) (q - x)) /\
      (~ covers (mkW y x a) p q -> content cb' p q = content cb p q) /\
      ((forall ij, In ij l -> ~ cell_in cb ij p q) -> content cb' p q = content cb p q).
Proof.
  induction l as [|ij l IH]; intros cb y x a W B T.
  - exists cb. simpl. split; [reflexivity|]. split; [assumption|]. split; [repeat split|].
    intros p q Hp Hq. split; [|split; reflexivity]. intros [ij [[] _]].
  - destruct (set_chunk_spec cb y x a ij W B (T ij (or_introl eq_refl)))
      as (cb1 & E1 & W1 & C1 & K1).
    pose proof C1 as (a1&a2&a3&a4&a5).
    destruct (IH cb1 y x a W1) as (cb2 & E2 & W2 & C2 & K2).
    { rewrite a1, a2. assumption. }
    { intros ij' I. eapply touches_conf; [exact C1|]. apply T. right; assumption. }
    exists cb2. simpl. rewrite E1. split; [assumption|]. split; [assumption|].
    split; [eapply same_conf_trans; eassumption|].
    intros p q Hp Hq. destruct (K1 p q Hp Hq) as [K1a K1b].
    rewrite <- a1 in Hp. rewrite <- a2 in Hq. destruct (K2 p q Hp Hq) as (K2a & K2b & K2c).
    assert (CC : forall ij, cell_in cb1 ij p q <-> cell_in cb ij p q)
      by (intros; unfold cell_in; rewrite a3, a4; tauto).
    assert (Dec : (exists ij', In ij' l /\ cell_in cb ij' p q) \/
                  (forall ij', In ij' l -> ~ cell_in cb ij' p q)).
    { destruct (in_dec (fun u v : Z * Z => ltac:(decide equality; apply Z.eq_dec) : {u = v} + {u <> v})
                 (p / chy cb, q / chx cb) l) as [I|I].
      - left. eexists; split; [exact I|]. split; reflexivity.
      - right. intros [i j] I' [X1 X2]. simpl in *. subst. contradiction. }
    split; [|split].
    + intros [ij' [I Hc]] D. destruct Dec as [[ij2 [I2 Hc2]]|N].
      * apply K2a; [|assumption]. exists ij2. split; [assumption|]. apply CC; assumption.
      * rewrite K2c; [|intros ij2 I2; rewrite CC; apply N; assumption].
        destruct I as [E|I]; [subst|exfalso; eapply N; eassumption]. apply K1a; assumption.
    + intros D. rewrite K2b by assumption. apply K1b. tauto.
    + intros N. rewrite K2c; [apply K1b; intros [X _]; eapply N; [left; reflexivity|exact X]|].
      intros ij2 I2. rewrite CC. apply N. right; assumption.
Qed.

Lemma covers_touched : forall cb y x h w p q, wf cb -> y <= p < y + h -> x <= q < x + w ->
  touches cb (p / chy cb, q / chx cb) y x h w.
Proof.
  intros cb y x h w p q W Hp Hq. unfold touches; simpl.
  pose proof (wf_chy cb W) as P1. pose proof (wf_chx cb W) as P2.
  pose proof (div_bounds p _ P1). pose proof (div_bounds q _ P2).
  split; split; try (apply Z.div_le_mono; lia); apply zceil_lt; lia.
Qed.

Theorem setblock_spec : forall cb w, wf cb -> write_ok (szy cb) (szx cb) w ->
  exists cb', cb_setblock cb (wy w) (wx w) (wa w) = (cb', None) /\ wf cb' /\ same_conf cb cb' /\
    forall p q, 0 <= p < szy cb -> 0 <= q < szx cb ->
      (covers w p q -> content cb' p q = at_ (wa w) (p - wy w) (q - wx w)) /\
      (~ covers w p q -> content cb' p q = content cb p q).
Proof.
  intros cb [y x a] W B. unfold write_ok in B. simpl in *.
  destruct (set_chunks_spec (chunk_ids cb y x (nrow a) (ncol a)) cb y x a W B) as (cb' & E & W' & C & K).
  { intros ij I. apply in_chunk_ids. assumption. }
  exists cb'. split; [exact E|]. split; [assumption|]. split; [assumption|].
  intros p q Hp Hq. destruct (K p q Hp Hq) as (K1 & K2 & _). split; [|exact K2].
  intros D. apply K1; [|exact D]. exists (p / chy cb, q / chx cb). split; [|split; reflexivity].
  apply in_chunk_ids. destruct D. apply covers_touched; assumption.
Qed.

(** * getblock *)

Lemma get_chunk_spec : forall cb y x h w r ij, wf cb ->
  in_bounds (szy cb) (szx cb) y x h w -> touches cb ij y x h w ->
  nrow r = h -> ncol r = w ->
  exists r', get_chunk cb y x h w r ij = Ok r' /\ nrow r' = h /\ ncol r' = w /\
    forall s t, 0 <= s < h -> 0 <= t < w ->
      (cell_in cb ij (y + s) (x + t) -> at_ r' s t = content cb (y + s) (x + t)) /\
      (~ cell_in cb ij (y + s) (x + t) -> at_ r' s t = at_ r s t).
Proof.
  intros cb y x h w r ij W B T Hr Hw.
  destruct (touches_bounds cb ij y x _ _ W B T) as (Hv & T1 & _ & T3 & _ & T5 & T6).
  destruct B as (B1 & B2 & B3 & B4 & B5 & B6).
  destruct (fetch_valid cb ij W Hv) as [oc [En Ef]].
  pose proof (wf_chy cb W) as P1. pose proof (wf_chx cb W) as P2.
  unfold get_chunk. rewrite Ef. simpl.
  destruct ij as [i j]. simpl in *.
  set (yst := i * chy cb) in *. set (xst := j * chx cb) in *.
  replace (Z.min ((i + 1) * chy cb) (szy cb)) with (Z.min (yst + chy cb) (szy cb)) in * by (subst yst; lia).
  replace (Z.min ((j + 1) * chx cb) (szx cb)) with (Z.min (xst + chx cb) (szx cb)) in * by (subst xst; lia).
  replace ((i + 1) * chy cb) with (yst + chy cb) in T1 by (subst yst; lia).
  replace ((j + 1) * chx cb) with (xst + chx cb) in T3 by (subst xst; lia).
  set (oy0 := Z.max 0 (yst - y)) in *. set (oy1 := Z.min h (Z.min (yst + chy cb) (szy cb) - y)) in *.
  set (ox0 := Z.max 0 (xst - x)) in *. set (ox1 := Z.min w (Z.min (xst + chx cb) (szx cb) - x)) in *.
  assert (Hs : exists src, match oc with
     | Some c => Ok (get2 c (Z.max y yst - yst) (Z.min (y + h) (Z.min (yst + chy cb) (szy cb)) - yst)
                      (Z.max x xst - xst) (Z.min (x + w) (Z.min (xst + chx cb) (szx cb)) - xst))
     | None => np_full (oy1 - oy0) (ox1 - ox0) (initval cb) end = Ok src /\
     nrow src = oy1 - oy0 /\ ncol src = ox1 - ox0 /\
     forall s t, cell_in cb (i, j) (y + s) (x + t) ->
       at_ src (s - oy0) (t - ox0) = content cb (y + s) (x + t)).
  { destruct oc as [c|].
    - destruct (wf_chunk cb W _ _ En) as [R C].
      edestruct (get2_in c (Z.max y yst - yst) (Z.min (y + h) (Z.min (yst + chy cb) (szy cb)) - yst)
                   (Z.max x xst - xst) (Z.min (x + w) (Z.min (xst + chx cb) (szx cb)) - xst))
        as (G1 & G2 & G3); try lia.
      eexists; split; [reflexivity|]. split; [lia|]. split; [lia|].
      intros s t [E1 E2]. rewrite G3. unfold content. simpl in E1, E2. rewrite E1, E2, En.
      f_equal; subst yst xst; lia.
    - unfold np_full. destruct ((oy1 - oy0 <? 0) || (ox1 - ox0 <? 0)) eqn:E; [lia|].
      eexists; split; [reflexivity|]. simpl. split; [reflexivity|]. split; [reflexivity|].
      intros s t [E1 E2]. unfold content. simpl in E1, E2. rewrite E1, E2, En. reflexivity. }
  destruct Hs as (src & Es & S1 & S2 & S3). rewrite Es. simpl.
  edestruct (set2_in r oy0 oy1 ox0 ox1 src) as (r' & E' & R1 & R2 & R3 & R4); try lia.
  exists r'. split; [exact E'|]. split; [congruence|]. split; [congruence|].
  intros s t Hs Ht. pose proof (cell_in_iff cb (i, j) (y + s) (x + t) W) as CI. simpl in CI.
  split.
  - intros C. rewrite R3; [apply S3; assumption| |]; apply CI in C; subst yst xst; lia.
  - intros N. apply R4. intros [X1 X2]. apply N, CI. subst yst xst. lia.
Qed.

Lemma get_chunks_spec : forall l cb y x h w r, wf cb ->
  in_bounds (szy cb) (szx cb) y x h w ->
  (forall ij, In ij l -> touches cb ij y x h w) ->
  nrow r = h -> ncol r = w ->
  exists r', get_chunks cb y x h w r l = Ok r' /\ nrow r' = h /\ ncol r' = w /\
    forall s t, 0 <= s < h -> 0 <= t < w ->
      ((exists ij, In ij l /\ cell_in cb ij (y + s) (x + t)) \/ at_ r s t = content cb (y + s) (x + t) ->
        at_ r' s t = content cb (y + s) (x + t)).
Proof.
  induction l as [|ij l IH]; intros cb y x h w r W B T Hr Hw.
  - exists r. simpl. repeat split; auto. intros s t _ _ [[ij [[] _]]|E]; exact E.
  - destruct (get_chunk_spec cb y x h w r ij W B (T ij (or_introl eq_refl)) Hr Hw)
      as (r1 & E1 & R1 & C1 & K1).
    destruct (IH cb y x h w r1 W B (fun ij' I => T ij' (or_intror I)) R1 C1)
      as (r2 & E2 & R2 & C2 & K2).
    exists r2. simpl. rewrite E1. simpl. split; [assumption|]. split; [assumption|]. split; [assumption|].
    intros s t Hs Ht D. apply K2; try assumption. destruct (K1 s t Hs Ht) as [Ka Kb].
    assert (Dec : cell_in cb ij (y + s) (x + t) \/ ~ cell_in cb ij (y + s) (x + t))
      by (unfold cell_in; lia).
    destruct Dec as [C|N]; [right; apply Ka; assumption|].
    destruct D as [[ij' [[E|I] C]]|D].
    + subst. contradiction.
    + left. eauto.
    + right. rewrite Kb by assumption. exact D.
Qed.

Theorem getblock_spec : forall junk cb y x h w, wf cb ->
  in_bounds (szy cb) (szx cb) y x h w ->
  exists r, cb_getblock junk cb y x h w = Ok r /\
    shows r h w (fun i j v => v = content cb (y + i) (x + j)).
Proof.
  intros junk cb y x h w W B. unfold cb_getblock, np_empty.
  destruct ((h <? 0) || (w <? 0)) eqn:E; [destruct B; lia|]. simpl.
  destruct (get_chunks_spec (chunk_ids cb y x h w) cb y x h w (mkA h w junk) W B)
    as (r & Er & R & C & K); simpl; auto.
  { intros ij I. apply in_chunk_ids. assumption. }
  exists r. split; [exact Er|]. split; [assumption|]. split; [assumption|].
  intros i j Hi Hj. apply K; try assumption. left.
  exists ((y + i) / chy cb, (x + j) / chx cb). split; [|split; reflexivity].
  apply in_chunk_ids. apply covers_touched; [assumption|lia|lia].
Qed.

Lemma init_wf : forall sy sx cy cx (v : V), 0 <= sy -> 0 <= sx -> 0 < cy -> 0 < cx ->
  wf (cb_init sy sx cy cx v).
Proof.
  intros sy sx cy cx v H1 H2 H3 H4. constructor; simpl; auto.
  - rewrite repeat_length. unfold nych, nxchunks; simpl.
    pose proof (zceil_nonneg sy cy H3 H1). pose proof (zceil_nonneg sx cx H4 H2).
    rewrite Z2Nat.id by nia. reflexivity.
  - intros n c E. apply nth_error_In, repeat_spec in E. discriminate.
Qed.

Lemma init_content : forall sy sx cy cx (v : V) y x, content (cb_init sy sx cy cx v) y x = v.
Proof.
  intros. unfold content. simpl.
  destruct (nth_error (repeat _ _) _) eqn:E; [|reflexivity].
  apply nth_error_In, repeat_spec in E. subst. reflexivity.
Qed.

Lemma run_app : forall ws1 ws2 cb cb', cb_run cb ws1 = (cb', None) ->
  cb_run cb (ws1 ++ ws2) = cb_run cb' ws2.
Proof.
  induction ws1 as [|w ws1 IH]; intros ws2 cb cb' E; simpl in *.
  - congruence.
  - destruct (cb_setblock cb (wy w) (wx w) (wa w)) as [cb1 [e|]]; [discriminate|]. eauto.
Qed.

Lemma covers_dec : forall (w : write V) p q, covers w p q \/ ~ covers w p q.
Proof. intros. unfold covers. lia. Qed.

Lemma run_spec : forall ws cb init, wf cb ->
  (forall p q, content cb p q = init) ->
  Forall (write_ok (szy cb) (szx cb)) ws ->
  exists cb', cb_run cb ws = (cb', None) /\ wf cb' /\ same_conf cb cb' /\
    forall p q, 0 <= p < szy cb -> 0 <= q < szx cb -> last_value init ws p q (content cb' p q).
Proof.
  induction ws as [|w ws IH] using rev_ind; intros cb init W I F.
  - exists cb. simpl. split; [reflexivity|]. split; [assumption|]. split; [repeat split|].
    intros. rewrite I. constructor.
  - apply Forall_app in F. destruct F as [F1 F2]. inversion F2 as [|? ? Hw _]; subst.
    destruct (IH cb init W I F1) as (cb1 & E1 & W1 & C1 & K1).
    pose proof C1 as (a1&a2&_).
    destruct (setblock_spec cb1 w W1) as (cb2 & E2 & W2 & C2 & K2).
    { rewrite a1, a2. assumption. }
    exists cb2. rewrite (run_app _ _ _ _ E1). simpl. rewrite E2.
    split; [reflexivity|]. split; [assumption|]. split; [eapply same_conf_trans; eassumption|].
    intros p q Hp Hq. destruct (K2 p q) as [Ka Kb]; try congruence.
    destruct (covers_dec w p q) as [D|D].
    + rewrite Ka by assumption. constructor. assumption.
    + rewrite Kb by assumption. constructor; auto.
Qed.

Theorem compressed_is_array : forall junk sy sx cy cx (init : V) ws,
  0 <= sy -> 0 <= sx -> 0 < cy -> 0 < cx -> Forall (write_ok sy sx) ws ->
  exists cb, cb_run (cb_init sy sx cy cx init) ws = (cb, None) /\
    forall y x h w, in_bounds sy sx y x h w ->
      exists r, cb_getblock junk cb y x h w = Ok r /\
        shows r h w (fun i j v => last_value init ws (y + i) (x + j) v).
Proof.
  intros junk sy sx cy cx init ws H1 H2 H3 H4 F.
  destruct (run_spec ws (cb_init sy sx cy cx init) init) as (cb & E & W & C & K).
  { apply init_wf; assumption. }
  { intros. apply init_content. }
  { exact F. }
  exists cb. split; [exact E|]. intros y x h w B.
  destruct C as (a1&a2&_). simpl in a1, a2.
  destruct (getblock_spec junk cb y x h w W) as (r & Er & R1 & R2 & R3).
  { rewrite a1, a2. assumption. }
  exists r. split; [exact Er|]. split; [assumption|]. split; [assumption|].
  intros i j Hi Hj. rewrite R3 by assumption. destruct B as (B1&B2&B3&B4&B5&B6).
  apply K; simpl; lia.
Qed.

(** * SimpleBand *)

Lemma simple_setblock_spec : forall A w, write_ok (nrow A) (ncol A) w ->
  exists A', simple_setblock A (wy w) (wx w) (wa w) = Ok A' /\
    nrow A' = nrow A /\ ncol A' = ncol A /\
    forall p q, (covers w p q -> at_ A' p q = at_ (wa w) (p - wy w) (q - wx w)) /\
                (~ covers w p q -> at_ A' p q = at_ A p q).
Proof.
  intros A [y x a] B. unfold write_ok, in_bounds in B. simpl in *. unfold simple_setblock.
  edestruct (set2_in A y (y + nrow a) x (x + ncol a) a) as (A' & E & R & C & K1 & K2); try lia.
  exists A'. split; [exact E|]. split; [exact R|]. split; [exact C|].
  intros p q. split; intros D; unfold covers in D; simpl in D.
  - apply K1; lia.
  - apply K2; lia.
Qed.

Lemma simple_run_app : forall ws1 ws2 A A', simple_run A ws1 = Ok A' ->
  simple_run A (ws1 ++ ws2) = simple_run A' ws2.
Proof.
  induction ws1 as [|w ws1 IH]; intros ws2 A A' E; simpl in *.
  - congruence.
  - destruct (simple_setblock A (wy w) (wx w) (wa w)); [simpl in *; eauto|discriminate].
Qed.

Lemma simple_run_spec : forall ws A (init : V),
  (forall p q, 0 <= p < nrow A -> 0 <= q < ncol A -> at_ A p q = init) ->
  Forall (write_ok (nrow A) (ncol A)) ws ->
  exists A', simple_run A ws = Ok A' /\ nrow A' = nrow A /\ ncol A' = ncol A /\
    forall p q, 0 <= p < nrow A -> 0 <= q < ncol A -> last_value init ws p q (at_ A' p q).
Proof.
  induction ws as [|w ws IH] using rev_ind; intros A init I F.
  - exists A. simpl. repeat split; auto. intros. rewrite I by assumption. constructor.
  - apply Forall_app in F. destruct F as [F1 F2]. inversion F2 as [|? ? Hw _]; subst.
    destruct (IH A init I F1) as (A1 & E1 & R1 & C1 & K1).
    destruct (simple_setblock_spec A1 w) as (A2 & E2 & R2 & C2 & K2).
    { rewrite R1, C1. assumption. }
    exists A2. rewrite (simple_run_app _ _ _ _ E1). simpl. rewrite E2. simpl.
    split; [reflexivity|]. split; [congruence|]. split; [congruence|].
    intros p q Hp Hq. destruct (K2 p q) as [Ka Kb].
    destruct (covers_dec w p q) as [D|D].
    + rewrite Ka by assumption. constructor. assumption.
    + rewrite Kb by assumption. constructor; auto.
Qed.

Lemma last_value_det : forall init ws p q (v v' : V),
  last_value init ws p q v -> last_value init ws p q v' -> v = v'.
Proof.
  intros init ws. induction ws as [|w ws IH] using rev_ind; intros p q v v' H1 H2.
  - inversion H1 as [| ? ? ? ? ? E | ? ? ? ? ? ? ? E]; inversion H2 as [| ? ? ? ? ? E' | ? ? ? ? ? ? ? E'];
      subst; try reflexivity; try (exfalso; eapply app_cons_not_nil; symmetry; eassumption).
  - inversion H1 as [? ? E| ? ? ? ? D E | ? ? ? ? ? D L E];
      inversion H2 as [? ? E'| ? ? ? ? D' E' | ? ? ? ? ? D' L' E'];
      try (exfalso; eapply app_cons_not_nil; eassumption);
      try (exfalso; eapply app_cons_not_nil; symmetry; eassumption).
    all: repeat match goal with H : _ ++ [_] = _ ++ [_] |- _ => apply app_inj_tail in H; destruct H; subst end.
    all: try contradiction; try reflexivity.
    eapply IH; eassumption.
Qed.

Lemma simple_getblock_in : forall A y x h w, in_bounds (nrow A) (ncol A) y x h w ->
  shows (simple_getblock A y x h w) h w (fun i j v => v = at_ A (y + i) (x + j)).
Proof.
  intros A y x h w (B1&B2&B3&B4&B5&B6). unfold simple_getblock.
  destruct (get2_in A y (y + h) x (x + w)) as (G1&G2&G3); try lia.
  split; [lia|]. split; [lia|]. intros. rewrite G3. reflexivity.
Qed.

Theorem simple_is_array : forall sy sx (init : V) ws,
  0 <= sy -> 0 <= sx -> Forall (write_ok sy sx) ws ->
  exists A, simple_run (mkA sy sx (fun _ _ => init)) ws = Ok A /\
    forall y x h w, in_bounds sy sx y x h w ->
      shows (simple_getblock A y x h w) h w (fun i j v => last_value init ws (y + i) (x + j) v).
Proof.
  intros sy sx init ws H1 H2 F.
  destruct (simple_run_spec ws (mkA sy sx (fun _ _ => init)) init) as (A & E & R & C & K);
    [reflexivity|exact F|]. simpl in *.
  exists A. split; [exact E|]. intros y x h w B.
  destruct (simple_getblock_in A y x h w) as (G1&G2&G3); [rewrite R, C; assumption|].
  split; [assumption|]. split; [assumption|]. intros i j Hi Hj. rewrite G3 by assumption.
  destruct B as (B1&B2&B3&B4&B5&B6). apply K; lia.
Qed.

Theorem chunksize_unobservable : forall junk junk' sy sx cy cx cy' cx' (init : V) ws,
  0 <= sy -> 0 <= sx -> 0 < cy -> 0 < cx -> 0 < cy' -> 0 < cx' -> Forall (write_ok sy sx) ws ->
  exists cb cb' A,
    cb_run (cb_init sy sx cy cx init) ws = (cb, None) /\
    cb_run (cb_init sy sx cy' cx' init) ws = (cb', None) /\
    simple_run (mkA sy sx (fun _ _ => init)) ws = Ok A /\
    forall y x h w, in_bounds sy sx y x h w ->
      exists r r', cb_getblock junk cb y x h w = Ok r /\ cb_getblock junk' cb' y x h w = Ok r' /\
        arr_eq r r' /\ arr_eq r (simple_getblock A y x h w).
Proof.
  intros junk junk' sy sx cy cx cy' cx' init ws H1 H2 H3 H4 H5 H6 F.
  destruct (compressed_is_array junk sy sx cy cx init ws H1 H2 H3 H4 F) as (cb & E & K).
  destruct (compressed_is_array junk' sy sx cy' cx' init ws H1 H2 H5 H6 F) as (cb' & E' & K').
  destruct (simple_is_array sy sx init ws H1 H2 F) as (A & EA & KA).
  exists cb, cb', A. split; [assumption|]. split; [assumption|]. split; [assumption|].
  intros y x h w B.
  destruct (K y x h w B) as (r & Er & R1 & R2 & R3).
  destruct (K' y x h w B) as (r' & Er' & R1' & R2' & R3').
  destruct (KA y x h w B) as (S1 & S2 & S3).
  exists r, r'. split; [assumption|]. split; [assumption|]. split.
  - split; [congruence|]. split; [congruence|]. intros i j Hi Hj. rewrite R1 in Hi. rewrite R2 in Hj.
    eapply last_value_det; [apply R3|apply R3']; lia.
  - split; [congruence|]. split; [congruence|]. intros i j Hi Hj. rewrite R1 in Hi. rewrite R2 in Hj.
    eapply last_value_det; [apply R3|apply S3]; lia.
Qed.
End Proofs.
