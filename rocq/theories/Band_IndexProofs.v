From Coq Require Import List ZArith Bool Lia ZifyBool ZifyNat FinFun.
From Verif Require Import Band_Model Band_Spec Band_Proofs Band_IndexModel Band_IndexSpec.
Import ListNotations.
Open Scope Z_scope.

Lemma zrange_length : forall a b, length (zrange a b) = Z.to_nat (b - a).
Proof. intros. unfold zrange. rewrite map_length, seq_length. reflexivity. Qed.

Lemma zrange_nth : forall a b i z, nth_error (zrange a b) i = Some z ->
  z = a + Z.of_nat i /\ (i < Z.to_nat (b - a))%nat.
Proof.
  intros a b i z E. unfold zrange in E.
  assert (L : (i < length (seq 0 (Z.to_nat (b - a))))%nat).
  { apply nth_error_Some. intros N. rewrite nth_error_map, N in E. discriminate. }
  rewrite seq_length in L. rewrite nth_error_map in E.
  rewrite (nth_error_nth' _ 0%nat) in E by (rewrite seq_length; assumption).
  rewrite seq_nth in E by assumption. simpl in E. inversion E. lia.
Qed.

Lemma zrange_nth_ex : forall a b i, (i < Z.to_nat (b - a))%nat ->
  nth_error (zrange a b) i = Some (a + Z.of_nat i).
Proof.
  intros a b i H. destruct (nth_error (zrange a b) i) eqn:E.
  - apply zrange_nth in E. destruct E; subst. reflexivity.
  - apply nth_error_None in E. rewrite zrange_length in E. lia.
Qed.

Lemma NoDup_zrange : forall a b, NoDup (zrange a b).
Proof.
  intros. unfold zrange. apply FinFun.Injective_map_NoDup; [|apply seq_NoDup].
  intros i j E. lia.
Qed.

Lemma NoDup_py_range : forall s e st, st <> 0 -> NoDup (py_range s e st).
Proof.
  intros. unfold py_range. apply FinFun.Injective_map_NoDup; [|apply NoDup_zrange].
  intros i j E. nia.
Qed.

Lemma py_range_nth : forall s e st i z, nth_error (py_range s e st) i = Some z ->
  z = s + Z.of_nat i * st /\ Z.of_nat i < range_len s e st.
Proof.
  intros s e st i z E. unfold py_range in E. rewrite nth_error_map in E.
  destruct (nth_error (zrange 0 (range_len s e st)) i) eqn:E1; [|discriminate].
  apply zrange_nth in E1. simpl in E. inversion E. lia.
Qed.

Lemma range_len_nonneg : forall s e st, 0 <= range_len s e st.
Proof. intros. unfold range_len. destruct (0 <? st); lia. Qed.

Lemma py_range_length : forall s e st, Z.of_nat (length (py_range s e st)) = range_len s e st.
Proof.
  intros. unfold py_range. rewrite map_length, zrange_length.
  pose proof (range_len_nonneg s e st). lia.
Qed.

(** slice_indices stays in the axis. *)
Lemma slice_indices_spec : forall n a b c s e st, 0 <= n ->
  slice_indices n a b c = Ok (s, e, st) ->
  st <> 0 /\ (0 < st -> 0 <= s <= n /\ 0 <= e <= n) /\
  (st < 0 -> -1 <= s <= n - 1 /\ -1 <= e <= n - 1).
Proof.
  intros n a b c s e st Hn E. unfold slice_indices in E.
  set (st0 := match c with Some s => s | None => 1 end) in *.
  destruct (st0 =? 0) eqn:E0; [discriminate|].
  destruct (0 <? st0) eqn:E1; inversion E; subst; clear E; (split; [lia|split; intros; [|]]); try lia.
  all: unfold adjust; destruct a as [a|]; destruct b as [b|];
       repeat match goal with |- context [if ?x then _ else _] => destruct x eqn:? end; lia.
Qed.

Lemma window_spec : forall n a b c s e st ys ye, 0 <= n ->
  slice_indices n a b c = Ok (s, e, st) -> (if 0 <? st then s <= e else e <= s) ->
  window (s, e, st) = (ys, ye) ->
  0 <= ys /\ ys <= ye /\ ye <= n /\ st <> 0 /\
  out_len ys ye st = range_len s e st /\
  stride_len (ye - ys) st = range_len s e st /\
  forall i, 0 <= i < range_len s e st -> ys + stride_idx (ye - ys) st i = s + i * st /\
     0 <= stride_idx (ye - ys) st i < ye - ys.
Proof.
  intros n a b c s e st ys ye Hn E F Wn.
  destruct (slice_indices_spec n a b c s e st Hn E) as (N0 & Pp & Pn).
  unfold window in Wn. unfold out_len, stride_len, stride_idx, range_len, zceil in *.
  destruct (0 <? st) eqn:E1.
  - destruct (st <? 0) eqn:E2; [lia|]. inversion Wn; subst ys ye.
    specialize (Pp ltac:(lia)). replace (Z.abs st) with st by lia.
    pose proof (div_bounds (e - s - 1) st ltac:(lia)) as D1.
    pose proof (div_bounds (- (e - s)) st ltac:(lia)) as D2.
    assert (- (- (e - s) / st) = 1 + (e - s - 1) / st) as K by nia.
    assert (0 <= - (- (e - s) / st)) by nia.
    repeat split; try lia; intros; nia.
  - destruct (st <? 0) eqn:E2; [|lia]. inversion Wn; subst ys ye.
    specialize (Pn ltac:(lia)). replace (Z.abs st) with (- st) by lia.
    replace (s + 1 - (e + 1) - 1) with (s - e - 1) by lia.
    replace (s + 1 - (e + 1)) with (s - e) by lia.
    pose proof (div_bounds (s - e - 1) (- st) ltac:(lia)) as D1.
    pose proof (div_bounds (- (s - e)) (- st) ltac:(lia)) as D2.
    assert (- (- (s - e) / (- st)) = 1 + (s - e - 1) / (- st)) as K by nia.
    assert (0 <= - (- (s - e) / (- st))) by nia.
    repeat split; try lia; intros; nia.
Qed.

(** An item of the key, however written. *)
Lemma item_spec : forall n it cl l, 0 <= n -> selects n it cl l -> forward n it ->
  exists s e st ys ye, parse_item n it = Ok (cl, (s, e, st)) /\
    window (s, e, st) = (ys, ye) /\ 0 <= ys /\ ys <= ye /\ ye <= n /\ st <> 0 /\
    out_len ys ye st = Z.of_nat (length l) /\
    stride_len (ye - ys) st = Z.of_nat (length l) /\
    (cl = true -> length l = 1%nat) /\
    (forall i z, nth_error l i = Some z ->
       ys + stride_idx (ye - ys) st (Z.of_nat i) = z /\
       0 <= stride_idx (ye - ys) st (Z.of_nat i) < ye - ys).
Proof.
  intros n it cl l Hn S F. inversion S as [z Hz E1 E2 E3|z Hz E1 E2 E3|a b c s e st E E1 E2 E3]; subst.
  - exists z, (z + 1), 1, z, (z + 1). simpl. destruct (n =? 0) eqn:E; [lia|].
    rewrite Z.mod_small by lia. repeat split; try lia.
    + unfold out_len. simpl. replace (z + 1 - z - 1) with 0 by lia. reflexivity.
    + replace (z + 1 - z) with 1 by lia. reflexivity.
    + destruct i as [|[|i]]; simpl in *; try discriminate. inversion H. unfold stride_idx. simpl. lia.
    + destruct i as [|[|i]]; simpl in *; try discriminate; unfold stride_idx; simpl; lia.
    + destruct i as [|[|i]]; simpl in *; try discriminate; unfold stride_idx; simpl; lia.
  - exists (z + n), (z + n + 1), 1, (z + n), (z + n + 1). simpl. destruct (n =? 0) eqn:E; [lia|].
    replace (z mod n) with (z + n).
    2:{ apply Zmod_unique with (-1); lia. }
    repeat split; try lia.
    + unfold out_len. simpl. replace (z + n + 1 - (z + n) - 1) with 0 by lia. reflexivity.
    + replace (z + n + 1 - (z + n)) with 1 by lia. reflexivity.
    + destruct i as [|[|i]]; simpl in *; try discriminate. inversion H. unfold stride_idx. simpl. lia.
    + destruct i as [|[|i]]; simpl in *; try discriminate; unfold stride_idx; simpl; lia.
    + destruct i as [|[|i]]; simpl in *; try discriminate; unfold stride_idx; simpl; lia.
  - destruct (window (s, e, st)) as [ys ye] eqn:Wn.
    specialize (F s e st E).
    destruct (window_spec n a b c s e st ys ye Hn E F Wn) as (A1 & A2 & A3 & A4 & A5 & A6 & A7).
    exists s, e, st, ys, ye. rewrite py_range_length. simpl. rewrite E. simpl.
    split; [reflexivity|]. split; [exact Wn|]. repeat (split; [first [assumption|lia]|]).
    
    intros i z Hz. apply py_range_nth in Hz. destruct Hz as [Ez Hz]. rewrite Ez.
    apply A7. lia.
Qed.

Lemma selects_range : forall n it cl l z, 0 <= n -> selects n it cl l -> In z l -> 0 <= z < n.
Proof.
  intros n it cl l z Hn S I. inversion S as [z' Hz|z' Hz|a b c s e st E]; subst.
  - destruct I as [<-|[]]. lia.
  - destruct I as [<-|[]]. lia.
  - apply In_nth_error in I. destruct I as [i I]. apply py_range_nth in I. destruct I as [-> I].
    destruct (slice_indices_spec n a b c s e st Hn E) as (N0 & Pp & Pn).
    unfold range_len, zceil in I. destruct (0 <? st) eqn:E1.
    + specialize (Pp ltac:(lia)). pose proof (div_bounds (- (e - s)) st ltac:(lia)). nia.
    + specialize (Pn ltac:(lia)). pose proof (div_bounds (- (s - e)) (- st) ltac:(lia)). nia.
Qed.

Lemma selects_NoDup : forall n it cl l, 0 <= n -> selects n it cl l -> NoDup l.
Proof.
  intros n it cl l Hn S. inversion S as [z' Hz|z' Hz|a b c s e st E]; subst.
  - repeat constructor. simpl; tauto.
  - repeat constructor. simpl; tauto.
  - apply NoDup_py_range. destruct (slice_indices_spec n a b c s e st Hn E). assumption.
Qed.

Lemma selects_bands_spec : forall n rest cl l, 0 <= n -> selects_bands n rest cl l ->
  parse_bands n rest = Ok (cl, l) /\ NoDup l /\ (forall z, In z l -> 0 <= z < n) /\
  (cl = true -> length l = 1%nat).
Proof.
  intros n rest cl l Hn S. inversion S as [|it c l' S']; subst.
  - simpl. split; [reflexivity|]. split; [apply NoDup_zrange|]. split; [|discriminate].
    intros z I. apply in_zrange in I. assumption.
  - split; [|split; [eapply selects_NoDup; eassumption|split; [intros; eapply selects_range; eassumption|]]].
    + inversion S' as [z' Hz|z' Hz|a b c s e st E]; subst; simpl.
      * destruct (n =? 0) eqn:E0; [lia|]. rewrite Z.mod_small by lia. reflexivity.
      * destruct (n =? 0) eqn:E0; [lia|]. f_equal. f_equal. f_equal.
        symmetry; apply Zmod_unique with (-1); lia.
      * rewrite E. reflexivity.
    + intros ->. inversion S'; subst; reflexivity.
Qed.

Section Proofs.
Variable V : Type.
Implicit Types b : band V.
Implicit Types bands : list (band V).

(** * Usable bands *)

Definition bcontent b : Z -> Z -> V :=
  match b with BSimple A => at_ A | BComp cb => content V cb end.

Lemma usable_wf : forall cb, usable (BComp cb) -> wf V cb.
Proof.
  intros cb (sy & sx & cy & cx & init & ws & H1 & H2 & H3 & H4 & F & E).
  destruct (run_spec V ws (cb_init sy sx cy cx init) init) as (cb' & E' & W & _).
  { apply init_wf; assumption. }
  { intros. apply init_content. }
  { exact F. }
  congruence.
Qed.

Lemma usable_size : forall b, usable b -> 0 <= fst (bsize b) /\ 0 <= snd (bsize b).
Proof.
  intros [A|cb] U; simpl in *; [assumption|].
  apply (usable_wf cb) in U. split; [apply (wf_szy V cb U)|apply (wf_szx V cb U)].
Qed.

Lemma getblock_content : forall junk b y x h w, usable b ->
  in_bounds (fst (bsize b)) (snd (bsize b)) y x h w ->
  exists r, getblock junk b y x h w = Ok r /\
    shows r h w (fun i j v => v = bcontent b (y + i) (x + j)).
Proof.
  intros junk [A|cb] y x h w U B; simpl in *.
  - eexists. split; [reflexivity|]. apply simple_getblock_in. assumption.
  - apply getblock_spec; [|assumption]. apply usable_wf. assumption.
Qed.

Lemma holds_content : forall b H W f, holds b H W f <->
  (usable b /\ bsize b = (H, W) /\
   forall y x, 0 <= y < H -> 0 <= x < W -> f y x = bcontent b y x).
Proof.
  intros b H W f. split.
  - intros (U & S & K). split; [assumption|]. split; [assumption|].
    intros y x Hy Hx. set (junk := bcontent b).
    destruct (K junk y x 1 1) as (r & E & _ & _ & R); [unfold in_bounds; lia|].
    destruct (getblock_content junk b y x 1 1 U) as (r' & E' & _ & _ & R').
    { rewrite S. simpl. unfold in_bounds; lia. }
    rewrite E in E'. inversion E'; subst r'.
    specialize (R 0 0 ltac:(lia) ltac:(lia)). specialize (R' 0 0 ltac:(lia) ltac:(lia)).
    cbv beta in R, R'. rewrite !Z.add_0_r in R, R'. subst junk. congruence.
  - intros (U & S & K). split; [assumption|]. split; [assumption|].
    intros junk y x h w B. destruct (getblock_content junk b y x h w U) as (r & E & R1 & R2 & R).
    { rewrite S. exact B. }
    exists r. split; [assumption|]. split; [assumption|]. split; [assumption|].
    intros i j Hi Hj. rewrite R by assumption. destruct B as (B1&B2&B3&B4&B5&B6).
    symmetry. apply K; lia.
Qed.

Lemma setblock_holds : forall b H W f y x a, holds b H W f ->
  in_bounds H W y x (nrow a) (ncol a) ->
  exists b', setblock b y x a = (b', None) /\
    forall f', (forall p q, 0 <= p < H -> 0 <= q < W ->
                  (y <= p < y + nrow a /\ x <= q < x + ncol a -> f' p q = at_ a (p - y) (q - x)) /\
                  (~ (y <= p < y + nrow a /\ x <= q < x + ncol a) -> f' p q = f p q)) ->
               holds b' H W f'.
Proof.
  intros b H W f y x a Hh B. apply holds_content in Hh. destruct Hh as (U & S & K).
  destruct b as [A|cb]; simpl in S; inversion S; subst; clear S.
  - destruct (simple_setblock_spec V A (mkW y x a)) as (A' & E & R & C & P); [exact B|].
    simpl in E. simpl. rewrite E. eexists; split; [reflexivity|].
    intros f' Hf. apply holds_content. simpl in *. split; [lia|]. split; [congruence|].
    intros p q Hp Hq. destruct (P p q) as [P1 P2]. destruct (Hf p q Hp Hq) as [F1 F2].
    unfold covers in *; simpl in *.
    destruct (covers_dec V (mkW y x a) p q) as [D|D]; unfold covers in D; simpl in D.
    + rewrite F1, P1 by assumption. reflexivity.
    + rewrite F2, P2 by assumption. apply K; assumption.
  - pose proof (usable_wf cb U) as Wf.
    destruct (setblock_spec V cb (mkW y x a) Wf) as (cb' & E & W' & C & P); [exact B|].
    simpl in E. simpl. rewrite E. eexists; split; [reflexivity|].
    intros f' Hf. apply holds_content. destruct C as (a1 & a2 & _). split; [|split].
    + simpl in U. destruct U as (sy & sx & cy & cx & init & ws & H1 & H2 & H3 & H4 & F & Er).
      exists sy, sx, cy, cx, init, (ws ++ [mkW y x a]).
      destruct (run_spec V ws (cb_init sy sx cy cx init) init) as (cb0 & Er0 & _ & (s1 & s2 & _) & _).
      { apply init_wf; assumption. } { intros. apply init_content. } { exact F. }
      rewrite Er in Er0. inversion Er0; subst cb0. simpl in s1, s2.
      repeat (split; [assumption|]). split.
      * apply Forall_app. split; [assumption|]. constructor; [|constructor].
        unfold write_ok. simpl. rewrite <- s1, <- s2. exact B.
      * rewrite (run_app V _ _ _ _ Er). simpl. rewrite E. reflexivity.
    + simpl. congruence.
    + simpl. intros p q Hp Hq. destruct (P p q Hp Hq) as [P1 P2]. destruct (Hf p q Hp Hq) as [F1 F2].
      destruct (covers_dec V (mkW y x a) p q) as [D|D].
      * rewrite P1 by assumption. unfold covers in D; simpl in D. rewrite F1 by assumption. reflexivity.
      * rewrite P2 by assumption. unfold covers in D; simpl in D. rewrite F2 by assumption. apply K; assumption.
Qed.

Lemma stack_size : forall bands H W F, stack_holds bands H W F -> 0 <= H /\ 0 <= W.
Proof.
  intros bands H W F [N K]. destruct bands as [|b bands]; [congruence|].
  destruct (K 0%nat b eq_refl) as (U & S & _). pose proof (usable_size b U) as P.
  rewrite S in P. exact P.
Qed.

Lemma parse_key_spec : forall bands H W F k0 k1 rest r c bs,
  stack_holds bands H W F ->
  parse_item H k0 = Ok r -> parse_item W k1 = Ok c ->
  parse_bands (Z.of_nat (length bands)) rest = Ok bs ->
  parse_key bands (KeyTuple (k0 :: k1 :: rest)) = Ok (r, c, bs).
Proof.
  intros bands H W F k0 k1 rest r c bs [N K] E0 E1 E2. unfold parse_key. simpl.
  destruct bands as [|b bands]; [congruence|].
  destruct (K 0%nat b eq_refl) as (_ & S & _). rewrite S, E0. simpl. rewrite E1. simpl.
  simpl in E2. rewrite E2. reflexivity.
Qed.

Lemma py_index_in : forall n i, 0 <= i < n -> py_index n i = Ok i.
Proof. intros. unfold py_index. destruct ((0 <=? i) && (i <? n)) eqn:E; [reflexivity|lia]. Qed.

(** * Reading *)

Lemma read_planes_spec : forall junk bands H W F ys ye yst xs xe xst h w,
  stack_holds bands H W F ->
  0 <= ys -> ys <= ye -> ye <= H -> 0 <= xs -> xs <= xe -> xe <= W ->
  stride_len (ye - ys) yst = h -> stride_len (xe - xs) xst = w -> 0 <= h -> 0 <= w ->
  (forall i, 0 <= i < h -> 0 <= stride_idx (ye - ys) yst i < ye - ys) ->
  (forall j, 0 <= j < w -> 0 <= stride_idx (xe - xs) xst j < xe - xs) ->
  forall ids, (forall z, In z ids -> 0 <= z < Z.of_nat (length bands)) ->
  exists planes, read_planes junk bands ys ye yst xs xe xst h w ids = Ok planes /\
    length planes = length ids /\
    forall k (b : Z) p i j, nth_error ids k = Some b -> nth_error planes k = Some p ->
      0 <= i < h -> 0 <= j < w ->
      at_ p i j = F b (ys + stride_idx (ye - ys) yst i) (xs + stride_idx (xe - xs) xst j).
Proof.
  intros junk bands H W F ys ye yst xs xe xst h w SH Hy1 Hy2 Hy3 Hx1 Hx2 Hx3 Eh Ew Hh Hw Iy Ix.
  induction ids as [|ib ids IH]; intros Hids.
  - exists []. split; [reflexivity|]. split; [reflexivity|]. intros [|k] b p i j E; discriminate.
  - destruct IH as (planes & E & L & K); [intros; apply Hids; right; assumption|].
    pose proof (Hids ib (or_introl eq_refl)) as Hb.
    simpl. rewrite py_index_in by assumption. simpl.
    destruct (nth_error bands (Z.to_nat ib)) as [b|] eqn:Eb.
    2:{ apply nth_error_None in Eb. lia. }
    destruct SH as [_ SK]. pose proof (SK _ _ Eb) as Hb'. rewrite Z2Nat.id in Hb' by lia.
    destruct Hb' as (U & S & G).
    destruct (G junk ys xs (ye - ys) (xe - xs)) as (v & Ev & R1 & R2 & R3); [unfold in_bounds; lia|].
    rewrite Ev. simpl. unfold np_empty. destruct ((h <? 0) || (w <? 0)) eqn:E0; [lia|]. simpl.
    destruct (set2_in V (mkA h w junk) 0 h 0 w (strided v yst xst)) as (pl & Es & Q1 & Q2 & Q3 & Q4);
      simpl; try rewrite R1; try rewrite R2; try lia.
    rewrite Es. simpl. rewrite E. simpl.
    eexists; split; [reflexivity|]. split; [simpl; congruence|].
    intros [|k] b' p i j E1 E2 Hi Hj; simpl in E1, E2.
    + inversion E1; inversion E2; subst. rewrite Q3 by lia. simpl. rewrite !Z.sub_0_r, R1, R2.
      apply R3; auto.
    + eapply K; eassumption.
Qed.

Theorem getitem_spec : forall junk bands H W F k0 k1 rest cr rows cc cols cb bnds,
  stack_holds bands H W F ->
  selects H k0 cr rows -> selects W k1 cc cols ->
  selects_bands (Z.of_nat (length bands)) rest cb bnds ->
  forward H k0 -> forward W k1 ->
  exists r, getitem junk bands (KeyTuple (k0 :: k1 :: rest)) = Ok r /\
            np_result F cr rows cc cols cb bnds r.
Proof.
  intros junk bands H W F k0 k1 rest cr rows cc cols cb bnds SH S0 S1 S2 F0 F1.
  destruct (stack_size bands H W F SH) as [HH HW].
  destruct (item_spec H k0 cr rows HH S0 F0) as (s & e & st & ys & ye & P0 & W0 & A1 & A2 & A3 & A4 & A5 & A6 & A7 & A8).
  destruct (item_spec W k1 cc cols HW S1 F1) as (s' & e' & st' & xs & xe & P1 & W1 & B1 & B2 & B3 & B4 & B5 & B6 & B7 & B8).
  destruct (selects_bands_spec _ rest cb bnds (Zle_0_nat _) S2) as (P2 & ND & Rb & C1).
  unfold getitem. rewrite (parse_key_spec bands H W F k0 k1 rest _ _ _ SH P0 P1 P2).
  unfold bind at 1. rewrite W0, W1, A5, B5.
  unfold np_empty at 1.
  destruct ((Z.of_nat (length rows) <? 0) || (Z.of_nat (length cols) <? 0)) eqn:E0; [lia|].
  unfold bind at 1.
  destruct (read_planes_spec junk bands H W F ys ye st xs xe st' (Z.of_nat (length rows)) (Z.of_nat (length cols)))
    with (ids := bnds) as (planes & Er & L & K); try assumption; try lia.
  { intros i Hi. destruct (nth_error rows (Z.to_nat i)) as [z|] eqn:E; [|apply nth_error_None in E; lia].
    apply A8 in E. rewrite Z2Nat.id in E by lia. lia. }
  { intros i Hi. destruct (nth_error cols (Z.to_nat i)) as [z|] eqn:E; [|apply nth_error_None in E; lia].
    apply B8 in E. rewrite Z2Nat.id in E by lia. lia. }
  rewrite Er. unfold bind. eexists; split; [reflexivity|].
  assert (KK : forall i j k y x (b : Z), nth_error rows i = Some y -> nth_error cols j = Some x ->
      nth_error bnds k = Some b ->
      elt (stack junk (Z.of_nat (length rows)) (Z.of_nat (length cols)) planes)
          [Z.of_nat i; Z.of_nat j; Z.of_nat k] = F b y x).
  { intros i j k y x b Ey Ex Eb. simpl. rewrite Nat2Z.id.
    destruct (nth_error planes k) as [p|] eqn:Ep.
    2:{ apply nth_error_None in Ep. assert (nth_error bnds k <> None) by congruence.
        apply nth_error_Some in H0. lia. }
    destruct (A8 _ _ Ey) as [Y1 Y2]. destruct (B8 _ _ Ex) as [X1 X2].
    assert (i < length rows)%nat by (apply nth_error_Some; congruence).
    assert (j < length cols)%nat by (apply nth_error_Some; congruence).
    rewrite (K k b p _ _ Eb Ep) by lia. congruence. }
  split.
  - destruct cr, cc, cb; simpl; rewrite ?L; reflexivity.
  - intros i j k y x b Ey Ex Eb. specialize (KK i j k y x b Ey Ex Eb).
    assert (i < length rows)%nat by (apply nth_error_Some; congruence).
    assert (j < length cols)%nat by (apply nth_error_Some; congruence).
    assert (k < length bnds)%nat by (apply nth_error_Some; congruence).
    destruct cr, cc, cb;
      try (specialize (A7 eq_refl); assert (i = 0%nat) by lia; subst i);
      try (specialize (B7 eq_refl); assert (j = 0%nat) by lia; subst j);
      try (specialize (C1 eq_refl); assert (k = 0%nat) by lia; subst k);
      exact KK.
Qed.

Lemma getitem_slice_key : forall junk bands a (b : option Z) c,
  getitem junk bands (KeySlice a b c)
  = getitem junk bands (KeyTuple [KSlice a b c; KSlice None None None; KSlice None None None]).
Proof. reflexivity. Qed.

(** * Writing *)

Lemma nth_list_upd : forall A (l : list A) n m a x, nth_error (list_upd l n a) m = Some x ->
  (m = n /\ x = a) \/ (m <> n /\ nth_error l m = Some x).
Proof.
  intros A l n m a x E. destruct (Nat.eq_dec m n) as [E1|N].
  - subst. assert (n < length (list_upd l n a))%nat by (apply nth_error_Some; congruence).
    rewrite list_upd_length in H. rewrite list_upd_same in E by assumption. inversion E. auto.
  - rewrite list_upd_other in E by auto. auto.
Qed.

Lemma write_planes_spec : forall l bands H W F ys xs h w planes,
  stack_holds bands H W F -> in_bounds H W ys xs h w ->
  (forall i, nrow (planes i) = h /\ ncol (planes i) = w) ->
  (forall i ib, In (i, ib) l -> 0 <= ib < Z.of_nat (length bands)) ->
  NoDup (map snd l) ->
  exists bands' F', write_planes bands ys xs planes l = (bands', None) /\
    length bands' = length bands /\ stack_holds bands' H W F' /\
    (forall i ib y x, In (i, ib) l -> ys <= y < ys + h -> xs <= x < xs + w ->
        F' ib y x = at_ (planes i) (y - ys) (x - xs)) /\
    (forall ib y x, ~ (In ib (map snd l) /\ ys <= y < ys + h /\ xs <= x < xs + w) ->
        F' ib y x = F ib y x).
Proof.
  induction l as [|[i ib] l IH]; intros bands H W F ys xs h w planes SH B PL R ND.
  - exists bands, F. simpl. split; [reflexivity|]. split; [reflexivity|]. split; [exact SH|]. split; [intros ? ? ? ? []|reflexivity].
  - simpl in ND. inversion ND as [|? ? N1 ND']; subst.
    pose proof (R i ib (or_introl eq_refl)) as Rb. simpl.
    rewrite py_index_in by assumption.
    destruct (nth_error bands (Z.to_nat ib)) as [b|] eqn:Eb.
    2:{ apply nth_error_None in Eb. lia. }
    destruct SH as [NE SK]. pose proof (SK _ _ Eb) as Hb. rewrite Z2Nat.id in Hb by lia.
    destruct (PL i) as [PR PC].
    destruct (setblock_holds b H W (F ib) ys xs (planes i) Hb) as (b' & Es & Hb').
    { rewrite PR, PC. assumption. }
    rewrite Es. rewrite PR, PC in Hb'.
    set (F1 := fun ib' y x =>
      if (ib' =? ib) && ((ys <=? y) && (y <? ys + h) && (xs <=? x) && (x <? xs + w))
      then at_ (planes i) (y - ys) (x - xs) else F ib' y x).
    destruct (IH (list_upd bands (Z.to_nat ib) b') H W F1 ys xs h w planes) as (bands' & F' & E' & L' & SH' & K1 & K2).
    + split.
      * intros X. apply NE. apply length_zero_iff_nil. rewrite <- (list_upd_length _ bands (Z.to_nat ib) b').
        rewrite X. reflexivity.
      * intros k c Ek. apply nth_list_upd in Ek. destruct Ek as [[-> ->]|[Nk Ek]].
        -- rewrite Z2Nat.id by lia. apply Hb'. intros p q Hp Hq. unfold F1. rewrite Z.eqb_refl. simpl.
           split; intros D.
           ++ destruct ((ys <=? p) && (p <? ys + h) && (xs <=? q) && (q <? xs + w)) eqn:E; [reflexivity|lia].
           ++ destruct ((ys <=? p) && (p <? ys + h) && (xs <=? q) && (q <? xs + w)) eqn:E; [lia|reflexivity].
        -- pose proof (SK _ _ Ek) as Hk. apply holds_content in Hk. apply holds_content.
           destruct Hk as (U & S & Kc). split; [assumption|]. split; [assumption|].
           intros y x Hy Hx. unfold F1. destruct (Z.of_nat k =? ib) eqn:E; [lia|]. simpl. apply Kc; assumption.
    + assumption.
    + assumption.
    + intros i' ib' I. rewrite list_upd_length. eapply R. right; eassumption.
    + assumption.
    + exists bands', F'. split; [exact E'|]. split; [rewrite L'; apply list_upd_length|].
      split; [assumption|]. split.
      * intros i' ib' y x [E|I] Hy Hx; [|eapply K1; eassumption].
        inversion E; subst i' ib'. rewrite K2.
        -- unfold F1. rewrite Z.eqb_refl.
           destruct ((ys <=? y) && (y <? ys + h) && (xs <=? x) && (x <? xs + w)) eqn:E2; [reflexivity|lia].
        -- intros [X _]. contradiction.
      * intros ib' y x N. rewrite K2; [|simpl in N; tauto]. unfold F1.
        destruct ((ib' =? ib) && ((ys <=? y) && (y <? ys + h) && (xs <=? x) && (x <? xs + w))) eqn:E; [|reflexivity].
        exfalso. apply N. simpl. lia.
Qed.

Lemma val_array_spec : forall is_nd (value : nd V) h w nb, 0 <= h -> 0 <= w -> 0 <= nb ->
  (forall i j k, cell_value is_nd value h w nb i j k = None) /\
    val_array is_nd value h w nb = Err ValueError \/
  exists planes, val_array is_nd value h w nb = Ok planes /\
    (forall k, nrow (planes k) = h /\ ncol (planes k) = w) /\
    (forall i j k, cell_value is_nd value h w nb i j k <> None) /\
    forall i j k, 0 <= i < h -> 0 <= j < w -> 0 <= k < nb ->
      cell_value is_nd value h w nb i j k = Some (at_ (planes k) i j).
Proof.
  intros is_nd value h w nb Hh Hw Hb. unfold val_array, cell_value.
  assert (Z0 : (h <? 0) || (w <? 0) || (nb <? 0) = false) by lia.
  destruct (shp value) as [|n0 [|n1 [|n2 [|n3 s]]]] eqn:E; simpl.
  - right. rewrite andb_false_r. simpl. unfold atleast_3d. rewrite E. unfold broadcast_to. rewrite Z0. simpl.
    unfold fits. rewrite !orb_true_r. simpl. eexists; split; [reflexivity|]. simpl. split; [auto|]. split; [discriminate|reflexivity].
  - destruct (is_nd && (h =? 1) && (w =? 1)) eqn:C.
    + assert (is_nd && true && ((h =? w) && (w =? 1)) = true) as -> by (destruct is_nd; lia).
      unfold reshape_1_1. rewrite E. destruct (n0 =? nb) eqn:E1.
      * right. eexists; split; [reflexivity|]. simpl. split; [lia|]. split; [discriminate|]. intros. reflexivity.
      * left. split; reflexivity.
    + assert (is_nd && true && ((h =? w) && (w =? 1)) = false) as -> by (destruct is_nd; simpl in *; lia).
      unfold atleast_3d. rewrite E. unfold broadcast_to. rewrite Z0. simpl. unfold fits, rep, pick.
      rewrite !orb_true_r, andb_true_r. simpl.
      destruct (n0 =? w) eqn:E1; simpl.
      * right. eexists; split; [reflexivity|]. simpl. split; [auto|]. split; [discriminate|]. intros.
        destruct (n0 =? 1) eqn:E2; f_equal; f_equal; f_equal; lia.
      * destruct (n0 =? 1) eqn:E2.
        -- right. eexists; split; [reflexivity|]. simpl. split; [auto|]. split; [discriminate|reflexivity].
        -- left. split; reflexivity.
  - rewrite andb_false_r. simpl. unfold atleast_3d. rewrite E. unfold broadcast_to. rewrite Z0. simpl.
    unfold fits, rep, pick. rewrite !orb_true_r, andb_true_r.
    destruct (n0 =? h) eqn:E1; destruct (n0 =? 1) eqn:E2; destruct (n1 =? w) eqn:E3;
      destruct (n1 =? 1) eqn:E4; simpl;
      first [left; split; reflexivity
            |right; eexists; split; [reflexivity|]; simpl; split; [auto|]; split; [discriminate|]; intros; repeat f_equal; lia].
  - rewrite andb_false_r. simpl. unfold atleast_3d. rewrite E. unfold broadcast_to. rewrite Z0. rewrite E.
    unfold fits, rep, pick.
    destruct (n0 =? h) eqn:E1; destruct (n0 =? 1) eqn:E2; destruct (n1 =? w) eqn:E3;
      destruct (n1 =? 1) eqn:E4; destruct (n2 =? nb) eqn:E5; destruct (n2 =? 1) eqn:E6; simpl;
      first [left; split; reflexivity
            |right; eexists; split; [reflexivity|]; simpl; split; [auto|]; split; [discriminate|]; intros; repeat f_equal; lia].
  - left. split; [reflexivity|].
    match goal with |- (if ?c then _ else _) = _ => assert (c = false) as -> end.
    { destruct (Pos.succ (Pos.succ (Pos.succ (Pos.of_succ_nat (length s))))) eqn:C;
        [| |lia]; rewrite andb_false_r; reflexivity. }
    unfold atleast_3d. rewrite E. unfold broadcast_to. rewrite Z0. rewrite E. reflexivity.
Qed.

Lemma unit_window : forall n it cl l, 0 <= n -> selects n it cl l -> forward n it -> unit_step it ->
  exists s e, parse_item n it = Ok (cl, (s, e, 1)) /\ 0 <= s /\ s <= e /\ e <= n /\
    out_len s e 1 = Z.of_nat (length l) /\ e - s = Z.of_nat (length l) /\
    forall i z, nth_error l i = Some z <-> (z = s + Z.of_nat i /\ (i < length l)%nat).
Proof.
  intros n it cl l Hn S F Us.
  destruct (item_spec n it cl l Hn S F) as (s & e & st & ys & ye & P & Wn & A1 & A2 & A3 & A4 & A5 & A6 & A7 & A8).
  assert (st = 1).
  { inversion S as [z' Hz|z' Hz|a b c s' e' st' E]; subst; simpl in P.
    - destruct (n =? 0); inversion P; reflexivity.
    - destruct (n =? 0); inversion P; reflexivity.
    - rewrite E in P. simpl in P. inversion P; subst. unfold slice_indices in E.
      simpl in Us. destruct Us; subst; simpl in E; inversion E; reflexivity. }
  subst st. simpl in Wn. inversion Wn; subst ys ye.
  exists s, e. assert (e - s = Z.of_nat (length l)) as D.
  { unfold stride_len, zceil in A6. simpl in A6. rewrite Z.div_1_r in A6. lia. }
  repeat (split; [assumption|]).
  intros i z. split.
  - intros E. assert (i < length l)%nat by (apply nth_error_Some; congruence).
    apply A8 in E. unfold stride_idx in E. simpl in E. lia.
  - intros [-> L]. destruct (nth_error l i) eqn:E; [|apply nth_error_None in E; lia].
    apply A8 in E. unfold stride_idx in E. simpl in E. f_equal. lia.
Qed.

Lemma enumerate_nth : forall A (l : list A) i a, nth_error l i = Some a <-> In (Z.of_nat i, a) (enumerate l).
Proof.
  intros A l i a. unfold enumerate.
  assert (G : forall (l : list A) n s, n = length l ->
    forall i a, nth_error l i = Some a <->
      In (s + Z.of_nat i, a) (combine (map (fun k => s + Z.of_nat k) (seq 0 n)) l)).
  { clear. induction l as [|x l IH]; intros n s -> i a; simpl.
    - split; [destruct i; discriminate|tauto].
    - rewrite <- seq_shift, map_map.
      replace (map (fun k => s + Z.of_nat (S k)) (seq 0 (length l)))
        with (map (fun k => (s + 1) + Z.of_nat k) (seq 0 (length l)))
        by (apply map_ext; intros; lia).
      destruct i as [|i]; simpl.
      + split.
        * intros E; inversion E. left. f_equal; lia.
        * intros [E|I]; [inversion E; reflexivity|].
          exfalso. apply in_combine_l, in_map_iff in I. destruct I as [k [Ek _]]. lia.
      + rewrite (IH _ (s + 1) eq_refl i a). replace (s + 1 + Z.of_nat i) with (s + Z.of_nat (S i)) by lia.
        simpl. split; [intros I; right; exact I|].
        intros [E|I]; [inversion E; lia|exact I]. }
  unfold zrange. rewrite Z.sub_0_r, Nat2Z.id. rewrite (G l (length l) 0 eq_refl). reflexivity.
Qed.

Lemma enumerate_snd : forall A (l : list A), map snd (enumerate l) = l.
Proof.
  intros A l. unfold enumerate.
  assert (G : forall (l : list A) (l' : list Z), length l' = length l -> map snd (combine l' l) = l).
  { clear. induction l as [|x l IH]; intros [|y l'] E; simpl in *; try discriminate; f_equal; auto. }
  apply G. rewrite zrange_length. lia.
Qed.

Theorem setitem_spec : forall bands H W F k0 k1 rest cr rows cc cols cb bnds is_nd value,
  stack_holds bands H W F ->
  selects H k0 cr rows -> selects W k1 cc cols ->
  selects_bands (Z.of_nat (length bands)) rest cb bnds ->
  forward H k0 -> forward W k1 -> unit_step k0 -> unit_step k1 ->
  let cellv i j k := cell_value is_nd value (Z.of_nat (length rows)) (Z.of_nat (length cols))
                       (Z.of_nat (length bnds)) (Z.of_nat i) (Z.of_nat j) (Z.of_nat k) in
  ((exists i j k, cellv i j k <> None) ->
   exists bands' F', setitem bands (KeyTuple (k0 :: k1 :: rest)) is_nd value = (bands', None) /\
     length bands' = length bands /\ stack_holds bands' H W F' /\
     (forall i j k y x (b : Z),
        nth_error rows i = Some y -> nth_error cols j = Some x -> nth_error bnds k = Some b ->
        cellv i j k = Some (F' b y x)) /\
     (forall (b : Z) y x, ~ (In b bnds /\ In y rows /\ In x cols) -> F' b y x = F b y x)) /\
  ((forall i j k, cellv i j k = None) ->
   setitem bands (KeyTuple (k0 :: k1 :: rest)) is_nd value = (bands, Some ValueError)).
Proof.
  intros bands H W F k0 k1 rest cr rows cc cols cb bnds is_nd value SH S0 S1 S2 F0 F1 U0 U1.
  destruct (stack_size bands H W F SH) as [HH HW].
  destruct (unit_window H k0 cr rows HH S0 F0 U0) as (s & e & P0 & A1 & A2 & A3 & A4 & A5 & A6).
  destruct (unit_window W k1 cc cols HW S1 F1 U1) as (s' & e' & P1 & B1 & B2 & B3 & B4 & B5 & B6).
  destruct (selects_bands_spec _ rest cb bnds (Zle_0_nat _) S2) as (P2 & ND & Rb & C1).
  intros cellv. unfold setitem. rewrite (parse_key_spec bands H W F k0 k1 rest _ _ _ SH P0 P1 P2).
  cbv beta iota. change (negb ((1 =? 1) && (1 =? 1))) with false. cbv iota. rewrite A4, B4.
  destruct (val_array_spec is_nd value (Z.of_nat (length rows)) (Z.of_nat (length cols)) (Z.of_nat (length bnds)))
    as [[VN VE]|(planes & VE & VD & VN & VK)]; try lia.
  - rewrite VE. split; [|reflexivity]. intros (i & j & k & N). exfalso. apply N. apply VN.
  - rewrite VE. split.
    + intros _.
      destruct (write_planes_spec (enumerate bnds) bands H W F s s' (Z.of_nat (length rows))
                  (Z.of_nat (length cols)) planes SH) as (bands' & F' & E & L & SH' & K1 & K2).
      * unfold in_bounds; lia.
      * assumption.
      * intros i ib I. apply Rb. rewrite <- (enumerate_snd _ bnds). apply in_map_iff. exists (i, ib). auto.
      * rewrite enumerate_snd. assumption.
      * exists bands', F'. split; [assumption|]. split; [assumption|]. split; [assumption|]. split.
        -- intros i j k y x b Ey Ex Eb.
           assert (k < length bnds)%nat by (apply nth_error_Some; congruence).
           apply A6 in Ey. apply B6 in Ex. destruct Ey as [-> Li]. destruct Ex as [-> Lj].
           unfold cellv. rewrite VK by lia. f_equal.
           rewrite (K1 (Z.of_nat k) b); [f_equal; lia|apply enumerate_nth; assumption|lia|lia].
        -- intros b y x N. apply K2. intros (I & Hy & Hx). apply N. rewrite enumerate_snd in I.
           split; [assumption|]. split.
           ++ apply (nth_error_In rows (Z.to_nat (y - s))). apply A6. lia.
           ++ apply (nth_error_In cols (Z.to_nat (x - s'))). apply B6. lia.
    + intros N. exfalso. apply (VN 0 0 0). apply (N 0%nat 0%nat 0%nat).
Qed.
End Proofs.
