(** Proofs about extreme values, samples and profiles. *)
From Coq Require Import String List ZArith QArith Bool Lia Lqa Permutation.
From Coq Require DecimalString DecimalNat Decimal.
From Verif Require Table_Model Table_Spec Table_Proofs.
From Verif Require Import Band_Model Band_Spec Band_IndexModel Band_IndexSpec Band_Proofs Band_IndexProofs Band_MaskProofs
  Grid_Model Grid_Spec Grid_Proofs Grid_OpsProofs Grid_ResizeProofs Grid_MoreProofs
  GridSample_Model GridSample_Spec GridSample_Proofs GridBilinear_Proofs GridBilinear_More GridExtent_Proofs
  Stat_Model Stat_Spec.
Import ListNotations.
Local Open Scope Z_scope.
Local Notation length := List.length.

(** Reductions. *)
Lemma reduce_nan : forall le l a, a = None \/ In None l -> fold_left (fpick le) l a = None.
Proof.
  induction l as [|b l IH]; intros a H; cbn [fold_left].
  - destruct H as [H|[]]. exact H.
  - apply IH. destruct H as [->|[->|H]]; [left; reflexivity|left; destruct a; reflexivity|right; exact H].
Qed.
Lemma reduce_pick : forall le (R : Q -> Q -> Prop),
  (forall p, R p p) -> (forall p q r, R p q -> R q r -> R p r) ->
  (forall p q, le p q = true -> R p q) -> (forall p q, le p q = false -> R q p) ->
  forall l a, (forall v, In v l -> v <> None) ->
  exists q, fold_left (fpick le) l (Some a) = Some q /\ In (Some q) (Some a :: l) /\ R a q /\ forall r, In (Some r) l -> R r q.
Proof.
  intros le R Rr Rt L1 L2. induction l as [|b l IH]; intros a N; cbn [fold_left].
  - exists a. split; [reflexivity|]. split; [left; reflexivity|]. split; [apply Rr|]. intros r [].
  - destruct b as [b|]; [|exfalso; apply (N None); [left|]; reflexivity].
    cbn [fpick]. destruct (IH (if le a b then b else a)) as (q & E & I & B & U); [intros v H; apply N; right; exact H|].
    exists q. split; [exact E|]. split; [|split].
    + destruct I as [I|I]; [|right; right; exact I]. destruct (le a b); rewrite <- I; [right; left|left]; reflexivity.
    + destruct (le a b) eqn:D; [apply (Rt _ b); [apply L1, D|exact B]|exact B].
    + intros r [H|H]; [|apply U, H]. injection H as <-.
      destruct (le a b) eqn:D; [exact B|apply (Rt _ a); [apply L2, D|exact B]].
Qed.
Lemma np_max_ok : forall l, l <> [] -> (forall v, In v l -> v <> None) ->
  exists q, np_max l = Ok (Some q) /\ In (Some q) l /\ forall r, In (Some r) l -> (r <= q)%Q.
Proof.
  intros [|a l] H N; [congruence|]. destruct a as [a|]; [|exfalso; apply (N None); [left|]; reflexivity].
  unfold np_max, np_reduce. destruct (reduce_pick Qle_bool Qle Qle_refl Qle_trans) with (l := l) (a := a) as (q & E & I & B & U).
  - intros p q. apply Qle_bool_iff.
  - intros p q D. destruct (Qlt_le_dec q p) as [L|L]; [apply Qlt_le_weak, L|]. apply Qle_bool_iff in L. congruence.
  - intros v Hv. apply N. right. exact Hv.
  - exists q. rewrite E. split; [reflexivity|]. split; [exact I|]. intros r [Hr|Hr]; [injection Hr as <-; exact B|apply U, Hr].
Qed.
Lemma np_min_ok : forall l, l <> [] -> (forall v, In v l -> v <> None) ->
  exists q, np_min l = Ok (Some q) /\ In (Some q) l /\ forall r, In (Some r) l -> (q <= r)%Q.
Proof.
  intros [|a l] H N; [congruence|]. destruct a as [a|]; [|exfalso; apply (N None); [left|]; reflexivity].
  unfold np_min, np_reduce. destruct (reduce_pick (fun p q => Qle_bool q p) (fun p q => q <= p)%Q Qle_refl) with (l := l) (a := a) as (q & E & I & B & U).
  - intros p q r A1 A2. apply (Qle_trans _ q); assumption.
  - intros p q. apply Qle_bool_iff.
  - intros p q D. destruct (Qlt_le_dec p q) as [L|L]; [apply Qlt_le_weak, L|]. apply Qle_bool_iff in L. congruence.
  - intros v Hv. apply N. right. exact Hv.
  - exists q. rewrite E. split; [reflexivity|]. split; [exact I|]. intros r [Hr|Hr]; [injection Hr as <-; exact B|apply U, Hr].
Qed.
Lemma np_nan : forall l, In None l -> np_max l = Ok None /\ np_min l = Ok None.
Proof.
  intros [|a l] I; [destruct I|]. unfold np_max, np_min, np_reduce. split; f_equal; apply reduce_nan; destruct I; auto.
Qed.

Lemma fnan_in : forall l : list fl, {In None l} + {~ In None l}.
Proof.
  intros l. destruct (existsb fnan l) eqn:E; [left|right].
  - apply existsb_exists in E. destruct E as ([q|] & I & D); [discriminate|exact I].
  - intros I. assert (existsb fnan l = true) by (apply existsb_exists; exists None; auto). congruence.
Qed.
Lemma extremes : forall l (P : fl -> Prop), (forall v, In v l <-> P v) -> l <> [] ->
  exists a b, np_min l = Ok a /\ np_max l = Ok b /\
    (~ P None -> smallest P a /\ greatest P b) /\ (P None -> a = None /\ b = None).
Proof.
  intros l P V NE. destruct (fnan_in l) as [I|I].
  - exists None, None. destruct (np_nan l I) as (A & B). split; [exact B|]. split; [exact A|]. split; [|auto].
    intros N. exfalso. apply N, V, I.
  - assert (N : forall v, In v l -> v <> None) by (intros v J ->; contradiction).
    destruct (np_max_ok l NE N) as (q & E & J & U). destruct (np_min_ok l NE N) as (p & E' & J' & L).
    exists (Some p), (Some q). split; [exact E'|]. split; [exact E|]. split; [|intros X; exfalso; apply I, V, X].
    intros _. split; [exists p|exists q]; (split; [reflexivity|]); (split; [apply V; assumption|]); intros r K; apply V in K; auto.
Qed.

Section Grids.
Variable junk : Z -> Z -> fl.
Variables (g : grid fl) (T : transform) (H W nb : Z) (F : Z -> Z -> Z -> fl) (nodata : fl).
Hypothesis G : grid_is g T H W nb F nodata.

Lemma masked_ok : exists rows, masked junk g = Ok rows /\
  (forall row, In row rows <-> exists y x, cell H W y x /\ (forall k, 0 <= k < nb -> is_data fnan feq nodata (F k y x)) /\
     row = map (fun k => F k y x) (zrange 0 nb)).
Proof using G.
  destruct (data_mask_ok fl junk fnan feq g T H W nb F nodata G) as (m & E & P).
  pose proof G as (ET & SH & EN & Ed). destruct (get_mask_spec _ junk (gbands g) H W F SH) as (M2 & _).
  unfold masked. rewrite E. cbn [bind]. rewrite M2. cbn [bind]. rewrite EN.
  eexists. split; [reflexivity|]. intros row. rewrite in_map_iff. split.
  - intros ((y & x) & <- & I). apply in_true_cells in I. destruct I as ((Hy & Hx) & I). cbn [fst snd] in *.
    exists y, x. split; [split; assumption|]. split; [|reflexivity]. apply P; assumption.
  - intros (y & x & (Hy & Hx) & D & ->). exists (y, x). split; [reflexivity|]. apply in_true_cells. cbn [fst snd].
    split; [split; assumption|]. apply P; assumption.
Qed.
Lemma masked_values : forall rows, masked junk g = Ok rows ->
  forall v, In v (concat rows) <-> full_value H W nb F nodata v.
Proof using G.
  intros rows E v. destruct masked_ok as (rows' & E' & P). rewrite E in E'. injection E' as <-.
  rewrite in_concat. split.
  - intros (row & I & J). apply P in I. destruct I as (y & x & C & D & ->). apply in_map_iff in J.
    destruct J as (k & <- & K). apply in_zrange in K. exists k, y, x. auto.
  - intros (k & y & x & K & C & D & <-). exists (map (fun k => F k y x) (zrange 0 nb)). split.
    + apply P. exists y, x. auto.
    + apply in_map_iff. exists k. split; [reflexivity|]. apply in_zrange, K.
Qed.
Lemma full_values_ok : forall rows, masked junk g = Ok rows -> 1 <= nb ->
  (rows <> [] -> concat rows <> []) /\ (rows = [] <-> ~ exists v, full_value H W nb F nodata v).
Proof using G.
  intros rows E N. assert (NE : rows <> [] -> concat rows <> []).
  { intros R. destruct rows as [|r rows]; [congruence|]. destruct masked_ok as (rows' & E' & P). rewrite E in E'. injection E' as <-.
    destruct (proj1 (P r) (or_introl eq_refl)) as (y & x & _ & _ & ->). cbn [concat]. intros X. apply app_eq_nil in X.
    destruct X as (X & _). apply (f_equal (@length _)) in X. rewrite map_length, zrange_length in X. cbn in X. lia. }
  split; [exact NE|]. split.
  - intros -> (v & V). apply (masked_values [] E) in V. destruct V.
  - intros X. destruct rows as [|r rows]; [reflexivity|]. exfalso. apply X.
    destruct (concat (r :: rows)) as [|v l] eqn:C; [exfalso; apply NE; [discriminate|reflexivity]|].
    exists v. apply (masked_values _ E). rewrite C. left. reflexivity.
Qed.
Theorem min_max_ok : 1 <= nb -> let P := full_value H W nb F nodata in
  exists a b, gmin junk g = Ok a /\ gmax junk g = Ok b /\
    ((exists w, P w) -> ~ P None -> smallest P a /\ greatest P b) /\
    (P None \/ ~ (exists w, P w) -> a = None /\ b = None).
Proof using G.
  intros N P. destruct masked_ok as (rows & E & _). destruct (full_values_ok rows E N) as (NE & EM).
  pose proof (masked_values rows E) as V. unfold gmin, gmax. rewrite E. cbn [bind].
  destruct rows as [|r rows].
  - exists None, None. split; [reflexivity|]. split; [reflexivity|]. split; [|auto]. intros X. exfalso. apply (proj1 EM eq_refl), X.
  - destruct (extremes (concat (r :: rows)) P V (NE ltac:(discriminate))) as (a & b & A & B & K1 & K2).
    exists a, b. split; [exact A|]. split; [exact B|]. split; [intros _; exact K1|].
    intros [X|X]; [apply K2, X|]. apply EM in X. discriminate.
Qed.
Theorem minmax_ok : let P := data_value H W nb F nodata in
  exists a b, minmax junk g = Ok (a, b) /\
    ((exists w, P w) -> ~ P None -> smallest P a /\ greatest P b) /\
    (P None \/ ~ (exists w, P w) -> a = None /\ b = None).
Proof using G.
  intros P. destruct (data_mask_full_spec fl junk None fnan feq g T H W nb F nodata G) as (m & E & M).
  pose proof G as (ET & SH & EN & Ed). destruct (get_mask_spec _ junk (gbands g) H W F SH) as (_ & M3). rewrite EN in M3.
  unfold minmax. rewrite E. cbn [bind]. rewrite M3. cbn [bind].
  set (vs := flat_map _ _).
  assert (V : forall v, In v vs <-> P v).
  { intros v. unfold vs. rewrite in_flat_map. split.
    - intros ((y & x) & I & J). apply in_cells in I. cbn [fst snd] in *. apply in_map_iff in J. destruct J as (k & <- & K).
      apply filter_In in K. destruct K as (K & D). apply in_zrange in K. rewrite M in D by tauto.
      apply (isdata_spec fl nodata fnan feq nodata) in D. exists k, y, x. split; [exact K|]. split; [exact I|]. auto.
    - intros (k & y & x & K & (Hy & Hx) & D & <-). exists (y, x). split; [apply in_cells; auto|]. cbn [fst snd].
      apply in_map_iff. exists k. split; [reflexivity|]. apply filter_In. split; [apply in_zrange, K|].
      rewrite M by assumption. apply (isdata_spec fl nodata fnan feq nodata), D. }
  clearbody vs. destruct vs as [|v vs].
  - exists None, None. split; [reflexivity|]. split; [|auto]. intros (w & X). apply V in X. destruct X.
  - destruct (extremes (v :: vs) P V ltac:(discriminate)) as (a & b & A & B & K1 & K2).
    exists a, b. rewrite A, B. cbn [bind]. split; [reflexivity|]. split; [intros _; exact K1|].
    intros [X|X]; [apply K2, X|]. exfalso. apply X. exists v. apply V. left. reflexivity.
Qed.
End Grids.

(** Samples. *)
Lemma combine_split : forall (pts : list (Q * Q)), combine (map fst pts) (map snd pts) = pts.
Proof. induction pts as [|(a, b) pts IH]; [reflexivity|]. cbn [map fst snd combine]. rewrite IH. reflexivity. Qed.
Lemma zrange_nth_err : forall n k, (k < n)%nat -> nth_error (zrange 0 (Z.of_nat n)) k = Some (Z.of_nat k).
Proof. intros n k Hk. rewrite <- (Nat2Z.id k) at 1. apply zrange_nth0. lia. Qed.
Lemma nth_forall2 : forall A B (R : A -> B -> Prop) l l', length l = length l' ->
  (forall n a b, nth_error l n = Some a -> nth_error l' n = Some b -> R a b) -> Forall2 R l l'.
Proof.
  induction l as [|a l IH]; intros [|b l'] L P; cbn in L; try discriminate; constructor.
  - apply (P 0%nat); reflexivity.
  - apply IH; [lia|]. intros n x y X Y. apply (P (S n)); assumption.
Qed.
Lemma forall2_len : forall A B (R : A -> B -> Prop) l l', Forall2 R l l' -> length l = length l'.
Proof. induction 1; cbn; congruence. Qed.

Theorem many_nearest : forall junk (g : grid fl) dt T H W nb F nodata pts,
  grid_is g T H W nb F nodata -> invertible T -> ~ (dy T == 0)%Q -> nb = 1 \/ length pts = 1%nat ->
  exists cs, Forall2 (in_cell T) pts cs /\
    ((exists c, In c cs /\ in_grid H W c) ->
     exists z, sample junk g dt Nearest (AMultipoint pts) = Ok (Table z) /\ Z.of_nat (length z) = nb /\
       forall k row, nth_error z k = Some row ->
         Forall2 (fun c v => (in_grid H W c -> v = F (Z.of_nat k) (fst c) (snd c)) /\ (~ in_grid H W c -> v = nodata)) cs row).
Proof.
  intros junk g dt T H W nb F nodata pts G I D O.
  destruct (grid_size fl g T H W nb F nodata G) as (_ & _ & _ & Hn).
  destruct (nearest_spec fl junk g T H W nb F nodata pts G I D O) as (cs & C & K). exists cs. split; [exact C|].
  intros X. destruct (K X) as (r & E & R1 & R2 & R3). clear K.
  pose proof (forall2_len _ _ _ _ _ C) as L.
  cbn [sample sample_many]. rewrite E. cbn [bind]. eexists. split; [reflexivity|]. unfold rows_of.
  split; [rewrite map_length, zrange_length; lia|].
  intros k row N. rewrite R1, R2 in N.
  assert (Kb : (k < Z.to_nat nb)%nat).
  { apply nth_error_Some_lt in N || (assert (nth_error (map (fun i => map (at_ r i) (zrange 0 (Z.of_nat (length pts)))) (zrange 0 nb)) k <> None) as Q by congruence; apply nth_error_Some in Q; rewrite map_length, zrange_length in Q; lia). }
  replace nb with (Z.of_nat (Z.to_nat nb)) in N by lia.
  rewrite nth_error_map, zrange_nth_err in N by lia. cbn [option_map] in N. injection N as <-.
  apply nth_forall2; [rewrite map_length, zrange_length; lia|].
  intros n c v Nc Nv. assert (n < length pts)%nat by (rewrite L; apply nth_error_Some; congruence).
  rewrite nth_error_map, zrange_nth_err in Nv by lia. cbn [option_map] in Nv. injection Nv as <-.
  apply R3; [lia|exact Nc].
Qed.
Theorem many_bilinear : forall junk (g : grid fl) T H W nb F nodata pts,
  grid_is g T H W nb F nodata -> invertible T -> ~ (dy T == 0)%Q -> 2 <= H -> 2 <= W -> pts <> [] ->
  (length pts = 1%nat \/
   (exists p u v, In p pts /\ at_position T p u v /\ (0 < u)%Q) /\
   (exists p u v, In p pts /\ at_position T p u v /\ (u < inject_Z H)%Q) /\
   (exists p u v, In p pts /\ at_position T p u v /\ (0 < v)%Q) /\
   (exists p u v, In p pts /\ at_position T p u v /\ (v < inject_Z W)%Q)) ->
  exists z, sample junk g DFloat Bilinear (AMultipoint pts) = Ok (Table z) /\ Z.of_nat (length z) = nb /\
    forall k row, nth_error z k = Some row -> Forall2 (sampled T (F (Z.of_nat k)) H W nodata) pts row.
Proof.
  intros junk g T H W nb F nodata pts G I D H2 W2 NE O.
  destruct (bilinear_spec junk g T H W nb F nodata pts G I D H2 W2 NE O) as (z & E & L & P).
  exists z. cbn [sample sample_many]. rewrite E. auto.
Qed.
Theorem arrays_ok : forall junk (g : grid fl) dt m xs ys,
  (length xs = length ys -> sample junk g dt m (AArrays xs ys) = sample junk g dt m (AMultipoint (combine xs ys))) /\
  (length xs <> length ys -> sample junk g dt m (AArrays xs ys) = Err TypeError).
Proof.
  intros. cbn [sample]. destruct (Nat.eqb_spec (length xs) (length ys)); split; intros X; try contradiction; reflexivity.
Qed.
Theorem point_nearest : forall junk (g : grid fl) dt T H W nb F nodata p,
  grid_is g T H W nb F nodata -> invertible T -> ~ (dy T == 0)%Q ->
  exists c, in_cell T p c /\
    (in_grid H W c -> exists l, sample junk g dt Nearest (APoint p) = Ok (Vector l) /\ Z.of_nat (length l) = nb /\
       forall k v, nth_error l k = Some v -> v = F (Z.of_nat k) (fst c) (snd c)) /\
    (~ in_grid H W c -> sample junk g dt Nearest (APoint p) = Ok (Number nodata)).
Proof.
  intros junk g dt T H W nb F nodata (x, y) G I D. destruct (grid_size fl g T H W nb F nodata G) as (_ & _ & _ & Hn).
  destruct (nearest1_spec fl junk g T H W nb F nodata x y G I D) as (c & C & A & B). exists c. split; [exact C|].
  cbn [sample sample_one fst snd]. split; intros X.
  - rewrite (A X). cbn [bind]. eexists. split; [reflexivity|]. split; [rewrite map_length, zrange_length; lia|].
    intros k v N. rewrite nth_error_map in N. destruct (nth_error (zrange 0 nb) k) as [i|] eqn:Z; [|discriminate].
    apply zrange_nth in Z. injection N as <-. f_equal. lia.
  - rewrite (B X). reflexivity.
Qed.
Theorem point_bilinear : forall junk (g : grid fl) T H W nb F nodata p,
  grid_is g T H W nb F nodata -> invertible T -> ~ (dy T == 0)%Q -> 2 <= H -> 2 <= W ->
  exists l, sample junk g DFloat Bilinear (APoint p) = Ok (Vector l) /\ Z.of_nat (length l) = nb /\
    forall k v, nth_error l k = Some v -> sampled T (F (Z.of_nat k)) H W nodata p v.
Proof.
  intros junk g T H W nb F nodata p G I D H2 W2.
  destruct (bilinear_spec junk g T H W nb F nodata [p] G I D H2 W2 ltac:(discriminate) (or_introl eq_refl)) as (z & E & L & P).
  cbn [sample sample_one]. rewrite E. cbn [bind]. clear E.
  assert (X : forall z o, (forall k row, nth_error z k = Some row -> Forall2 (sampled T (F (Z.of_nat (o + k))) H W nodata) [p] row) ->
    exists l, mapM (fun r : list fl => match r with v :: _ => Ok v | [] => Err IndexError end) z = Ok l /\ length l = length z /\
      forall k v, nth_error l k = Some v -> sampled T (F (Z.of_nat (o + k))) H W nodata p v).
  { clear. induction z as [|row z IH]; intros o P; cbn [mapM].
    - exists []. split; [reflexivity|]. split; [reflexivity|]. intros [|k] v N; discriminate.
    - specialize (P 0%nat row eq_refl) as P0. inversion P0 as [|? v ? l' S0 S1]; subst.
      destruct (IH (S o)) as (l & E & L & K).
      { intros k r N. specialize (P (S k) r N). replace (o + S k)%nat with (S o + k)%nat in P by lia. exact P. }
      cbn [bind]. rewrite E. cbn [bind]. exists (v :: l). split; [reflexivity|]. split; [cbn; congruence|].
      intros [|k] w N; [injection N as <-; exact S0|]. specialize (K k w N). replace (o + S k)%nat with (S o + k)%nat by lia. exact K. }
  destruct (X z 0%nat P) as (l & E & L' & K). rewrite E. cbn [bind]. exists l. split; [reflexivity|]. split; [lia|]. exact K.
Qed.

(** Profiles. *)
Lemma band_name_inj : forall i j, band_name i = band_name j -> i = j.
Proof.
  intros i j E. unfold band_name in E. cbn [append] in E. injection E as E.
  apply (f_equal DecimalString.NilZero.uint_of_string) in E.
  assert (N : forall n, Nat.to_uint n <> Decimal.Nil).
  { intros n X. rewrite <- (DecimalNat.Unsigned.of_to n), DecimalNat.Unsigned.to_of in X.
    unfold Decimal.unorm in X. destruct (Decimal.nzhead (Nat.to_uint n)); discriminate. }
  rewrite !DecimalString.NilZero.usu in E by apply N. injection E as E.
  apply (f_equal Nat.of_uint) in E. rewrite !DecimalNat.Unsigned.of_to in E. exact E.
Qed.
Lemma set_bands_ok : forall n z i (t : Table_Model.table fl),
  Table_Spec.rectangular t -> Table_Model.tlen t <> 0%nat -> length z = n ->
  (forall row, In row z -> length row = Table_Model.tlen t) ->
  Table_Model.fields t = map band_name (seq 0 i) ->
  exists t', set_bands t i z n = Ok t' /\ Table_Spec.rectangular t' /\ Table_Model.tlen t' = Table_Model.tlen t /\
    Table_Model.fields t' = map band_name (seq 0 (i + n)) /\
    (forall j, (j < i)%nat -> Table_Model.getfield t' (band_name j) = Table_Model.getfield t (band_name j)) /\
    forall k row, nth_error z k = Some row -> Table_Model.getfield t' (band_name (i + k)) = Table_Model.Ok row.
Proof.
  induction n as [|n IH]; intros z i t R N L P E; cbn [set_bands].
  - destruct z; [|discriminate]. cbn [set_bands]. exists t. rewrite Nat.add_0_r. split; [reflexivity|]. split; [exact R|]. split; [reflexivity|].
    split; [exact E|]. split; [reflexivity|]. intros [|k] row X; discriminate.
  - destruct z as [|row z]; [discriminate|]. cbn [set_bands].
    destruct (Table_Proofs.setfield_Ok (None : fl) t (band_name i) row R N (P row (or_introl eq_refl))) as (t1 & S1 & R1 & L1 & F1 & G1 & O1).
    rewrite S1. destruct (in_dec string_dec (band_name i) (Table_Model.fields t)) as [X|_].
    { exfalso. rewrite E in X. apply in_map_iff in X. destruct X as (j & X & J). apply band_name_inj in X. subst j.
      apply in_seq in J. lia. }
    assert (F1' : Table_Model.fields t1 = map band_name (seq 0 (S i))).
    { rewrite F1, E, seq_S, map_app. reflexivity. }
    destruct (IH z (S i) t1 R1) as (t' & S' & R' & L' & F' & O' & G').
    { congruence. } { cbn in L. lia. } { intros r I. rewrite L1. apply P. right. exact I. } { exact F1'. }
    exists t'. split; [exact S'|]. split; [exact R'|]. split; [congruence|].
    split; [rewrite F'; do 2 f_equal; lia|]. split.
    + intros j J. rewrite O' by lia. apply O1. intros X. apply band_name_inj in X. lia.
    + intros [|k] r X.
      * injection X as <-. rewrite Nat.add_0_r, O' by lia. exact G1.
      * replace (i + S k)%nat with (S i + k)%nat by lia. apply G', X.
Qed.
Lemma profile_ok : forall junk (g : grid fl) dt m pts z, pts <> [] ->
  sample junk g dt m (AMultipoint pts) = Ok (Table z) -> length z = length (gbands g) ->
  (forall row, In row z -> length row = length pts) ->
  exists t, profile junk g dt m pts = Ok (t, z) /\ Table_Spec.rectangular t /\ Table_Model.tlen t = length pts /\
    Table_Model.fields t = map band_name (seq 0 (length (gbands g))) /\
    forall k row, nth_error z k = Some row -> Table_Model.getfield t (band_name k) = Table_Model.Ok row.
Proof.
  intros junk g dt m pts z NE E L P. unfold profile.
  rewrite (proj1 (arrays_ok junk g dt m _ _)) by (rewrite !map_length; reflexivity). rewrite combine_split, E. cbn [bind].
  set (t0 := Table_Model.mkT _ _).
  assert (T0 : Table_Model.tlen t0 = length pts) by (unfold t0, Table_Model.tlen; cbn; apply map_length).
  destruct (set_bands_ok (length (gbands g)) z 0 t0) as (t & S & R & L' & F' & _ & K).
  - unfold Table_Spec.rectangular, t0. cbn. apply Forall_forall. intros r I. apply in_map_iff in I. destruct I as (? & <- & _). reflexivity.
  - rewrite T0. destruct pts; [congruence|discriminate].
  - exact L.
  - rewrite T0. exact P.
  - reflexivity.
  - rewrite S. cbn [bind]. exists t. split; [reflexivity|]. split; [exact R|]. split; [congruence|]. split; [exact F'|]. exact K.
Qed.
Theorem profile_bilinear : forall junk (g : grid fl) T H W nb F nodata pts,
  grid_is g T H W nb F nodata -> invertible T -> ~ (dy T == 0)%Q -> 2 <= H -> 2 <= W -> pts <> [] ->
  (length pts = 1%nat \/
   (exists p u v, In p pts /\ at_position T p u v /\ (0 < u)%Q) /\
   (exists p u v, In p pts /\ at_position T p u v /\ (u < inject_Z H)%Q) /\
   (exists p u v, In p pts /\ at_position T p u v /\ (0 < v)%Q) /\
   (exists p u v, In p pts /\ at_position T p u v /\ (v < inject_Z W)%Q)) ->
  exists t z, profile junk g DFloat Bilinear pts = Ok (t, z) /\
    Table_Spec.rectangular t /\ Table_Model.tlen t = length pts /\
    Table_Model.fields t = map band_name (seq 0 (Z.to_nat nb)) /\ length z = Z.to_nat nb /\
    forall k row, nth_error z k = Some row ->
      Table_Model.getfield t (band_name k) = Table_Model.Ok row /\ Forall2 (sampled T (F (Z.of_nat k)) H W nodata) pts row.
Proof.
  intros junk g T H W nb F nodata pts G I D H2 W2 NE O.
  destruct (many_bilinear junk g T H W nb F nodata pts G I D H2 W2 NE O) as (z & E & L & P).
  pose proof G as (_ & _ & EN & _).
  destruct (profile_ok junk g DFloat Bilinear pts z NE E) as (t & Et & R & Lt & Ft & K).
  - lia.
  - intros row J. apply In_nth_error in J. destruct J as (k & J). symmetry. apply (forall2_len _ _ _ _ _ (P k row J)).
  - exists t, z. split; [exact Et|]. split; [exact R|]. split; [exact Lt|]. split; [rewrite Ft; do 2 f_equal; lia|]. split; [lia|].
    intros k row N. auto.
Qed.
Theorem profile_nearest : forall junk (g : grid fl) dt T H W nb F nodata pts,
  grid_is g T H W nb F nodata -> invertible T -> ~ (dy T == 0)%Q -> nb = 1 \/ length pts = 1%nat ->
  exists cs, Forall2 (in_cell T) pts cs /\
    ((exists c, In c cs /\ in_grid H W c) ->
     exists t z, profile junk g dt Nearest pts = Ok (t, z) /\
       Table_Spec.rectangular t /\ Table_Model.tlen t = length pts /\
       Table_Model.fields t = map band_name (seq 0 (Z.to_nat nb)) /\ length z = Z.to_nat nb /\
       forall k row, nth_error z k = Some row -> Table_Model.getfield t (band_name k) = Table_Model.Ok row /\
         Forall2 (fun c v => (in_grid H W c -> v = F (Z.of_nat k) (fst c) (snd c)) /\ (~ in_grid H W c -> v = nodata)) cs row).
Proof.
  intros junk g dt T H W nb F nodata pts G I D O.
  destruct (many_nearest junk g dt T H W nb F nodata pts G I D O) as (cs & C & K). exists cs. split; [exact C|].
  intros X. destruct (K X) as (z & E & L & P). pose proof G as (_ & _ & EN & _).
  destruct (profile_ok junk g dt Nearest pts z) as (t & Et & R & Lt & Ft & K').
  - intros ->. destruct X as (c & J & _). inversion C. subst. destruct J.
  - exact E.
  - lia.
  - intros row J. apply In_nth_error in J. destruct J as (k & J).
    rewrite <- (forall2_len _ _ _ _ _ (P k row J)). symmetry. apply (forall2_len _ _ _ _ _ C).
  - exists t, z. split; [exact Et|]. split; [exact R|]. split; [exact Lt|]. split; [rewrite Ft; do 2 f_equal; lia|]. split; [lia|].
    intros k row N. auto.
Qed.
Theorem default_resolution_ok : forall T, let r := default_resolution T in
  (r = dx T \/ r = dy T) /\ (r <= dx T)%Q /\ (r <= dy T)%Q.
Proof. intros T r. unfold r, default_resolution. destruct (Qlt_le_dec (dy T) (dx T)); split; auto; lra. Qed.
Theorem data_bbox_ok : forall junk (g : grid fl) T H W F nodata,
  grid_is g T H W 1 F nodata -> (0 < dx T)%Q -> (0 < dy T)%Q -> (sx T == 0)%Q -> (sy T == 0)%Q ->
  (exists p, data_centre T H W (F 0) nodata p /\ (snd (centre T 0 0) <= fst p)%Q) ->
  exists xmin ymin xmax ymax, data_bbox junk g = Ok (xmin, ymin, xmax, ymax) /\
    tight_box (data_point T H W (F 0) nodata) (xmin, xmax, ymin, ymax).
Proof.
  intros junk g T H W F nodata G A B C D X.
  destruct (data_extent_spec junk g T H W F nodata G A B C D X) as (c & e & _ & _ & E & K).
  destruct e as (((a, b), c'), d). exists a, c', b, d. unfold data_bbox. rewrite E. split; [reflexivity|]. exact K.
Qed.
Theorem nan_is_missing : forall H W nb F, ~ data_value H W nb F None None /\ ~ full_value H W nb F None None.
Proof.
  intros H W nb F. split.
  - intros (k & y & x & _ & _ & (D & _) & E). rewrite E in D. specialize (D eq_refl). discriminate.
  - intros (k & y & x & K & _ & D & E). destruct (D k K) as (X & _). rewrite E in X. specialize (X eq_refl). discriminate.
Qed.
Theorem one_band : forall H W F nodata v, full_value H W 1 F nodata v <-> data_value H W 1 F nodata v.
Proof.
  intros H W F nodata v. split; intros (k & y & x & K & C & D & E).
  - exists k, y, x. auto.
  - exists k, y, x. split; [exact K|]. split; [exact C|]. split; [|exact E]. intros k' K'. replace k' with k by lia. exact D.
Qed.
