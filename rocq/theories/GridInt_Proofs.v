(** Proofs about sampling grids of integers, and about grids that cannot be merged. *)
From Coq Require Import List ZArith QArith Qround Qabs Bool Lia Lqa ZifyBool.
From Verif Require Import Band_Model Band_Spec Band_IndexModel Band_IndexSpec Band_Proofs
  Band_IndexProofs Grid_Model Grid_Spec Grid_Proofs GridSample_Model GridSample_Spec GridSample_Proofs
  GridBilinear_Proofs GridBilinear_More Grid_OpsProofs Grid_MoreProofs Grid_ResizeProofs GridMerge_Proofs GridInt_Spec.
Import ListNotations.
Open Scope Z_scope.

Lemma ftrunc_truncated : forall z, truncated z (ftrunc z).
Proof.
  intros z q ->. cbn [ftrunc]. exists (ctrunc q). split; [reflexivity|]. unfold ctrunc.
  destruct (Qle_bool 0 q) eqn:E.
  - apply Qle_bool_iff in E. destruct (floor_bounds q) as [A B]. split; [intros _; lra|].
    intro N. assert (X : (q == 0)%Q) by lra. rewrite (Qfloor_comp _ _ X).
    change (Qfloor 0) with 0. change (inject_Z 0) with 0%Q. lra.
  - assert (N : ~ (0 <= q)%Q) by (intro X; apply Qle_bool_iff in X; congruence).
    destruct (ceil_bounds q) as [A B]. split; [intro; contradiction|]. intros _. lra.
Qed.

(** Whether the four cells around a position are read. *)
Definition reads (A : arr fl) (i j : Q) : bool :=
  let (i0, i1) := around i in
  let (j0, j1) := around j in
  (0 <=? i0) && (i1 <? nrow A) && (0 <=? j0) && (j1 <? ncol A).
Lemma uint_double : forall A na i j,
  bilinear_uint A na i j = if reads A i j then ftrunc (bilinear_double A na i j) else na.
Proof.
  intros. unfold bilinear_uint, bilinear_double, reads. destruct (around i), (around j).
  destruct ((0 <=? z) && (z0 <? nrow A) && (0 <=? z1) && (z2 <? ncol A)); reflexivity.
Qed.
Lemma double_out : forall A na i j, reads A i j = false -> bilinear_double A na i j = na.
Proof. intros A na i j. unfold bilinear_double, reads. destruct (around i), (around j). intros ->. reflexivity. Qed.
Lemma cell_in : forall (A : arr fl) i j, 0 <= i < nrow A -> 0 <= j < ncol A -> cell_at A i j = Ok (at_ A i j).
Proof.
  intros A i j I J. unfold cell_at, py_index.
  repeat (match goal with |- context [if ?c then _ else _] => destruct c eqn:? end; try lia; cbn [bind]).
  reflexivity.
Qed.
Lemma int_double : forall A na i j, reads A i j = true -> bilinear_int A i j = Ok (ftrunc (bilinear_double A na i j)).
Proof.
  intros A na i j. unfold reads, bilinear_int, bilinear_double.
  destruct (around_spec i) as (i0 & Ei & _). destruct (around_spec j) as (j0 & Ej & _). rewrite Ei, Ej.
  intro R. rewrite R. rewrite !cell_in by lia. reflexivity.
Qed.

Lemma mapM_ok : forall A B (f : A -> res B) (g : A -> B) l, (forall a, In a l -> f a = Ok (g a)) -> mapM f l = Ok (map g l).
Proof.
  intros A B f g l. induction l as [|a l IH]; intro P; cbn [mapM map]; [reflexivity|].
  rewrite (P a (or_introl eq_refl)). cbn [bind]. rewrite IH by (intros; apply P; right; assumption). reflexivity.
Qed.
Lemma mapM_rel : forall A B (f g : A -> res B) (R : B -> B -> Prop) l m,
  (forall a b, In a l -> f a = Ok b -> exists c, g a = Ok c /\ R b c) -> mapM f l = Ok m ->
  exists m', mapM g l = Ok m' /\ Forall2 R m m'.
Proof.
  intros A B f g R l. induction l as [|a l IH]; intros m P E; cbn [mapM] in *.
  - injection E as <-. exists []. split; [reflexivity|constructor].
  - destruct (f a) as [b|e] eqn:F; cbn [bind] in E; [|discriminate].
    destruct (mapM f l) as [bs|e] eqn:M; cbn [bind] in E; [|discriminate]. injection E as <-.
    destruct (P a b (or_introl eq_refl) F) as (c & G & Rc).
    destruct (IH bs (fun a' b' I => P a' b' (or_intror I)) eq_refl) as (m' & E' & F').
    exists (c :: m'). rewrite G, E'. cbn [bind]. split; [reflexivity|]. constructor; assumption.
Qed.
Lemma mapM_inv : forall A B (f : A -> res B) l m n a, mapM f l = Ok m -> nth_error l n = Some a ->
  exists b, f a = Ok b /\ nth_error m n = Some b.
Proof.
  intros A B f l. induction l as [|x l IH]; intros m n a E N; [destruct n; discriminate|].
  cbn [mapM] in E. destruct (f x) as [b|e] eqn:F; cbn [bind] in E; [|discriminate].
  destruct (mapM f l) as [bs|e] eqn:M; cbn [bind] in E; [|discriminate]. injection E as <-.
  destruct n as [|n]; cbn [nth_error] in *.
  - injection N as <-. exists b. split; [exact F|reflexivity].
  - apply (IH bs n a eq_refl N).
Qed.
Lemma mapM_build : forall A B (f : A -> res B) l, (forall a, In a l -> exists b, f a = Ok b) -> exists m, mapM f l = Ok m.
Proof.
  intros A B f l. induction l as [|x l IH]; intro P; cbn [mapM]; [eexists; reflexivity|].
  destruct (P x (or_introl eq_refl)) as (b & ->). destruct IH as (m & ->); [intros; apply P; right; assumption|].
  cbn [bind]. eexists. reflexivity.
Qed.
Lemma mapM_length : forall A B (f : A -> res B) l m, mapM f l = Ok m -> length m = length l.
Proof.
  intros A B f l. induction l as [|x l IH]; intros m E; cbn [mapM] in E; [injection E as <-; reflexivity|].
  destruct (f x); cbn [bind] in E; [|discriminate]. destruct (mapM f l) as [bs|]; cbn [bind] in E; [|discriminate].
  injection E as <-. cbn [length]. rewrite (IH bs eq_refl). reflexivity.
Qed.
Lemma Forall2_and3 : forall A B (P Q R : A -> B -> Prop) l m, Forall2 P l m -> Forall2 Q l m ->
  (forall a b, In a l -> P a b -> Q a b -> R a b) -> Forall2 R l m.
Proof.
  intros A B P Q R l m F. induction F; intros G I; [constructor|]. inversion G; subst.
  constructor; [apply I; [left; reflexivity|assumption..]|]. apply IHF; [assumption|]. intros; apply I; [right|..]; assumption.
Qed.
Lemma Forall2_unmap : forall A B C (f : B -> C) (R : A -> C -> Prop) l m,
  Forall2 R l (map f m) -> Forall2 (fun a b => R a (f b)) l m.
Proof.
  intros A B C f R l m. revert l. induction m; intros l F; inversion F; subst; constructor; auto.
Qed.

Section J.
Variable junk : Z -> Z -> fl.

(** The same grid with another nodata value. *)
Definition withna (g : grid fl) (na : fl) : grid fl := mkG (gT g) (gbands g) (gcls g) na.
Lemma withna_is : forall g T H W nb F nodata na, grid_is g T H W nb F nodata -> grid_is (withna g na) T H W nb F na.
Proof. intros g T H W nb F nodata na (A & B & C & D). split; [exact A|]. split; [exact B|]. split; [exact C|reflexivity]. Qed.
Lemma withna_same : forall g T H W nb F nodata, grid_is g T H W nb F nodata -> withna g nodata = g.
Proof. intros g T H W nb F nodata (A & B & C & <-). destruct g. reflexivity. Qed.

Lemma shape_of : forall g pts, (exists e, forall na dt, sample_bilinear junk (withna g na) dt pts = Err e) \/
  exists w qs, forall na dt, sample_bilinear junk (withna g na) dt pts
    = mapM (bilinear_band junk (withna g na) dt w qs) (zrange 0 (Z.of_nat (length (gbands g)))).
Proof.
  intros g pts. unfold sample_bilinear. change (fun na => gsize (withna g na)) with (fun _ : fl => gsize g).
  assert (X : forall na, gsize (withna g na) = gsize g) by reflexivity.
  destruct (gsize g) as [m n] eqn:Eg.
  destruct (option_all (map (fun p => positions (gT g) (fst p) (snd p)) pts)) as [[|p [|q l]]|] eqn:E.
  - left. exists ValueError. intros na dt. rewrite X. cbn [withna gT]. rewrite E. reflexivity.
  - right. exists None, [p]. intros na dt. rewrite X. cbn [withna gT]. rewrite E. reflexivity.
  - right. eexists _, _. intros na dt. rewrite X. cbn [withna gT gbands]. rewrite E. reflexivity.
  - left. exists ValueError. intros na dt. rewrite X. cbn [withna gT]. rewrite E. reflexivity.
Qed.
Lemma band_of : forall g w qs k row na0, bilinear_band junk (withna g na0) DFloat w qs k = Ok row ->
  exists A, forall na,
    bilinear_band junk (withna g na) DFloat w qs k = Ok (map (fun p => bilinear_double A na (fst p) (snd p)) qs) /\
    bilinear_band junk (withna g na) DUint w qs k = Ok (map (fun p => bilinear_uint A na (fst p) (snd p)) qs) /\
    bilinear_band junk (withna g na) DInt w qs k = mapM (fun p => bilinear_int A (fst p) (snd p)) qs.
Proof.
  intros g w qs k row na0 E. unfold bilinear_band in *. cbn [withna gbands gnodata] in *.
  destruct (getitem junk (gbands g) _) as [v|e]; cbn [bind] in *; [|discriminate].
  destruct (shp v) as [|h [|wd [|x s]]]; try discriminate.
  destruct ((h =? 1) || (wd =? 1)); [discriminate|]. eexists. intro na. split; [reflexivity|]. split; reflexivity.
Qed.

Section P.
Variables (g : grid fl) (T : transform) (H W nb : Z) (F : Z -> Z -> Z -> fl) (nodata : fl) (pts : list (Q * Q)).
Hypothesis G : grid_is g T H W nb F nodata.
Hypothesis I : invertible T.
Hypothesis D : ~ (dy T == 0)%Q.
Hypothesis H2 : 2 <= H.
Hypothesis W2 : 2 <= W.
Hypothesis NE : pts <> [].
Hypothesis Sp : length pts = 1%nat \/
   (exists p u v, In p pts /\ at_position T p u v /\ (0 < u)%Q) /\
   (exists p u v, In p pts /\ at_position T p u v /\ (u < inject_Z H)%Q) /\
   (exists p u v, In p pts /\ at_position T p u v /\ (0 < v)%Q) /\
   (exists p u v, In p pts /\ at_position T p u v /\ (v < inject_Z W)%Q).

(** For each band, the array and the positions in it that are read. *)
Lemma read_arrays : exists w qs,
  (forall na dt, sample_bilinear junk (withna g na) dt pts
    = mapM (bilinear_band junk (withna g na) dt w qs) (zrange 0 nb)) /\
  forall k, 0 <= k < nb -> exists A, (forall na,
    bilinear_band junk (withna g na) DUint w qs k = Ok (map (fun p => bilinear_uint A na (fst p) (snd p)) qs) /\
    bilinear_band junk (withna g na) DInt w qs k = mapM (fun p => bilinear_int A (fst p) (snd p)) qs) /\
    forall na, Forall2 (fun p q => sampled T (F k) H W na p (bilinear_double A na (fst q) (snd q))) pts qs.
Proof.
  destruct (shape_of g pts) as [(e & X) | (w & qs & X)].
  - destruct (bilinear_spec junk (withna g nodata) T H W nb F nodata pts (withna_is _ _ _ _ _ _ _ nodata G) I D H2 W2 NE Sp)
      as (rows & E & _). rewrite X in E. discriminate.
  - assert (En : Z.of_nat (length (gbands g)) = nb) by apply G.
    exists w, qs. rewrite En in X. split; [exact X|]. intros k Hk.
    assert (Row : forall na, exists row, bilinear_band junk (withna g na) DFloat w qs k = Ok row /\
              Forall2 (sampled T (F k) H W na) pts row).
    { intro na.
      destruct (bilinear_spec junk (withna g na) T H W nb F na pts (withna_is _ _ _ _ _ _ _ na G) I D H2 W2 NE Sp)
        as (rows & E & L & P). rewrite X in E.
      destruct (mapM_inv _ _ _ _ _ (Z.to_nat k) k E (zrange_nth0 nb k Hk)) as (row & Er & Nr).
      exists row. split; [exact Er|]. assert (Y := P _ _ Nr). rewrite Z2Nat.id in Y by lia. exact Y. }
    destruct (Row nodata) as (row & Er & _). destruct (band_of _ _ _ _ _ _ Er) as (A & B).
    exists A. split; [intro na; split; apply B|]. intro na. destruct (Row na) as (row' & Er' & Fr).
    rewrite (proj1 (B na)) in Er'. injection Er' as <-. apply Forall2_unmap in Fr. exact Fr.
Qed.

Lemma uniq_pos : forall p u v u' v', at_position T p u v -> at_position T p u' v' -> (u == u' /\ v == v')%Q.
Proof.
  intros p u v u' v' A B. unfold at_position in *.
  assert (P : peq (world T (u + (1 # 2)) (v + (1 # 2))) (world T (u' + (1 # 2)) (v' + (1 # 2)))%Q).
  { destruct A as [A1 A2], B as [B1 B2]. split; [rewrite A1, B1|rewrite A2, B2]; reflexivity. }
  destruct (world_inj T _ _ _ _ I P) as [X Y]. clear - X Y. split; lra.
Qed.
Lemma out_value : forall f p na z, ~ between_centres T H W p -> sampled T f H W na p z -> z = na.
Proof.
  intros f p na z N (u & v & A & _ & B). apply B.
  destruct (Qlt_le_dec u 0) as [X | X]; [auto|]. destruct (Qlt_le_dec (inject_Z (H - 1)) u) as [X1 | X1]; [auto|].
  destruct (Qlt_le_dec v 0) as [X2 | X2]; [auto|]. destruct (Qlt_le_dec (inject_Z (W - 1)) v) as [X3 | X3]; [auto|].
  exfalso. apply N. exists u, v. auto.
Qed.
Lemma reads_out : forall f p A i j, (forall na, sampled T f H W na p (bilinear_double A na i j)) ->
  ~ between_centres T H W p -> reads A i j = false.
Proof.
  intros f p A i j S N. destruct (reads A i j) eqn:R; [|reflexivity].
  assert (X := out_value f p _ _ N (S (Some 0%Q))). assert (Y := out_value f p _ _ N (S (Some 1%Q))).
  unfold reads in R. unfold bilinear_double in X, Y. destruct (around i), (around j). rewrite R in X, Y.
  rewrite X in Y. discriminate.
Qed.
Lemma reads_in : forall f p A i j, (forall a b, 0 <= a < H -> 0 <= b < W -> f a b <> None) ->
  (forall na, sampled T f H W na p (bilinear_double A na i j)) ->
  between_centres T H W p -> reads A i j = true.
Proof.
  intros f p A i j Num S (u & v & Pu & Ru & Rv). destruct (reads A i j) eqn:R; [reflexivity|exfalso].
  set (n := fun a b => match f a b with Some q => q | None => 0%Q end).
  assert (K : forall na, exists q, na = Some q /\ exists i0 j0, (q == interpolate n i0 j0 u v)%Q /\
            i0 = Z.min (Qfloor u) (H - 2) /\ j0 = Z.min (Qfloor v) (W - 2)).
  { intro na. destruct (S na) as (u' & v' & Pu' & B & _). rewrite (double_out A na i j R) in B.
    destruct (uniq_pos p u v u' v' Pu Pu') as [Eu Ev].
    destruct (floor_bounds u) as [L U]. destruct (floor_bounds v) as [L' U'].
    assert (F0 : 0 <= Qfloor u) by (change 0 with (Qfloor 0); apply Qfloor_resp_le; exact (proj1 Ru)).
    assert (F1 : 0 <= Qfloor v) by (change 0 with (Qfloor 0); apply Qfloor_resp_le; exact (proj1 Rv)).
    assert (Q1 : forall x k, (inject_Z (Qfloor x) <= x)%Q -> (x < inject_Z (Qfloor x) + 1)%Q -> (x <= inject_Z (k - 1))%Q ->
              (inject_Z (Z.min (Qfloor x) (k - 2)) <= x <= inject_Z (Z.min (Qfloor x) (k - 2)) + 1)%Q).
    { intros x k X1 X2 X3. destruct (Z_lt_le_dec (Qfloor x) (k - 1)).
      - rewrite Z.min_l by lia. split; lra.
      - rewrite Z.min_r by lia. assert (Y := inj_le (k - 1) (Qfloor x) ltac:(lia)).
        replace (k - 2) with (k - 1 - 1) by lia. rewrite (inj_sub (k - 1)), inj_1. split; lra. }
    destruct (B (Z.min (Qfloor u) (H - 2)) (Z.min (Qfloor v) (W - 2)) n) as (q & Eq & Iq).
    - lia.
    - lia.
    - lia.
    - lia.
    - rewrite <- Eu. apply Q1; [exact L|lra|apply Ru].
    - rewrite <- Ev. apply Q1; [exact L'|lra|apply Rv].
    - intros a b Ha Hb _ _. unfold n. destruct (f a b) eqn:E; [reflexivity|]. exfalso. exact (Num a b Ha Hb E).
    - exists q. split; [exact Eq|]. exists (Z.min (Qfloor u) (H - 2)), (Z.min (Qfloor v) (W - 2)).
      split; [|split; reflexivity]. rewrite Iq. clear - Eu Ev. unfold interpolate.
      generalize (Z.min (Qfloor u) (H - 2)), (Z.min (Qfloor v) (W - 2)). intros a b. rewrite Eu, Ev. reflexivity. }
  destruct (K (Some 0%Q)) as (q & Q1 & i0 & j0 & V & -> & ->). destruct (K (Some 1%Q)) as (q' & Q2 & i1 & j1 & V' & -> & ->).
  injection Q1 as <-. injection Q2 as <-. rewrite <- V' in V. discriminate V.
Qed.

Lemma uint_spec : (exists n, nodata = Some (inject_Z n)) ->
  exists rows, sample_bilinear junk g DUint pts = Ok rows /\ Z.of_nat (length rows) = nb /\
    forall k row, nth_error rows k = Some row ->
      Forall2 (sampled_int T (F (Z.of_nat k)) H W nodata) pts row.
Proof.
  intros (n & En). destruct read_arrays as (w & qs & X & Y). rewrite <- (withna_same g T H W nb F nodata G), X.
  destruct (mapM_build _ _ (bilinear_band junk (withna g nodata) DUint w qs) (zrange 0 nb)) as (rows & E).
  { intros k Ik. apply in_zrange in Ik. destruct (Y k ltac:(lia)) as (A & B & _). eexists. apply (B nodata). }
  exists rows. split; [exact E|].
  assert (Nb : 0 <= nb) by (destruct G as (_ & _ & <- & _); lia).
  assert (L : Z.of_nat (length rows) = nb).
  { rewrite (mapM_length _ _ _ _ _ E), zrange_length. lia. }
  split; [exact L|]. intros k row Nk.
  assert (Hk : 0 <= Z.of_nat k < nb).
  { assert (k < length rows)%nat by (apply nth_error_Some; congruence). lia. }
  destruct (mapM_inv _ _ _ _ _ _ _ E (zrange_nth0 nb (Z.of_nat k) Hk)) as (row' & Er & Nr).
  rewrite Nat2Z.id, Nk in Nr. injection Nr as <-.
  destruct (Y (Z.of_nat k) Hk) as (A & B & S). rewrite (proj1 (B nodata)) in Er. injection Er as <-.
  apply Forall2_map_r.
  assert (S' : Forall2 (fun p q => forall na, sampled T (F (Z.of_nat k)) H W na p (bilinear_double A na (fst q) (snd q))) pts qs).
  { clear - S. assert (S0 := S None). revert S. induction S0; intro S; constructor.
    - intro na. assert (Z := S na). inversion Z; assumption.
    - apply IHS0. intro na. assert (Z := S na). inversion Z; assumption. }
  apply (Forall2_impl_in _ _ _ _ _ _ S'). intros p q _ _ Sq. rewrite uint_double. split.
  - exists (bilinear_double A nodata (fst q) (snd q)). split; [apply Sq|].
    destruct (reads A (fst q) (snd q)) eqn:R; [apply ftrunc_truncated|]. rewrite (double_out _ _ _ _ R), En.
    intros y Ey. injection Ey as <-. exists n. split; [reflexivity|]. split; intros _; lra.
  - intro N. rewrite (reads_out _ _ _ _ _ Sq N). reflexivity.
Qed.

Lemma int_spec : (forall k a b, 0 <= k < nb -> 0 <= a < H -> 0 <= b < W -> F k a b <> None) ->
  (forall p, In p pts -> between_centres T H W p) ->
  exists rows, sample_bilinear junk g DInt pts = Ok rows /\ Z.of_nat (length rows) = nb /\
    forall k row, nth_error rows k = Some row ->
      Forall2 (fun p z => exists z0, sampled T (F (Z.of_nat k)) H W nodata p z0 /\ truncated z0 z) pts row.
Proof.
  intros Num In_. destruct read_arrays as (w & qs & X & Y). rewrite <- (withna_same g T H W nb F nodata G), X.
  assert (Y' : forall k, 0 <= k < nb -> exists A,
    bilinear_band junk (withna g nodata) DInt w qs k
      = Ok (map (fun q => ftrunc (bilinear_double A nodata (fst q) (snd q))) qs) /\
    Forall2 (fun p q => sampled T (F k) H W nodata p (bilinear_double A nodata (fst q) (snd q))) pts qs).
  { intros k Hk. destruct (Y k Hk) as (A & B & S). exists A. split; [|apply S].
    rewrite (proj2 (B nodata)). apply mapM_ok. intros q Iq. apply int_double.
    assert (S' : Forall2 (fun p q => forall na, sampled T (F k) H W na p (bilinear_double A na (fst q) (snd q))) pts qs).
    { clear - S. assert (S0 := S None). revert S. induction S0; intro S; constructor.
      - intro na. assert (Z := S na). inversion Z; assumption.
      - apply IHS0. intro na. assert (Z := S na). inversion Z; assumption. }
    assert (Ex : exists p, In p pts /\ forall na, sampled T (F k) H W na p (bilinear_double A na (fst q) (snd q))).
    { clear - S' Iq. induction S'; [destruct Iq|]. destruct Iq as [-> | Iq].
      - exists x. split; [left; reflexivity|assumption].
      - destruct (IHS' Iq) as (p & Ip & Sp). exists p. split; [right; exact Ip|exact Sp]. }
    destruct Ex as (p & Ip & Sq). apply (reads_in (F k) p); [intros a b Ha Hb; apply Num; assumption|exact Sq|apply In_; exact Ip]. }
  destruct (mapM_build _ _ (bilinear_band junk (withna g nodata) DInt w qs) (zrange 0 nb)) as (rows & E).
  { intros k Ik. apply in_zrange in Ik. destruct (Y' k ltac:(lia)) as (A & B & _). eexists. exact B. }
  exists rows. split; [exact E|].
  assert (Nb : 0 <= nb) by (destruct G as (_ & _ & <- & _); lia).
  assert (L : Z.of_nat (length rows) = nb).
  { rewrite (mapM_length _ _ _ _ _ E), zrange_length. lia. }
  split; [exact L|]. intros k row Nk.
  assert (Hk : 0 <= Z.of_nat k < nb).
  { assert (k < length rows)%nat by (apply nth_error_Some; congruence). lia. }
  destruct (mapM_inv _ _ _ _ _ _ _ E (zrange_nth0 nb (Z.of_nat k) Hk)) as (row' & Er & Nr).
  rewrite Nat2Z.id, Nk in Nr. injection Nr as <-.
  destruct (Y' (Z.of_nat k) Hk) as (A & B & S). rewrite B in Er. injection Er as <-.
  apply Forall2_map_r. apply (Forall2_impl_in _ _ _ _ _ _ S). intros p q _ _ Sq.
  exists (bilinear_double A nodata (fst q) (snd q)). split; [exact Sq|apply ftrunc_truncated].
Qed.
End P.

Lemma stretch_like : forall S T, same_stretch S T = true <-> like S T.
Proof.
  intros S T. unfold same_stretch, like. rewrite !andb_true_iff, !Qeq_bool_iff. tauto.
Qed.
Lemma merge_stretch : forall g0 rest g ws, In g rest -> ~ like (gT g) (gT g0) ->
  merge junk (g0 :: rest) ws = Err TypeError.
Proof.
  intros g0 rest g ws I N. cbn [merge].
  destruct (forallb (fun g1 => same_stretch (gT g1) (gT g0)) rest) eqn:E; [|reflexivity].
  rewrite forallb_forall in E. exfalso. apply N, stretch_like, E, I.
Qed.
Lemma frac_above : forall q, Qle_bool (frac q) eps = true <-> hardly_above q.
Proof.
  intro q. rewrite Qle_bool_iff. unfold frac, eps, hardly_above. destruct (floor_bounds q) as [L U]. split.
  - intro X. exists (Qfloor q). split; [exact L|]. lra.
  - intros (n & A & B). assert (E : Qfloor q = n); [|rewrite E; lra].
    assert (n <= Qfloor q) by (rewrite <- (Qfloor_Z n); apply Qfloor_resp_le; exact A).
    assert (Qfloor q < n + 1); [|lia]. rewrite Zlt_Qlt, inj_add, inj_1. lra.
Qed.
Lemma merge_offset : forall g0 rest g ws, (forall h, In h rest -> like (gT h) (gT g0)) ->
  ~ (dx (gT g0) == 0)%Q -> ~ (dy (gT g0) == 0)%Q -> In g rest ->
  ~ (hardly_above ((x0 (gT g) - x0 (gT g0)) / dx (gT g0))%Q /\ hardly_above ((y0 (gT g) - y0 (gT g0)) / dy (gT g0))%Q) \/
  length (gbands g) <> length (gbands g0) ->
  merge junk (g0 :: rest) ws = Err ValueError.
Proof.
  intros g0 rest g ws Like NX NY I N. cbn [merge].
  destruct (forallb (fun g1 => same_stretch (gT g1) (gT g0)) rest) eqn:E; cbn [negb].
  2:{ assert (E' : forallb (fun g1 => same_stretch (gT g1) (gT g0)) rest = true); [|congruence].
      apply forallb_forall. intros h Ih. apply stretch_like, Like, Ih. }
  destruct (Qeq_bool (dx (gT g0)) 0) eqn:E1; [apply Qeq_bool_iff in E1; contradiction|].
  destruct (Qeq_bool (dy (gT g0)) 0) eqn:E2; [apply Qeq_bool_iff in E2; contradiction|]. cbn [orb].
  destruct (existsb _ rest) eqn:E3; [reflexivity|].
  destruct N as [N | N].
  - exfalso. apply N. rewrite <- !frac_above.
    destruct (Qle_bool (frac ((x0 (gT g) - x0 (gT g0)) / dx (gT g0))) eps) eqn:A1,
             (Qle_bool (frac ((y0 (gT g) - y0 (gT g0)) / dy (gT g0))) eps) eqn:A2; auto; exfalso;
      (assert (X : existsb (fun g : grid fl => negb (Qle_bool (frac ((x0 (gT g) - x0 (gT g0)) / dx (gT g0))) eps)
          || negb (Qle_bool (frac ((y0 (gT g) - y0 (gT g0)) / dy (gT g0))) eps)) rest = true);
       [apply existsb_exists; exists g; split; [exact I|rewrite A1, A2; reflexivity]|congruence]).
  - destruct (forallb (fun g1 => Nat.eqb (length (gbands g1)) (length (gbands g0))) rest) eqn:E4; [|reflexivity].
    rewrite forallb_forall in E4. exfalso. apply N, Nat.eqb_eq, E4, I.
Qed.
End J.
