(** Proofs about sampling. *)
From Coq Require Import List ZArith QArith Qround Qabs Bool Lia Lqa.
From Verif Require Import Band_Model Band_Spec Band_IndexModel Band_IndexSpec Band_Proofs
  Band_IndexProofs Band_MaskProofs Grid_Model Grid_Spec Grid_Proofs Grid_OpsProofs Grid_ResizeProofs
  Grid_MoreProofs GridSample_Model GridSample_Spec.
Import ListNotations.
Open Scope Z_scope.

Lemma mul_zero_split : forall d a b : Q, ~ (d == 0)%Q -> (d * a == d * b)%Q -> (a == b)%Q.
Proof.
  intros d a b D E. apply (Qmult_inj_l a b d D). exact E.
Qed.
(** Positions are unique. *)
Lemma world_inj : forall T u v u' v', invertible T ->
  peq (world T u v) (world T u' v') -> (u == u' /\ v == v')%Q.
Proof.
  intros T u v u' v' I [E1 E2]. unfold world in *. cbn [fst snd] in *. unfold invertible in I.
  split; apply (mul_zero_split (dx T * dy T - sx T * sy T)%Q); try exact I.
  - assert (E : ((u - u') * dy T + (v - v') * sy T == 0)%Q) by (clear - E2; lra).
    assert (E' : ((v - v') * dx T + (u - u') * sx T == 0)%Q) by (clear - E1; lra).
    assert (X : ((dx T * dy T - sx T * sy T) * (u - u') ==
       dx T * ((u - u') * dy T + (v - v') * sy T) - sy T * ((v - v') * dx T + (u - u') * sx T))%Q) by ring.
    rewrite E, E' in X. clear - X. lra.
  - assert (E : ((u - u') * dy T + (v - v') * sy T == 0)%Q) by (clear - E2; lra).
    assert (E' : ((v - v') * dx T + (u - u') * sx T == 0)%Q) by (clear - E1; lra).
    assert (X : ((dx T * dy T - sx T * sy T) * (v - v') ==
       dy T * ((v - v') * dx T + (u - u') * sx T) - sx T * ((u - u') * dy T + (v - v') * sy T))%Q) by ring.
    rewrite E, E' in X. clear - X. lra.
Qed.

Lemma inj_lt_int : forall a b : Z, (inject_Z a < inject_Z b + 1)%Q -> (inject_Z b < inject_Z a + 1)%Q -> a = b.
Proof.
  intros a b A B. unfold Qlt, inject_Z in *. simpl in *. lia.
Qed.

Lemma in_cell_unique : forall T p c c', invertible T -> inside_cell T p c -> in_cell T p c' -> c = c'.
Proof.
  intros T p [i j] [i' j'] I (u & v & E & Hu & Hv) (u' & v' & E' & Hu' & Hv'). cbn [fst snd] in *.
  assert (P : peq (world T u v) (world T u' v')).
  { destruct E as [E1 E2], E' as [E3 E4]. split; [rewrite E1, E3|rewrite E2, E4]; reflexivity. }
  destruct (world_inj T u v u' v' I P) as [Eu Ev].
  f_equal; apply inj_lt_int; (clear - Hu Hu' Hv Hv' Eu Ev; lra).
Qed.

Lemma zmin_le : forall l d, zmin l d <= d /\ (forall x, In x l -> zmin l d <= x) /\ (In (zmin l d) (d :: l)).
Proof.
  unfold zmin. induction l as [|a l IH]; intro d; cbn [fold_left].
  - split; [lia|]. split; [intros x []|left; reflexivity].
  - destruct (IH (Z.min d a)) as (A & B & C). split; [lia|]. split.
    + intros x [<- | Hx]; [lia|apply B; exact Hx].
    + cbn [In] in *. destruct C as [C | C]; [|auto]. rewrite <- C.
      destruct (Z.min_spec d a) as [[_ ->] | [_ ->]]; auto.
Qed.
Lemma zmax_ge : forall l d, d <= zmax l d /\ (forall x, In x l -> x <= zmax l d) /\ (In (zmax l d) (d :: l)).
Proof.
  unfold zmax. induction l as [|a l IH]; intro d; cbn [fold_left].
  - split; [lia|]. split; [intros x []|left; reflexivity].
  - destruct (IH (Z.max d a)) as (A & B & C). split; [lia|]. split.
    + intros x [<- | Hx]; [lia|apply B; exact Hx].
    + cbn [In] in *. destruct C as [C | C]; [|auto]. rewrite <- C.
      destruct (Z.max_spec d a) as [[_ ->] | [_ ->]]; auto.
Qed.

Section N.
Variable V : Type.
Variable junk : Z -> Z -> V.

Lemma window_read_bands : forall bands H W F a b c d, stack_holds bands H W F ->
  0 <= a <= b -> 0 <= c <= d ->
  exists r, getitem junk bands (KeyTuple [sl a b; sl c d; full]) = Ok r /\
    shp r = [wlen H a b; wlen W c d; Z.of_nat (length bands)] /\
    forall i j k, 0 <= i < wlen H a b -> 0 <= j < wlen W c d ->
      0 <= k < Z.of_nat (length bands) -> elt r [i; j; k] = F k (a + i) (c + j).
Proof.
  intros bands H W F a b c d SH B D. destruct (stack_size V _ _ _ _ SH) as [HH HW].
  destruct (clip_slice H a b HH B) as (S1 & F1). destruct (clip_slice W c d HW D) as (S2 & F2).
  assert (N : 0 <= Z.of_nat (length bands)) by lia.
  destruct (full_selects _ N) as [SF _].
  destruct (getitem_spec V junk bands H W F (sl a b) (sl c d) [full] false _ false _ false
              (zrange 0 (Z.of_nat (length bands))) SH S1 S2 (selb_one _ _ _ _ SF) F1 F2) as (r & E & S & P).
  exists r. split; [exact E|]. unfold wlen. split.
  - rewrite S. simpl. rewrite !range_unit_len, zrange_length by lia. f_equal; [lia|]. f_equal; [lia|]. f_equal. lia.
  - intros i j k Hi Hj Hk.
    specialize (P (Z.to_nat i) (Z.to_nat j) (Z.to_nat k) (a + i) (c + j) k).
    simpl in P. rewrite !Z2Nat.id in P by lia. apply P.
    + replace (a + i) with (Z.min a H + i) by lia. apply range_unit_nth. lia.
    + replace (c + j) with (Z.min c W + j) by lia. apply range_unit_nth. lia.
    + apply zrange_nth0. lia.
Qed.

Lemma pixel_read : forall bands H W F i j, stack_holds bands H W F ->
  0 <= i < H -> 0 <= j < W ->
  exists r, getitem junk bands (KeyTuple [KInt i; KInt j]) = Ok r /\
    shp r = [Z.of_nat (length bands)] /\
    forall k, 0 <= k < Z.of_nat (length bands) -> elt r [k] = F k i j.
Proof.
  intros bands H W F i j SH Hi Hj.
  destruct (getitem_spec V junk bands H W F (KInt i) (KInt j) [] true [i] true [j] false
              (zrange 0 (Z.of_nat (length bands))) SH (sel_int _ _ Hi) (sel_int _ _ Hj) (selb_all _) I I)
    as (r & E & S & P).
  exists r. split; [exact E|]. split.
  - rewrite S. simpl. rewrite zrange_length. f_equal. lia.
  - intros k Hk. specialize (P 0%nat 0%nat (Z.to_nat k) i j k eq_refl eq_refl).
    simpl in P. rewrite Z2Nat.id in P by lia. apply P. apply zrange_nth0. lia.
Qed.

Definition inb (m n : Z) (p : Z * Z) : bool :=
  (0 <=? fst p) && (fst p <? m) && (0 <=? snd p) && (snd p <? n).
Lemma inb_spec : forall m n p, inb m n p = true <-> in_grid m n p.
Proof. intros. unfold inb, in_grid. rewrite !andb_true_iff, !Z.leb_le, !Z.ltb_lt. lia. Qed.

Lemma nearest1_spec : forall (g : grid V) T H W nb F nodata x y,
  grid_is g T H W nb F nodata -> invertible T -> ~ (dy T == 0)%Q ->
  exists c, in_cell T (x, y) c /\
    (in_grid H W c -> sample_nearest1 junk g x y =
       Ok (inr (map (fun k => F k (fst c) (snd c)) (zrange 0 nb)))) /\
    (~ in_grid H W c -> sample_nearest1 junk g x y = Ok (inl nodata)).
Proof.
  intros g T H W nb F nodata x y G I D.
  destruct (indices_contain T x y I D) as (i & j & u & v & E & P & Hu & Hv).
  exists (i, j). split; [exists u, v; auto|].
  destruct (grid_size _ _ _ _ _ _ _ _ G) as (Sz & HH & HW & Hnb).
  destruct G as (ET & SH & EN & Ed).
  unfold sample_nearest1. rewrite Sz, ET, E, Ed.
  fold (inb H W (i, j)) || change ((0 <=? i) && (i <? H) && (0 <=? j) && (j <? W)) with (inb H W (i, j)).
  split; intro B.
  - rewrite (proj2 (inb_spec H W (i, j)) B). destruct B as [B1 B2]. cbn [fst snd] in *.
    destruct (pixel_read _ _ _ _ i j SH B1 B2) as (r & Er & _ & Pr). rewrite Er. cbn [bind].
    rewrite EN in *. f_equal. f_equal. apply map_ext_in. intros k Hk. apply in_zrange in Hk. apply Pr. lia.
  - destruct (inb H W (i, j)) eqn:Eb; [apply inb_spec in Eb; contradiction|reflexivity].
Qed.

Lemma option_all_spec : forall A B (f : A -> option B) (R : A -> B -> Prop) l,
  (forall a, exists b, f a = Some b /\ R a b) ->
  exists r, option_all (map f l) = Some r /\ Forall2 R l r.
Proof.
  intros A B f R l Hf. induction l as [|a l (r & E & F)]; [exists []; split; [reflexivity|constructor]|].
  destruct (Hf a) as (b & Eb & Rb). exists (b :: r). cbn [map option_all]. rewrite Eb, E.
  split; [reflexivity|constructor; assumption].
Qed.

Lemma nth_concat_1 : forall A (rows : list (list A)) d p,
  (forall r, In r rows -> length r = 1%nat) ->
  nth p (concat rows) d = nth 0 (nth p rows [d]) d.
Proof.
  intros A rows d. induction rows as [|r rows IH]; intros p L; cbn [concat].
  - destruct p; reflexivity.
  - assert (Lr : length r = 1%nat) by (apply L; left; reflexivity).
    destruct r as [|a [|b r]]; try discriminate. cbn [app]. destruct p; [reflexivity|].
    cbn [nth]. apply IH. intros; apply L; right; assumption.
Qed.
Lemma nth_nil' : forall A n (d : A), nth n [] d = d.
Proof. intros A [|n] d; reflexivity. Qed.

(** The [n]-th point of a vector. *)
Lemma nearest_spec : forall (g : grid V) T H W nb F nodata pts,
  grid_is g T H W nb F nodata -> invertible T -> ~ (dy T == 0)%Q ->
  nb = 1 \/ length pts = 1%nat ->
  exists cs, Forall2 (in_cell T) pts cs /\
    ((exists c, In c cs /\ in_grid H W c) ->
     exists r, sample_nearest junk g pts = Ok r /\ nrow r = nb /\ ncol r = Z.of_nat (length pts) /\
       forall k n c, 0 <= k < nb -> nth_error cs n = Some c ->
         (in_grid H W c -> at_ r k (Z.of_nat n) = F k (fst c) (snd c)) /\
         (~ in_grid H W c -> at_ r k (Z.of_nat n) = nodata)).
Proof.
  intros g T H W nb F nodata pts G I D One.
  destruct (option_all_spec _ _ (fun p => indices_ T (fst p) (snd p)) (in_cell T) pts) as (cs & E & R).
  { intros [x y]. destruct (indices_contain T x y I D) as (i & j & u & v & E & P & Hu & Hv).
    exists (i, j). split; [exact E|]. exists u, v; auto. }
  exists cs. split; [exact R|]. intros (c0 & Ic0 & Gc0).
  destruct (grid_size _ _ _ _ _ _ _ _ G) as (Sz & HH & HW & Hnb).
  destruct G as (ET & SH & EN & Ed).
  unfold sample_nearest. rewrite Sz, ET, E, Ed.
  change (fun p : Z * Z => (0 <=? fst p) && (fst p <? H) && (0 <=? snd p) && (snd p <? W)) with (inb H W).
  cbv beta zeta.
  destruct (filter (inb H W) cs) as [|p0 rest] eqn:Ef.
  { exfalso. assert (In c0 (filter (inb H W) cs)) by (apply filter_In; split; [exact Ic0|apply inb_spec; exact Gc0]).
    rewrite Ef in H0. destruct H0. }
  assert (In_all : forall c, In c cs -> in_grid H W c -> In c (p0 :: rest)).
  { intros c A B. rewrite <- Ef. apply filter_In. split; [exact A|apply inb_spec; exact B]. }
  assert (All_in : forall c, In c (p0 :: rest) -> in_grid H W c).
  { intros c A. rewrite <- Ef in A. apply filter_In in A. apply inb_spec. apply A. }
  destruct (zmin_le (map fst rest) (fst p0)) as (A1 & A2 & A3).
  destruct (zmax_ge (map fst rest) (fst p0)) as (B1 & B2 & B3).
  destruct (zmin_le (map snd rest) (snd p0)) as (C1 & C2 & C3).
  destruct (zmax_ge (map snd rest) (snd p0)) as (D1 & D2 & D3).
  set (imn := zmin (map fst rest) (fst p0)) in *. set (imx := zmax (map fst rest) (fst p0)) in *.
  set (jmn := zmin (map snd rest) (snd p0)) in *. set (jmx := zmax (map snd rest) (snd p0)) in *.
  assert (Hp0 : in_grid H W p0) by (apply All_in; left; reflexivity).
  assert (Rng : forall c, in_grid H W c -> In c cs -> imn <= fst c <= imx /\ jmn <= snd c <= jmx).
  { intros c Gc Ic. destruct (In_all c Ic Gc) as [<- | Ir]; [lia|].
    specialize (A2 (fst c) (in_map fst _ _ Ir)). specialize (B2 (fst c) (in_map fst _ _ Ir)).
    specialize (C2 (snd c) (in_map snd _ _ Ir)). specialize (D2 (snd c) (in_map snd _ _ Ir)). lia. }
  unfold in_grid in Hp0.
  destruct (window_read_bands (gbands g) H W F (Z.max (imn - 1) 0) (Z.min (imx + 1) H)
              (Z.max (jmn - 1) 0) (Z.min (jmx + 1) W) SH ltac:(lia) ltac:(lia)) as (r & Er & Sr & Pr).
  rewrite Er. cbn [bind]. eexists. split; [reflexivity|]. cbn [nrow ncol].
  split; [exact EN|]. split; [reflexivity|]. intros k n c Hk Hn.
  assert (Ln : (n < length pts)%nat).
  { rewrite (Forall2_length _ _ _ _ _ R). apply nth_error_Some. congruence. }
  assert (Ic : In c cs) by (eapply nth_error_In; exact Hn).
  cbn [at_].
  set (rowof := fun p : Z * Z => map (fun k0 => if inb H W p
      then elt r [fst p - Z.max (imn - 1) 0; snd p - Z.max (jmn - 1) 0; k0] else nodata)
      (zrange 0 (Z.of_nat (length (gbands g))))).
  assert (X : nth (Z.to_nat (k * Z.of_nat (length pts) + Z.of_nat n)) (concat (map rowof cs)) nodata
              = nth (Z.to_nat k) (rowof c) nodata).
  { destruct One as [One | One].
    - assert (k = 0) by lia. subst k.
      rewrite nth_concat_1.
      + replace (Z.to_nat (0 * Z.of_nat (length pts) + Z.of_nat n)) with n by lia.
        rewrite (nth_indep _ [nodata] (rowof c)) by (rewrite map_length, <- (Forall2_length _ _ _ _ _ R); exact Ln).
        rewrite (map_nth rowof cs c n). f_equal. f_equal. apply nth_error_nth. exact Hn.
      + intros q Hq. apply in_map_iff in Hq. destruct Hq as (p & <- & _). unfold rowof.
        rewrite map_length, zrange_length. lia.
    - assert (n = 0%nat) by lia. subst n.
      assert (Lc : length cs = 1%nat) by (rewrite <- (Forall2_length _ _ _ _ _ R); exact One).
      destruct cs as [|c1 [|c2 cs]]; try discriminate. cbn [nth_error] in Hn. injection Hn as ->.
      cbn [map concat]. rewrite app_nil_r. f_equal. lia. }
  assert (Ek : nth_error (zrange 0 (Z.of_nat (length (gbands g)))) (Z.to_nat k) = Some k) by (apply zrange_nth0; lia).
  assert (Y : forall f : Z -> V, nth (Z.to_nat k) (map f (zrange 0 (Z.of_nat (length (gbands g))))) nodata = f k).
  { intro f. apply nth_error_nth. apply map_nth_error. exact Ek. }
  split; intro Gc; (etransitivity; [exact X|]); unfold rowof; rewrite Y.
  - rewrite (proj2 (inb_spec H W c) Gc). destruct (Rng c Gc Ic) as [Q1 Q2]. unfold in_grid in Gc.
    rewrite Pr; unfold wlen; try lia. f_equal; lia.
  - destruct (inb H W c) eqn:Eb; [apply inb_spec in Eb; contradiction|reflexivity].
Qed.
End N.
