(** Proofs about bilinear sampling. *)
From Coq Require Import List ZArith QArith Qround Qabs Bool Lia Lqa.
From Verif Require Import Band_Model Band_Spec Band_IndexModel Band_IndexSpec Band_Proofs
  Band_IndexProofs Band_MaskProofs Grid_Model Grid_Spec Grid_Proofs Grid_OpsProofs Grid_ResizeProofs
  Grid_MoreProofs GridSample_Model GridSample_Spec GridSample_Proofs.
Import ListNotations.
Open Scope Z_scope.

Lemma zlt_q : forall a b, a < b -> (inject_Z a + 1 <= inject_Z b)%Q.
Proof. intros a b L. unfold Qle, inject_Z, Qplus. simpl. lia. Qed.
Lemma qz_le : forall a b, (inject_Z a < inject_Z b + 1)%Q -> a <= b.
Proof. intros a b L. unfold Qlt, inject_Z, Qplus in L. simpl in L. lia. Qed.

Lemma around_spec : forall i, exists i0, around i = (i0, i0 + 1) /\
  (inject_Z i0 <= i <= inject_Z i0 + 1)%Q /\
  (forall H, 2 <= H -> (0 <= i0 /\ i0 + 1 < H <-> (0 <= i <= inject_Z (H - 1))%Q)) /\
  ((i == inject_Z i0)%Q -> (i == 0)%Q).
Proof.
  intro i. unfold around. destruct (floor_bounds i) as [L U].
  destruct (Qeq_bool (i - inject_Z (Qfloor i)) 0) eqn:E1; cbn [negb].
  - apply Qeq_bool_iff in E1. destruct (Qeq_bool i 0) eqn:E2; cbn [negb].
    + apply Qeq_bool_iff in E2. assert (Ez : Qfloor i = 0).
      { apply Qfloor_unique; change (inject_Z 0) with 0%Q; change (inject_Z (0 + 1)) with 1%Q; lra. }
      rewrite Ez. exists 0. split; [reflexivity|]. change (inject_Z 0) with 0%Q.
      split; [lra|]. split; [|tauto]. intros H HH. split; [|lia].
      intros _. assert (A := inj_le 0 (H - 1) ltac:(lia)). change (inject_Z 0) with 0%Q in A.
      clear - A E2. lra.
    + assert (N : ~ (i == 0)%Q) by (intro X; apply Qeq_bool_iff in X; congruence).
      exists (Qfloor i - 1). split; [f_equal; lia|].
      assert (A : (inject_Z (Qfloor i - 1) == inject_Z (Qfloor i) - 1)%Q) by (rewrite inj_sub; reflexivity).
      split; [clear - A E1 L U; lra|]. split; [|intro X; exfalso; clear - A E1 X; lra].
      intros H HH. rewrite Z.sub_add. split.
      * intros [B C]. assert (B' := inj_le 0 (Qfloor i) ltac:(lia)). change (inject_Z 0) with 0%Q in B'.
        assert (C' := inj_le (Qfloor i) (H - 1) ltac:(lia)). clear - B' C' E1. lra.
      * intros [B C]. split.
        -- assert (0 < Qfloor i); [|lia]. rewrite Zlt_Qlt. change (inject_Z 0) with 0%Q.
           clear - B N E1. destruct (Qlt_le_dec 0 i); [lra|]. exfalso. apply N. lra.
        -- assert (Qfloor i <= H - 1); [|lia]. rewrite Zle_Qle. clear - C E1. lra.
  - assert (N : ~ (i - inject_Z (Qfloor i) == 0)%Q) by (intro X; apply Qeq_bool_iff in X; congruence).
    exists (Qfloor i). split; [reflexivity|]. split; [lra|].
    assert (L' : (inject_Z (Qfloor i) < i)%Q).
    { destruct (Qlt_le_dec (inject_Z (Qfloor i)) i); [assumption|]. exfalso. apply N. lra. }
    split; [|intro X; exfalso; lra].
    intros H HH. split.
    + intros [B C]. assert (B' := inj_le 0 (Qfloor i) B). change (inject_Z 0) with 0%Q in B'.
      assert (C' := zlt_q (Qfloor i) (H - 1) ltac:(lia)). clear - B' C' L' U. lra.
    + intros [B C]. split.
      * apply qz_le. change (inject_Z 0) with 0%Q. clear - B U. lra.
      * assert (Qfloor i < H - 1); [|lia]. rewrite Zlt_Qlt. clear - C L'. lra.
Qed.

Lemma floor_shift : forall i c, Qfloor (i - inject_Z c) = Qfloor i - c.
Proof.
  intros i c. destruct (floor_bounds i) as [L U]. apply Qfloor_unique.
  - rewrite inj_sub. lra.
  - rewrite inj_add, inj_sub, inj_1. lra.
Qed.

Lemma around_shift : forall i c i0, around i = (i0, i0 + 1) -> (c = 0 \/ ~ (i == inject_Z c)%Q /\ ~ (i == 0)%Q) ->
  around (i - inject_Z c)%Q = (i0 - c, i0 - c + 1).
Proof.
  intros i c i0 E C.
  assert (Eq1 : Qeq_bool (i - inject_Z c - inject_Z (Qfloor (i - inject_Z c))) 0 = Qeq_bool (i - inject_Z (Qfloor i)) 0).
  { rewrite floor_shift. apply eq_iff_eq_true. rewrite !Qeq_bool_iff, inj_sub.
    split; intro X; lra. }
  unfold around in *. rewrite Eq1, floor_shift.
  assert (Eq2 : Qeq_bool (i - inject_Z c) 0 = Qeq_bool i 0).
  { apply eq_iff_eq_true. rewrite !Qeq_bool_iff. destruct C as [-> | [C1 C2]].
    - change (inject_Z 0) with 0%Q. split; intro X; lra.
    - split; intro X; exfalso; [apply C1|apply C2]; lra. }
  rewrite Eq2.
  destruct (Qeq_bool (i - inject_Z (Qfloor i)) 0); cbn [negb] in *;
    [destruct (Qeq_bool i 0); cbn [negb] in *|]; injection E as E1 E2; f_equal; lia.
Qed.

(** Linear interpolation does not depend on the interval chosen. *)
Definition lin (f : Z -> Q) (i : Z) (u : Q) : Q :=
  ((1 - (u - inject_Z i)) * f i + (u - inject_Z i) * f (i + 1)%Z)%Q.
Lemma lin_same : forall f i i' u, (inject_Z i <= u <= inject_Z i + 1)%Q ->
  (inject_Z i' <= u <= inject_Z i' + 1)%Q -> (lin f i u == lin f i' u)%Q.
Proof.
  intros f i i' u A B.
  assert (C : i' = i \/ (i' = i - 1 /\ (u == inject_Z i)%Q) \/ (i' = i + 1 /\ (u == inject_Z i + 1)%Q)).
  { destruct (Z.lt_trichotomy i' i) as [L | [-> | L]]; [right; left|left; reflexivity|right; right].
    - assert (L' := zlt_q _ _ L).
      assert (E : (u == inject_Z i)%Q) by (clear - A B L'; lra). split; [|exact E].
      assert (i <= i' + 1); [|lia]. rewrite Zle_Qle, inj_add, inj_1. clear - A B L'; lra.
    - assert (L' := zlt_q _ _ L).
      assert (E : (u == inject_Z i + 1)%Q) by (clear - A B L'; lra). split; [|exact E].
      assert (i' <= i + 1); [|lia]. rewrite Zle_Qle, inj_add, inj_1. clear - A B L'; lra. }
  unfold lin. destruct C as [-> | [[-> E] | [-> E]]]; [reflexivity| |].
  - rewrite E, Z.sub_add, inj_sub. change (inject_Z 1) with 1%Q. ring.
  - rewrite E, inj_add. change (inject_Z 1) with 1%Q. ring.
Qed.
Lemma lin_ext : forall f g i u, (f i == g i)%Q -> (f (i + 1)%Z == g (i + 1)%Z)%Q -> (lin f i u == lin g i u)%Q.
Proof. intros f g i u A B. unfold lin. rewrite A, B. reflexivity. Qed.
Lemma interp_lin : forall f i j u v, (interpolate f i j u v == lin (fun a => lin (f a) j v) i u)%Q.
Proof. intros. unfold interpolate, lin. ring. Qed.
Lemma interp_same : forall f i j i' j' u v,
  (inject_Z i <= u <= inject_Z i + 1)%Q -> (inject_Z i' <= u <= inject_Z i' + 1)%Q ->
  (inject_Z j <= v <= inject_Z j + 1)%Q -> (inject_Z j' <= v <= inject_Z j' + 1)%Q ->
  (interpolate f i j u v == interpolate f i' j' u v)%Q.
Proof.
  intros f i j i' j' u v A B C D. rewrite !interp_lin.
  rewrite (lin_same _ i i' u A B). apply lin_ext; apply lin_same; assumption.
Qed.

Section W.
Variable f : Z -> Z -> fl.
Variables H W : Z.
Hypothesis H2 : 2 <= H.
Hypothesis W2 : 2 <= W.

Lemma bilinear_window : forall (A : arr fl) na i j c d i0 j0,
  around i = (i0, i0 + 1) -> around j = (j0, j0 + 1) ->
  (c = 0 \/ ~ (i == inject_Z c)%Q /\ ~ (i == 0)%Q) ->
  (d = 0 \/ ~ (j == inject_Z d)%Q /\ ~ (j == 0)%Q) ->
  (forall a b, 0 <= a < nrow A -> 0 <= b < ncol A -> at_ A a b = f (c + a) (d + b)) ->
  (0 <= i0 /\ i0 + 1 < H <-> 0 <= i0 - c /\ i0 + 1 - c < nrow A) ->
  (0 <= j0 /\ j0 + 1 < W <-> 0 <= j0 - d /\ j0 + 1 - d < ncol A) ->
  bilinear_value f H W na i j (bilinear_double A na (i - inject_Z c) (j - inject_Z d)).
Proof.
  intros A na i j c d i0 j0 Ei Ej Ci Cj EA Bi Bj.
  destruct (around_spec i) as (i0' & Ei' & Ri & Gi & _). rewrite Ei in Ei'. injection Ei' as <-.
  destruct (around_spec j) as (j0' & Ej' & Rj & Gj & _). rewrite Ej in Ej'. injection Ej' as <-.
  specialize (Gi H H2). specialize (Gj W W2).
  unfold bilinear_double. rewrite (around_shift i c i0 Ei Ci), (around_shift j d j0 Ej Cj).
  split.
  - intros p q n P1 P2 Q1 Q2 Ru Rv Num.
    assert (U : (0 <= i <= inject_Z (H - 1))%Q).
    { assert (X := inj_le 0 p P1). assert (Y := zlt_q p (H - 1) ltac:(lia)).
      change (inject_Z 0) with 0%Q in X. clear - X Y Ru. lra. }
    assert (V_ : (0 <= j <= inject_Z (W - 1))%Q).
    { assert (X := inj_le 0 q Q1). assert (Y := zlt_q q (W - 1) ltac:(lia)).
      change (inject_Z 0) with 0%Q in X. clear - X Y Rv. lra. }
    apply Gi in U. apply Gj in V_. assert (U' := U). assert (V' := V_). apply Bi in U'. apply Bj in V'.
    destruct ((0 <=? i0 - c) && (i0 - c + 1 <? nrow A) && (0 <=? j0 - d) && (j0 - d + 1 <? ncol A)) eqn:T; [|lia].
    assert (Near : forall z z0, (inject_Z z0 <= z <= inject_Z z0 + 1)%Q -> forall a, a = z0 \/ a = z0 + 1 ->
              (z - 1 <= inject_Z a <= z + 1)%Q).
    { intros z z0 Rz a [-> | ->]; [lra|]. rewrite inj_add, inj_1. lra. }
    rewrite !EA by lia.
    replace (c + (i0 - c)) with i0 by lia. replace (c + (i0 - c + 1)) with (i0 + 1) by lia.
    replace (d + (j0 - d)) with j0 by lia. replace (d + (j0 - d + 1)) with (j0 + 1) by lia.
    rewrite !Num; try lia; try (apply (Near i i0 Ri); auto); try (apply (Near j j0 Rj); auto).
    unfold blend, fadd, fscale. eexists. split; [reflexivity|].
    rewrite (interp_same n p q i0 j0 i j Ru Ri Rv Rj). unfold interpolate.
    rewrite !inj_add, !inj_sub. change (inject_Z 1) with 1%Q. ring.
  - intro Out.
    destruct ((0 <=? i0 - c) && (i0 - c + 1 <? nrow A) && (0 <=? j0 - d) && (j0 - d + 1 <? ncol A)) eqn:T; [|reflexivity].
    exfalso. assert (U : 0 <= i0 /\ i0 + 1 < H) by (apply Bi; lia). assert (V_ : 0 <= j0 /\ j0 + 1 < W) by (apply Bj; lia).
    apply Gi in U. apply Gj in V_. clear - U V_ Out. destruct Out as [X | [X | [X | X]]]; lra.
Qed.
End W.

Lemma qminl_spec : forall l d, (qminl l d <= d)%Q /\ (forall x, In x l -> (qminl l d <= x)%Q) /\
  exists x, In x (d :: l) /\ (qminl l d == x)%Q.
Proof.
  unfold qminl. induction l as [|a l IH]; intro d; cbn [fold_left].
  - split; [apply Qle_refl|]. split; [intros x []|]. exists d. split; [left; reflexivity|reflexivity].
  - destruct (IH (qmin d a)) as (A & B & x & C & E). destruct (qmin_spec d a) as [[M L] | [M L]].
    + split; [lra|]. split; [intros y [<- | Hy]; [lra|apply B; exact Hy]|].
      destruct C as [<- | C]; [exists d; split; [left; reflexivity|lra]|exists x; split; [right; right; exact C|exact E]].
    + split; [lra|]. split; [intros y [<- | Hy]; [lra|apply B; exact Hy]|].
      destruct C as [<- | C]; [exists a; split; [right; left; reflexivity|lra]|exists x; split; [right; right; exact C|exact E]].
Qed.
Lemma qmaxl_spec : forall l d, (d <= qmaxl l d)%Q /\ (forall x, In x l -> (x <= qmaxl l d)%Q) /\
  exists x, In x (d :: l) /\ (qmaxl l d == x)%Q.
Proof.
  unfold qmaxl. induction l as [|a l IH]; intro d; cbn [fold_left].
  - split; [apply Qle_refl|]. split; [intros x []|]. exists d. split; [left; reflexivity|reflexivity].
  - destruct (IH (qmax d a)) as (A & B & x & C & E). destruct (qmax_spec d a) as [[M L] | [M L]].
    + split; [lra|]. split; [intros y [<- | Hy]; [lra|apply B; exact Hy]|].
      destruct C as [<- | C]; [exists d; split; [left; reflexivity|lra]|exists x; split; [right; right; exact C|exact E]].
    + split; [lra|]. split; [intros y [<- | Hy]; [lra|apply B; exact Hy]|].
      destruct C as [<- | C]; [exists a; split; [right; left; reflexivity|lra]|exists x; split; [right; right; exact C|exact E]].
Qed.

(** The rows read for several points. *)
Definition wmin (umin : Q) : Z := Z.max (Qfloor umin - 1) 0.
Definition wmax (umax : Q) (H : Z) : Z := Z.min (Qceiling (umax + 1)) H.
Lemma window_rows : forall umin umax H, 2 <= H -> (umin <= umax)%Q -> (0 < umax)%Q -> (umin < inject_Z H)%Q ->
  0 <= wmin umin /\ wmin umin + 2 <= wmax umax H /\ wmax umax H <= H /\
  forall u u0, (umin <= u <= umax)%Q -> around u = (u0, u0 + 1) ->
    (wmin umin = 0 \/ ~ (u == inject_Z (wmin umin))%Q /\ ~ (u == 0)%Q) /\
    (0 <= u0 /\ u0 + 1 < H <-> 0 <= u0 - wmin umin /\ u0 + 1 - wmin umin < wmax umax H - wmin umin).
Proof.
  intros umin umax H H2 Le P N. unfold wmin, wmax.
  destruct (floor_bounds umin) as [L U]. destruct (ceil_bounds (umax + 1)) as [L' U'].
  assert (F1 : Qfloor umin <= H - 1).
  { apply qz_le. rewrite inj_sub, inj_1. clear - L N. lra. }
  assert (C1 : 2 <= Qceiling (umax + 1)).
  { assert (1 < Qceiling (umax + 1)); [|lia]. rewrite Zlt_Qlt, inj_1. clear - L' P. lra. }
  assert (C2 : Qfloor umin + 1 <= Qceiling (umax + 1)).
  { rewrite Zle_Qle, inj_add, inj_1. clear - L L' Le. lra. }
  split; [lia|]. split; [lia|]. split; [lia|].
  intros u u0 Ru Eu. destruct (around_spec u) as (u0' & Eu' & Rr & G & Z0). rewrite Eu in Eu'. injection Eu' as <-.
  split.
  - destruct (Z_le_gt_dec (Qfloor umin - 1) 0) as [A | A]; [left; lia|right].
    rewrite Z.max_l by lia. assert (B := inj_le 2 (Qfloor umin) ltac:(lia)). change (inject_Z 2) with 2%Q in B.
    rewrite inj_sub, inj_1. clear - A B L Ru. split; intro X; lra.
  - split; [|lia]. intros [A B]. split.
    + assert (Qfloor umin - 1 <= u0); [|lia]. apply qz_le. rewrite inj_sub, inj_1.
      clear - L Ru Rr. lra.
    + assert (u0 + 1 < Qceiling (umax + 1)); [|lia]. rewrite Zlt_Qlt, inj_add, inj_1.
      destruct (Qeq_dec u (inject_Z u0)) as [E | E].
      * apply Z0 in E as E0. assert (Q := inj_le _ _ C1). change (inject_Z 2) with 2%Q in Q. clear - E E0 Q. lra.
      * destruct (Qlt_le_dec (inject_Z u0) u) as [X | X]; [clear - X Ru L'; lra|].
        exfalso. apply E. clear - X Rr. lra.
Qed.

Section B.
Variable junk : Z -> Z -> fl.

Lemma band_window : forall bands H W F a b c d k, stack_holds bands H W F ->
  0 <= a <= b -> 0 <= c <= d -> 0 <= k < Z.of_nat (length bands) ->
  exists r, getitem junk bands (KeyTuple [sl a b; sl c d; KInt k]) = Ok r /\
    shp r = [wlen H a b; wlen W c d] /\
    forall i j, 0 <= i < wlen H a b -> 0 <= j < wlen W c d -> elt r [i; j] = F k (a + i) (c + j).
Proof.
  intros bands H W F a b c d k SH B D Hk. destruct (stack_size _ _ _ _ _ SH) as [HH HW].
  destruct (clip_slice H a b HH B) as (S1 & F1). destruct (clip_slice W c d HW D) as (S2 & F2).
  destruct (getitem_spec _ junk bands H W F (sl a b) (sl c d) [KInt k] false _ false _ true
              [k] SH S1 S2 (selb_one _ _ _ _ (sel_int _ _ Hk)) F1 F2) as (r & E & S & P).
  exists r. split; [exact E|]. unfold wlen. split.
  - rewrite S. simpl. rewrite !range_unit_len by lia. f_equal; [lia|]. f_equal; lia.
  - intros i j Hi Hj.
    specialize (P (Z.to_nat i) (Z.to_nat j) 0%nat (a + i) (c + j) k).
    simpl in P. rewrite !Z2Nat.id in P by lia. apply P; [| |reflexivity].
    + replace (a + i) with (Z.min a H + i) by lia. apply range_unit_nth. lia.
    + replace (c + j) with (Z.min c W + j) by lia. apply range_unit_nth. lia.
Qed.


Lemma Forall2_map_r : forall A B C (f : B -> C) (R : A -> C -> Prop) l m,
  Forall2 (fun a b => R a (f b)) l m -> Forall2 R l (map f m).
Proof. intros A B C f R l m F. induction F; constructor; assumption. Qed.
Lemma Forall2_impl_in : forall A B (R R' : A -> B -> Prop) l m,
  Forall2 R l m -> (forall a b, In a l -> In b m -> R a b -> R' a b) -> Forall2 R' l m.
Proof.
  intros A B R R' l m F. induction F; intro I; constructor.
  - apply I; [left; reflexivity|left; reflexivity|assumption].
  - apply IHF. intros; apply I; [right|right|]; assumption.
Qed.
Lemma Forall2_in_l : forall A B (R : A -> B -> Prop) l m a, Forall2 R l m -> In a l ->
  exists b, In b m /\ R a b.
Proof.
  intros A B R l m a F. induction F; intros [].
  - subst. exists y. split; [left; reflexivity|assumption].
  - destruct IHF as (b & I & Rb); [assumption|]. exists b. split; [right; exact I|exact Rb].
Qed.

Lemma bilinear_spec : forall (g : grid fl) T H W nb F nodata pts,
  grid_is g T H W nb F nodata -> invertible T -> ~ (dy T == 0)%Q ->
  2 <= H -> 2 <= W -> pts <> [] ->
  (length pts = 1%nat \/
   (exists p u v, In p pts /\ at_position T p u v /\ (0 < u)%Q) /\
   (exists p u v, In p pts /\ at_position T p u v /\ (u < inject_Z H)%Q) /\
   (exists p u v, In p pts /\ at_position T p u v /\ (0 < v)%Q) /\
   (exists p u v, In p pts /\ at_position T p u v /\ (v < inject_Z W)%Q)) ->
  exists rows, sample_bilinear junk g DFloat pts = Ok rows /\ Z.of_nat (length rows) = nb /\
    forall k row, nth_error rows k = Some row ->
      Forall2 (sampled T (F (Z.of_nat k)) H W nodata) pts row.
Proof.
  intros g T H W nb F nodata pts G I D H2 W2 NE Sp.
  destruct (option_all_spec _ _ (fun p => positions T (fst p) (snd p))
              (fun p q => at_position T p (fst q) (snd q)) pts) as (ij & E & R).
  { intros [x y]. destruct (positions_spec T x y I D) as (i & j & E & P). exists (i, j). auto. }
  destruct (grid_size _ _ _ _ _ _ _ _ G) as (Sz & HH & HW & Hnb).
  destruct G as (ET & SH & EN & Ed).
  assert (Uniq : forall p u v q, In p pts -> at_position T p u v -> In q ij -> at_position T p (fst q) (snd q) ->
            (u == fst q /\ v == snd q)%Q).
  { intros p u v q _ A _ B. unfold at_position in *.
    assert (P : peq (world T (u + (1 # 2)) (v + (1 # 2))) (world T (fst q + (1 # 2)) (snd q + (1 # 2)))%Q).
    { destruct A as [A1 A2], B as [B1 B2]. split; [rewrite A1, B1|rewrite A2, B2]; reflexivity. }
    destruct (world_inj T _ _ _ _ I P) as [X Y]. clear - X Y. split; lra. }
  unfold sample_bilinear. rewrite Sz, ET, E.
  assert (Main : forall w qs,
    (forall k, 0 <= k < nb -> exists row, bilinear_band junk g DFloat w qs k = Ok row /\
        Forall2 (sampled T (F k) H W nodata) pts row) ->
    exists rows, mapM (bilinear_band junk g DFloat w qs) (zrange 0 (Z.of_nat (length (gbands g)))) = Ok rows /\
      Z.of_nat (length rows) = nb /\
      forall k row, nth_error rows k = Some row -> Forall2 (sampled T (F (Z.of_nat k)) H W nodata) pts row).
  { intros w qs Hk.
    destruct (mapM_nth _ _ (bilinear_band junk g DFloat w qs) (zrange 0 (Z.of_nat (length (gbands g))))
        (fun n row => Forall2 (sampled T (F (Z.of_nat n)) H W nodata) pts row)) as (rows & Em & Lm & Pm).
    - intros n k Hn. assert (Hr : In k (zrange 0 (Z.of_nat (length (gbands g))))) by (eapply nth_error_In; exact Hn).
      apply in_zrange in Hr. rewrite EN in Hr. destruct (Hk k ltac:(lia)) as (row & Er & Fr).
      exists row. split; [exact Er|].
      assert (nth_error (zrange 0 (Z.of_nat (length (gbands g)))) (Z.to_nat k) = Some k).
      { apply zrange_nth0. rewrite EN. lia. }
      assert (Z.of_nat n = k); [|subst k; exact Fr].
      assert (Ln : (n < length (zrange 0 (Z.of_nat (length (gbands g)))))%nat) by (apply nth_error_Some; congruence).
      rewrite zrange_length in Ln. assert (X := zrange_nth0 (Z.of_nat (length (gbands g))) (Z.of_nat n) ltac:(lia)).
      rewrite Nat2Z.id in X. congruence.
    - exists rows. split; [exact Em|]. split; [rewrite Lm, zrange_length; lia|exact Pm]. }
  destruct R as [|p q pts ij Rpq R]; [contradiction|].
  destruct R as [|p' q' pts ij Rpq' R].
  - (* one point *)
    apply Main. intros k Hk. unfold bilinear_band.
    destruct (plane_read fl junk None fnan feq (gbands g) H W F k SH ltac:(lia)) as (r & Er & Sr & Pr).
    rewrite Er. cbn [bind]. rewrite Sr.
    destruct ((H =? 1) || (W =? 1)) eqn:T1; [lia|]. eexists. split; [reflexivity|]. cbn [map].
    constructor; [|constructor]. exists (fst q), (snd q). split; [exact Rpq|]. rewrite Ed.
    destruct (around_spec (fst q)) as (i0 & Ei & Ri & Gi & _). destruct (around_spec (snd q)) as (j0 & Ej & Rj & Gj & _).
    assert (X := bilinear_window (F k) H W H2 W2 (mkA H W (fun i j => elt r [i; j])) nodata (fst q) (snd q) 0 0 i0 j0
      Ei Ej (or_introl eq_refl) (or_introl eq_refl)).
    cbn [nrow ncol at_] in X.
    assert (X' : bilinear_value (F k) H W nodata (fst q) (snd q)
        (bilinear_double (mkA H W (fun i j => elt r [i; j])) nodata (fst q - inject_Z 0) (snd q - inject_Z 0))).
    { apply X; [intros; rewrite Pr by assumption; f_equal; lia|lia|lia]. }
    destruct X' as [X1 X2].
    (* without the subtraction of zero *)
    unfold bilinear_double in *. rewrite Ei, Ej in *.
    rewrite (around_shift _ 0 i0 Ei (or_introl eq_refl)), (around_shift _ 0 j0 Ej (or_introl eq_refl)) in X1, X2.
    rewrite !Z.sub_0_r in X1, X2. cbn [nrow ncol at_] in *.
    split.
    + intros a b n A1 A2 B1 B2 Ra Rb Num. destruct (X1 a b n A1 A2 B1 B2 Ra Rb Num) as (z & Ez & Qz).
      destruct ((0 <=? i0) && (i0 + 1 <? H) && (0 <=? j0) && (j0 + 1 <? W)) eqn:T2.
      * unfold blend, fadd, fscale in *.
        destruct (elt r [i0; j0]), (elt r [i0 + 1; j0]), (elt r [i0; j0 + 1]), (elt r [i0 + 1; j0 + 1]); try discriminate.
        eexists. split; [reflexivity|]. injection Ez as Ez. rewrite <- Qz, <- Ez. change (inject_Z 0) with 0%Q. ring.
      * exists z. split; [exact Ez|exact Qz].
    + intro Out. specialize (X2 Out).
      destruct ((0 <=? i0) && (i0 + 1 <? H) && (0 <=? j0) && (j0 + 1 <? W)) eqn:T2; [|exact X2].
      exfalso. assert (U : 0 <= i0 /\ i0 + 1 < H) by lia. assert (V_ : 0 <= j0 /\ j0 + 1 < W) by lia.
      apply (Gi H H2) in U. apply (Gj W W2) in V_. clear - U V_ Out. destruct Out as [O | [O | [O | O]]]; lra.
  - destruct Sp as [Sp | (S1 & S2 & S3 & S4)]; [discriminate|].
    cbv zeta. set (rest := q' :: ij) in *.
    assert (RR : Forall2 (fun p q => at_position T p (fst q) (snd q)) (p :: p' :: pts) (q :: rest)).
    { constructor; [exact Rpq|]. constructor; assumption. }
    set (umin := qminl (map fst rest) (fst q)). set (umax := qmaxl (map fst rest) (fst q)).
    set (vmin := qminl (map snd rest) (snd q)). set (vmax := qmaxl (map snd rest) (snd q)).
    destruct (qminl_spec (map fst rest) (fst q)) as (A1 & A2 & _).
    destruct (qmaxl_spec (map fst rest) (fst q)) as (B1 & B2 & _).
    destruct (qminl_spec (map snd rest) (snd q)) as (C1 & C2 & _).
    destruct (qmaxl_spec (map snd rest) (snd q)) as (D1 & D2 & _).
    fold umin in A1, A2. fold umax in B1, B2. fold vmin in C1, C2. fold vmax in D1, D2.
    assert (In_u : forall z, In z (q :: rest) -> (umin <= fst z <= umax)%Q /\ (vmin <= snd z <= vmax)%Q).
    { intros z [<- | Iz]; [auto|]. split; split; [apply A2|apply B2|apply C2|apply D2]; apply in_map; exact Iz. }
    assert (Get : forall a u v, In a (p :: p' :: pts) -> at_position T a u v ->
              (umin <= u <= umax)%Q /\ (vmin <= v <= vmax)%Q).
    { intros a u v Ia Pa. destruct (Forall2_in_l _ _ _ _ _ a RR Ia) as (z & Iz & Rz).
      destruct (Uniq a u v z Ia Pa Iz Rz) as [X Y]. destruct (In_u z Iz) as [M N]. clear - X Y M N.
      rewrite X, Y. auto. }
    destruct S1 as (a1 & u1 & v1 & I1 & P1 & Q1). destruct S2 as (a2 & u2 & v2 & I2 & P2 & Q2).
    destruct S3 as (a3 & u3 & v3 & I3 & P3 & Q3). destruct S4 as (a4 & u4 & v4 & I4 & P4 & Q4).
    destruct (Get _ _ _ I1 P1) as [M1 _]. destruct (Get _ _ _ I2 P2) as [M2 _].
    destruct (Get _ _ _ I3 P3) as [_ M3]. destruct (Get _ _ _ I4 P4) as [_ M4].
    destruct (window_rows umin umax H H2 ltac:(clear - M1; lra) ltac:(clear - M1 Q1; lra) ltac:(clear - M2 Q2; lra))
      as (R1 & R2 & R3 & R4).
    destruct (window_rows vmin vmax W W2 ltac:(clear - M3; lra) ltac:(clear - M3 Q3; lra) ltac:(clear - M4 Q4; lra))
      as (T1 & T2 & T3 & T4).
    fold (wmin umin) (wmax umax H) (wmin vmin) (wmax vmax W).
    apply Main. intros k Hk. unfold bilinear_band.
    destruct (band_window (gbands g) H W F (wmin umin) (wmax umax H) (wmin vmin) (wmax vmax W) k SH
                ltac:(lia) ltac:(lia) ltac:(lia)) as (r & Er & Sr & Pr).
    rewrite Er. cbn [bind]. rewrite Sr.
    assert (L1 : wlen H (wmin umin) (wmax umax H) = wmax umax H - wmin umin) by (unfold wlen; lia).
    assert (L2 : wlen W (wmin vmin) (wmax vmax W) = wmax vmax W - wmin vmin) by (unfold wlen; lia).
    rewrite L1, L2 in *.
    destruct ((wmax umax H - wmin umin =? 1) || (wmax vmax W - wmin vmin =? 1)) eqn:T5; [lia|].
    eexists. split; [reflexivity|]. rewrite map_map. cbn [fst snd]. rewrite Ed.
    apply Forall2_map_r. eapply Forall2_impl_in; [exact RR|]. cbv beta.
    intros a z Ia Iz Rz. exists (fst z), (snd z). split; [exact Rz|].
    destruct (In_u z Iz) as [Uz Vz].
    destruct (around_spec (fst z)) as (i0 & Ei & _). destruct (around_spec (snd z)) as (j0 & Ej & _).
    destruct (R4 (fst z) i0 Uz Ei) as [K1 K2]. destruct (T4 (snd z) j0 Vz Ej) as [K3 K4].
    apply (bilinear_window (F k) H W H2 W2 (mkA (wmax umax H - wmin umin) (wmax vmax W - wmin vmin) (fun i j => elt r [i; j]))
        nodata (fst z) (snd z) (wmin umin) (wmin vmin) i0 j0 Ei Ej K1 K3); cbn [nrow ncol at_].
    + exact Pr.
    + exact K2.
    + exact K4.
Qed.
End B.
