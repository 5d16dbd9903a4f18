(** Proofs about masking: the value of one cell of [mask_poly]. *)
From Coq Require Import List ZArith QArith Qabs Qfield Lqa Bool Arith Lia ZifyBool.
From Verif Require Import Geom_Model Geom_Spec Geom_Proofs Inter_Spec Inter_Proofs Contains_Spec Contains_Proofs Contains_Winding.
From Verif Require Import Band_Model Band_Proofs Band_IndexProofs Band_IndexModel Grid_Model Grid_Spec Grid_Proofs GridPoints_Proofs.
From Verif Require Import Mask_Model Mask_Spec.
Import ListNotations.
Open Scope Z_scope.

Notation count := Contains_Model.count.
Notation edge_count := Contains_Model.edge_count.

Lemma qlt_iff : forall a b, qlt a b = true <-> (a < b)%Q.
Proof.
  intros a b. unfold qlt. rewrite negb_true_iff. split.
  - apply Qle_bool_f.
  - intros L. destruct (Qle_bool b a) eqn:E; [|reflexivity]. apply Qle_bool_iff in E. lra.
Qed.
Lemma qlt_no : forall a b, qlt a b = false <-> (b <= a)%Q.
Proof.
  intros a b. unfold qlt. rewrite negb_false_iff. apply Qle_bool_iff.
Qed.

Lemma wrap8_mod : forall z, wrap8 z mod 256 = z mod 256.
Proof.
  intros z. unfold wrap8. rewrite Zminus_mod, Zmod_mod, <- Zminus_mod. f_equal. lia.
Qed.
Lemma wrap8_range : forall z, -128 <= wrap8 z < 128.
Proof. intros z. unfold wrap8. pose proof (Z.mod_pos_bound (z + 128) 256 ltac:(lia)). lia. Qed.

(** The value is right modulo 256. *)
Definition cell8 (m s : Z) : Prop := -128 <= m < 128 /\ (m - s) mod 256 = 0.
Lemma cell8_add : forall m s d, cell8 m s -> cell8 (wrap8 (m + d)) (s + d).
Proof.
  intros m s d [A B]. split; [apply wrap8_range|].
  rewrite Zminus_mod, wrap8_mod, <- Zminus_mod. rewrite <- B. f_equal. lia.
Qed.
Lemma cell8_zero : forall m s, cell8 m s -> -256 < s < 256 -> (m = 0 <-> s = 0).
Proof.
  intros m s [A B] R. apply Z.mod_divide in B; [|lia]. destruct B as [k B]. split; intros ->; lia.
Qed.

Section Loop.
Variables ny nx : Z.
Variable T : transform.
Hypothesis Up : upright_cells T.

Lemma fold_mark : forall (J : Z -> Z) d l m r c, NoDup l -> 0 <= r < ny -> 0 <= c < nx ->
  fold_left (fun m i => mark ny nx m i (J i) d) l m r c =
  if existsb (Z.eqb r) l && (J r <=? c) then wrap8 (m r c + d) else m r c.
Proof.
  intros J d l. induction l as [|i l IH]; intros m r c N Hr Hc; [reflexivity|].
  inversion N as [|? ? NI N']; subst. cbn [fold_left existsb]. rewrite IH by assumption.
  assert (X : mark ny nx m i (J i) d r c = if (r =? i) && (J r <=? c) then wrap8 (m r c + d) else m r c).
  { unfold mark, in_rows. destruct (r =? i) eqn:E.
    - apply Z.eqb_eq in E. subst i. destruct ((0 <=? r) && (r <? ny) && (J r <? nx)) eqn:B.
      + rewrite Z.eqb_refl. cbn [andb]. destruct (Z.max 0 (J r) <=? c) eqn:B1, (J r <=? c) eqn:B2; try reflexivity; lia.
      + destruct (J r <=? c) eqn:B2; [lia|reflexivity].
    - destruct ((0 <=? i) && (i <? ny) && (J i <? nx)); [rewrite E|]; reflexivity. }
  rewrite X. destruct (r =? i) eqn:E; cbn [andb orb].
  - apply Z.eqb_eq in E. subst i. assert (NE : existsb (Z.eqb r) l = false).
    { apply Bool.not_true_is_false. intros Ex. apply existsb_exists in Ex. destruct Ex as (y & Iy & Ey).
      apply Z.eqb_eq in Ey. subst y. contradiction. }
    rewrite NE. reflexivity.
  - reflexivity.
Qed.

Lemma in_range : forall r a b, existsb (Z.eqb r) (zrange a b) = (a <=? r) && (r <? b).
Proof.
  intros r a b. apply Bool.eq_iff_eq_true. rewrite existsb_exists. split.
  - intros (y & Iy & Ey). apply Z.eqb_eq in Ey. subst y. apply in_zrange in Iy. lia.
  - intros B. exists r. split; [apply in_zrange; lia|apply Z.eqb_refl].
Qed.

(** Row and column of a vertex in upright cells. *)
Definition rowq (p : pt) : Q := ((snd p - y0 T) / dy T)%Q.
Definition colq (p : pt) : Q := ((fst p - x0 T) / dx T)%Q.
Lemma row_near : forall p, row_of T p = rint (rowq p).
Proof.
  intros p. destruct Up as (A & B & C & D). unfold row_of, rowq. apply rint_comp.
  rewrite C, D. field. split; lra.
Qed.
Lemma col_near : forall p, col_of T p = rint (colq p).
Proof.
  intros p. destruct Up as (A & B & C & D). unfold col_of, colq. apply rint_comp.
  rewrite C, D. field. split; lra.
Qed.

(** The column from which on an edge from [a] up to [b] marks row [r]. *)
Definition edge_col (a b : pt) (r : Z) : Z :=
  rint (inject_Z (r - row_of T a) * (fst b - fst a) / (snd b - snd a) + inject_Z (col_of T a))%Q.
Definition lies_left (a b : pt) (r c : Z) : bool :=
  if qlt (snd a) (snd b) then edge_col a b r <=? c else edge_col b a r <=? c.
(** A vertex is taken to be above row [r]. *)
Definition above (r : Z) (p : pt) : Z := if r <? row_of T p then 1 else 0.
Definition contr (r c : Z) (a b : pt) : Z := if lies_left a b r c then above r b - above r a else 0.

Lemma row_mono : forall a b, (snd a <= snd b)%Q -> row_of T a <= row_of T b.
Proof.
  intros a b L. rewrite !row_near. destruct (Z_le_gt_dec (rint (rowq a)) (rint (rowq b))) as [G|G]; [exact G|exfalso].
  destruct Up as (_ & D & _ & _).
  assert (Hq : (rowq a <= rowq b)%Q).
  { unfold rowq. apply Qle_shift_div_l; [exact D|]. setoid_replace ((snd a - y0 T) / dy T * dy T)%Q with (snd a - y0 T)%Q by (field; lra). lra. }
  destruct (rint_near (rowq a)) as [A1 A2]. destruct (rint_near (rowq b)) as [B1 B2].
  assert (I1 : (inject_Z (rint (rowq b)) + 1 <= inject_Z (rint (rowq a)))%Q).
  { rewrite <- (inject_Z_plus _ 1). rewrite <- Zle_Qle. lia. }
  assert (rowq a == rowq b)%Q by lra. pose proof (rint_comp _ _ H). lia.
Qed.

Lemma mask_edge_cell : forall m a b, exists m', mask_edge ny nx T m a b = Geom_Model.Ok m' /\
  forall r c s, 0 <= r < ny -> 0 <= c < nx -> cell8 (m r c) s -> cell8 (m' r c) (s + contr r c a b).
Proof.
  intros m [xa ya] [xb yb]. unfold mask_edge.
  set (a := (xa, ya)). set (b := (xb, yb)).
  destruct (qlt ya yb) eqn:U.
  - apply qlt_iff in U.
    assert (NE : Qeq_bool yb ya = false) by (apply Bool.not_true_is_false; intros E; apply Qeq_bool_iff in E; lra).
    rewrite NE, orb_true_r. eexists. split; [reflexivity|]. intros r c s Hr Hc K.
    rewrite (fold_mark (fun i => edge_col a b i) 1) by (assumption || apply NoDup_zrange).
    rewrite in_range. unfold contr, lies_left, above. cbn [a b snd].
    assert (U' : qlt ya yb = true) by (apply qlt_iff; exact U). rewrite U'.
    pose proof (row_mono a b ltac:(cbn [a b snd]; lra)) as Mo. fold a b.
    destruct (edge_col a b r <=? c) eqn:L.
    + destruct ((row_of T a <=? r) && (r <? row_of T b)) eqn:B3;
        destruct (r <? row_of T b) eqn:B1, (r <? row_of T a) eqn:B2; try lia; cbn [andb];
        try (rewrite Z.add_0_r; exact K). apply (cell8_add _ _ 1), K.
    + rewrite andb_false_r, Z.add_0_r. exact K.
  - pose proof U as U'. apply qlt_no in U'.
    assert (Eq : Qeq_bool yb ya = true -> row_of T b = row_of T a).
    { intros E. apply Qeq_bool_iff in E. pose proof (row_mono a b ltac:(cbn [a b snd]; lra)).
      pose proof (row_mono b a ltac:(cbn [a b snd]; lra)). lia. }
    assert (Nul : forall r c s, row_of T b = row_of T a -> cell8 (m r c) s -> cell8 (m r c) (s + contr r c a b)).
    { intros r c s E K. unfold contr, above. rewrite E. destruct (lies_left a b r c); rewrite ?Z.sub_diag, Z.add_0_r; exact K. }
    destruct (Qeq_bool yb ya) eqn:NE.
    + specialize (Eq eq_refl). fold a b. rewrite Eq.
      assert (ZR : zrange (row_of T a) (row_of T a) = []) by (unfold zrange; rewrite Z.sub_diag; reflexivity).
      rewrite ZR. cbn [existsb fold_left andb]. cbn [negb].
      destruct ((in_rows ny (row_of T a) && in_rows ny (row_of T a)) || false); (eexists; split; [reflexivity|]);
        intros r c s _ _ K; apply Nul; assumption.
    + cbn [negb]. rewrite orb_true_r. cbn [andb]. eexists. split; [reflexivity|]. intros r c s Hr Hc K.
      pose proof (fold_mark (fun i => rint (inject_Z (i - row_of T b) * (xb - xa) / (yb - ya) + inject_Z (col_of T b))%Q)
        (-1) (zrange (row_of T b) (row_of T a)) m r c (NoDup_zrange _ _) Hr Hc) as FM. cbv beta in FM. rewrite FM. clear FM.
      rewrite in_range. fold a b. unfold contr, lies_left, above. cbn [a b snd]. rewrite U. fold a b.
      assert (NQ : ~ (yb == ya)%Q) by (intros X; apply Qeq_bool_iff in X; congruence).
      assert (EC : rint (inject_Z (r - row_of T b) * (xb - xa) / (yb - ya) + inject_Z (col_of T b))%Q = edge_col b a r).
      { unfold edge_col. apply rint_comp. cbn [a b fst snd]. field. split; intros X; apply NQ; lra. }
      rewrite EC. pose proof (row_mono b a ltac:(cbn [a b snd]; lra)) as Mo.
      destruct (edge_col b a r <=? c) eqn:L.
      * destruct ((row_of T b <=? r) && (r <? row_of T a)) eqn:B3;
          destruct (r <? row_of T b) eqn:B1, (r <? row_of T a) eqn:B2; try lia; cbn [andb];
          try (rewrite Z.add_0_r; exact K). apply (cell8_add _ _ (-1)), K.
      * rewrite andb_false_r, Z.add_0_r. exact K.
Qed.

Fixpoint path_contr (r c : Z) (a : pt) (l : list pt) : Z :=
  match l with [] => 0 | b :: l' => contr r c a b + path_contr r c b l' end.
Lemma mask_loop_cell : forall l m a, exists m', mask_loop ny nx T m a l = Geom_Model.Ok m' /\
  forall r c s, 0 <= r < ny -> 0 <= c < nx -> cell8 (m r c) s -> cell8 (m' r c) (s + path_contr r c a l).
Proof.
  induction l as [|b l IH]; intros m a.
  - exists m. split; [reflexivity|]. intros r c s _ _ K. cbn [path_contr]. rewrite Z.add_0_r. exact K.
  - cbn [mask_loop path_contr]. destruct (mask_edge_cell m a b) as (m1 & E1 & P1). rewrite E1.
    cbn [Geom_Model.bind]. destruct (IH m1 b) as (m2 & E2 & P2). exists m2. split; [exact E2|].
    intros r c s Hr Hc K. rewrite Z.add_assoc. apply P2; [assumption|assumption|]. apply P1; assumption.
Qed.

(** ** Comparison with the count of [contains] *)
Section Cell.
Variables r c : Z.
Notation p := (centre T r c).

Lemma centre_x : (fst p == x0 T + (inject_Z c + (1 # 2)) * dx T)%Q.
Proof. destruct Up as (A & B & C & D). unfold centre, world. cbn [fst]. rewrite C. lra. Qed.
Lemma centre_y : (snd p == y0 T + (inject_Z r + (1 # 2)) * dy T)%Q.
Proof. destruct Up as (A & B & C & D). unfold centre, world. cbn [snd]. rewrite D. lra. Qed.

Lemma rowq_eq : forall v, (snd v == y0 T + rowq v * dy T)%Q.
Proof. intros v. destruct Up as (A & B & _ & _). unfold rowq. field. lra. Qed.
Lemma colq_eq : forall v, (fst v == x0 T + colq v * dx T)%Q.
Proof. intros v. destruct Up as (A & B & _ & _). unfold colq. field. lra. Qed.
Lemma scale_lt : forall d a b, (0 < d -> a * d < b * d -> a < b)%Q.
Proof. intros d a b Hd L. apply Qmult_lt_r in L; assumption. Qed.
Lemma scale_le : forall d a b, (0 < d -> a * d <= b * d -> a <= b)%Q.
Proof. intros d a b Hd L. apply Qmult_le_r in L; assumption. Qed.

Lemma above_hi : forall v, (snd p < snd v)%Q -> above r v = 1.
Proof.
  intros v L. unfold above. rewrite row_near. destruct (rint_near (rowq v)) as [N1 N2].
  pose proof centre_y as Cy. pose proof (rowq_eq v) as Rv. destruct Up as (_ & Dy & _ & _).
  assert (X : (inject_Z r + (1 # 2) < rowq v)%Q) by (apply (scale_lt (dy T)); [exact Dy|lra]).
  assert (Y : (inject_Z r < inject_Z (rint (rowq v)))%Q) by lra. rewrite <- Zlt_Qlt in Y.
  destruct (r <? rint (rowq v)) eqn:E; lia.
Qed.
Lemma above_lo : forall v, (snd v < snd p)%Q -> above r v = 0.
Proof.
  intros v L. unfold above. rewrite row_near. destruct (rint_near (rowq v)) as [N1 N2].
  pose proof centre_y as Cy. pose proof (rowq_eq v) as Rv. destruct Up as (_ & Dy & _ & _).
  assert (X : (rowq v < inject_Z r + (1 # 2))%Q) by (apply (scale_lt (dy T)); [exact Dy|lra]).
  assert (Y : (inject_Z (rint (rowq v)) < inject_Z (r + 1))%Q) by (rewrite inject_Z_plus; change (inject_Z 1) with 1%Q; lra). rewrite <- Zlt_Qlt in Y.
  destruct (r <? rint (rowq v)) eqn:E; lia.
Qed.
Lemma above_01 : forall v, above r v = 0 \/ above r v = 1.
Proof. intros v. unfold above. destruct (r <? row_of T v); auto. Qed.
Lemma above_same : forall u v, (snd u == snd v)%Q -> above r u = above r v.
Proof.
  intros u v E. unfold above. pose proof (row_mono u v ltac:(lra)). pose proof (row_mono v u ltac:(lra)).
  replace (row_of T u) with (row_of T v) by lia. reflexivity.
Qed.

(** Where the two ends are on different sides, the edge passes the cell on the side told. *)
Definition sided (a b : pt) : Prop :=
  ~ on_seg (a, b) p /\
  (above r a <> above r b ->
   exists q, on_seg (a, b) q /\ (snd q == snd p)%Q /\
     (lies_left a b r c = true -> (fst q < fst p)%Q) /\ (lies_left a b r c = false -> (fst p < fst q)%Q)).

(** Above by the rule of [contains]: strictly. *)
Definition high (v : pt) : Z := if qlt (snd p) (snd v) then 1 else 0.
Definition psi (v : pt) : Z := if qlt (fst v) (fst p) then above r v else high v.

Lemma psi_off : forall v, ~ (snd v == snd p)%Q -> psi v = high v /\ above r v = high v.
Proof.
  intros v N. assert (E : above r v = high v).
  { unfold high. destruct (qlt (snd p) (snd v)) eqn:Q1.
    - apply above_hi, qlt_iff, Q1.
    - apply above_lo. apply qlt_no in Q1. lra. }
  split; [|exact E]. unfold psi. destruct (qlt (fst v) (fst p)); [exact E|reflexivity].
Qed.

(** The sign of [tri] at the crossing. *)
Lemma tri_at : forall a b q, on_seg (a, b) q -> (snd q == snd p)%Q ->
  (tri p a b == (1 # 2) * (fst q - fst p) * (snd b - snd a))%Q.
Proof.
  intros a b q (t & Ht & Sx & Sy) Ey. unfold along in Sx, Sy. cbn [fst snd] in Sx, Sy. unfold tri.
  assert (E : (snd p == snd a + t * (snd b - snd a))%Q) by lra.
  rewrite Sx, E. ring.
Qed.
Lemma count_up : forall a b, (snd a <= snd p)%Q -> (snd p < snd b)%Q ->
  edge_count p a b = if qlt 0 (tri p a b) then 1 else 0.
Proof.
  intros a b A B. unfold Contains_Model.edge_count.
  assert (Q1 : Qle_bool (snd a) (snd p) = true) by (apply Qle_bool_iff; exact A).
  assert (Q2 : Contains_Model.qlt (snd p) (snd b) = true).
  { unfold Contains_Model.qlt. apply negb_true_iff, Bool.not_true_is_false. intros X. apply Qle_bool_iff in X. lra. }
  rewrite Q1, Q2. cbn [andb]. pose proof (isleft_tri p a b) as It.
  destruct (Contains_Model.qlt 0 (Contains_Model.isleft p a b)) eqn:L, (qlt 0 (tri p a b)) eqn:M; try reflexivity.
  - apply qlt_t in L. apply qlt_no in M. lra.
  - apply qlt_f in L. apply qlt_iff in M. lra.
Qed.
Lemma count_none : forall a b, high a = high b -> edge_count p a b = 0.
Proof.
  intros a b E. unfold Contains_Model.edge_count. unfold high in E.
  destruct (qlt (snd p) (snd a)) eqn:A, (qlt (snd p) (snd b)) eqn:B; try discriminate.
  - apply qlt_iff in A. apply qlt_iff in B.
    destruct (Qle_bool (snd a) (snd p)) eqn:C1; [apply Qle_bool_iff in C1; lra|].
    destruct (Qle_bool (snd b) (snd p)) eqn:C2; [apply Qle_bool_iff in C2; lra|].
    cbn [andb]. rewrite andb_false_r. reflexivity.
  - apply qlt_no in A. apply qlt_no in B.
    destruct (Contains_Model.qlt (snd p) (snd b)) eqn:C1; [apply qlt_t in C1; lra|].
    destruct (Contains_Model.qlt (snd p) (snd a)) eqn:C2; [apply qlt_t in C2; lra|].
    rewrite andb_false_r. reflexivity.
Qed.

Lemma lies_sym : forall a b, ~ (snd a == snd b)%Q -> lies_left a b r c = lies_left b a r c.
Proof.
  intros a b N. unfold lies_left. destruct (qlt (snd a) (snd b)) eqn:A, (qlt (snd b) (snd a)) eqn:B; try reflexivity.
  - apply qlt_iff in A. apply qlt_iff in B. lra.
  - apply qlt_no in A. apply qlt_no in B. exfalso. apply N. lra.
Qed.
Lemma contr_anti : forall a b, contr r c b a = - contr r c a b.
Proof.
  intros a b. unfold contr. destruct (Qeq_dec (snd a) (snd b)) as [E|E].
  - rewrite (above_same a b E). destruct (lies_left a b r c), (lies_left b a r c); lia.
  - rewrite (lies_sym a b E). destruct (lies_left b a r c); lia.
Qed.
Lemma on_seg_sym : forall a b q, on_seg (a, b) q -> on_seg (b, a) q.
Proof.
  intros a b q (t & Ht & Sx & Sy). exists (1 - t)%Q. split; [lra|]. unfold same, along in *. cbn [fst snd] in *.
  split; [rewrite Sx|rewrite Sy]; ring.
Qed.
Lemma sided_sym : forall a b, sided a b -> sided b a.
Proof.
  intros a b [O H]. split; [intros X; apply O, on_seg_sym, X|].
  intros N. destruct (Qeq_dec (snd a) (snd b)) as [E|E]; [elim N; symmetry; apply above_same; exact E|].
  rewrite <- (lies_sym a b E). destruct (H ltac:(congruence)) as (q & A & B). exists q. split; [apply on_seg_sym, A|exact B].
Qed.
(** On an edge that is not level, the height tells the point. *)
Lemma at_height : forall a b q v, ~ (snd a == snd b)%Q -> on_seg (a, b) q -> v = a \/ v = b -> (snd q == snd v)%Q -> (fst q == fst v)%Q.
Proof.
  intros a b q v N (t & Ht & Sx & Sy) Hv E. unfold along in *. cbn [fst snd] in *. rewrite Sx. destruct Hv as [-> | ->].
  - assert (X : (t * (snd b - snd a) == 0)%Q) by lra. apply Qmult_integral in X. destruct X as [X|X]; [rewrite X; ring|exfalso; apply N; lra].
  - assert (X : ((1 - t) * (snd b - snd a) == 0)%Q) by (setoid_replace ((1 - t) * (snd b - snd a))%Q with (snd b - (snd a + t * (snd b - snd a)))%Q by ring; lra).
    apply Qmult_integral in X. destruct X as [X|X]; [assert (t == 1)%Q as X' by lra; rewrite X'; ring|exfalso; apply N; lra].
Qed.
Lemma end_on : forall a b v, v = a \/ v = b -> on_seg (a, b) v.
Proof.
  intros a b v [-> | ->]; [exists 0%Q|exists 1%Q]; (split; [lra|]); unfold same, along; cbn [fst snd]; split; ring.
Qed.
Lemma tie_side : forall a b v, sided a b -> v = a \/ v = b -> (snd v == snd p)%Q -> ~ (fst v == fst p)%Q.
Proof.
  intros a b v [O _] Hv E X. apply O. pose proof (end_on a b v Hv) as (t & Ht & Sx & Sy). exists t. split; [exact Ht|].
  split; [rewrite <- X|rewrite <- E]; assumption.
Qed.
(** Where only the end [v] is level with the cell, the side told is that of [v]. *)
Lemma tie_lies : forall a b v, sided a b -> above r a <> above r b -> v = a \/ v = b -> (snd v == snd p)%Q ->
  lies_left a b r c = qlt (fst v) (fst p).
Proof.
  intros a b v Sd N Hv E. pose proof (tie_side a b v Sd Hv E) as NX. destruct Sd as [O H]. destruct (H N) as (q & Oq & Ey & L & G).
  assert (NE : ~ (snd a == snd b)%Q) by (intros X; apply N, above_same, X).
  pose proof (at_height a b q v NE Oq Hv ltac:(lra)) as Ex.
  destruct (lies_left a b r c).
  - specialize (L eq_refl). symmetry. apply qlt_iff. lra.
  - specialize (G eq_refl). symmetry. apply qlt_no. lra.
Qed.
Lemma between_on : forall a b, (snd a == snd p)%Q -> (snd b == snd p)%Q -> (fst a < fst p)%Q -> (fst p < fst b)%Q -> on_seg (a, b) p.
Proof.
  intros a b Ea Eb A B. exists ((fst p - fst a) / (fst b - fst a))%Q. split.
  - split; [apply Qle_shift_div_l; lra|apply Qle_shift_div_r; lra].
  - unfold same, along. cbn [fst snd]. split.
    + field. lra.
    + setoid_replace (snd b - snd a)%Q with 0%Q by lra. rewrite <- Ea. ring.
Qed.

Lemma identity_up : forall a b, sided a b -> high a = 0 -> high b = 1 -> contr r c a b + edge_count p a b = psi b - psi a.
Proof.
  intros a b Sd Ha Hb. assert (A : (snd a <= snd p)%Q) by (unfold high in Ha; destruct (qlt (snd p) (snd a)) eqn:X; [discriminate|]; apply qlt_no, X).
  assert (B : (snd p < snd b)%Q) by (unfold high in Hb; destruct (qlt (snd p) (snd b)) eqn:X; [|discriminate]; apply qlt_iff, X).
  destruct (psi_off b ltac:(intros X; lra)) as [Pb Ab]. rewrite count_up by assumption.
  destruct (Qeq_dec (snd a) (snd p)) as [Et|Et].
  - pose proof (tie_side a b a Sd (or_introl eq_refl) Et) as NX.
    pose proof (tri_at a b a (end_on a b a (or_introl eq_refl)) Et) as Tr.
    assert (Z : qlt 0 (tri p a b) = negb (qlt (fst a) (fst p))).
    { destruct (qlt (fst a) (fst p)) eqn:L; cbn [negb].
      - apply qlt_iff in L. apply qlt_no. rewrite Tr.
        assert (0 < (fst p - fst a) * (snd b - snd a))%Q by (apply Qmult_lt_0_compat; lra). lra.
      - apply qlt_no in L. apply qlt_iff. rewrite Tr.
        assert (0 < (fst a - fst p) * (snd b - snd a))%Q by (apply Qmult_lt_0_compat; lra). lra. }
    rewrite Z, Pb, Hb. unfold psi, contr. rewrite Ab, Hb.
    destruct (above_01 a) as [E0|E1].
    + rewrite (tie_lies a b a Sd ltac:(rewrite E0, Ab, Hb; discriminate) (or_introl eq_refl) Et).
      rewrite Ha, E0. destruct (qlt (fst a) (fst p)); reflexivity.
    + rewrite E1, Ha. destruct (lies_left a b r c), (qlt (fst a) (fst p)); reflexivity.
  - destruct (psi_off a Et) as [Pa Aa]. rewrite Pa, Pb, Ha, Hb. unfold contr. rewrite Ab, Aa, Ha, Hb.
    destruct Sd as [O H]. destruct (H ltac:(rewrite Aa, Ab, Ha, Hb; discriminate)) as (q & Oq & Ey & L & G).
    pose proof (tri_at a b q Oq Ey) as Tr.
    destruct (lies_left a b r c).
    + specialize (L eq_refl). assert (Z : qlt 0 (tri p a b) = false).
      { apply qlt_no. rewrite Tr. assert (0 < (fst p - fst q) * (snd b - snd a))%Q by (apply Qmult_lt_0_compat; lra). lra. }
      rewrite Z. reflexivity.
    + specialize (G eq_refl). assert (Z : qlt 0 (tri p a b) = true).
      { apply qlt_iff. rewrite Tr. assert (0 < (fst q - fst p) * (snd b - snd a))%Q by (apply Qmult_lt_0_compat; lra). lra. }
      rewrite Z. reflexivity.
Qed.
Lemma high_01 : forall v, high v = 0 \/ high v = 1.
Proof. intros v. unfold high. destruct (qlt (snd p) (snd v)); auto. Qed.
Lemma tie_of : forall v, above r v <> high v -> (snd v == snd p)%Q.
Proof. intros v N. destruct (Qeq_dec (snd v) (snd p)) as [E|E]; [exact E|]. destruct (psi_off v E). contradiction. Qed.

Lemma identity : forall a b, sided a b -> contr r c a b + edge_count p a b = psi b - psi a.
Proof.
  intros a b Sd. destruct (Z.eq_dec (high a) (high b)) as [Eh|Nh].
  - rewrite count_none by exact Eh. rewrite Z.add_0_r. destruct (Z.eq_dec (above r a) (above r b)) as [Ea|Na].
    + assert (C0 : contr r c a b = 0) by (unfold contr; rewrite Ea; destruct (lies_left a b r c); lia). rewrite C0.
      destruct (Z.eq_dec (above r a) (high a)) as [E1|N1].
      * unfold psi. destruct (qlt (fst a) (fst p)), (qlt (fst b) (fst p)); lia.
      * assert (N2 : above r b <> high b) by congruence. pose proof (tie_of a N1) as Ta. pose proof (tie_of b N2) as Tb.
        pose proof (tie_side a b a Sd (or_introl eq_refl) Ta) as Xa. pose proof (tie_side a b b Sd (or_intror eq_refl) Tb) as Xb.
        unfold psi. destruct (qlt (fst a) (fst p)) eqn:La, (qlt (fst b) (fst p)) eqn:Lb; try lia.
        -- exfalso. apply qlt_iff in La. apply qlt_no in Lb. destruct Sd as [O _]. apply O, between_on; try assumption. lra.
        -- exfalso. apply qlt_no in La. apply qlt_iff in Lb. destruct Sd as [O _]. apply O, on_seg_sym, between_on; try assumption. lra.
    + unfold contr. destruct (Z.eq_dec (above r a) (high a)) as [E1|N1].
      * assert (N2 : above r b <> high b) by congruence. pose proof (tie_of b N2) as Tb.
        rewrite (tie_lies a b b Sd Na (or_intror eq_refl) Tb). unfold psi.
        destruct (qlt (fst b) (fst p)), (qlt (fst a) (fst p)); lia.
      * pose proof (tie_of a N1) as Ta. rewrite (tie_lies a b a Sd Na (or_introl eq_refl) Ta).
        assert (E2 : above r b = high b).
        { destruct (above_01 a), (above_01 b), (high_01 a), (high_01 b); lia. }
        unfold psi. destruct (qlt (fst b) (fst p)), (qlt (fst a) (fst p)); lia.
  - destruct (high_01 a) as [Ha|Ha], (high_01 b) as [Hb|Hb]; try lia.
    + apply identity_up; assumption.
    + pose proof (identity_up b a (sided_sym a b Sd) Hb Ha) as I1. rewrite contr_anti, edge_count_anti in I1. lia.
Qed.

(** Over a closed path the differences cancel. *)
Fixpoint path_all (E : pt -> pt -> Prop) (a : pt) (l : list pt) : Prop :=
  match l with [] => True | b :: l' => E a b /\ path_all E b l' end.
Definition ring_all (E : pt -> pt -> Prop) (l : list pt) : Prop :=
  match l with [] => True | v :: l' => path_all E v (l' ++ [v]) end.

Lemma count_loop_shift : forall l a k, Contains_Model.count_loop p a l k = k + Contains_Model.count_loop p a l 0.
Proof.
  induction l as [|b l IH]; intros a k; cbn [Contains_Model.count_loop]; [lia|].
  rewrite (IH b (k + _)), (IH b (0 + _)). lia.
Qed.
Lemma path_identity : forall l a, path_all sided a l ->
  path_contr r c a l + Contains_Model.count_loop p a l 0 = psi (last l a) - psi a.
Proof.
  induction l as [|b l IH]; intros a H; cbn [path_contr Contains_Model.count_loop].
  - cbn [last]. lia.
  - destruct H as [H1 H2]. specialize (IH b H2). pose proof (identity a b H1) as I1. rewrite count_loop_shift.
    assert (E : last (b :: l) a = last l b).
    { clear. revert a b. induction l as [|x l IHl]; intros a b; [reflexivity|]. change (last (b :: x :: l) a) with (last (x :: l) a).
      rewrite (IHl a x), (IHl b x). reflexivity. }
    rewrite E. lia.
Qed.
End Cell.

Lemma path_all_app : forall E l a b m, path_all E a (l ++ b :: m) <-> path_all E a (l ++ [b]) /\ path_all E b m.
Proof.
  intros E l. induction l as [|x l IH]; intros a b m; cbn [app path_all].
  - tauto.
  - rewrite IH. tauto.
Qed.
Lemma ring_all_rotate : forall E l m, ring_all E (l ++ m) -> ring_all E (m ++ l).
Proof.
  intros E [|x l] m H; [rewrite app_nil_r; exact H|]. destruct m as [|y m]; [rewrite app_nil_r in H; exact H|].
  cbn [ring_all app] in *. rewrite <- app_assoc in *. cbn [app] in *.
  rewrite path_all_app in H. rewrite path_all_app. tauto.
Qed.
Lemma path_all_rev : forall (E : pt -> pt -> Prop) l a b, (forall u v, E u v -> E v u) -> path_all E a (l ++ [b]) -> path_all E b (rev l ++ [a]).
Proof.
  intros E l. induction l as [|x l IH]; intros a b Sy H; cbn [app rev path_all] in *.
  - destruct H as [H _]. split; [apply Sy, H|exact Logic.I].
  - destruct H as [H1 H2]. rewrite <- app_assoc. cbn [app]. rewrite path_all_app. split; [apply IH; assumption|].
    cbn [path_all]. split; [apply Sy, H1|exact Logic.I].
Qed.
Lemma ring_all_rev : forall (E : pt -> pt -> Prop) l, (forall u v, E u v -> E v u) -> ring_all E l -> ring_all E (rev l).
Proof.
  intros E [|v l] Sy H; [exact H|]. cbn [rev]. apply (ring_all_rotate E [v] (rev l)). cbn [app ring_all].
  apply path_all_rev; assumption.
Qed.
Lemma path_all_nth : forall (E : pt -> pt -> Prop) l a, (forall i u v, path_edge (a :: l) i u v -> E u v) -> path_all E a l.
Proof.
  intros E l. induction l as [|b l IH]; intros a H; [exact Logic.I|]. split.
  - apply (H 0%nat). split; reflexivity.
  - apply IH. intros i u v [A B]. apply (H (S i)). split; assumption.
Qed.
Lemma ring_all_edges : forall (E : pt -> pt -> Prop) l, (forall e, edge_of l true e -> E (fst e) (snd e)) -> ring_all E l.
Proof.
  intros E [|v l] H; [exact Logic.I|]. apply path_all_nth. intros i a b [A B].
  change (v :: l ++ [v]) with ((v :: l) ++ [v]) in A, B.
  assert (Li : (S i < S (S (length l)))%nat).
  { assert (X : (S i < length ((v :: l) ++ [v]))%nat) by (apply nth_error_Some; rewrite B; discriminate). rewrite app_length in X. cbn [length] in X. lia. }
  rewrite nth_error_app1 in A by (cbn [length]; lia).
  destruct (Nat.eq_dec i (length l)) as [El|Nl].
  - rewrite nth_error_app2 in B by (cbn [length]; lia). replace (S i - length (v :: l))%nat with 0%nat in B by (cbn [length]; lia).
    cbn in B. injection B as <-. apply (H (a, v)). exists i. right. cbn [fst snd length]. repeat split; [lia|exact A].
  - rewrite nth_error_app1 in B by (cbn [length]; lia). apply (H (a, b)). exists i. left. split; assumption.
Qed.

(** ** The order in which the vertices are visited *)
Lemma lowest_lt : forall l i best k, (k < i)%nat -> (lowest l i best k < i + length l)%nat.
Proof.
  induction l as [|[x y] l IH]; intros i best k H; cbn [lowest length]; [lia|].
  destruct (qlt y (snd best) || (Qeq_bool y (snd best) && qlt x (fst best))).
  - specialize (IH (S i) (x, y) i ltac:(lia)). lia.
  - specialize (IH (S i) best k ltac:(lia)). lia.
Qed.
Lemma visited : forall (l : list pt) v k, (k < length l)%nat -> exists a rest,
  skipn k l ++ firstn k l = a :: rest /\ nth k l v = a /\
  map (fun el => nth ((el + k) mod length l) l v) (seq 1 (length l)) = rest ++ [a].
Proof.
  intros l v k Hk.
  assert (R : map (fun el => nth ((el + k) mod length l) l v) (seq 0 (length l)) = skipn k l ++ firstn k l).
  { apply (nth_ext _ _ v v).
    - rewrite map_length, seq_length, app_length, skipn_length, firstn_length. lia.
    - intros n Hn. rewrite map_length, seq_length in Hn.
      rewrite (nth_indep _ v (nth ((0 + k) mod length l) l v)) by (rewrite map_length, seq_length; exact Hn).
      rewrite (map_nth (fun el => nth ((el + k) mod length l) l v) (seq 0 (length l)) 0%nat n).
      rewrite seq_nth by exact Hn. cbn [Nat.add].
      destruct (lt_dec n (length l - k)) as [Ln|Ln].
      + rewrite Nat.mod_small by lia. rewrite app_nth1 by (rewrite skipn_length; lia).
        replace (nth (n + k) l v) with (nth (n + k) (firstn k l ++ skipn k l) v) by (rewrite firstn_skipn; reflexivity). rewrite app_nth2 by (rewrite firstn_length; lia).
        rewrite firstn_length. f_equal. lia.
      + rewrite app_nth2 by (rewrite skipn_length; lia). rewrite skipn_length.
        replace ((n + k) mod length l)%nat with (n - (length l - k))%nat.
        * set (x := (n - (length l - k))%nat). replace (nth x l v) with (nth x (firstn k l ++ skipn k l) v) by (rewrite firstn_skipn; reflexivity). rewrite app_nth1 by (rewrite firstn_length; lia). reflexivity.
        * symmetry. replace (n + k)%nat with ((n - (length l - k)) + 1 * length l)%nat by lia.
          rewrite Nat.mod_add by lia. apply Nat.mod_small. lia. }
  destruct l as [|w l']; [cbn in Hk; lia|]. set (l := w :: l') in *. set (n := length l) in *.
  assert (En : n = S (length l')) by reflexivity.
  destruct (skipn k l ++ firstn k l) as [|a rest] eqn:E.
  { apply (f_equal (@length pt)) in E. rewrite app_length, skipn_length, firstn_length in E. fold n in E. cbn [length] in E. lia. }
  exists a, rest. split; [reflexivity|].
  replace (seq 0 n) with (0%nat :: seq 1 (length l')) in R by (rewrite En; reflexivity). rewrite map_cons in R.
  assert (R1 : nth ((0 + k) mod n) l v = a) by exact (f_equal (fun x => hd a x) R).
  assert (R2 : map (fun el => nth ((el + k) mod n) l v) (seq 1 (length l')) = rest) by exact (f_equal (@tl pt) R).
  cbn [Nat.add] in R1. rewrite Nat.mod_small in R1 by lia. split; [exact R1|].
  replace (seq 1 n) with (seq 1 (length l') ++ [n]) by (rewrite En, seq_S; f_equal; f_equal; lia).
  rewrite map_app, R2. cbn [map]. f_equal. f_equal.
  replace (n + k)%nat with (k + 1 * n)%nat by lia. rewrite Nat.mod_add by lia. rewrite Nat.mod_small by lia. exact R1.
Qed.

Lemma no_index_f : no_index T = false.
Proof.
  destruct Up as (A & B & C & D). unfold no_index.
  assert (Z : forall q, ~ (q == 0)%Q -> Qeq_bool q 0 = false) by (intros q N; apply Bool.not_true_is_false; intros X; apply N, Qeq_bool_iff, X).
  rewrite !Z; [reflexivity| | | |].
  - rewrite C, D. intros X. apply (Qlt_not_le _ _ A). setoid_replace (dx T) with (dx T - 0 * 0 / dy T)%Q by (field; lra). lra.
  - rewrite C, D. intros X. apply (Qlt_not_le _ _ B). setoid_replace (dy T) with (dy T - 0 * 0 / dx T)%Q by (field; lra). lra.
  - lra.
  - lra.
Qed.
Lemma north_east_id : north_east ny nx T = T.
Proof.
  destruct Up as (A & B & _ & _). unfold north_east.
  assert (Q1 : qlt (dx T) 0 = false) by (apply qlt_no; lra). assert (Q2 : qlt (dy T) 0 = false) by (apply qlt_no; lra).
  rewrite Q1, Q2. destruct T; reflexivity.
Qed.

Lemma count_bound : forall q l a k, (Z.abs (Contains_Model.count_loop q a l k) <= Z.abs k + Z.of_nat (length l)).
Proof.
  intros q l. induction l as [|b l IH]; intros a k; cbn [Contains_Model.count_loop length]; [lia|].
  specialize (IH b (k + edge_count q a b)).
  assert (Z.abs (edge_count q a b) <= 1).
  { unfold Contains_Model.edge_count. repeat match goal with |- context [if ?x then _ else _] => destruct x end; lia. }
  lia.
Qed.

Lemma mask_poly_cell : forall l, l <> [] -> (length l < 256)%nat -> exists m, mask_poly ny nx l T = Geom_Model.Ok m /\
  forall r c, 0 <= r < ny -> 0 <= c < nx -> ring_all (sided r c) l -> (m r c = true <-> count (centre T r c) l <> 0).
Proof.
  intros l Ne Hl. destruct l as [|v l']; [contradiction|]. unfold mask_poly. rewrite north_east_id, no_index_f.
  set (k := lowest l' 1 v 0). assert (Hk : (k < length (v :: l'))%nat) by (unfold k; pose proof (lowest_lt l' 1 v 0 ltac:(lia)); cbn [length]; lia).
  destruct (visited (v :: l') v k Hk) as (a & rest & Er & En & Em). rewrite En, Em.
  destruct (mask_loop_cell (rest ++ [a]) (fun _ _ => 0) a) as (m & E & Pm). rewrite E. cbn [Geom_Model.bind].
  eexists. split; [reflexivity|]. intros r c Hr Hc Al. cbv beta.
  assert (Al' : ring_all (sided r c) (a :: rest)).
  { rewrite <- Er. apply ring_all_rotate. rewrite firstn_skipn. exact Al. }
  cbn [ring_all] in Al'. pose proof (path_identity r c (rest ++ [a]) a Al') as Id. rewrite last_last in Id.
  assert (Ec : count (centre T r c) (v :: l') = Contains_Model.count_loop (centre T r c) a (rest ++ [a]) 0).
  { rewrite <- (firstn_skipn k (v :: l')). rewrite count_rotate, Er. reflexivity. }
  rewrite Ec. assert (K0 : cell8 0 0) by (split; [lia|reflexivity]).
  pose proof (Pm r c 0 Hr Hc K0) as K. cbn [Z.add] in K.
  assert (Bd : -256 < path_contr r c a (rest ++ [a]) < 256).
  { pose proof (count_bound (centre T r c) (rest ++ [a]) a 0) as Cb.
    assert (Lr : (length (rest ++ [a]) = length (v :: l'))%nat).
    { apply (f_equal (@length pt)) in Er. rewrite app_length, skipn_length, firstn_length in Er. rewrite app_length. cbn [length] in *. lia. }
    rewrite Lr in Cb. lia. }
  pose proof (cell8_zero _ _ K Bd) as Z0. rewrite negb_true_iff, Z.eqb_neq. lia.
Qed.
End Loop.
