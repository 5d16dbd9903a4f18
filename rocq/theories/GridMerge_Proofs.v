(** Proofs about merge and gridpoints. *)
From Coq Require Import List ZArith QArith Qround Qabs Bool Lia Lqa Permutation.
From Verif Require Import Band_Model Band_Spec Band_IndexModel Band_IndexSpec Band_Proofs
  Band_IndexProofs Band_MaskProofs Grid_Model Grid_Spec Grid_Proofs Grid_OpsProofs Grid_ResizeProofs
  Grid_MoreProofs GridSample_Model GridSample_Spec GridSample_Proofs GridBilinear_Proofs.
Import ListNotations.
Open Scope Z_scope.

Lemma int_div : forall d q k, (0 < d)%Q -> (q == inject_Z k * d)%Q -> (q / d == inject_Z k)%Q.
Proof. intros d q k D E. rewrite E. field. lra. Qed.
Lemma ctrunc_int : forall q k, (q == inject_Z k)%Q -> ctrunc q = k.
Proof.
  intros q k E. unfold ctrunc. destruct (Qle_bool 0 q) eqn:L.
  - apply Qfloor_unique; rewrite ?inj_add, ?inj_1; lra.
  - apply Qceiling_unique; rewrite ?inj_sub, ?inj_1; lra.
Qed.
Lemma rint_int : forall q k, (q == inject_Z k)%Q -> rint q = k.
Proof. intros q k E. apply rint_unique; lra. Qed.

Section M.
Variable junk : Z -> Z -> fl.
Variable T : transform.
Hypothesis Dx : (0 < dx T)%Q.
Hypothesis Dy : (0 < dy T)%Q.
Hypothesis Sx : (sx T == 0)%Q.
Hypothesis Sy : (sy T == 0)%Q.
Variable nb : Z.

Definition gx (a : Z) : Q := (x0 T + inject_Z a * dx T)%Q.
Definition gy (a : Z) : Q := (y0 T + inject_Z a * dy T)%Q.

Lemma source_extent : forall g s, describes T nb g s ->
  0 <= s_h s /\ 0 <= s_w s /\ 0 < nb /\ gsize g = (s_h s, s_w s) /\
  let '(a, b, c, d) := extent (gT g) (s_h s) (s_w s) false in
  (a == gx (s_col s) /\ b == gx (s_col s + s_w s) /\ c == gy (s_row s) /\ d == gy (s_row s + s_h s))%Q.
Proof.
  intros g s (Tg & G & (E1 & E2 & E3 & E4) & E5 & E6).
  destruct (grid_size _ _ _ _ _ _ _ _ G) as (Sz & HH & HW & Hnb).
  destruct G as (ET & _). rewrite ET.
  split; [exact HH|]. split; [exact HW|]. split; [exact Hnb|]. split; [exact Sz|].
  assert (X := bbox_unskewed Tg (s_h s) (s_w s) HH HW ltac:(lra) ltac:(lra) ltac:(lra) ltac:(lra)).
  unfold bbox in X. destruct (extent Tg (s_h s) (s_w s) false) as [[[a b] c] d].
  destruct X as (X1 & X2 & X3 & X4). unfold gx, gy. rewrite !inj_add.
  split; [rewrite X1, E5; reflexivity|]. split; [rewrite X3, E5, E1; ring|].
  split; [rewrite X2, E6; reflexivity|]. rewrite X4, E6, E2; ring.
Qed.

Lemma gx_le : forall a b, (gx a <= gx b)%Q <-> a <= b.
Proof.
  intros a b. unfold gx. split; intro L.
  - rewrite Zle_Qle. apply (Qmult_le_r _ _ (dx T) Dx). lra.
  - assert (inject_Z a * dx T <= inject_Z b * dx T)%Q by (apply (Qmult_le_r _ _ (dx T) Dx); apply inj_le; exact L). lra.
Qed.
Lemma gy_le : forall a b, (gy a <= gy b)%Q <-> a <= b.
Proof.
  intros a b. unfold gy. split; intro L.
  - rewrite Zle_Qle. apply (Qmult_le_r _ _ (dy T) Dy). lra.
  - assert (inject_Z a * dy T <= inject_Z b * dy T)%Q by (apply (Qmult_le_r _ _ (dy T) Dy); apply inj_le; exact L). lra.
Qed.
Lemma qmin_mono : forall (h : Z -> Q), (forall a b, (h a <= h b)%Q <-> a <= b) ->
  forall p q a b, (p == h a)%Q -> (q == h b)%Q -> (qmin p q == h (Z.min a b))%Q.
Proof.
  intros h M p q a b E1 E2. destruct (qmin_spec p q) as [[E L] | [E L]]; rewrite E.
  - rewrite Z.min_l; [exact E1|]. apply M. rewrite <- E1, <- E2. exact L.
  - rewrite Z.min_r; [exact E2|]. apply M. rewrite <- E1, <- E2. exact L.
Qed.
Lemma qmax_mono : forall (h : Z -> Q), (forall a b, (h a <= h b)%Q <-> a <= b) ->
  forall p q a b, (p == h a)%Q -> (q == h b)%Q -> (qmax p q == h (Z.max a b))%Q.
Proof.
  intros h M p q a b E1 E2. destruct (qmax_spec p q) as [[E L] | [E L]]; rewrite E.
  - rewrite Z.max_l; [exact E1|]. apply M. rewrite <- E1, <- E2. exact L.
  - rewrite Z.max_r; [exact E2|]. apply M. rewrite <- E1, <- E2. exact L.
Qed.

Definition ext (g : grid fl) := let (ny, nx) := gsize g in extent (gT g) ny nx false.

Lemma union_extent : forall gs ss, Forall2 (describes T nb) gs ss ->
  forall e a b c d,
  (let '(x, x', y, y') := e in x == gx a /\ x' == gx b /\ y == gy c /\ y' == gy d)%Q ->
  let '(x, x', y, y') := fold_left (fun e g => join_extent e (ext g)) gs e in
  (x == gx (zmin (map s_col ss) a) /\ x' == gx (zmax (map (fun s => s_col s + s_w s) ss) b)%Z /\
   y == gy (zmin (map s_row ss) c) /\ y' == gy (zmax (map (fun s => s_row s + s_h s) ss) d)%Z)%Q.
Proof.
  intros gs ss F. induction F as [|g s gs ss Hg F IH]; intros [[[x x'] y] y'] a b c d (E1 & E2 & E3 & E4).
  - cbn. auto.
  - cbn [fold_left map]. unfold zmin, zmax in *. cbn [fold_left]. apply IH.
    unfold ext. destruct (source_extent g s Hg) as (_ & _ & _ & Sz & X). rewrite Sz.
    destruct (extent (gT g) (s_h s) (s_w s) false) as [[[u u'] v] v']. destruct X as (X1 & X2 & X3 & X4).
    cbn [join_extent].
    split; [apply (qmin_mono gx gx_le); assumption|]. split; [apply (qmax_mono gx gx_le); assumption|].
    split; [apply (qmin_mono gy gy_le); assumption|]. apply (qmax_mono gy gy_le); assumption.
Qed.

(** The contribution of the grids to one cell, in the order of the grids. *)
Definition acc (a : fl) (b : bool) (v : fl) : fl := if b then fadd a v else a.

Lemma add_masked_spec : forall A oy ox h w mask vals, 0 <= oy -> 0 <= ox -> 0 <= h -> 0 <= w ->
  oy + h <= nrow A -> ox + w <= ncol A ->
  exists A', add_masked A oy ox h w mask vals = Ok A' /\ nrow A' = nrow A /\ ncol A' = ncol A /\
    forall i j, at_ A' i j =
      acc (at_ A i j) ((oy <=? i) && (i <? oy + h) && (ox <=? j) && (j <? ox + w) && mask (i - oy) (j - ox))
          (vals (i - oy) (j - ox)).
Proof.
  intros A oy ox h w mask vals H1 H2 H3 H4 H5 H6. unfold add_masked, sl_len, clamp.
  destruct (oy <? 0) eqn:Q1; [lia|]. destruct (ox <? 0) eqn:Q2; [lia|].
  destruct (oy + h <? 0) eqn:Q3; [lia|]. destruct (ox + w <? 0) eqn:Q4; [lia|].
  rewrite (Z.min_l oy) by lia. rewrite (Z.min_l ox) by lia.
  rewrite (Z.min_l (oy + h)) by lia. rewrite (Z.min_l (ox + w)) by lia.
  destruct ((Z.max 0 (oy + h - oy) =? h) && (Z.max 0 (ox + w - ox) =? w)) eqn:Q5; [|lia].
  eexists. split; [reflexivity|]. cbn [nrow ncol at_]. auto.
Qed.

Section Cell.
Variables c0 r0 : Z.      (* column and row of the corner of the mosaic *)
Variables ny nx : Z.

(** Sum of the weights and of the weighted values of [l], as the code adds them. *)
Definition sums (l : list (Q * fl)) (cv : fl * fl) : fl * fl :=
  fold_left (fun cv p => (fadd (fst cv) (Some (fst p)), fadd (snd cv) (fscale (snd p) (fst p)))) l cv.

Lemma add_grids_spec : forall xmin ymin k, (xmin == gx c0)%Q -> (ymin == gy r0)%Q -> 0 <= k < nb ->
  forall gs ss, Forall2 (describes T nb) gs ss ->
  (forall s, In s ss -> r0 <= s_row s /\ s_row s + s_h s <= r0 + ny /\ c0 <= s_col s /\ s_col s + s_w s <= c0 + nx) ->
  forall ws, length ws = length gs ->
  forall C A, nrow C = ny -> ncol C = nx -> nrow A = ny -> ncol A = nx ->
  exists C' A', add_grids junk T xmin ymin k (combine gs ws) (C, A) = Ok (C', A') /\
    nrow C' = ny /\ ncol C' = nx /\ nrow A' = ny /\ ncol A' = nx /\
    forall i j l, 0 <= i < ny -> 0 <= j < nx -> gathers nb k (i + r0) (j + c0) (combine ss ws) l ->
      (at_ C' i j, at_ A' i j) = sums l (at_ C i j, at_ A i j).
Proof.
  intros xmin ymin k Ex Ey Hk gs ss F. induction F as [|g s gs ss Hg F IH]; intros Fit ws Lw C A N1 N2 N3 N4.
  - exists C, A. destruct ws; [|discriminate]. cbn. repeat split; auto.
    intros i j l _ _ G. inversion G; subst. reflexivity.
  - destruct ws as [|w ws]; [discriminate|]. cbn [combine add_grids].
    destruct (source_extent g s Hg) as (Hh & Hw & Hnb & Sz & X). rewrite Sz.
    destruct (extent (gT g) (s_h s) (s_w s) false) as [[[u u'] v] v']. destruct X as (X1 & X2 & X3 & X4).
    destruct (Fit s (or_introl eq_refl)) as (F1 & F2 & F3 & F4).
    assert (Ox : ctrunc ((u - xmin) / dx T) = s_col s - c0).
    { apply ctrunc_int. apply int_div; [exact Dx|]. rewrite X1, Ex, inj_sub. unfold gx. ring. }
    assert (Oy : ctrunc ((v - ymin) / dy T) = s_row s - r0).
    { apply ctrunc_int. apply int_div; [exact Dy|]. rewrite X3, Ey, inj_sub. unfold gy. ring. }
    rewrite Ox, Oy.
    destruct Hg as (Tg & G & _).
    destruct (data_mask_ok fl junk fnan feq g Tg (s_h s) (s_w s) nb (s_val s) (s_nodata s) G) as (m & Em & Pm).
    rewrite Em. cbn [bind].
    destruct (add_masked_spec C (s_row s - r0) (s_col s - c0) (s_h s) (s_w s) m (fun _ _ => Some w))
      as (C1 & E1 & M1 & M2 & P1); try lia.
    cbn [fst]. rewrite E1. cbn [bind]. destruct G as (ET & SH & EN & Ed).
    unfold py_index. rewrite EN. destruct ((0 <=? k) && (k <? nb)) eqn:Qk; [|lia]. cbn [bind].
    destruct (nth_error (gbands g) (Z.to_nat k)) as [b|] eqn:Eb;
      [|apply nth_error_None in Eb; lia].
    destruct SH as [_ SH]. destruct (SH _ _ Eb) as (_ & Bs & Rd). rewrite Bs. cbn [fst snd].
    destruct (Rd junk 0 0 (s_h s) (s_w s)) as (blk & Egb & B1 & B2 & B3); [unfold in_bounds; lia|].
    rewrite Egb. cbn [bind].
    destruct (add_masked_spec A (s_row s - r0) (s_col s - c0) (s_h s) (s_w s) m (fun i j => fscale (at_ blk i j) w))
      as (A1 & E2 & M3 & M4 & P2); try lia.
    rewrite E2. cbn [bind].
    destruct (IH (fun s' Hs => Fit s' (or_intror Hs)) ws ltac:(cbn in Lw; lia) C1 A1 ltac:(congruence) ltac:(congruence)
                ltac:(congruence) ltac:(congruence)) as (C' & A' & E' & K1 & K2 & K3 & K4 & K).
    exists C', A'. split; [exact E'|]. split; [exact K1|]. split; [exact K2|]. split; [exact K3|]. split; [exact K4|].
    intros i j l Hi Hj Ga. rewrite Z2Nat.id in B3 by lia.
    assert (Di : has_data nb s (i + r0) (j + c0) <->
       (s_row s - r0 <=? i) && (i <? s_row s - r0 + s_h s) && (s_col s - c0 <=? j) && (j <? s_col s - c0 + s_w s)
         && m (i - (s_row s - r0)) (j - (s_col s - c0)) = true).
    { unfold has_data. rewrite !andb_true_iff, !Z.leb_le, !Z.ltb_lt.
      replace (i + r0 - s_row s) with (i - (s_row s - r0)) by lia.
      replace (j + c0 - s_col s) with (j - (s_col s - c0)) by lia.
      split.
      - intros (Y1 & Y2 & Y3). repeat split; try lia. apply Pm; [lia|lia|]. exact Y3.
      - intros ((((Y1 & Y2) & Y3) & Y4) & Y5). split; [lia|]. split; [lia|]. apply Pm; [lia|lia|exact Y5]. }
    inversion Ga as [|s' w' ll r ND Ga' Ea El|s' w' ll r HD Ga' Ea El]; subst.
    + rewrite (K i j l Hi Hj Ga'). f_equal. rewrite P1, P2.
      destruct ((s_row s - r0 <=? i) && (i <? s_row s - r0 + s_h s) && (s_col s - c0 <=? j) && (j <? s_col s - c0 + s_w s)
         && m (i - (s_row s - r0)) (j - (s_col s - c0))) eqn:Q; [|reflexivity].
      exfalso. apply ND. apply Di. reflexivity.
    + rewrite (K i j r Hi Hj Ga'). cbn [sums fold_left fst snd]. unfold sums at 1. f_equal. rewrite P1, P2.
      rewrite (proj1 Di HD). cbn [acc]. f_equal. f_equal.
      destruct HD as (Y1 & Y2 & _).
      rewrite B3 by lia. rewrite !Z.add_0_l. f_equal. f_equal; lia.
Qed.
End Cell.

Lemma gathers_exists : forall k i j l, exists r, gathers nb k i j l r.
Proof.
  assert (Dec : forall s i j, has_data nb s i j \/ ~ has_data nb s i j).
  { intros s i j. unfold has_data.
    destruct (Z_le_gt_dec (s_row s) i); [|right; lia]. destruct (Z_lt_ge_dec i (s_row s + s_h s)); [|right; lia].
    destruct (Z_le_gt_dec (s_col s) j); [|right; lia]. destruct (Z_lt_ge_dec j (s_col s + s_w s)); [|right; lia].
    assert (A : forall n : nat, (forall k, 0 <= k < Z.of_nat n -> is_data fnan feq (s_nodata s) (s_val s k (i - s_row s) (j - s_col s))) \/
                ~ (forall k, 0 <= k < Z.of_nat n -> is_data fnan feq (s_nodata s) (s_val s k (i - s_row s) (j - s_col s)))).
    { induction n as [|n IH]; [left; lia|]. destruct IH as [IH | IH].
      - destruct (is_data_dec fl fnan feq (s_nodata s) (s_val s (Z.of_nat n) (i - s_row s) (j - s_col s))) as [D | D].
        + left. intros k Hk. destruct (Z.eq_dec k (Z.of_nat n)) as [-> | N]; [exact D|apply IH; lia].
        + right. intro X. apply D. apply X. lia.
      - right. intro X. apply IH. intros k Hk. apply X. lia. }
    destruct (Z_le_gt_dec 0 nb) as [P | P].
    - specialize (A (Z.to_nat nb)). rewrite Z2Nat.id in A by lia. destruct A as [A | A]; [left; auto|right; tauto].
    - left. split; [lia|]. split; [lia|]. intros; lia. }
  intros k i j l. induction l as [|[s w] l (r & IH)]; [exists []; constructor|].
  destruct (Dec s i j); [eexists; apply ga_take; eassumption|exists r; apply ga_skip; assumption].
Qed.

(** Scaling the weights. *)
Definition scale_w (c : Q) (w : Q) : Q := w.
Lemma gathers_scaled : forall k i j ss ws f r,
  gathers nb k i j (combine ss (map f ws)) r ->
  exists r', gathers nb k i j (combine ss ws) r' /\ r = map (fun p => (f (fst p), snd p)) r'.
Proof.
  intros k i j ss. induction ss as [|s ss IH]; intros ws f r G.
  - cbn in *. inversion G; subst. exists []. split; [constructor|reflexivity].
  - destruct ws as [|w ws]; cbn [combine map] in *.
    + inversion G; subst. exists []. split; [constructor|reflexivity].
    + inversion G; subst.
      * destruct (IH ws f r) as (r' & G' & E); [assumption|]. exists r'. split; [apply ga_skip; assumption|exact E].
      * destruct (IH ws f r0) as (r' & G' & E); [assumption|]. eexists. split; [apply ga_take; eassumption|].
        cbn [map fst snd]. rewrite E. reflexivity.
Qed.
Lemma gathers_unique : forall k i j l r r', gathers nb k i j l r -> gathers nb k i j l r' -> r = r'.
Proof.
  intros k i j l r r' G. revert r'. induction G; intros r' G'; inversion G'; subst; try contradiction; auto.
  f_equal. auto.
Qed.

Lemma sums_some : forall ws vs c v, length ws = length vs ->
  exists c' v', sums (combine ws (map Some vs)) (Some c, Some v) = (Some c', Some v') /\
    (c' == c + weight_sum (combine ws (map Some vs)))%Q /\
    (v' == v + fold_right (fun p a => (fst p * snd p + a)%Q) 0%Q (combine ws vs))%Q.
Proof.
  induction ws as [|w ws IH]; intros [|x vs] c v L; try discriminate.
  - exists c, v. cbn. split; [reflexivity|]. split; ring.
  - cbn [combine map]. unfold sums. cbn [fold_left fst snd fadd fscale].
    destruct (IH vs (c + w)%Q (v + x * w)%Q ltac:(cbn in L; lia)) as (c' & v' & E & E1 & E2).
    exists c', v'. split; [exact E|]. cbn [weight_sum fold_right fst snd combine]. split; [rewrite E1|rewrite E2].
    + unfold weight_sum. ring.
    + ring.
Qed.
Lemma sums_count : forall l c v, exists c', fst (sums l (Some c, v)) = Some c' /\ (c' == c + weight_sum l)%Q.
Proof.
  induction l as [|[w x] l IH]; intros c v.
  - exists c. cbn. split; [reflexivity|ring].
  - unfold sums. cbn [fold_left fst snd fadd]. destruct (IH (c + w)%Q (fadd v (fscale x w))) as (c' & E & E1).
    exists c'. split; [exact E|]. rewrite E1. cbn [weight_sum fold_right fst]. unfold weight_sum. ring.
Qed.
Lemma sums_nan : forall l c v, In None (map snd l) \/ v = None -> snd (sums l (c, v)) = None.
Proof.
  induction l as [|[w x] l IH]; intros c v I.
  - destruct I as [[] | ->]. reflexivity.
  - unfold sums. cbn [fold_left fst snd]. apply IH. cbn [map snd In] in I.
    destruct I as [[-> | I] | ->]; [right; destruct v; reflexivity|left; exact I|right; reflexivity].
Qed.

Lemma weight_scale : forall c l, (weight_sum (map (fun p => (fst p * c, snd p)%Q) l) == weight_sum l * c)%Q.
Proof.
  intros c l. induction l as [|[w v] l IH]; cbn [map weight_sum fold_right fst snd] in *; [ring|].
  unfold weight_sum in *. cbn [fst snd]. rewrite IH. ring.
Qed.

Lemma combine_map_fst : forall (ws : list Q) (vs : list Q) (f : Q -> Q),
  map (fun p => (f (fst p), snd p)) (combine ws (map Some vs)) = combine (map f ws) (map Some vs).
Proof. induction ws as [|w ws IH]; intros [|v vs] f; cbn; [reflexivity..|]. f_equal. apply IH. Qed.
Lemma dot_scale : forall c ws vs,
  (fold_right (fun p a => (fst p * snd p + a)%Q) 0%Q (combine (map (fun w => w * c) ws) vs)
   == c * fold_right (fun p a => (fst p * snd p + a)%Q) 0%Q (combine ws vs))%Q.
Proof.
  intros c. induction ws as [|w ws IH]; intros [|v vs]; cbn [map combine fold_right fst snd]; try ring.
  rewrite IH. ring.
Qed.

(** The value stored from the two sums of the scaled contributions. *)
Definition quotient (nodata : fl) (cv : fl * fl) : fl :=
  match fst cv with
  | Some c => if Qeq_bool c 0 then nodata
              else match snd cv with Some v => Some (v / c)%Q | None => None end
  | None => None
  end.
Lemma quotient_mean : forall nodata c l, ~ (c == 0)%Q ->
  weighted_mean nodata l
    (quotient nodata (sums (map (fun p => (fst p * c, snd p)%Q) l) (Some 0%Q, Some 0%Q))).
Proof.
  intros nodata c l Nc.
  destruct (sums_count (map (fun p => (fst p * c, snd p)%Q) l) 0%Q (Some 0%Q)) as (c' & E & E1).
  rewrite weight_scale, Qplus_0_l in E1.
  unfold quotient, weighted_mean.
  match type of E with fst ?s = _ => match goal with |- context [fst ?t] => change t with s end end.
  rewrite E. split.
  - intro Z0. rewrite (proj2 (Qeq_bool_iff c' 0)); [reflexivity|]. rewrite E1, Z0. ring.
  - intro NZ.
    assert (Nc' : ~ (c' == 0)%Q).
    { rewrite E1. intro X. apply Qmult_integral in X. tauto. }
    rewrite (Qeq_bool_false _ _ Nc'). split.
    + intro I. rewrite sums_nan; [reflexivity|]. left. rewrite map_map. cbn [snd].
      rewrite (map_ext _ snd) by reflexivity. exact I.
    + intros ws vs -> L.
      assert (CM : map (fun p : Q * fl => ((fst p * c)%Q, snd p)) (combine ws (map Some vs))
                   = combine (map (fun w => w * c)%Q ws) (map Some vs)) by exact (combine_map_fst ws vs (fun w => w * c)%Q).
      rewrite CM in E |- *.
      destruct (sums_some (map (fun w => w * c)%Q ws) vs 0%Q 0%Q) as (c2 & v2 & E2 & E3 & E4).
      { rewrite map_length. exact L. }
      rewrite E2 in E. cbn [fst] in E. injection E as ->. rewrite E2. cbn [snd].
      eexists. split; [reflexivity|]. rewrite dot_scale, Qplus_0_l in E4. rewrite E4, E1.
      field. split; [exact Nc|exact NZ].
Qed.

Lemma merge_band_spec : forall c0 r0 ny nx xmin ymin k nodata gs ss ws c,
  (xmin == gx c0)%Q -> (ymin == gy r0)%Q -> 0 <= k < nb -> 0 <= ny -> 0 <= nx -> ~ (c == 0)%Q ->
  Forall2 (describes T nb) gs ss ->
  (forall s, In s ss -> r0 <= s_row s /\ s_row s + s_h s <= r0 + ny /\ c0 <= s_col s /\ s_col s + s_w s <= c0 + nx) ->
  length ws = length gs ->
  exists b f, merge_band junk T xmin ymin ny nx nodata (combine gs (map (fun w => w * c)%Q ws)) k = Ok b /\
    holds b ny nx f /\
    forall i j l, 0 <= i < ny -> 0 <= j < nx -> gathers nb k (i + r0) (j + c0) (combine ss ws) l ->
      weighted_mean nodata l (f i j).
Proof.
  intros c0 r0 ny nx xmin ymin k nodata gs ss ws c Ex Ey Hk Hy Hx Nc F Fit Lw. unfold merge_band, np_full.
  destruct ((ny <? 0) || (nx <? 0)) eqn:Q; [lia|]. cbn [bind].
  destruct (add_grids_spec c0 r0 ny nx xmin ymin k Ex Ey Hk gs ss F Fit (map (fun w => w * c)%Q ws))
    with (C := mkA ny nx (fun _ _ : Z => Some 0%Q)) (A := mkA ny nx (fun _ _ : Z => Some 0%Q))
    as (C' & A' & E & K1 & K2 & K3 & K4 & K); try reflexivity.
  { rewrite map_length. exact Lw. }
  rewrite E. cbn [bind fst snd].
  set (out := mkA ny nx _).
  destruct (new_band_holds fl junk nodata ClsComp ny nx (Some nodata) Hy Hx) as (b0 & f0 & E0 & Hb0 & _).
  cbn [new_band] in E0. injection E0 as <-.
  destruct (setblock_holds fl _ ny nx f0 0 0 out Hb0) as (b & Eb & Pb).
  { unfold in_bounds, out; cbn [nrow ncol]. lia. }
  unfold setblock_. rewrite Eb. exists b, (at_ out). split; [reflexivity|]. split.
  - apply Pb. intros p q Hp Hq. change (nrow out) with ny. change (ncol out) with nx.
    split; [|lia]. intros _. rewrite !Z.sub_0_r. reflexivity.
  - intros i j l Hi Hj Ga.
    destruct (gathers_exists k (i + r0) (j + c0) (combine ss (map (fun w => w * c)%Q ws))) as (l' & Ga').
    destruct (gathers_scaled _ _ _ _ _ _ _ Ga') as (l2 & Ga2 & El).
    rewrite (gathers_unique _ _ _ _ _ _ Ga2 Ga) in El.
    assert (Eq : at_ out i j = quotient nodata (sums l' (Some 0%Q, Some 0%Q))).
    { specialize (K i j l' Hi Hj Ga'). cbn [at_] in K. unfold out, quotient. cbn [at_].
      rewrite <- K. cbn [fst snd]. reflexivity. }
    rewrite Eq, El. apply quotient_mean. exact Nc.
Qed.
End M.

Lemma qmul_assoc_eq : forall a b c : Q, (a * b / c = a * (b / c))%Q.
Proof.
  intros [an ad] [bn bd] c. unfold Qdiv. destruct (/ c)%Q as [cn cd]. unfold Qmult. cbn [Qnum Qden].
  f_equal; [symmetry; apply Z.mul_assoc|symmetry; apply Pos.mul_assoc].
Qed.
Lemma holds_ext : forall V (b : band V) H W f f', holds b H W f ->
  (forall i j, 0 <= i < H -> 0 <= j < W -> f' i j = f i j) -> holds b H W f'.
Proof.
  intros V b H W f f' (U & S & R) E. split; [exact U|]. split; [exact S|]. intros junk y x h w B.
  destruct (R junk y x h w B) as (r & Er & R1 & R2 & R3). exists r. split; [exact Er|].
  split; [exact R1|]. split; [exact R2|]. intros i j Hi Hj. rewrite (R3 i j Hi Hj). unfold in_bounds in B.
  symmetry. apply E; lia.
Qed.

Lemma fold_and : forall A (f : A -> bool) l, (forall a, In a l -> f a = true) -> forallb f l = true.
Proof. intros. apply forallb_forall. assumption. Qed.

Lemma in_combine_F2 : forall A B (R : A -> B -> Prop) l m, Forall2 R l m -> forall a, In a l -> exists b, In b m /\ R a b.
Proof. intros. eapply Forall2_in_l; eassumption. Qed.
Lemma Forall2_in_r : forall A B (R : A -> B -> Prop) l m b, Forall2 R l m -> In b m -> exists a, In a l /\ R a b.
Proof.
  intros A B R l m b F. induction F; intros [].
  - subst. exists x. split; [left; reflexivity|assumption].
  - destruct IHF as (a & I & Ra); [assumption|]. exists a. split; [right; exact I|exact Ra].
Qed.

Lemma frac_int : forall q k, (q == inject_Z k)%Q -> Qle_bool (frac q) eps = true.
Proof.
  intros q k E. apply Qle_bool_iff. unfold frac.
  assert (X : Qfloor q = k) by (apply Qfloor_unique; rewrite ?inj_add, ?inj_1; lra).
  rewrite X. assert (Y : (q - inject_Z k == 0)%Q) by lra. rewrite Y. unfold eps. discriminate.
Qed.

Theorem merge_spec : forall junk g0 rest s0 ss ws nb,
  let T := gT g0 in
  (0 < dx T)%Q -> (0 < dy T)%Q -> (sx T == 0)%Q -> (sy T == 0)%Q ->
  Forall2 (describes T nb) (g0 :: rest) (s0 :: ss) ->
  length ws = length (g0 :: rest) -> ~ (fold_right Qplus 0 ws == 0)%Q ->
  exists g' Tm r0 c0 ny nx F',
    merge junk (g0 :: rest) ws = Ok g' /\ grid_is g' Tm ny nx nb F' (s_nodata s0) /\
    same_place Tm T r0 c0 /\
    (forall s, In s (s0 :: ss) ->
       r0 <= s_row s /\ s_row s + s_h s <= r0 + ny /\ c0 <= s_col s /\ s_col s + s_w s <= c0 + nx) /\
    (exists s, In s (s0 :: ss) /\ s_row s = r0) /\ (exists s, In s (s0 :: ss) /\ s_row s + s_h s = r0 + ny) /\
    (exists s, In s (s0 :: ss) /\ s_col s = c0) /\ (exists s, In s (s0 :: ss) /\ s_col s + s_w s = c0 + nx) /\
    (forall k i j l, 0 <= k < nb -> 0 <= i < ny -> 0 <= j < nx ->
       gathers nb k (i + r0) (j + c0) (combine (s0 :: ss) ws) l ->
       weighted_mean (s_nodata s0) l (F' k i j)).
Proof.
  intros junk g0 rest s0 ss ws nb T Dx Dy Sx Sy F Lw NW.
  assert (F0 : describes T nb g0 s0) by (inversion F; assumption).
  assert (FR : Forall2 (describes T nb) rest ss) by (inversion F; assumption).
  destruct (source_extent T Dx Dy Sx Sy nb g0 s0 F0) as (Hh & Hw & Hnb & Sz & X0).
  unfold merge. fold T.
  (* the checks *)
  assert (C1 : forallb (fun g => same_stretch (gT g) T) rest = true).
  { apply fold_and. intros g Ig. destruct (Forall2_in_l _ _ _ _ _ g FR Ig) as (s & _ & Tg & G & (E1 & E2 & E3 & E4) & _).
    destruct G as (ET & _). rewrite ET. unfold same_stretch. rewrite !andb_true_iff, !Qeq_bool_iff. auto. }
  rewrite C1. cbn [negb].
  assert (C2 : Qeq_bool (dx T) 0 || Qeq_bool (dy T) 0 = false).
  { apply orb_false_intro; apply Qeq_bool_false; lra. }
  rewrite C2.
  assert (C3 : existsb (fun g => negb (Qle_bool (frac ((x0 (gT g) - x0 T) / dx T)) eps)
                             || negb (Qle_bool (frac ((y0 (gT g) - y0 T) / dy T)) eps)) rest = false).
  { apply not_true_is_false. intro E. apply existsb_exists in E. destruct E as (g & Ig & E).
    destruct (Forall2_in_l _ _ _ _ _ g FR Ig) as (s & _ & Tg & G & _ & E5 & E6).
    destruct G as (ET & _). rewrite ET in E.
    rewrite (frac_int _ (s_col s)) in E by (apply int_div; [exact Dx|lra]).
    rewrite (frac_int _ (s_row s)) in E by (apply int_div; [exact Dy|lra]). discriminate. }
  rewrite C3.
  assert (LB : forall g s, describes T nb g s -> Z.of_nat (length (gbands g)) = nb).
  { intros g s (Tg & (_ & _ & EN & _) & _). exact EN. }
  assert (C4 : forallb (fun g => Nat.eqb (length (gbands g)) (length (gbands g0))) rest = true).
  { apply fold_and. intros g Ig. destruct (Forall2_in_l _ _ _ _ _ g FR Ig) as (s & _ & D).
    apply Nat.eqb_eq. pose proof (LB _ _ D). pose proof (LB _ _ F0). lia. }
  rewrite C4. cbn [negb].
  (* the extent *)
  pose proof (union_extent T Dx Dy Sx Sy nb rest ss FR) as U.
  specialize (U (extent (gT g0) (s_h s0) (s_w s0) false) (s_col s0) (s_col s0 + s_w s0) (s_row s0) (s_row s0 + s_h s0) X0).
  cbv zeta. rewrite Sz.
  match goal with |- context [fold_left ?f rest ?e] =>
    change (fold_left f rest e) with (fold_left (fun a g => join_extent a (ext g)) rest (extent (gT g0) (s_h s0) (s_w s0) false)) end.
  destruct (fold_left (fun a g => join_extent a (ext g)) rest (extent (gT g0) (s_h s0) (s_w s0) false))
    as [[[xmin xmax] ymin] ymax].
  destruct U as (U1 & U2 & U3 & U4).
  destruct (zmin_le (map s_col ss) (s_col s0)) as (A1 & A2 & A3).
  destruct (zmax_ge (map (fun s => s_col s + s_w s) ss) (s_col s0 + s_w s0)) as (B1 & B2 & B3).
  destruct (zmin_le (map s_row ss) (s_row s0)) as (G1 & G2 & G3).
  destruct (zmax_ge (map (fun s => s_row s + s_h s) ss) (s_row s0 + s_h s0)) as (D1 & D2 & D3).
  set (c0 := zmin (map s_col ss) (s_col s0)) in *. set (c1 := zmax (map (fun s => s_col s + s_w s) ss) (s_col s0 + s_w s0)) in *.
  set (r0 := zmin (map s_row ss) (s_row s0)) in *. set (r1 := zmax (map (fun s => s_row s + s_h s) ss) (s_row s0 + s_h s0)) in *.
  assert (Enx : rint ((xmax - xmin) / dx T) = c1 - c0).
  { apply rint_int. apply int_div; [exact Dx|]. rewrite U1, U2, inj_sub. unfold gx. ring. }
  assert (Eny : rint ((ymax - ymin) / dy T) = r1 - r0).
  { apply rint_int. apply int_div; [exact Dy|]. rewrite U3, U4, inj_sub. unfold gy. ring. }
  rewrite Enx, Eny.
  assert (Fit : forall s, In s (s0 :: ss) -> r0 <= s_row s /\ s_row s + s_h s <= r0 + (r1 - r0) /\
             c0 <= s_col s /\ s_col s + s_w s <= c0 + (c1 - c0)).
  { intros s [<- | Is]; [lia|].
    specialize (A2 (s_col s) (in_map s_col _ _ Is)). specialize (B2 _ (in_map (fun s => s_col s + s_w s) _ _ Is)).
    specialize (G2 (s_row s) (in_map s_row _ _ Is)). specialize (D2 _ (in_map (fun s => s_row s + s_h s) _ _ Is)).
    cbv beta in *. lia. }
  set (total := fold_right Qplus 0%Q ws) in *.
  set (c := (inject_Z (Z.of_nat (length ws)) / total)%Q).
  assert (Nl : ~ (inject_Z (Z.of_nat (length ws)) == 0)%Q).
  { rewrite Lw. cbn [length]. intro E. unfold Qeq, inject_Z in E. simpl in E. lia. }
  assert (Nc : ~ (c == 0)%Q).
  { unfold c. intro E. apply Nl. rewrite <- (Qmult_div_r (inject_Z (Z.of_nat (length ws))) total NW).
    rewrite E. ring. }
  (* bands *)
  set (nw := map (fun w => (w * inject_Z (Z.of_nat (length ws)) / total)%Q) ws) in *.
  set (mb := merge_band junk T xmin ymin (r1 - r0) (c1 - c0) (gnodata g0) (combine (g0 :: rest) nw)).
  assert (End0 : gnodata g0 = s_nodata s0) by (destruct F0 as (Tg & (_ & _ & _ & Ed) & _); exact Ed).
  assert (Enw : nw = map (fun w => (w * c)%Q) ws).
  { unfold nw, c. apply map_ext. intro w. apply qmul_assoc_eq. }
  destruct (mapM_nth _ _ mb (zrange 0 (Z.of_nat (length (gbands g0))))
     (fun n b => exists f, holds b (r1 - r0) (c1 - c0) f /\
        forall i j l, 0 <= i < r1 - r0 -> 0 <= j < c1 - c0 ->
          gathers nb (Z.of_nat n) (i + r0) (j + c0) (combine (s0 :: ss) ws) l ->
          weighted_mean (s_nodata s0) l (f i j))) as (bands & Em & Lm & Pm).
  { intros n k Hn. assert (Ln : (n < length (zrange 0 (Z.of_nat (length (gbands g0)))))%nat) by (apply nth_error_Some; congruence).
    rewrite zrange_length in Ln. assert (X := zrange_nth0 (Z.of_nat (length (gbands g0))) (Z.of_nat n) ltac:(lia)).
    rewrite Nat2Z.id in X. assert (k = Z.of_nat n) by congruence. subst k.
    destruct (merge_band_spec junk T Dx Dy Sx Sy nb c0 r0 (r1 - r0) (c1 - c0) xmin ymin (Z.of_nat n) (gnodata g0)
                (g0 :: rest) (s0 :: ss) ws c) as (b & f & Eb & Hb & Pb); auto.
    - pose proof (LB _ _ F0). lia.
    - specialize (Fit s0 (or_introl eq_refl)). lia.
    - specialize (Fit s0 (or_introl eq_refl)). lia.
    - exists b. unfold mb. rewrite Enw. split; [exact Eb|]. exists f. split; [exact Hb|].
      rewrite <- End0. exact Pb. }
  change (mapM mb (zrange 0 (Z.of_nat (length (gbands g0)))) = Ok bands) in Em.
  fold mb. rewrite Em. cbn [bind].
  set (F' := fun k i j : Z => match nth_error bands (Z.to_nat k) with
       | Some b => match getblock junk b 0 0 (r1 - r0) (c1 - c0) with Ok a => at_ a i j | Err _ => None end
       | None => None end).
  assert (Sz' : 0 <= r1 - r0 /\ 0 <= c1 - c0) by (specialize (Fit s0 (or_introl eq_refl)); lia).
  assert (Rd : forall n b f, nth_error bands n = Some b -> holds b (r1 - r0) (c1 - c0) f ->
       forall i j, 0 <= i < r1 - r0 -> 0 <= j < c1 - c0 -> F' (Z.of_nat n) i j = f i j).
  { intros n b f Eb (_ & _ & R) i j Hi Hj. unfold F'. rewrite Nat2Z.id, Eb.
    destruct (R junk 0 0 (r1 - r0) (c1 - c0)) as (a & Ea & _ & _ & Pa); [unfold in_bounds; lia|].
    rewrite Ea. rewrite Pa by assumption. reflexivity. }
  assert (Lb : Z.of_nat (length bands) = nb).
  { rewrite Lm, zrange_length. pose proof (LB _ _ F0). lia. }
  eexists _, (mkT xmin ymin (dx T) (dy T) (sx T) (sy T)), r0, c0, (r1 - r0), (c1 - c0), F'.
  split; [reflexivity|]. split.
  { split; [reflexivity|]. split; [|split; [exact Lb|exact End0]]. split.
    - intro E. cbn [gbands] in E. rewrite E in Lb. cbn in Lb. lia.
    - intros n b Hn. cbn [gbands] in Hn. destruct (Pm n b Hn) as (f & Hf & _). apply (holds_ext _ b _ _ f); [exact Hf|].
      intros i j Hi Hj. apply (Rd n b f Hn Hf); assumption. }
  split.
  { intros u v. unfold world. cbn [x0 y0 dx dy sx sy]. split; cbn [fst snd].
    - rewrite U1. unfold gx. rewrite Sx. ring.
    - rewrite U3. unfold gy. rewrite Sy. ring. }
  split; [exact Fit|].
  assert (Pick : forall (h : source -> Z) z, In z (h s0 :: map h ss) -> exists s, In s (s0 :: ss) /\ h s = z).
  { intros h z [<- | I]; [exists s0; split; [left; reflexivity|reflexivity]|].
    apply in_map_iff in I. destruct I as (s & E & I). exists s. split; [right; exact I|exact E]. }
  split; [exact (Pick s_row _ G3)|]. split.
  { destruct (Pick (fun s => s_row s + s_h s) _ D3) as (s & I & E). exists s. split; [exact I|]. cbv beta in E. lia. }
  split; [exact (Pick s_col _ A3)|]. split.
  { destruct (Pick (fun s => s_col s + s_w s) _ B3) as (s & I & E). exists s. split; [exact I|]. cbv beta in E. lia. }
  intros k i j l Hk Hi Hj Ga.
  destruct (nth_error bands (Z.to_nat k)) as [b|] eqn:Eb; [|apply nth_error_None in Eb; lia].
  destruct (Pm _ _ Eb) as (f & Hf & Pf). rewrite Z2Nat.id in Pf by lia.
  replace (F' k i j) with (f i j); [apply Pf; assumption|].
  rewrite <- (Rd _ _ _ Eb Hf i j Hi Hj). rewrite Z2Nat.id by lia. reflexivity.
Qed.

(** The list of gathered values exists. *)
Theorem merge_values : forall junk g0 rest s0 ss ws nb,
  let T := gT g0 in
  (0 < dx T)%Q -> (0 < dy T)%Q -> (sx T == 0)%Q -> (sy T == 0)%Q ->
  Forall2 (describes T nb) (g0 :: rest) (s0 :: ss) ->
  length ws = length (g0 :: rest) -> ~ (fold_right Qplus 0 ws == 0)%Q ->
  exists g' Tm r0 c0 ny nx F',
    merge junk (g0 :: rest) ws = Ok g' /\ grid_is g' Tm ny nx nb F' (s_nodata s0) /\
    same_place Tm T r0 c0 /\
    (forall s, In s (s0 :: ss) ->
       r0 <= s_row s /\ s_row s + s_h s <= r0 + ny /\ c0 <= s_col s /\ s_col s + s_w s <= c0 + nx) /\
    (exists s, In s (s0 :: ss) /\ s_row s = r0) /\ (exists s, In s (s0 :: ss) /\ s_row s + s_h s = r0 + ny) /\
    (exists s, In s (s0 :: ss) /\ s_col s = c0) /\ (exists s, In s (s0 :: ss) /\ s_col s + s_w s = c0 + nx) /\
    (forall k i j, 0 <= k < nb -> 0 <= i < ny -> 0 <= j < nx ->
       exists l, gathers nb k (i + r0) (j + c0) (combine (s0 :: ss) ws) l /\
         weighted_mean (s_nodata s0) l (F' k i j)).
Proof.
  intros junk g0 rest s0 ss ws nb T Dx Dy Sx Sy F Lw NW.
  destruct (merge_spec junk g0 rest s0 ss ws nb Dx Dy Sx Sy F Lw NW)
    as (g' & Tm & r0 & c0 & ny & nx & F' & A & B & C & D & E1 & E2 & E3 & E4 & K).
  exists g', Tm, r0, c0, ny, nx, F'. repeat (split; [assumption|]).
  intros k i j Hk Hi Hj. destruct (gathers_exists junk nb k (i + r0) (j + c0) (combine (s0 :: ss) ws)) as (l & L).
  exists l. split; [exact L|]. apply K; assumption.
Qed.
