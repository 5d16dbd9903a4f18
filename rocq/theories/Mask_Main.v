(** Proofs about [mask_by_poly]: sides of edges, unions, the grid that results. *)
From Coq Require Import List ZArith QArith Qabs Qfield Lqa Bool Arith Lia ZifyBool.
From Verif Require Import Geom_Model Geom_Spec Geom_Proofs Inter_Spec Inter_Proofs Contains_Spec Contains_Proofs Contains_Winding.
From Verif Require Import Band_Model Band_Proofs Band_IndexSpec Band_IndexProofs Band_IndexModel Grid_Model Grid_Spec Grid_Proofs Grid_OpsProofs Grid_ResizeProofs GridPoints_Proofs GridMerge_Proofs Band_MaskProofs.
From Verif Require Import Mask_Model Mask_Spec Mask_Proofs.
Import ListNotations.
Open Scope Z_scope.

Section Sides.
Variable T : transform.
Hypothesis Up : upright_cells T.
Variables r c : Z.
Notation p := (centre T r c).

Lemma crossed : forall a b, (snd a < snd b)%Q -> above T r a <> above T r b ->
  row_of T a <= r < row_of T b /\ (snd a <= snd p)%Q /\ (snd p <= snd b)%Q.
Proof.
  intros a b L N. assert (Rr : row_of T a <= r < row_of T b).
  { pose proof (row_mono T Up a b ltac:(lra)). unfold above in N.
    destruct (r <? row_of T a) eqn:A, (r <? row_of T b) eqn:B; lia. }
  split; [exact Rr|]. rewrite (row_near T Up a), (row_near T Up b) in Rr. destruct Rr as [R1 R2].
  destruct (rint_near (rowq T a)) as [A1 A2]. destruct (rint_near (rowq T b)) as [B1 B2].
  assert (X1 : (inject_Z (rint (rowq T a)) <= inject_Z r)%Q) by (rewrite <- Zle_Qle; exact R1).
  assert (X2 : (inject_Z r + 1 <= inject_Z (rint (rowq T b)))%Q) by (change 1%Q with (inject_Z 1); rewrite <- inject_Z_plus, <- Zle_Qle; lia).
  pose proof (centre_y T Up r c) as Cy. pose proof (rowq_eq T Up a) as Ra. pose proof (rowq_eq T Up b) as Rb.
  destruct Up as (_ & Dy & _ & _).
  assert (Y1 : (rowq T a * dy T <= (inject_Z r + (1 # 2)) * dy T)%Q) by (apply Qmult_le_compat_r; lra).
  assert (Y2 : ((inject_Z r + (1 # 2)) * dy T <= rowq T b * dy T)%Q) by (apply Qmult_le_compat_r; lra).
  split; lra.
Qed.
Lemma lies_up : forall a b, (snd a < snd b)%Q -> lies_left T a b r c = (edge_col T a b r <=? c).
Proof. intros a b L. unfold lies_left. assert (Q : qlt (snd a) (snd b) = true) by (apply qlt_iff; exact L). rewrite Q. reflexivity. Qed.

(** It is enough to look at edges going up. *)
Lemma sided_up : forall a b, ~ on_seg (a, b) p ->
  (forall u v, (u = a /\ v = b) \/ (u = b /\ v = a) -> (snd u < snd v)%Q -> above T r u <> above T r v ->
   exists q, on_seg (u, v) q /\ (snd q == snd p)%Q /\
     (edge_col T u v r <= c -> (fst q < fst p)%Q) /\ (c < edge_col T u v r -> (fst p < fst q)%Q)) ->
  sided T r c a b.
Proof.
  intros a b O H. split; [exact O|]. intros N. destruct (Q_dec (snd a) (snd b)) as [[L|L]|E].
  - destruct (H a b (or_introl (conj eq_refl eq_refl)) L N) as (q & A & B & C & D). exists q. split; [exact A|]. split; [exact B|].
    rewrite (lies_up a b L). split; intros X; [apply C|apply D]; lia.
  - destruct (H b a (or_intror (conj eq_refl eq_refl)) L ltac:(congruence)) as (q & A & B & C & D). exists q.
    split; [apply on_seg_sym, A|]. split; [exact B|]. rewrite (lies_sym T r c a b ltac:(intros X; lra)).
    rewrite (lies_up b a L). split; intros X; [apply C|apply D]; lia.
  - elim N. apply (above_same T Up r). exact E.
Qed.

Lemma rect_sided : forall a b, ~ on_seg (a, b) p -> (fst a == fst b)%Q \/ (snd a == snd b)%Q -> sided T r c a b.
Proof.
  intros a b O H. apply sided_up; [exact O|]. intros u v Huv L N.
  assert (V : (fst u == fst v)%Q).
  { destruct Huv as [[-> ->]|[-> ->]], H as [H|H]; try lra. }
  destruct (crossed u v L N) as (Rr & Y1 & Y2).
  assert (Oq : on_seg (u, v) (fst u, snd p)).
  { exists ((snd p - snd u) / (snd v - snd u))%Q. split.
    - split; [apply Qle_shift_div_l; lra|apply Qle_shift_div_r; lra].
    - unfold same, along. cbn [fst snd]. split; [setoid_replace (fst v - fst u)%Q with 0%Q by lra; ring|field; lra]. }
  assert (NX : ~ (fst u == fst p)%Q).
  { intros X. apply O. assert (O2 : on_seg (u, v) p).
    { destruct Oq as (t & Ht & Sx & Sy). exists t. split; [exact Ht|]. cbn [fst snd] in Sx, Sy. split; [rewrite <- X; exact Sx|exact Sy]. }
    destruct Huv as [[-> ->]|[-> ->]]; [exact O2|apply on_seg_sym, O2]. }
  exists (fst u, snd p). split; [exact Oq|]. split; [reflexivity|]. cbn [fst].
  assert (EC : edge_col T u v r = rint (colq T u)).
  { unfold edge_col. rewrite <- (col_near T Up u). set (z := col_of T u).
    rewrite <- (GridMerge_Proofs.rint_int (inject_Z z) z (Qeq_refl _)) at 2. apply rint_comp.
    setoid_replace (fst v - fst u)%Q with 0%Q by lra. field. lra. }
  rewrite EC. destruct (rint_near (colq T u)) as [A1 A2].
  pose proof (centre_x T Up r c) as Cx. pose proof (colq_eq T Up u) as Cu. destruct Up as (Dx & _ & _ & _).
  split; intros X.
  - assert (X1 : (inject_Z (rint (colq T u)) <= inject_Z c)%Q) by (rewrite <- Zle_Qle; exact X).
    assert (Y : (colq T u * dx T <= (inject_Z c + (1 # 2)) * dx T)%Q) by (apply Qmult_le_compat_r; lra). lra.
  - assert (X1 : (inject_Z c + 1 <= inject_Z (rint (colq T u)))%Q) by (change 1%Q with (inject_Z 1); rewrite <- inject_Z_plus, <- Zle_Qle; lia).
    assert (Y : ((inject_Z c + (1 # 2)) * dx T <= colq T u * dx T)%Q) by (apply Qmult_le_compat_r; lra). lra.
Qed.

(** Square cells, no point of the edge near. *)
Definition clear_edge (a b : pt) : Prop := forall q, on_seg (a, b) q ->
  ~ (Qabs (fst q - fst p) <= dx T /\ Qabs (snd q - snd p) <= dy T)%Q.
Lemma clear_off : forall a b, clear_edge a b -> ~ on_seg (a, b) p.
Proof.
  intros a b H O. apply (H p O). destruct Up as (A & B & _ & _).
  split; (apply Qabs_Qle_condition; split; lra).
Qed.
Lemma clear_far : forall a b q, clear_edge a b -> on_seg (a, b) q -> (- dy T <= snd q - snd p <= dy T)%Q ->
  (fst q < fst p - dx T)%Q \/ (fst p + dx T < fst q)%Q.
Proof.
  intros a b q H O B. destruct (Qlt_le_dec (fst q) (fst p - dx T)) as [L|L]; [left; exact L|].
  destruct (Qlt_le_dec (fst p + dx T) (fst q)) as [G|G]; [right; exact G|exfalso].
  apply (H q O). split; apply Qabs_Qle_condition; lra.
Qed.
Lemma no_jump : forall a b t1 t2, clear_edge a b -> (0 <= t1 <= 1)%Q -> (0 <= t2 <= 1)%Q ->
  (- dy T <= snd (along a b t1) - snd p <= dy T)%Q -> (- dy T <= snd (along a b t2) - snd p <= dy T)%Q ->
  (fst (along a b t1) < fst p)%Q -> (fst p < fst (along a b t2))%Q -> False.
Proof.
  intros a b t1 t2 H H1 H2 B1 B2 X1 X2.
  set (d := (fst (along a b t2) - fst (along a b t1))%Q). assert (Hd : (0 < d)%Q) by (unfold d; lra).
  set (w := ((fst p - fst (along a b t1)) / d)%Q).
  assert (W : (0 <= w <= 1)%Q).
  { unfold w. split; [apply Qle_shift_div_l; [exact Hd|lra]|apply Qle_shift_div_r; [exact Hd|unfold d; lra]]. }
  set (t := (t1 + w * (t2 - t1))%Q).
  assert (Et : (0 <= t <= 1)%Q).
  { unfold t. setoid_replace (t1 + w * (t2 - t1))%Q with ((1 - w) * t1 + w * t2)%Q by ring.
    assert (0 <= (1 - w) * t1)%Q by (apply Qmult_le_0_compat; lra). assert (0 <= w * t2)%Q by (apply Qmult_le_0_compat; lra).
    assert ((1 - w) * t1 <= (1 - w) * 1)%Q by (rewrite !(Qmult_comm (1 - w)); apply Qmult_le_compat_r; lra).
    assert (w * t2 <= w * 1)%Q by (rewrite !(Qmult_comm w); apply Qmult_le_compat_r; lra). split; lra. }
  assert (Ex : (fst (along a b t) == fst p)%Q).
  { assert (E1 : (fst (along a b t) == fst (along a b t1) + w * d)%Q) by (unfold t, d, along; cbn [fst snd]; ring).
    rewrite E1. unfold w. field. lra. }
  assert (Ey : (snd (along a b t) == (1 - w) * snd (along a b t1) + w * snd (along a b t2))%Q) by (unfold t, along; cbn [fst snd]; ring).
  apply (H (along a b t)).
  { exists t. split; [exact Et|split; reflexivity]. }
  destruct Up as (Dx & Dy & _ & _). split; apply Qabs_Qle_condition.
  - lra.
  - set (y1 := (snd (along a b t1) - snd p)%Q) in *. set (y2 := (snd (along a b t2) - snd p)%Q) in *.
    assert (E2 : (snd (along a b t) - snd p == (1 - w) * y1 + w * y2)%Q) by (rewrite Ey; unfold y1, y2; ring).
    rewrite E2.
    assert (y1 * (1 - w) <= dy T * (1 - w))%Q by (apply Qmult_le_compat_r; lra).
    assert (y2 * w <= dy T * w)%Q by (apply Qmult_le_compat_r; lra).
    assert (- dy T * (1 - w) <= y1 * (1 - w))%Q by (apply Qmult_le_compat_r; lra).
    assert (- dy T * w <= y2 * w)%Q by (apply Qmult_le_compat_r; lra).
    split; lra.
Qed.

Lemma clear_edge_sym : forall a b, clear_edge a b -> clear_edge b a.
Proof. intros a b H q O. apply H, on_seg_sym, O. Qed.
Lemma clear_sided : forall a b, (dx T == dy T)%Q -> clear_edge a b -> sided T r c a b.
Proof.
  intros a b Sq H. apply sided_up; [apply clear_off, H|]. intros u v Huv L N.
  assert (H' : clear_edge u v) by (destruct Huv as [[-> ->]|[-> ->]]; [exact H|apply clear_edge_sym, H]). clear H Huv.
  destruct (crossed u v L N) as (Rr & Y1 & Y2).
  set (h := (snd v - snd u)%Q). assert (Hh : (0 < h)%Q) by (unfold h; lra).
  set (tc := ((snd p - snd u) / h)%Q).
  assert (Tc : (0 <= tc <= 1)%Q) by (unfold tc; split; [apply Qle_shift_div_l; lra|apply Qle_shift_div_r; [lra|unfold h; lra]]).
  assert (Yc : (snd (along u v tc) == snd p)%Q) by (unfold along, tc; cbn [snd]; fold h; field; lra).
  set (k := inject_Z (r - row_of T u)).
  set (ts := (k * dy T / h)%Q).
  assert (Ys : (snd (along u v ts) == snd u + k * dy T)%Q) by (unfold along, ts; cbn [snd]; fold h; field; lra).
  (* in numbers *)
  pose proof (rint_near (rowq T u)) as Nu. pose proof (rint_near (rowq T v)) as Nv. rewrite <- (row_near T Up u) in Nu. rewrite <- (row_near T Up v) in Nv.
  pose proof (rint_near (colq T u)) as Nc. rewrite <- (col_near T Up u) in Nc.
  pose proof (rowq_eq T Up u) as Qu. pose proof (rowq_eq T Up v) as Qv. pose proof (colq_eq T Up u) as Qc.
  pose proof (centre_x T Up r c) as Cx. pose proof (centre_y T Up r c) as Cy.
  destruct Up as (Dx & Dy & _ & _).
  assert (Ek : (k == inject_Z r - inject_Z (row_of T u))%Q) by (unfold k, Zminus; rewrite inject_Z_plus, inject_Z_opp; reflexivity).
  assert (K0 : (0 <= k)%Q) by (unfold k; rewrite <- (Zle_Qle 0); lia).
  assert (X2 : (inject_Z r + 1 <= inject_Z (row_of T v))%Q) by (change 1%Q with (inject_Z 1); rewrite <- inject_Z_plus, <- Zle_Qle; lia).
  assert (M1 : (rowq T u * dy T <= (inject_Z (row_of T u) + (1 # 2)) * dy T)%Q) by (apply Qmult_le_compat_r; lra).
  assert (M2 : ((inject_Z (row_of T u) - (1 # 2)) * dy T <= rowq T u * dy T)%Q) by (apply Qmult_le_compat_r; lra).
  assert (M3 : ((inject_Z (row_of T v) - (1 # 2)) * dy T <= rowq T v * dy T)%Q) by (apply Qmult_le_compat_r; lra).
  assert (M4 : ((inject_Z r + 1) * dy T <= inject_Z (row_of T v) * dy T)%Q) by (apply Qmult_le_compat_r; lra).
  assert (Ekd : (k * dy T == inject_Z r * dy T - inject_Z (row_of T u) * dy T)%Q) by (rewrite Ek; ring).
  assert (K1 : (0 <= k * dy T)%Q) by (apply Qmult_le_0_compat; lra).
  assert (K2 : (k * dy T <= h)%Q) by (unfold h; lra).
  assert (Ts : (0 <= ts <= 1)%Q) by (unfold ts; split; [apply Qle_shift_div_l; lra|apply Qle_shift_div_r; lra]).
  assert (Bs : (- dy T <= snd (along u v ts) - snd p <= dy T)%Q) by (rewrite Ys; split; lra).
  assert (Bc : (- dy T <= snd (along u v tc) - snd p <= dy T)%Q) by (rewrite Yc; split; lra).
  assert (Os : on_seg (u, v) (along u v ts)) by (exists ts; split; [exact Ts|split; reflexivity]).
  assert (Oc : on_seg (u, v) (along u v tc)) by (exists tc; split; [exact Tc|split; reflexivity]).
  pose proof (clear_far u v _ H' Os Bs) as Fs. pose proof (clear_far u v _ H' Oc Bc) as Fc.
  (* the column *)
  pose proof (rint_near (k * (fst v - fst u) / h + inject_Z (col_of T u))%Q) as Nj.
  change (rint (k * (fst v - fst u) / h + inject_Z (col_of T u))%Q) with (edge_col T u v r) in Nj.
  set (M := ((fst v - fst u) / h)%Q).
  assert (EM : (k * (fst v - fst u) / h == k * M)%Q) by (unfold M; field; lra). rewrite EM in Nj.
  assert (Xs : (fst (along u v ts) == fst u + k * M * dx T)%Q).
  { unfold along, ts, M. cbn [fst]. rewrite Sq. field. lra. }
  assert (P1 : ((k * M + inject_Z (col_of T u)) * dx T <= (inject_Z (edge_col T u v r) + (1 # 2)) * dx T)%Q) by (apply Qmult_le_compat_r; lra).
  assert (P2 : ((inject_Z (edge_col T u v r) - (1 # 2)) * dx T <= (k * M + inject_Z (col_of T u)) * dx T)%Q) by (apply Qmult_le_compat_r; lra).
  assert (P3 : (colq T u * dx T <= (inject_Z (col_of T u) + (1 # 2)) * dx T)%Q) by (apply Qmult_le_compat_r; lra).
  assert (P4 : ((inject_Z (col_of T u) - (1 # 2)) * dx T <= colq T u * dx T)%Q) by (apply Qmult_le_compat_r; lra).
  exists (along u v tc). split; [exact Oc|]. split; [exact Yc|]. split; intros X.
  - assert (Xi : (inject_Z (edge_col T u v r) * dx T <= inject_Z c * dx T)%Q) by (apply Qmult_le_compat_r; [rewrite <- Zle_Qle; exact X|lra]).
    assert (S1 : (fst (along u v ts) < fst p - dx T)%Q) by (destruct Fs as [Fs|Fs]; [exact Fs|lra]).
    destruct Fc as [Fc|Fc]; [lra|]. exfalso. apply (no_jump u v ts tc H' Ts Tc Bs Bc); lra.
  - assert (Xi : ((inject_Z c + 1) * dx T <= inject_Z (edge_col T u v r) * dx T)%Q).
    { apply Qmult_le_compat_r; [|lra]. change 1%Q with (inject_Z 1). rewrite <- inject_Z_plus, <- Zle_Qle. lia. }
    assert (S1 : (fst p + dx T < fst (along u v ts))%Q) by (destruct Fs as [Fs|Fs]; [lra|exact Fs]).
    destruct Fc as [Fc|Fc]; [|lra]. exfalso. apply (no_jump u v tc ts H' Tc Ts Bc Bs); lra.
Qed.
End Sides.

(** * Unions of masks *)
Section Union.
Variables P D C : Type.
Variables ny nx : Z.
Variable T : transform.
Hypothesis Up : upright_cells T.

Lemma cw_cell : forall (p : geom P D C), outline p <> [] -> (length (outline p) < 256)%nat ->
  exists m, mask_poly ny nx (clockwise_coords p) T = Geom_Model.Ok m /\
    forall r c, 0 <= r < ny -> 0 <= c < nx -> ring_all (sided T r c) (outline p) ->
      (m r c = true <-> count (centre T r c) (outline p) <> 0).
Proof.
  intros p Ne Hl. unfold clockwise_coords. change (xys (gverts P D C p)) with (outline p).
  destruct (isclockwise P D C p); [apply mask_poly_cell; assumption|].
  destruct (mask_poly_cell ny nx T Up (rev (outline p))) as (m & E & H).
  - intros X. apply (f_equal (@rev _)) in X. rewrite rev_involutive in X. apply Ne, X.
  - rewrite rev_length. exact Hl.
  - exists m. split; [exact E|]. intros r c Hr Hc A. rewrite (H r c Hr Hc).
    + rewrite count_rev. lia.
    + apply ring_all_rev; [|exact A]. intros u v X. apply sided_sym; assumption.
Qed.

Lemma union_cell : forall l m0, (forall p, In p l -> outline p <> [] /\ (length (outline p) < 256)%nat) ->
  exists m, @union_mask P D C ny nx T m0 l = Geom_Model.Ok m /\
    forall r c, 0 <= r < ny -> 0 <= c < nx -> (forall p, In p l -> ring_all (sided T r c) (outline p)) ->
      (m r c = true <-> m0 r c = true \/ exists p, In p l /\ count (centre T r c) (outline p) <> 0).
Proof.
  induction l as [|p l IH]; intros m0 H.
  - exists m0. split; [reflexivity|]. intros r c _ _ _. split; [tauto|]. intros [X|(p & [] & _)]. exact X.
  - destruct (H p (or_introl eq_refl)) as [H1 H2]. destruct (cw_cell p H1 H2) as (m1 & E1 & P1).
    cbn [union_mask]. rewrite E1. cbn [Geom_Model.bind].
    destruct (IH (fun i j => m0 i j || m1 i j)) as (m & E & Pm); [intros q Iq; apply H; right; exact Iq|].
    exists m. split; [exact E|]. intros r c Hr Hc A. rewrite (Pm r c Hr Hc) by (intros q Iq; apply A; right; exact Iq).
    cbv beta. rewrite orb_true_iff, (P1 r c Hr Hc (A p (or_introl eq_refl))). split.
    + intros [[X|X]|(q & Iq & X)]; [left; exact X|right; exists p; split; [left; reflexivity|exact X]|right; exists q; split; [right; exact Iq|exact X]].
    + intros [X|(q & [-> | Iq] & X)]; [left; left; exact X|left; right; exact X|right; exists q; split; assumption].
Qed.

Lemma ring_all_sided : forall r c l, (forall e, edge_of l true e -> sided T r c (fst e) (snd e)) -> ring_all (sided T r c) l.
Proof. intros r c l H. apply ring_all_edges. exact H. Qed.
End Union.

(** [unpack] finds the polygons of its argument. *)
Lemma unpack_part : forall P D C (s : shape P D C) p, In p (unpack s) <-> part_of p s.
Proof.
  intros P D C. fix IH 1. intros s p. destruct s as [q|l|l|]; cbn [unpack].
  - split; [intros [-> | []]; constructor|]. intros H. inversion H; subst. left. reflexivity.
  - split; [intros I; constructor; exact I|]. intros H. inversion H; subst. assumption.
  - assert (G : forall l, In p (flat_map unpack l) <-> exists s, In s l /\ part_of p s).
    { fix IL 1. intros [|s l']; cbn [flat_map].
      - split; [intros []|intros (s & [] & _)].
      - rewrite in_app_iff, (IH s p), (IL l'). split.
        + intros [X|(s' & I & X)]; [exists s; split; [left; reflexivity|exact X]|exists s'; split; [right; exact I|exact X]].
        + intros (s' & [-> | I] & X); [left; exact X|right; exists s'; split; assumption]. }
    rewrite G. split.
    + intros (s & I & X). apply (part_list _ _ _ p l s I X).
    + intros H. inversion H; subst. exists s. split; assumption.
  - split; [intros []|]. intros H. inversion H.
Qed.

(** * The grid *)
Section Apply.
Variable V : Type.
Variable junk : Z -> Z -> V.
Variable v0 : V.

Lemma where_spec : forall (g : grid V) T H W nb F nodata m, grid_is g T H W nb F nodata ->
  exists g', where_mask junk v0 g m = Ok g' /\
    grid_is g' T H W nb (fun k i j => if m i j then F k i j else nodata) nodata.
Proof.
  intros g T H W nb F nodata m G. destruct (grid_size V g T H W nb F nodata G) as (Sz & HH & HW & Hn).
  destruct G as (ET & SH & EN & Ed). unfold where_mask.
  destruct (whole V junk (gbands g) H W F SH) as (r & Er & Sr & Pr). unfold full in *. rewrite Er. cbn [bind].
  destruct (make_grid_spec V junk v0 ClsComp (gT g)
    (mkN (shp r) (fun idx => match idx with
                             | [i; j; k] => if m i j then elt r [i; j; k] else gnodata g
                             | _ => gnodata g end)) (gnodata g) H W nb (fun k i j => if m i j then F k i j else nodata)) as (g' & E' & G' & _); auto.
  { cbn [shp]. rewrite Sr, EN. reflexivity. }
  { intros i j k Hi Hj Hk. cbn [elt]. rewrite Pr by lia. rewrite Ed. reflexivity. }
  exists g'. split; [exact E'|]. rewrite ET, Ed in G'. exact G'.
Qed.

Lemma plane_mask : forall bands H W F k (w : nd V), stack_holds bands H W F -> 0 <= k < Z.of_nat (length bands) -> shp w = [H; W] ->
  exists bands' F', setitem bands (KeyTuple [full; full; KInt k]) true w = (bands', None) /\
    length bands' = length bands /\ stack_holds bands' H W F' /\
    (forall i j, 0 <= i < H -> 0 <= j < W -> F' k i j = elt w [i; j]) /\
    (forall b i j, b <> k -> F' b i j = F b i j).
Proof.
  intros bands H W F k w SH Hk Sw. destruct (stack_size V _ _ _ _ SH) as [HH HW].
  destruct (full_selects H HH) as [S1 F1]. destruct (full_selects W HW) as [S2 F2].
  assert (S3 : selects (Z.of_nat (length bands)) (KInt k) true [k]) by (apply sel_int; lia).
  destruct (setitem_spec V bands H W F full full [KInt k] false _ false _ true _ true w
     SH S1 S2 (selb_one _ _ _ _ S3) F1 F2 (or_introl eq_refl) (or_introl eq_refl)) as [K _].
  assert (CV : forall i j n : nat, cell_value true w (Z.of_nat (length (zrange 0 H))) (Z.of_nat (length (zrange 0 W)))
     (Z.of_nat (length [k])) (Z.of_nat i) (Z.of_nat j) (Z.of_nat n)
     = Some (elt w [Z.of_nat i; Z.of_nat j])).
  { intros. unfold cell_value. rewrite Sw. cbv iota. rewrite !zrange_length, !Z.sub_0_r, !Z2Nat.id by lia.
    unfold rep. rewrite !Z.eqb_refl. reflexivity. }
  destruct K as (bands' & F' & E' & L' & SH' & P1 & P2).
  { exists 0%nat, 0%nat, 0%nat. rewrite CV. discriminate. }
  exists bands', F'. split; [exact E'|]. split; [exact L'|]. split; [exact SH'|]. split.
  - intros y x Hy Hx. specialize (P1 (Z.to_nat y) (Z.to_nat x) 0%nat y x k).
    rewrite CV in P1. rewrite !zrange_nth0 in P1 by lia.
    specialize (P1 eq_refl eq_refl eq_refl). injection P1 as P1. rewrite <- P1, !Z2Nat.id by lia. reflexivity.
  - intros b i j N. apply P2. intros ([X|[]] & _). congruence.
Qed.

Lemma bands_spec : forall ks bands H W F nodata m, stack_holds bands H W F -> NoDup ks ->
  (forall k, In k ks -> 0 <= k < Z.of_nat (length bands)) ->
  exists bands' F', @mask_bands V junk bands nodata m ks = (bands', None) /\ length bands' = length bands /\ stack_holds bands' H W F' /\
    (forall k i j, In k ks -> 0 <= i < H -> 0 <= j < W -> F' k i j = if m i j then F k i j else nodata) /\
    (forall k i j, ~ In k ks -> F' k i j = F k i j).
Proof.
  induction ks as [|k ks IH]; intros bands H W F nodata m SH ND Hk.
  - exists bands, F. split; [reflexivity|]. split; [reflexivity|]. split; [exact SH|]. split; [intros k i j []|reflexivity].
  - apply NoDup_cons_iff in ND. destruct ND as [NI ND]. cbn [mask_bands].
    destruct (plane_read V junk v0 (fun _ => false) (fun _ _ => false) bands H W F k SH (Hk k (or_introl eq_refl))) as (a & Ea & Sa & Pa). rewrite Ea.
    set (w := mkN (shp a) _).
    destruct (plane_mask bands H W F k w SH (Hk k (or_introl eq_refl)) Sa) as (bands1 & F1 & E1 & L1 & SH1 & A1 & B1).
    rewrite E1. destruct (IH bands1 H W F1 nodata m SH1 ND) as (bands' & F' & E' & L' & SH' & A' & B').
    { intros q Iq. rewrite L1. apply Hk. right. exact Iq. }
    exists bands', F'. split; [exact E'|]. split; [congruence|]. split; [exact SH'|]. split.
    + intros q i j [<- | Iq] Hi Hj.
      * rewrite B' by exact NI. rewrite A1 by assumption. unfold w. cbn [elt]. rewrite Pa by assumption. reflexivity.
      * rewrite A' by assumption. rewrite B1; [reflexivity|]. intros ->. contradiction.
    + intros q i j Nq. rewrite B' by (intros X; apply Nq; right; exact X). apply B1. intros ->. apply Nq. left. reflexivity.
Qed.

Lemma apply_mask : forall P D C (g : grid V) T H W nb F nodata (s : shape P D C) inplace m, grid_is g T H W nb F nodata ->
  union_mask H W T (fun _ _ => false) (unpack s) = Geom_Model.Ok m ->
  exists g' F', mask_by_poly junk v0 g s inplace = Done g' /\ grid_is g' T H W nb F' nodata /\
    forall k i j, 0 <= k < nb -> 0 <= i < H -> 0 <= j < W -> F' k i j = if m i j then F k i j else nodata.
Proof.
  intros P D C g T H W nb F nodata s inplace m G E. pose proof G as G0.
  destruct (grid_size V g T H W nb F nodata G) as (Sz & HH & HW & Hn).
  destruct G as (ET & SH & EN & Ed). unfold mask_by_poly. rewrite Sz, ET, E. destruct inplace.
  - destruct (bands_spec (zrange 0 (Z.of_nat (length (gbands g)))) (gbands g) H W F (gnodata g) m SH) as (bands' & F' & E' & L' & SH' & A & B).
    { apply NoDup_zrange. } { intros k I. apply in_zrange in I. lia. }
    rewrite E'. eexists _, F'. split; [reflexivity|]. split.
    + split; [reflexivity|]. split; [exact SH'|]. split; [cbn [gbands]; lia|exact Ed].
    + intros k i j Hk Hi Hj. rewrite A; [rewrite Ed; reflexivity| |assumption|assumption]. apply in_zrange. lia.
  - destruct (where_spec g T H W nb F nodata m G0) as (g' & E' & G'). rewrite E'. cbn [of_res].
    exists g', (fun k i j => if m i j then F k i j else nodata). split; [reflexivity|]. split; [exact G'|]. reflexivity.
Qed.
End Apply.

(** * The properties *)
Section Main.
Variables P D C V : Type.
Variable junk : Z -> Z -> V.
Variable v0 : V.

Lemma values_main : forall (g : grid V) T H W nb F nodata (s : shape P D C), grid_is g T H W nb F nodata ->
  (exists e, forall inplace, mask_by_poly junk v0 g s inplace = MaskErr e) \/
  (exists kept, masks junk v0 g s T H W nb F nodata kept).
Proof.
  intros g T H W nb F nodata s G. destruct (union_mask H W T (fun _ _ => false) (unpack s)) as [m|e] eqn:E.
  - right. exists m. intros inplace. apply apply_mask; assumption.
  - left. exists e. intros inplace. unfold mask_by_poly. destruct (grid_size V g T H W nb F nodata G) as (Sz & _).
    destruct G as (ET & _). rewrite Sz, ET, E. reflexivity.
Qed.

Lemma kept_main : forall (g : grid V) T H W nb F nodata (s : shape P D C), grid_is g T H W nb F nodata -> upright_cells T ->
  (forall p, part_of p s -> outline p <> [] /\ (length (outline p) < 256)%nat) ->
  exists kept, masks junk v0 g s T H W nb F nodata kept /\
    forall i j, 0 <= i < H -> 0 <= j < W ->
      (forall p e, part_of p s -> edge_of (outline p) true e -> sided T i j (fst e) (snd e)) ->
      (kept i j = true <-> exists p, part_of p s /\ enclosed (centre T i j) (outline p)).
Proof.
  intros g T H W nb F nodata s G Up Hp.
  destruct (union_cell P D C H W T Up (unpack s) (fun _ _ => false)) as (m & E & Pm).
  { intros p I. apply Hp, unpack_part, I. }
  exists m. split; [intros inplace; apply apply_mask; assumption|].
  intros i j Hi Hj Sd. rewrite (Pm i j Hi Hj).
  2:{ intros p I. apply ring_all_sided. intros e Ee. apply (Sd p e); [apply unpack_part, I|exact Ee]. }
  split.
  - intros [X|(p & I & N)]; [discriminate|]. apply unpack_part in I. exists p. split; [exact I|].
    apply count_wound; [|exact N]. intros [a b] Ee. destruct (Sd p (a, b) I Ee) as [O _]. exact O.
  - intros (p & I & N). right. exists p. split; [apply unpack_part, I|].
    apply count_wound; [|exact N]. intros [a b] Ee. destruct (Sd p (a, b) I Ee) as [O _]. exact O.
Qed.

Lemma clear_main : forall (g : grid V) T H W nb F nodata (s : shape P D C), grid_is g T H W nb F nodata -> square_cells T ->
  (forall p, part_of p s -> outline p <> [] /\ (length (outline p) < 256)%nat) ->
  exists kept, masks junk v0 g s T H W nb F nodata kept /\
    forall i j, 0 <= i < H -> 0 <= j < W -> (forall p, part_of p s -> clear_of T i j (outline p)) ->
      (kept i j = true <-> exists p, part_of p s /\ enclosed (centre T i j) (outline p)).
Proof.
  intros g T H W nb F nodata s G [Up Sq] Hp. destruct (kept_main g T H W nb F nodata s G Up Hp) as (kept & M & K).
  exists kept. split; [exact M|]. intros i j Hi Hj Cl. apply K; [assumption|assumption|]. intros p [a b] I Ee.
  apply clear_sided; [exact Up|exact Sq|]. intros q O. apply (Cl p I (a, b) q Ee O).
Qed.
Lemma rect_main : forall (g : grid V) T H W nb F nodata (s : shape P D C), grid_is g T H W nb F nodata -> upright_cells T ->
  (forall p, part_of p s -> outline p <> [] /\ (length (outline p) < 256)%nat /\ rectilinear (outline p)) ->
  exists kept, masks junk v0 g s T H W nb F nodata kept /\
    forall i j, 0 <= i < H -> 0 <= j < W -> (forall p, part_of p s -> off (centre T i j) (outline p)) ->
      (kept i j = true <-> exists p, part_of p s /\ enclosed (centre T i j) (outline p)).
Proof.
  intros g T H W nb F nodata s G Up Hp.
  destruct (kept_main g T H W nb F nodata s G Up) as (kept & M & K).
  { intros p I. destruct (Hp p I) as (A & B & _). split; assumption. }
  exists kept. split; [exact M|]. intros i j Hi Hj Of. apply K; [assumption|assumption|]. intros p [a b] I Ee.
  apply rect_sided; [exact Up|exact (Of p I (a, b) Ee)|]. destruct (Hp p I) as (_ & _ & R0). exact (R0 (a, b) Ee).
Qed.

(** A cell of a mask that can be computed. *)
Lemma mask_at : forall (g : grid V) T H W nb F nodata (s : shape P D C) i j b, grid_is g T H W nb F nodata ->
  match union_mask H W T (fun _ _ => false) (unpack s) with Geom_Model.Ok m => m i j = b | _ => False end ->
  exists kept, masks junk v0 g s T H W nb F nodata kept /\ kept i j = b.
Proof.
  intros g T H W nb F nodata s i j b G. destruct (union_mask H W T (fun _ _ => false) (unpack s)) as [m|e] eqn:E; [|tauto].
  intros B. exists m. split; [|exact B]. intros inplace. apply apply_mask; assumption.
Qed.
Lemma mask_at2 : forall (g : grid V) T H W nb F nodata (s : shape P D C) i j b i' j' b', grid_is g T H W nb F nodata ->
  match union_mask H W T (fun _ _ => false) (unpack s) with Geom_Model.Ok m => m i j = b /\ m i' j' = b' | _ => False end ->
  exists kept, masks junk v0 g s T H W nb F nodata kept /\ kept i j = b /\ kept i' j' = b'.
Proof.
  intros g T H W nb F nodata s i j b i' j' b' G. destruct (union_mask H W T (fun _ _ => false) (unpack s)) as [m|e] eqn:E; [|tauto].
  intros B. exists m. split; [|exact B]. intros inplace. apply apply_mask; assumption.
Qed.
Lemma mask_err : forall (g : grid V) T H W nb F nodata (s : shape P D C) inplace e, grid_is g T H W nb F nodata ->
  union_mask H W T (fun _ _ => false) (unpack s) = Geom_Model.Err e -> mask_by_poly junk v0 g s inplace = MaskErr e.
Proof.
  intros g T H W nb F nodata s inplace e G E. unfold mask_by_poly. destruct (grid_size V g T H W nb F nodata G) as (Sz & _).
  destruct G as (ET & _). rewrite Sz, ET, E. reflexivity.
Qed.
End Main.

Definition upoly (l : list pt) (subs : list (geom unit unit unit)) : geom unit unit unit := Geom unit unit unit KPolygon (V2 l) true subs tt None tt.
Lemma not_enclosed : forall p l, forallb (fun e => negb (Qeq_bool (tri p (fst e) (snd e)) 0)) (Inter_Model.edges l true) = true ->
  count p l = 0 -> ~ enclosed p l.
Proof. intros p l O E X. apply off_check in O. apply (count_wound p l O) in X. contradiction. Qed.
Lemma is_enclosed : forall p l, forallb (fun e => negb (Qeq_bool (tri p (fst e) (snd e)) 0)) (Inter_Model.edges l true) = true ->
  (count p l =? 0) = false -> enclosed p l.
Proof. intros p l O E. apply off_check in O. apply (count_wound p l O). lia. Qed.

Open Scope Q_scope.
(** Edges that pass by. *)
Lemma clear_box : forall T i j l x1 y1 x2 y2, (forall v, In v l -> x1 <= fst v <= x2 /\ y1 <= snd v <= y2) ->
  (fst (centre T i j) + dx T < x1 \/ x2 < fst (centre T i j) - dx T \/ snd (centre T i j) + dy T < y1 \/ y2 < snd (centre T i j) - dy T) ->
  clear_of T i j l.
Proof.
  intros T i j l x1 y1 x2 y2 B O [a b] q Ee (t & Ht & Sx & Sy) [X Y].
  assert (Ia : In a l /\ In b l).
  { apply edges_spec in Ee. unfold Inter_Model.edges in Ee. destruct l as [|v l']; [destruct Ee|]. split.
    - apply in_combine_l, in_app_iff in Ee. destruct Ee as [Ee|[<- | []]]; [exact Ee|left; reflexivity].
    - apply in_combine_r in Ee. cbn [app tl] in Ee. apply in_app_iff in Ee. destruct Ee as [Ee|[<- | []]]; [right; exact Ee|left; reflexivity]. }
  destruct Ia as [Ia Ib]. apply B in Ia. apply B in Ib. unfold along in Sx, Sy. cbn [fst snd] in *.
  apply Qabs_Qle_condition in X. apply Qabs_Qle_condition in Y.
  assert (C1 : forall u v lo hi, lo <= u <= hi -> lo <= v <= hi -> lo <= u + t * (v - u) <= hi).
  { intros u v lo hi Hu Hv. setoid_replace (u + t * (v - u)) with (u * (1 - t) + v * t) by ring.
    assert (lo * (1 - t) <= u * (1 - t)) by (apply Qmult_le_compat_r; lra). assert (u * (1 - t) <= hi * (1 - t)) by (apply Qmult_le_compat_r; lra).
    assert (lo * t <= v * t) by (apply Qmult_le_compat_r; lra). assert (v * t <= hi * t) by (apply Qmult_le_compat_r; lra). split; lra. }
  pose proof (C1 (fst a) (fst b) x1 x2 ltac:(lra) ltac:(lra)) as Q1. pose proof (C1 (snd a) (snd b) y1 y2 ltac:(lra) ltac:(lra)) as Q2. lra.
Qed.
