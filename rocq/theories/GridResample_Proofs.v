(** Proofs about resample with the method 'nearest'. *)
From Coq Require Import List ZArith QArith Qround Qabs Bool Lia Lqa.
From Verif Require Import Band_Model Band_Spec Band_IndexModel Band_IndexSpec Band_Proofs
  Band_IndexProofs Band_MaskProofs Grid_Model Grid_Spec Grid_Proofs Grid_OpsProofs Grid_ResizeProofs
  Grid_MoreProofs GridSample_Model GridSample_Spec GridSample_Proofs GridBilinear_Proofs.
Import ListNotations.
Open Scope Z_scope.

Lemma flat_map_nth : forall A B (f : A -> list B) l m i j a b,
  (forall a, length (f a) = m) -> nth_error l i = Some a -> nth_error (f a) j = Some b ->
  nth_error (flat_map f l) (i * m + j) = Some b.
Proof.
  intros A B f l m. induction l as [|c l IH]; intros i j a b L E E'; [destruct i; discriminate|].
  cbn [flat_map]. destruct i as [|i].
  - injection E as ->. cbn [Nat.mul Nat.add]. rewrite nth_error_app1; [exact E'|].
    apply nth_error_Some. congruence.
  - cbn [nth_error] in E. rewrite nth_error_app2 by (rewrite L; cbn [Nat.mul]; lia).
    replace (S i * m + j - length (f c))%nat with (i * m + j)%nat by (rewrite L; cbn [Nat.mul]; lia).
    eapply IH; eassumption.
Qed.
Lemma cells_nth : forall h w i j, 0 <= i < h -> 0 <= j < w ->
  nth_error (cells h w) (Z.to_nat (i * w + j)) = Some (i, j).
Proof.
  intros h w i j Hi Hj. unfold cells.
  replace (Z.to_nat (i * w + j)) with (Z.to_nat i * Z.to_nat w + Z.to_nat j)%nat by nia.
  apply (flat_map_nth _ _ _ _ _ _ _ i).
  - intro a. rewrite map_length, zrange_length. f_equal. lia.
  - apply zrange_nth0. exact Hi.
  - rewrite nth_error_map, (zrange_nth0 w j) by exact Hj. reflexivity.
Qed.
Lemma cells_length : forall h w, 0 <= h -> 0 <= w -> Z.of_nat (length (cells h w)) = h * w.
Proof.
  intros h w Hh Hw. unfold cells.
  assert (L : forall l : list Z, Z.of_nat (length (flat_map (fun i => map (fun j => (i, j)) (zrange 0 w)) l)) = Z.of_nat (length l) * w).
  { induction l as [|a l IH]; [reflexivity|]. cbn [flat_map length]. rewrite app_length, Nat2Z.inj_add, IH, map_length, zrange_length. lia. }
  rewrite L, zrange_length. lia.
Qed.

Lemma quot_bounds : forall a b d, (0 < d)%Q -> (a <= b)%Q -> forall k, 0 <= k < Qfloor ((b - a) / d) + 1 ->
  (a <= a + inject_Z k * d <= b)%Q.
Proof.
  intros a b d D L k Hk. destruct (floor_bounds ((b - a) / d)) as [F _].
  assert (K : (inject_Z k <= (b - a) / d)%Q).
  { apply Qle_trans with (inject_Z (Qfloor ((b - a) / d))); [|exact F]. rewrite <- Zle_Qle. lia. }
  apply (Qmult_le_compat_r _ _ d) in K; [|lra].
  setoid_replace ((b - a) / d * d)%Q with (b - a)%Q in K by (field; lra).
  assert (0 <= inject_Z k * d)%Q.
  { apply Qmult_le_0_compat; [|lra]. change 0%Q with (inject_Z 0). rewrite <- Zle_Qle. lia. }
  lra.
Qed.

Lemma extent_unskewed : forall T H W, 0 < H -> 0 < W -> (0 < dx T)%Q -> (0 < dy T)%Q -> (sx T == 0)%Q -> (sy T == 0)%Q ->
  exists a b c d, extent T H W true = (a, b, c, d) /\
    (a == x0 T + half * dx T /\ b == a + inject_Z (W - 1) * dx T /\
     c == y0 T + half * dy T /\ d == c + inject_Z (H - 1) * dy T)%Q.
Proof.
  intros T H W PH PW DX DY SX SY.
  assert (GE : forall n d, 0 < n -> (0 < d)%Q -> (0 <= inject_Z (n - 1) * d)%Q).
  { clear. intros n d Hn D. apply Qmult_le_0_compat; [|lra]. change 0%Q with (inject_Z 0). rewrite <- Zle_Qle. lia. }
  pose proof (GE W (dx T) PW DX) as GW. pose proof (GE H (dy T) PH DY) as GH.
  unfold extent, center_llref.
  set (X1 := if Qeq_bool (sgn (dx T)) (sgn (sx T)) then _ else _).
  set (Y1 := if Qeq_bool (sgn (dy T)) (sgn (sy T)) then _ else _).
  assert (EX : (X1 == x0 T + half * (dx T + sx T) + dx T * inject_Z (W + -1) + sx T * inject_Z (H + -1))%Q).
  { unfold X1. destruct (Qeq_bool (sgn (dx T)) (sgn (sx T))); [reflexivity|]. rewrite SX. ring. }
  assert (EY : (Y1 == y0 T + half * (dy T + sy T) + dy T * inject_Z (H + -1) + sy T * inject_Z (W + -1))%Q).
  { unfold Y1. destruct (Qeq_bool (sgn (dy T)) (sgn (sy T))); [reflexivity|]. rewrite SY. ring. }
  clearbody X1 Y1. rewrite SX in EX. rewrite SY in EY.
  change (W + -1) with (W - 1) in *. change (H + -1) with (H - 1) in *.
  eexists _, _, _, _. split; [reflexivity|].
  destruct (qmin_spec (x0 T + half * (dx T + sx T)) X1) as [[E1 L1] | [E1 L1]];
  destruct (qmax_spec (x0 T + half * (dx T + sx T)) X1) as [[E2 L2] | [E2 L2]];
  destruct (qmin_spec (y0 T + half * (dy T + sy T)) Y1) as [[E3 L3] | [E3 L3]];
  destruct (qmax_spec (y0 T + half * (dy T + sy T)) Y1) as [[E4 L4] | [E4 L4]];
  rewrite E1, E2, E3, E4; rewrite SX in *; rewrite SY in *; unfold half in *;
  clear - EX EY GW GH L1 L2 L3 L4; repeat split; lra.
Qed.

Section R.
Variable V : Type.
Variable junk : Z -> Z -> V.
Variable v0 : V.

Theorem resample_spec : forall (g : grid V) T H W F nodata dx' dy',
  grid_is g T H W 1 F nodata -> (0 < dx T)%Q -> (0 < dy T)%Q -> (sx T == 0)%Q -> (sy T == 0)%Q ->
  (0 < dx')%Q -> (0 < dy')%Q ->
  (dx' <= inject_Z (W - 1) * dx T)%Q -> (dy' <= inject_Z (H - 1) * dy T)%Q ->
  exists g' T' ny nx F', resample_nearest junk v0 g dx' dy' = Ok g' /\
    grid_is g' T' ny nx 1 F' nodata /\
    (dx T' = dx' /\ dy T' = dy' /\ sx T' = sx T /\ sy T' = sy T) /\
    peq (centre T' 0 0) (centre T 0 0) /\
    ny = Qfloor (inject_Z (H - 1) * dy T / dy') + 1 /\ nx = Qfloor (inject_Z (W - 1) * dx T / dx') + 1 /\
    forall i j, 0 <= i < ny -> 0 <= j < nx ->
      exists c, in_cell T (centre T' i j) c /\ in_grid H W c /\ F' 0 i j = F 0 (fst c) (snd c).
Proof.
  intros g T H W F nodata dx' dy' G DX DY SX SY DX' DY' LX LY.
  destruct (grid_size _ g T H W 1 F nodata G) as (Sz & HH & HW & _).
  assert (PH : 1 < H).
  { destruct (Z_lt_le_dec 1 H) as [L | L]; [exact L|exfalso].
    assert (X : (inject_Z (H - 1) * dy T <= 0 * dy T)%Q).
    { apply Qmult_le_compat_r; [|clear - DY; lra]. change 0%Q with (inject_Z 0). rewrite <- Zle_Qle. lia. }
    clear - X LY DY'. lra. }
  assert (PW : 1 < W).
  { destruct (Z_lt_le_dec 1 W) as [L | L]; [exact L|exfalso].
    assert (X : (inject_Z (W - 1) * dx T <= 0 * dx T)%Q).
    { apply Qmult_le_compat_r; [|clear - DX; lra]. change 0%Q with (inject_Z 0). rewrite <- Zle_Qle. lia. }
    clear - X LX DX'. lra. }
  assert (INV : invertible T).
  { unfold invertible. rewrite SX. setoid_replace (dx T * dy T - 0 * sy T)%Q with (dx T * dy T)%Q by ring.
    intro Z. apply Qmult_integral in Z. clear - Z DX DY. lra. }
  assert (DY0 : ~ (dy T == 0)%Q) by (clear - DY; lra).
  unfold resample_nearest.
  assert (Q1 : Qle_bool dx' 0 = false) by (apply not_true_is_false; intro X; apply Qle_bool_iff in X; clear - X DX'; lra).
  assert (Q2 : Qle_bool dy' 0 = false) by (apply not_true_is_false; intro X; apply Qle_bool_iff in X; clear - X DY'; lra).
  rewrite Q1, Q2. cbn [orb]. rewrite Sz. pose proof G as (ET & SH & EN & Ed). rewrite ET.
  destruct (extent_unskewed T H W ltac:(lia) ltac:(lia) DX DY SX SY) as (xmin & xmax & ymin & ymax & EE & E1 & E2 & E3 & E4).
  rewrite EE.
  set (ny := Qfloor ((ymax - ymin) / dy') + 1). set (nx := Qfloor ((xmax - xmin) / dx') + 1).
  assert (Ny : ny = Qfloor (inject_Z (H - 1) * dy T / dy') + 1).
  { unfold ny. f_equal. apply Qfloor_comp. rewrite E4. field. clear - DY'; lra. }
  assert (Nx : nx = Qfloor (inject_Z (W - 1) * dx T / dx') + 1).
  { unfold nx. f_equal. apply Qfloor_comp. rewrite E2. field. clear - DX'; lra. }
  assert (TWO : forall a d, (0 < d)%Q -> (d <= a)%Q -> 1 <= Qfloor (a / d)).
  { clear. intros a d D L. change 1 with (Qfloor 1) at 1. apply Qfloor_resp_le. apply Qle_shift_div_l; [exact D|lra]. }
  assert (Ny2 : 2 <= ny) by (rewrite Ny; pose proof (TWO _ _ DY' LY); lia).
  assert (Nx2 : 2 <= nx) by (rewrite Nx; pose proof (TWO _ _ DX' LX); lia).
  set (tnew := mkT _ _ dx' dy' (sx T) (sy T)).
  destruct (full_selects ny ltac:(lia)) as [S1 _]. destruct (full_selects nx ltac:(lia)) as [S2 _].
  destruct (coord_slices tnew ny nx _ _ _ _ _ _ _ _ S1 S2) as (xy & Exy & Sxy & Pxy);
    [rewrite zrange_length; lia|rewrite zrange_length; lia|].
  rewrite !zrange_length in Sxy. rewrite !Z2Nat.id, !Z.sub_0_r in Sxy by lia.
  unfold full. rewrite Exy. cbn [bind]. rewrite Sxy.
  set (pts := map (fun p => elt xy [fst p; snd p]) (cells ny nx)).
  assert (PT : forall i j, 0 <= i < ny -> 0 <= j < nx ->
     exists p, nth_error pts (Z.to_nat (i * nx + j)) = Some p /\ peq p (centre tnew i j)).
  { intros i j Hi Hj. unfold pts. rewrite nth_error_map, (cells_nth _ _ _ _ Hi Hj). eexists. split; [reflexivity|].
    cbn [fst snd]. rewrite <- (Z2Nat.id i) at 1 by lia. rewrite <- (Z2Nat.id j) at 1 by lia.
    apply Pxy; apply zrange_nth0; assumption. }
  assert (CT : forall i j, peq (centre tnew i j) (xmin + inject_Z j * dx', ymin + inject_Z i * dy')%Q).
  { intros i j. unfold centre, world, tnew, peq, half. cbn [fst snd x0 y0 dx dy sx sy]. rewrite SX, SY. split; ring. }
  assert (IG : forall i j c, 0 <= i < ny -> 0 <= j < nx -> in_cell T (centre tnew i j) c -> in_grid H W c).
  { intros i j [ci cj] Hi Hj (u & v & [P1 P2] & Hu & Hv). cbn [fst snd] in *.
    destruct (CT i j) as [C1 C2]. cbn [fst snd] in C1, C2. rewrite C1 in P1. rewrite C2 in P2.
    unfold world in P1, P2. cbn [fst snd] in P1, P2. rewrite SX in P1. rewrite SY in P2.
    assert (B1 := quot_bounds xmin xmax dx' DX').
    assert (B2 := quot_bounds ymin ymax dy' DY').
    assert (LM : (xmin <= xmax)%Q) by (clear - E2 LX DX'; lra).
    assert (LM' : (ymin <= ymax)%Q) by (clear - E4 LY DY'; lra).
    specialize (B1 LM j Hj). specialize (B2 LM' i Hi).
    assert (V1 : (half * dx T <= v * dx T <= half * dx T + inject_Z (W - 1) * dx T)%Q) by (clear - P1 B1 E1 E2; lra).
    assert (U1 : (half * dy T <= u * dy T <= half * dy T + inject_Z (H - 1) * dy T)%Q) by (clear - P2 B2 E3 E4; lra).
    assert (CAN : forall d a b, (0 < d)%Q -> (a * d <= b * d)%Q -> (a <= b)%Q).
    { clear. intros d a b D L. apply (Qmult_lt_0_le_reg_r a b d); assumption. }
    assert (V2 : (half <= v)%Q) by (apply (CAN (dx T)); [exact DX|apply V1]).
    assert (U2 : (half <= u)%Q) by (apply (CAN (dy T)); [exact DY|apply U1]).
    assert (V3 : (v <= half + inject_Z (W - 1))%Q) by (apply (CAN (dx T)); [exact DX|clear - V1; lra]).
    assert (U3 : (u <= half + inject_Z (H - 1))%Q) by (apply (CAN (dy T)); [exact DY|clear - U1; lra]).
    unfold half in *. unfold in_grid. cbn [fst snd].
    split; split.
    - apply qz_le. change (inject_Z 0) with 0%Q. clear - U2 Hu. lra.
    - assert (ci <= H - 1) by (apply qz_le; clear - U3 Hu; lra). lia.
    - apply qz_le. change (inject_Z 0) with 0%Q. clear - V2 Hv. lra.
    - assert (cj <= W - 1) by (apply qz_le; clear - V3 Hv; lra). lia. }
  destruct (nearest_spec V junk g T H W 1 F nodata pts G INV DY0 (or_introl eq_refl)) as (cs & FA & K).
  assert (CS : forall i j, 0 <= i < ny -> 0 <= j < nx ->
     exists c, nth_error cs (Z.to_nat (i * nx + j)) = Some c /\ in_cell T (centre tnew i j) c /\ in_grid H W c).
  { intros i j Hi Hj. destruct (PT i j Hi Hj) as (p & Ep & Pp).
    assert (NTH : forall n p, nth_error pts n = Some p -> exists c, nth_error cs n = Some c /\ in_cell T p c).
    { clear - FA. induction FA; intros [|n] p E; try discriminate.
      - injection E as <-. eexists. split; [reflexivity|assumption].
      - cbn [nth_error] in *. apply IHFA. exact E. }
    destruct (NTH _ _ Ep) as (c & Ec & (u & v & P & Hu & Hv)). exists c. split; [exact Ec|].
    assert (IC : in_cell T (centre tnew i j) c).
    { exists u, v. split; [|split; assumption]. destruct P as [P1 P2], Pp as [P3 P4].
      split; [rewrite P1; exact P3|rewrite P2; exact P4]. }
    split; [exact IC|]. exact (IG i j c Hi Hj IC). }
  destruct K as (r & Er & NR & NC & PR).
  { destruct (CS 0 0 ltac:(lia) ltac:(lia)) as (c & Ec & _ & Gc). exists c. split; [|exact Gc].
    apply (nth_error_In _ _ Ec). }
  rewrite Er. cbn [bind].
  destruct (make_grid_spec V junk v0 ClsComp tnew
     (mkN [ny; nx; nrow r] (fun idx => match idx with [i; j; k] => at_ r k (i * nx + j) | _ => v0 end)) (gnodata g)
     ny nx 1 (fun k i j => at_ r k (i * nx + j))) as (g' & Eg & G' & _); try lia.
  { cbn [shp]. rewrite NR. reflexivity. }
  { intros. reflexivity. }
  exists g', tnew, ny, nx, (fun k i j => at_ r k (i * nx + j)).
  split; [exact Eg|]. split; [rewrite <- Ed; exact G'|]. split; [repeat split; reflexivity|].
  split. { destruct (CT 0 0) as [C1 C2]. cbn [fst snd] in C1, C2. split; [rewrite C1|rewrite C2];
    unfold centre, world; cbn [fst snd]; change (inject_Z 0) with 0%Q; rewrite ?E1, ?E3, ?SX, ?SY; unfold half; ring. }
  split; [exact Ny|]. split; [exact Nx|].
  intros i j Hi Hj. destruct (CS i j Hi Hj) as (c & Ec & IC & Gc). exists c. split; [exact IC|]. split; [exact Gc|].
  destruct (PR 0 _ _ ltac:(lia) Ec) as [PP _]. rewrite <- (PP Gc). f_equal. rewrite Z2Nat.id by nia. reflexivity.
Qed.

Lemma resample_nonpositive : forall (g : grid V) dx' dy', (dx' <= 0 \/ dy' <= 0)%Q ->
  resample_nearest junk v0 g dx' dy' = Err ValueError.
Proof.
  intros g dx' dy' [L | L]; unfold resample_nearest; apply Qle_bool_iff in L; rewrite L; [reflexivity|].
  rewrite orb_true_r. reflexivity.
Qed.
End R.
