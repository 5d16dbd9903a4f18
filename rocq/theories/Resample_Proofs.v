(** Proofs about sampling a grid at the cells of another transform. *)
From Coq Require Import List ZArith QArith Qround Qabs Bool Lia Lqa.
From Verif Require Import Band_Model Band_Spec Band_IndexModel Band_IndexSpec Band_Proofs
  Band_IndexProofs Band_MaskProofs Grid_Model Grid_Spec Grid_Proofs Grid_OpsProofs Grid_ResizeProofs
  Grid_MoreProofs GridSample_Model GridSample_Spec GridSample_Proofs GridBilinear_Proofs GridBilinear_More
  GridResample_Proofs Resample_Model Resample_Spec.
Import ListNotations.
Open Scope Z_scope.

(** The grid made of samples that are right at every cell. *)
Lemma onto_spec : forall V (junk : Z -> Z -> V) v0 sample nodata tnew ny nx nb (R : Z -> Q * Q -> V -> Prop),
  1 < ny -> 1 < nx -> 0 < nb ->
  (forall k p q v, peq p q -> R k p v -> R k q v) ->
  (forall pts, Z.of_nat (length pts) = ny * nx ->
     (forall i j, 0 <= i < ny -> 0 <= j < nx -> exists p, In p pts /\ peq p (centre tnew i j)) ->
     exists f, sample pts = Ok (nb, f) /\
     forall k n p, 0 <= k < nb -> nth_error pts n = Some p -> R k p (f k (Z.of_nat n))) ->
  exists g' F', onto junk v0 sample nodata tnew ny nx = Ok g' /\ grid_is g' tnew ny nx nb F' nodata /\
    forall k i j, 0 <= k < nb -> 0 <= i < ny -> 0 <= j < nx -> R k (centre tnew i j) (F' k i j).
Proof.
  intros V junk v0 sample nodata tnew ny nx nb R Ny Nx Nb RP SP. unfold onto.
  destruct (full_selects ny ltac:(lia)) as [S1 _]. destruct (full_selects nx ltac:(lia)) as [S2 _].
  destruct (coord_slices tnew ny nx _ _ _ _ _ _ _ _ S1 S2) as (xy & Exy & Sxy & Pxy);
    [rewrite zrange_length; lia|rewrite zrange_length; lia|].
  rewrite !zrange_length in Sxy. rewrite !Z2Nat.id, !Z.sub_0_r in Sxy by lia.
  unfold full. rewrite Exy. cbn [bind]. rewrite Sxy.
  set (pts := map (fun p => elt xy [fst p; snd p]) (cells ny nx)).
  assert (PT : forall i j, 0 <= i < ny -> 0 <= j < nx ->
     exists p, nth_error pts (Z.to_nat (i * nx + j)) = Some p /\ peq p (centre tnew i j)).
  { intros i j Hi Hj. unfold pts. rewrite nth_error_map, (cells_nth _ _ _ _ Hi Hj). eexists. split; [reflexivity|].
    cbn [fst snd]. rewrite <- (Z2Nat.id i) at 1 by lia. rewrite <- (Z2Nat.id j) at 1 by lia.
    apply Pxy; apply zrange_nth0; assumption. }
  destruct (SP pts) as (f & Ef & Pf).
  { unfold pts. rewrite map_length. apply cells_length; lia. }
  { intros i j Hi Hj. destruct (PT i j Hi Hj) as (p & Ep & Pp). exists p. split; [|exact Pp]. apply (nth_error_In _ _ Ep). }
  rewrite Ef. cbn [bind fst snd].
  destruct (make_grid_spec V junk v0 ClsComp tnew
     (mkN [ny; nx; nb] (fun idx => match idx with [i; j; k] => f k (i * nx + j) | _ => v0 end)) nodata
     ny nx nb (fun k i j => f k (i * nx + j))) as (g' & Eg & G' & _); try lia; [reflexivity|reflexivity|].
  exists g', (fun k i j => f k (i * nx + j)). split; [exact Eg|]. split; [exact G'|].
  intros k i j Hk Hi Hj. destruct (PT i j Hi Hj) as (p & Ep & Pp). specialize (Pf k _ p Hk Ep).
  rewrite Z2Nat.id in Pf by nia. exact (RP _ _ _ _ Pp Pf).
Qed.

Lemma in_cell_peq : forall T p q c, peq p q -> in_cell T p c -> in_cell T q c.
Proof.
  intros T p q c [P1 P2] (u & v & [Q1 Q2] & Hu & Hv). exists u, v. split; [|split; assumption].
  split; [rewrite Q1; exact P1|rewrite Q2; exact P2].
Qed.
Lemma at_position_peq : forall T p q u v, peq p q -> at_position T p u v -> at_position T q u v.
Proof. intros T p q u v [P1 P2] [Q1 Q2]. split; [rewrite Q1; exact P1|rewrite Q2; exact P2]. Qed.
Lemma sampled_peq : forall T f H W nodata p q v, peq p q -> sampled T f H W nodata p v -> sampled T f H W nodata q v.
Proof. intros T f H W nodata p q v P (a & b & A & B). exists a, b. split; [exact (at_position_peq _ _ _ _ _ P A)|exact B]. Qed.

Section Grids.
Variable junk : Z -> Z -> fl.

(** With the method 'nearest', one band; some new centre well inside the grid. *)
Lemma onto_nearest : forall (g : grid fl) T H W F nodata tnew ny nx i0 j0 u0 w0,
  grid_is g T H W 1 F nodata -> invertible T -> ~ (dy T == 0)%Q -> 1 < ny -> 1 < nx ->
  0 <= i0 < ny -> 0 <= j0 < nx ->
  at_position T (centre tnew i0 j0) u0 w0 -> (0 <= u0 <= inject_Z (H - 1))%Q -> (0 <= w0 <= inject_Z (W - 1))%Q ->
  exists g' F', onto junk (Some 0%Q) (by_nearest junk g) (gnodata g) tnew ny nx = Ok g' /\ grid_is g' tnew ny nx 1 F' nodata /\
    forall i j, 0 <= i < ny -> 0 <= j < nx -> shown T (F 0) H W nodata (centre tnew i j) (F' 0 i j).
Proof.
  intros g T H W F nodata tnew ny nx i0 j0 u0 w0 G I D Ny Nx Hi0 Hj0 A0 U0 W0.
  assert (En : gnodata g = nodata) by (destruct G as (_ & _ & _ & X); exact X).
  destruct (onto_spec fl junk (Some 0%Q) (by_nearest junk g) (gnodata g) tnew ny nx 1
    (fun k p v => shown T (F k) H W nodata p v) Ny Nx ltac:(lia)) as (g' & F' & E & G' & P).
  - intros k p q v PQ (c & C1 & C2). exists c. split; [exact (in_cell_peq _ _ _ _ PQ C1)|exact C2].
  - intros pts Lp Ip. destruct (nearest_spec fl junk g T H W 1 F nodata pts G I D (or_introl eq_refl)) as (cs & FA & K).
    destruct K as (r & Er & Nr & Nc & Pr).
    { destruct (Ip i0 j0 Hi0 Hj0) as (p & Pin & Pp).
      destruct (Forall2_in_l _ _ _ _ _ _ FA Pin) as (c & Cin & Cc). exists c. split; [exact Cin|].
      assert (A1 : at_position T p u0 w0) by (apply (at_position_peq T (centre tnew i0 j0)); [destruct Pp as [X Y]; split; symmetry; assumption|exact A0]).
      destruct Cc as (u & v & PW & Hu & Hv). unfold at_position in A1.
      assert (PE : peq (world T u v) (world T (u0 + (1 # 2)) (w0 + (1 # 2)))%Q).
      { destruct PW as [X1 X2], A1 as [Y1 Y2]. split; [rewrite X1, Y1|rewrite X2, Y2]; reflexivity. }
      destruct (world_inj T _ _ _ _ I PE) as [Eu Ev]. destruct c as [ci cj]. cbn [fst snd] in *.
      unfold in_grid. cbn [fst snd].
      assert (-1 < ci) by (apply Z.lt_nge; intro X; assert (inject_Z ci <= -1)%Q by (change (-1)%Q with (inject_Z (-1)); rewrite <- Zle_Qle; lia); clear - U0 Eu Hu H0; lra).
      assert (-1 < cj) by (apply Z.lt_nge; intro X; assert (inject_Z cj <= -1)%Q by (change (-1)%Q with (inject_Z (-1)); rewrite <- Zle_Qle; lia); clear - W0 Ev Hv H1; lra).
      assert (ci <= H - 1) by (apply Z.le_ngt; intro X; assert (inject_Z (H - 1) + 1 <= inject_Z ci)%Q by (change 1%Q with (inject_Z 1); rewrite <- inject_Z_plus, <- Zle_Qle; lia); clear - U0 Eu Hu H2; lra).
      assert (cj <= W - 1) by (apply Z.le_ngt; intro X; assert (inject_Z (W - 1) + 1 <= inject_Z cj)%Q by (change 1%Q with (inject_Z 1); rewrite <- inject_Z_plus, <- Zle_Qle; lia); clear - W0 Ev Hv H3; lra).
      lia. }
    exists (at_ r). unfold by_nearest. rewrite Er. cbn [bind]. rewrite Nr. split; [reflexivity|].
    intros k n p Hk En'.
    assert (NTH : forall n p, nth_error pts n = Some p -> exists c, nth_error cs n = Some c /\ in_cell T p c).
    { clear - FA. induction FA; intros [|n] p E; try discriminate.
      - injection E as <-. eexists. split; [reflexivity|assumption].
      - cbn [nth_error] in *. apply IHFA. exact E. }
    destruct (NTH _ _ En') as (c & Ec & IC). exists c. split; [exact IC|]. exact (Pr k n c Hk Ec).
  - rewrite En in G'. exists g', F'. split; [exact E|]. split; [exact G'|]. intros i j Hi Hj. apply P; lia.
Qed.

(** With the method 'linear', any number of bands. *)
Lemma onto_linear : forall (g : grid fl) T H W nb F nodata tnew ny nx i0 j0 u0 w0 i1 j1 u1 w1,
  grid_is g T H W nb F nodata -> invertible T -> ~ (dy T == 0)%Q -> 2 <= H -> 2 <= W -> 1 < ny -> 1 < nx ->
  0 <= i0 < ny -> 0 <= j0 < nx -> at_position T (centre tnew i0 j0) u0 w0 -> (0 < u0)%Q -> (0 < w0)%Q ->
  0 <= i1 < ny -> 0 <= j1 < nx -> at_position T (centre tnew i1 j1) u1 w1 -> (u1 < inject_Z H)%Q -> (w1 < inject_Z W)%Q ->
  exists g' F', onto junk (Some 0%Q) (by_linear junk g DFloat) (gnodata g) tnew ny nx = Ok g' /\ grid_is g' tnew ny nx nb F' nodata /\
    forall k i j, 0 <= k < nb -> 0 <= i < ny -> 0 <= j < nx -> sampled T (F k) H W nodata (centre tnew i j) (F' k i j).
Proof.
  intros g T H W nb F nodata tnew ny nx i0 j0 u0 w0 i1 j1 u1 w1 G I D H2 W2 Ny Nx Hi0 Hj0 A0 U0 W0 Hi1 Hj1 A1 U1 W1.
  assert (En : gnodata g = nodata) by (destruct G as (_ & _ & _ & X); exact X).
  destruct (grid_size _ _ _ _ _ _ _ _ G) as (_ & _ & _ & Hnb).
  destruct (onto_spec fl junk (Some 0%Q) (by_linear junk g DFloat) (gnodata g) tnew ny nx nb
    (fun k p v => sampled T (F k) H W nodata p v) Ny Nx ltac:(lia)) as (g' & F' & E & G' & P).
  - intros k p q v PQ. apply sampled_peq. exact PQ.
  - intros pts Lp Ip. destruct (bilinear_spec junk g T H W nb F nodata pts G I D H2 W2) as (rows & Er & Lr & Pr).
    { intros ->. cbn [length] in Lp. nia. }
    { right. destruct (Ip i0 j0 Hi0 Hj0) as (p & Pin & Pp). destruct (Ip i1 j1 Hi1 Hj1) as (q & Qin & Qp).
      assert (Ap : at_position T p u0 w0) by (apply (at_position_peq T (centre tnew i0 j0)); [destruct Pp as [X Y]; split; symmetry; assumption|exact A0]).
      assert (Aq : at_position T q u1 w1) by (apply (at_position_peq T (centre tnew i1 j1)); [destruct Qp as [X Y]; split; symmetry; assumption|exact A1]).
      split; [exists p, u0, w0; auto|]. split; [exists q, u1, w1; auto|]. split; [exists p, u0, w0; auto|exists q, u1, w1; auto]. }
    unfold by_linear. rewrite Er. cbn [bind]. rewrite Lr.
    exists (fun k p => nth (Z.to_nat p) (nth (Z.to_nat k) rows []) None). split; [reflexivity|].
    intros k n p Hk Ep. rewrite Nat2Z.id.
    destruct (nth_error rows (Z.to_nat k)) as [row|] eqn:Erow.
    2: { apply nth_error_None in Erow. lia. }
    rewrite (nth_error_nth _ _ _ Erow). specialize (Pr _ _ Erow). rewrite Z2Nat.id in Pr by lia.
    clear - Pr Ep. revert n Ep. induction Pr; intros [|n] Ep; try discriminate.
    + injection Ep as <-. cbn [nth]. assumption.
    + cbn [nth_error nth] in *. apply IHPr. exact Ep.
  - rewrite En in G'. exists g', F'. auto.
Qed.

Lemma unskewed_invertible : forall T, unskewed T -> invertible T.
Proof.
  intros T (A & B & C & D). unfold invertible. rewrite C. setoid_replace (dx T * dy T - 0 * sy T)%Q with (dx T * dy T)%Q by ring.
  intro Z. apply Qmult_integral in Z. tauto.
Qed.

Lemma rint_multiple : forall x b, ~ (x == 0)%Q -> nearest_multiple x b (x * inject_Z (rint (b / x)))%Q.
Proof.
  intros x b N. split; [exists (rint (b / x)); ring|].
  pose proof (rint_near (b / x)) as [A B]. set (r := inject_Z (rint (b / x))) in *. clearbody r.
  setoid_replace (x * r - b)%Q with (x * (r - b / x))%Q by (field; exact N).
  rewrite Qabs_Qmult, Qmult_comm. apply Qmult_le_compat_r; [|apply Qabs_nonneg].
  apply Qabs_Qle_condition. split; lra.
Qed.

Lemma shifted : forall T a b i j, unskewed T ->
  at_position T (centre (mkT a b (dx T) (dy T) (sx T) (sy T)) i j) (inject_Z i + (b - y0 T) / dy T)%Q (inject_Z j + (a - x0 T) / dx T)%Q.
Proof.
  intros T a b i j (A & B & C & D). unfold at_position, centre, world, peq. cbn [fst snd x0 y0 dx dy sx sy].
  rewrite C, D. unfold half. split; field; split; assumption.
Qed.

Lemma small_shift : forall x b a d n, ~ (d == 0)%Q -> nearest_multiple x b a -> (Qabs x < 2 * inject_Z (n - 1) * Qabs d)%Q ->
  (- inject_Z (n - 1) < (a - b) / d < inject_Z (n - 1))%Q.
Proof.
  intros x b a d n N [_ M] L.
  assert (P : (0 < Qabs d)%Q). { apply Qnot_le_lt. intro X. apply N. revert X. apply (Qabs_case d (fun z => z <= 0 -> d == 0)%Q); intros; lra. }
  assert (Q : (Qabs ((a - b) / d) < inject_Z (n - 1))%Q).
  { unfold Qdiv. rewrite Qabs_Qmult, Qabs_Qinv. apply Qlt_shift_div_r; [exact P|]. lra. }
  revert Q. apply Qabs_case; intros; split; lra.
Qed.

Lemma centre_peq : forall T T' i j, (x0 T' == x0 T)%Q -> (y0 T' == y0 T)%Q -> same_cells T T' -> peq (centre T' i j) (centre T i j).
Proof.
  intros T T' i j X Y (A & B & C & D). unfold centre, world, peq. cbn [fst snd]. rewrite A, B, C, D, X, Y. split; reflexivity.
Qed.

Lemma align_unfold : forall (g : grid fl) T H W nb F nodata dt x y m,
  grid_is g T H W nb F nodata -> ~ (x == 0)%Q -> ~ (y == 0)%Q ->
  align_origin junk g dt x y m =
  onto junk (Some 0%Q) (sampling junk g dt m) (gnodata g)
    (mkT (x * inject_Z (rint (x0 T / x))) (y * inject_Z (rint (y0 T / y))) (dx T) (dy T) (sx T) (sy T)) H W.
Proof.
  intros g T H W nb F nodata dt x y m G X Y.
  destruct (grid_size _ _ _ _ _ _ _ _ G) as (Sz & _). destruct G as (ET & _).
  unfold align_origin, resample_transform. rewrite Sz, ET.
  assert (Qeq_bool x 0 = false) as -> by (apply not_true_is_false; intro E; apply Qeq_bool_iff in E; tauto).
  assert (Qeq_bool y 0 = false) as -> by (apply not_true_is_false; intro E; apply Qeq_bool_iff in E; tauto).
  reflexivity.
Qed.

Theorem align_nearest : forall (g : grid fl) T H W F nodata dt x y,
  grid_is g T H W 1 F nodata -> unskewed T -> 2 <= H -> 2 <= W -> ~ (x == 0)%Q -> ~ (y == 0)%Q ->
  (Qabs x < 2 * inject_Z (W - 1) * Qabs (dx T))%Q -> (Qabs y < 2 * inject_Z (H - 1) * Qabs (dy T))%Q ->
  exists g' T' F', align_origin junk g dt x y Nearest = Ok g' /\ grid_is g' T' H W 1 F' nodata /\
    same_cells T T' /\ nearest_multiple x (x0 T) (x0 T') /\ nearest_multiple y (y0 T) (y0 T') /\
    forall i j, 0 <= i < H -> 0 <= j < W -> shown T (F 0) H W nodata (centre T' i j) (F' 0 i j).
Proof.
  intros g T H W F nodata dt x y G U H2 W2 X Y LX LY.
  rewrite (align_unfold g T H W 1 F nodata dt x y Nearest G X Y). cbn [sampling].
  pose proof (rint_multiple x (x0 T) X) as MX. pose proof (rint_multiple y (y0 T) Y) as MY.
  set (a := (x * inject_Z (rint (x0 T / x)))%Q) in *. set (b := (y * inject_Z (rint (y0 T / y)))%Q) in *.
  pose proof U as (Dx & Dy & _).
  destruct (small_shift x (x0 T) a (dx T) W Dx MX LX) as [A1 A2].
  destruct (small_shift y (y0 T) b (dy T) H Dy MY LY) as [B1 B2].
  assert (PICK : forall s n, 2 <= n -> (- inject_Z (n - 1) < s)%Q -> (s < inject_Z (n - 1))%Q ->
     exists k, 0 <= k < n /\ (0 <= inject_Z k + s <= inject_Z (n - 1))%Q).
  { clear. intros s n Hn A B. destruct (Qlt_le_dec s 0) as [L | L].
    - exists (n - 1). split; [lia|]. split; lra.
    - exists 0. split; [lia|]. change (inject_Z 0) with 0%Q. split; lra. }
  destruct (PICK _ W W2 A1 A2) as (j0 & Hj0 & Vj). destruct (PICK _ H H2 B1 B2) as (i0 & Hi0 & Vi).
  destruct (onto_nearest g T H W F nodata (mkT a b (dx T) (dy T) (sx T) (sy T)) H W i0 j0 _ _ G (unskewed_invertible T U) Dy
    ltac:(lia) ltac:(lia) Hi0 Hj0 (shifted T a b i0 j0 U) Vi Vj) as (g' & F' & E & G' & P).
  exists g', (mkT a b (dx T) (dy T) (sx T) (sy T)), F'. split; [exact E|]. split; [exact G'|].
  split; [repeat split|]. split; [exact MX|]. split; [exact MY|]. exact P.
Qed.

Theorem align_linear : forall (g : grid fl) T H W nb F nodata x y,
  grid_is g T H W nb F nodata -> unskewed T -> 2 <= H -> 2 <= W -> ~ (x == 0)%Q -> ~ (y == 0)%Q ->
  (Qabs x < 2 * inject_Z (W - 1) * Qabs (dx T))%Q -> (Qabs y < 2 * inject_Z (H - 1) * Qabs (dy T))%Q ->
  exists g' T' F', align_origin junk g DFloat x y Linear = Ok g' /\ grid_is g' T' H W nb F' nodata /\
    same_cells T T' /\ nearest_multiple x (x0 T) (x0 T') /\ nearest_multiple y (y0 T) (y0 T') /\
    forall k i j, 0 <= k < nb -> 0 <= i < H -> 0 <= j < W -> sampled T (F k) H W nodata (centre T' i j) (F' k i j).
Proof.
  intros g T H W nb F nodata x y G U H2 W2 X Y LX LY.
  rewrite (align_unfold g T H W nb F nodata DFloat x y Linear G X Y). cbn [sampling].
  pose proof (rint_multiple x (x0 T) X) as MX. pose proof (rint_multiple y (y0 T) Y) as MY.
  set (a := (x * inject_Z (rint (x0 T / x)))%Q) in *. set (b := (y * inject_Z (rint (y0 T / y)))%Q) in *.
  pose proof U as (Dx & Dy & _).
  destruct (small_shift x (x0 T) a (dx T) W Dx MX LX) as [A1 A2].
  destruct (small_shift y (y0 T) b (dy T) H Dy MY LY) as [B1 B2].
  assert (LT : forall n, (inject_Z (n - 1) < inject_Z n)%Q) by (intro n; rewrite <- Zlt_Qlt; lia).
  destruct (onto_linear g T H W nb F nodata (mkT a b (dx T) (dy T) (sx T) (sy T)) H W (H - 1) (W - 1)
    (inject_Z (H - 1) + (b - y0 T) / dy T)%Q (inject_Z (W - 1) + (a - x0 T) / dx T)%Q
    0 0 (inject_Z 0 + (b - y0 T) / dy T)%Q (inject_Z 0 + (a - x0 T) / dx T)%Q G (unskewed_invertible T U) Dy
    H2 W2 ltac:(lia) ltac:(lia) ltac:(lia) ltac:(lia) (shifted T a b _ _ U)) as (g' & F' & E & G' & P); try lia.
  { clear - B1. lra. } { clear - A1. lra. } { exact (shifted T a b 0 0 U). }
  { change (inject_Z 0) with 0%Q. pose proof (LT H). lra. } { change (inject_Z 0) with 0%Q. pose proof (LT W). lra. }
  exists g', (mkT a b (dx T) (dy T) (sx T) (sy T)), F'. split; [exact E|]. split; [exact G'|].
  split; [repeat split|]. split; [exact MX|]. split; [exact MY|]. exact P.
Qed.

(** Cells that stay where they are keep their value. *)
Lemma shown_centre : forall V T (f : Z -> Z -> V) H W nodata p i j v, invertible T -> 0 <= i < H -> 0 <= j < W ->
  peq p (centre T i j) -> shown T f H W nodata p v -> v = f i j.
Proof.
  intros V T f H W nodata p i j v I Hi Hj P (c & IC & A & _).
  assert (c = (i, j)) as ->.
  { symmetry. apply (in_cell_unique T p); [exact I| |exact IC].
    exists (inject_Z i + half)%Q, (inject_Z j + half)%Q. split; [destruct P as [P1 P2]; split; symmetry; [exact P1|exact P2]|].
    cbn [fst snd]. unfold half. split; split; lra. }
  apply A. split; assumption.
Qed.
Lemma multiple_fixed : forall x b k, ~ (x == 0)%Q -> (b == inject_Z k * x)%Q -> (x * inject_Z (rint (b / x)) == b)%Q.
Proof.
  intros x b k N E. rewrite (rint_unique (b / x) k).
  - rewrite E. ring.
  - rewrite E. setoid_replace (inject_Z k * x / x)%Q with (inject_Z k) by (field; exact N). lra.
  - rewrite E. setoid_replace (inject_Z k * x / x)%Q with (inject_Z k) by (field; exact N). lra.
Qed.

(** [resample] with 'nearest' is the function of GridSample_Model. *)
Lemma resample_is_nearest : forall (g : grid fl) dt dx' dy',
  resample junk g dt dx' dy' Nearest = resample_nearest junk (Some 0%Q) g dx' dy'.
Proof.
  intros g dt dx' dy'. unfold resample, resample_nearest, onto, sampling, by_nearest.
  destruct (Qle_bool dx' 0 || Qle_bool dy' 0); [reflexivity|]. destruct (gsize g) as [h w].
  destruct (extent (gT g) h w true) as [[[xmin xmax] ymin] ymax].
  destruct (coord_getitem _ _ _ full full) as [xy|]; [|reflexivity]. cbn [bind].
  destruct (shp xy) as [|a [|b [|? ?]]]; try reflexivity.
  - destruct (sample_nearest junk g _); reflexivity.
  - destruct (sample_nearest junk g _); reflexivity.
Qed.

Theorem resample_linear : forall (g : grid fl) T H W nb F nodata dx' dy',
  grid_is g T H W nb F nodata -> (0 < dx T)%Q -> (0 < dy T)%Q -> (sx T == 0)%Q -> (sy T == 0)%Q ->
  (0 < dx')%Q -> (0 < dy')%Q ->
  (dx' <= inject_Z (W - 1) * dx T)%Q -> (dy' <= inject_Z (H - 1) * dy T)%Q ->
  exists g' T' ny nx F', resample junk g DFloat dx' dy' Linear = Ok g' /\
    grid_is g' T' ny nx nb F' nodata /\
    (dx T' = dx' /\ dy T' = dy' /\ sx T' = sx T /\ sy T' = sy T) /\
    peq (centre T' 0 0) (centre T 0 0) /\
    ny = Qfloor (inject_Z (H - 1) * dy T / dy') + 1 /\ nx = Qfloor (inject_Z (W - 1) * dx T / dx') + 1 /\
    forall k i j, 0 <= k < nb -> 0 <= i < ny -> 0 <= j < nx ->
      between_centres T H W (centre T' i j) /\ sampled T (F k) H W nodata (centre T' i j) (F' k i j).
Proof.
  intros g T H W nb F nodata dx' dy' G DX DY SX SY DX' DY' LX LY.
  destruct (grid_size _ g T H W nb F nodata G) as (Sz & HH & HW & _).
  assert (ONE : forall n d d', (0 < d)%Q -> (0 < d')%Q -> (d' <= inject_Z (n - 1) * d)%Q -> 2 <= n).
  { clear. intros n d d' D D' L. destruct (Z_lt_le_dec 1 n) as [X | X]; [lia|exfalso].
    assert (Y : (inject_Z (n - 1) * d <= 0 * d)%Q).
    { apply Qmult_le_compat_r; [|lra]. change 0%Q with (inject_Z 0). rewrite <- Zle_Qle. lia. }
    lra. }
  pose proof (ONE _ _ _ DY DY' LY) as PH. pose proof (ONE _ _ _ DX DX' LX) as PW.
  assert (U : unskewed T) by (split; [lra|split; [lra|split; assumption]]).
  unfold resample.
  assert (Q1 : Qle_bool dx' 0 = false) by (apply not_true_is_false; intro X; apply Qle_bool_iff in X; clear - X DX'; lra).
  assert (Q2 : Qle_bool dy' 0 = false) by (apply not_true_is_false; intro X; apply Qle_bool_iff in X; clear - X DY'; lra).
  rewrite Q1, Q2. cbn [orb]. rewrite Sz. pose proof G as (ET & SH & EN & Ed). rewrite ET.
  destruct (extent_unskewed T H W ltac:(lia) ltac:(lia) DX DY SX SY) as (xmin & xmax & ymin & ymax & EE & E1 & E2 & E3 & E4).
  rewrite EE. cbn [sampling].
  set (ny := Qfloor ((ymax - ymin) / dy') + 1). set (nx := Qfloor ((xmax - xmin) / dx') + 1).
  assert (Ny : ny = Qfloor (inject_Z (H - 1) * dy T / dy') + 1).
  { unfold ny. f_equal. apply Qfloor_comp. rewrite E4. field. clear - DY'; lra. }
  assert (Nx : nx = Qfloor (inject_Z (W - 1) * dx T / dx') + 1).
  { unfold nx. f_equal. apply Qfloor_comp. rewrite E2. field. clear - DX'; lra. }
  assert (TWO : forall a d, (0 < d)%Q -> (d <= a)%Q -> 1 <= Qfloor (a / d)).
  { clear. intros a d D L. change 1 with (Qfloor 1) at 1. apply Qfloor_resp_le. apply Qle_shift_div_l; [exact D|lra]. }
  assert (Ny2 : 2 <= ny) by (rewrite Ny; pose proof (TWO _ _ DY' LY); lia).
  assert (Nx2 : 2 <= nx) by (rewrite Nx; pose proof (TWO _ _ DX' LX); lia).
  set (tnew := mkT _ _ dx' dy' (sx T) (sy T)).
  assert (AP : forall i j, at_position T (centre tnew i j) (inject_Z i * dy' / dy T)%Q (inject_Z j * dx' / dx T)%Q).
  { intros i j. unfold at_position, centre, world, peq, tnew. cbn [fst snd x0 y0 dx dy sx sy].
    rewrite SX, SY, E1, E3. unfold half. split; field; split; lra. }
  assert (BW : forall n k a b d d', (0 < d)%Q -> (0 < d')%Q -> (d' <= inject_Z (n - 1) * d)%Q -> (b == a + inject_Z (n - 1) * d)%Q ->
    0 <= k < Qfloor ((b - a) / d') + 1 -> (0 <= inject_Z k * d' / d <= inject_Z (n - 1))%Q).
  { clear. intros n k a b d d' D D' L E K. destruct (quot_bounds a b d' D' ltac:(lra) k K) as [B1 B2].
    split; [apply Qle_shift_div_l; [exact D|lra]|apply Qle_shift_div_r; [exact D|lra]]. }
  assert (POS : forall n d d', 2 <= n -> (0 < d)%Q -> (0 < d')%Q -> (0 < inject_Z (n - 1) * d' / d)%Q).
  { clear. intros n d d' N D D'. apply Qlt_shift_div_l; [exact D|]. rewrite Qmult_0_l. apply Qmult_lt_0_compat; [|exact D'].
    change 0%Q with (inject_Z 0). rewrite <- Zlt_Qlt. lia. }
  assert (ZER : forall n d d', 2 <= n -> (0 < d)%Q -> (inject_Z 0 * d' / d < inject_Z n)%Q).
  { clear. intros n d d' N D. apply Qlt_shift_div_r; [exact D|]. change (inject_Z 0) with 0%Q. rewrite Qmult_0_l.
    apply Qmult_lt_0_compat; [|exact D]. change 0%Q with (inject_Z 0). rewrite <- Zlt_Qlt. lia. }
  destruct (onto_linear g T H W nb F nodata tnew ny nx (ny - 1) (nx - 1) _ _ 0 0 _ _ G (unskewed_invertible T U) ltac:(lra)
    PH PW ltac:(lia) ltac:(lia) ltac:(lia) ltac:(lia) (AP _ _) (POS _ _ _ Ny2 DY DY') (POS _ _ _ Nx2 DX DX')
    ltac:(lia) ltac:(lia) (AP 0 0) (ZER _ _ _ PH DY) (ZER _ _ _ PW DX)) as (g' & F' & E & G' & P).
  exists g', tnew, ny, nx, F'. split; [exact E|]. split; [exact G'|]. split; [repeat split|].
  split.
  { unfold centre, world, peq, tnew. cbn [fst snd x0 y0 dx dy sx sy]. rewrite SX, SY, E1, E3. unfold half. split; ring. }
  split; [exact Ny|]. split; [exact Nx|]. intros k i j Hk Hi Hj. split; [|apply P; assumption].
  exists (inject_Z i * dy' / dy T)%Q, (inject_Z j * dx' / dx T)%Q. split; [apply AP|].
  split; [exact (BW _ _ _ _ _ _ DY DY' LY E4 Hi)|exact (BW _ _ _ _ _ _ DX DX' LX E2 Hj)].
Qed.

(** [_resample_transform]. *)
Theorem transform_nearest : forall (g : grid fl) T H W F nodata dt tnew i0 j0,
  grid_is g T H W 1 F nodata -> invertible T -> ~ (dy T == 0)%Q -> 2 <= H -> 2 <= W ->
  0 <= i0 < H -> 0 <= j0 < W -> between_centres T H W (centre tnew i0 j0) ->
  exists g' F', resample_transform junk g dt tnew Nearest = Ok g' /\ grid_is g' tnew H W 1 F' nodata /\
    forall i j, 0 <= i < H -> 0 <= j < W -> shown T (F 0) H W nodata (centre tnew i j) (F' 0 i j).
Proof.
  intros g T H W F nodata dt tnew i0 j0 G I D H2 W2 Hi Hj (u & v & A & Hu & Hv).
  destruct (grid_size _ _ _ _ _ _ _ _ G) as (Sz & _). unfold resample_transform. rewrite Sz.
  exact (onto_nearest g T H W F nodata tnew H W i0 j0 u v G I D ltac:(lia) ltac:(lia) Hi Hj A Hu Hv).
Qed.
Theorem transform_linear : forall (g : grid fl) T H W nb F nodata tnew i0 j0 u v,
  grid_is g T H W nb F nodata -> invertible T -> ~ (dy T == 0)%Q -> 2 <= H -> 2 <= W ->
  0 <= i0 < H -> 0 <= j0 < W -> at_position T (centre tnew i0 j0) u v -> (0 < u < inject_Z H)%Q -> (0 < v < inject_Z W)%Q ->
  exists g' F', resample_transform junk g DFloat tnew Linear = Ok g' /\ grid_is g' tnew H W nb F' nodata /\
    forall k i j, 0 <= k < nb -> 0 <= i < H -> 0 <= j < W -> sampled T (F k) H W nodata (centre tnew i j) (F' k i j).
Proof.
  intros g T H W nb F nodata tnew i0 j0 u v G I D H2 W2 Hi Hj A Hu Hv.
  destruct (grid_size _ _ _ _ _ _ _ _ G) as (Sz & _). unfold resample_transform. rewrite Sz.
  exact (onto_linear g T H W nb F nodata tnew H W i0 j0 u v i0 j0 u v G I D H2 W2 ltac:(lia) ltac:(lia) Hi Hj A (proj1 Hu) (proj1 Hv) Hi Hj A (proj2 Hu) (proj2 Hv)).
Qed.

Lemma sampled_centre : forall T f H W nodata p i j n z, invertible T -> 2 <= H -> 2 <= W -> 0 <= i < H -> 0 <= j < W ->
  peq p (centre T i j) -> (forall a b, 0 <= a < H -> 0 <= b < W -> f a b = Some (n a b)) ->
  sampled T f H W nodata p z -> exists q, z = Some q /\ (q == n i j)%Q.
Proof.
  intros T f H W nodata p i j n z I H2 W2 Hi Hj P N S.
  assert (A : at_position T p (inject_Z i) (inject_Z j)).
  { destruct P as [P1 P2]. split; symmetry; [rewrite P1|rewrite P2]; unfold centre, world, half; cbn [fst snd]; reflexivity. }
  assert (LOW : forall a m, 2 <= m -> 0 <= a < m -> exists b, 0 <= b /\ b + 1 < m /\ (b = a \/ b + 1 = a)).
  { clear. intros a m Hm Ha. destruct (Z_lt_le_dec (a + 1) m); [exists a; lia|exists (a - 1); lia]. }
  assert (IN : forall a b, b = a \/ b + 1 = a -> (inject_Z b <= inject_Z a <= inject_Z b + 1)%Q).
  { clear. intros a b Hab. change 1%Q with (inject_Z 1). rewrite <- inject_Z_plus, <- !Zle_Qle. lia. }
  destruct (LOW i H H2 Hi) as (i' & I1 & I2 & I3). destruct (LOW j W W2 Hj) as (j' & J1 & J2 & J3).
  destruct (sampled_value T f H W nodata p z (inject_Z i) (inject_Z j) n i' j' I S A I1 I2 J1 J2 (IN _ _ I3) (IN _ _ J3)) as (q & E & V).
  { intros a b Ha Hb _ _. apply N; assumption. }
  exists q. split; [exact E|]. rewrite V. unfold interpolate.
  destruct I3 as [-> | <-], J3 as [-> | <-]; rewrite ?inject_Z_plus; change (inject_Z 1) with 1%Q; ring.
Qed.

(** A grid that is aligned already is not changed. *)
Theorem align_fixed : forall (g : grid fl) T H W F nodata dt x y k l,
  grid_is g T H W 1 F nodata -> invertible T -> ~ (dy T == 0)%Q -> 2 <= H -> 2 <= W -> ~ (x == 0)%Q -> ~ (y == 0)%Q ->
  (x0 T == inject_Z k * x)%Q -> (y0 T == inject_Z l * y)%Q ->
  exists g' T' F', align_origin junk g dt x y Nearest = Ok g' /\ grid_is g' T' H W 1 F' nodata /\
    same_cells T T' /\ (x0 T' == x0 T)%Q /\ (y0 T' == y0 T)%Q /\
    forall i j, 0 <= i < H -> 0 <= j < W -> F' 0 i j = F 0 i j.
Proof.
  intros g T H W F nodata dt x y k l G I D H2 W2 X Y EX EY.
  rewrite (align_unfold g T H W 1 F nodata dt x y Nearest G X Y). cbn [sampling].
  pose proof (multiple_fixed x (x0 T) k X EX) as MX. pose proof (multiple_fixed y (y0 T) l Y EY) as MY.
  set (a := (x * inject_Z (rint (x0 T / x)))%Q) in *. set (b := (y * inject_Z (rint (y0 T / y)))%Q) in *.
  set (T' := mkT a b (dx T) (dy T) (sx T) (sy T)).
  assert (SC : same_cells T T') by (repeat split).
  assert (CP : forall i j, peq (centre T' i j) (centre T i j)) by (intros; apply centre_peq; [exact MX|exact MY|exact SC]).
  destruct (onto_nearest g T H W F nodata T' H W 0 0 0%Q 0%Q G I D ltac:(lia) ltac:(lia) ltac:(lia) ltac:(lia)) as (g' & F' & E & G' & P).
  { destruct (CP 0 0) as [C1 C2]. split; symmetry; [rewrite C1|rewrite C2]; unfold centre, world, half; cbn [fst snd]; change (inject_Z 0) with 0%Q; reflexivity. }
  { split; [lra|]. change 0%Q with (inject_Z 0). rewrite <- Zle_Qle. lia. }
  { split; [lra|]. change 0%Q with (inject_Z 0). rewrite <- Zle_Qle. lia. }
  exists g', T', F'. split; [exact E|]. split; [exact G'|]. split; [exact SC|]. split; [exact MX|]. split; [exact MY|].
  intros i j Hi Hj. exact (shown_centre fl T (F 0) H W nodata _ i j _ I Hi Hj (CP i j) (P i j Hi Hj)).
Qed.
Theorem align_fixed_linear : forall (g : grid fl) T H W nb F n nodata x y k l,
  grid_is g T H W nb F nodata -> invertible T -> ~ (dy T == 0)%Q -> 2 <= H -> 2 <= W -> ~ (x == 0)%Q -> ~ (y == 0)%Q ->
  (x0 T == inject_Z k * x)%Q -> (y0 T == inject_Z l * y)%Q ->
  (forall c a b, 0 <= c < nb -> 0 <= a < H -> 0 <= b < W -> F c a b = Some (n c a b)) ->
  exists g' T' F', align_origin junk g DFloat x y Linear = Ok g' /\ grid_is g' T' H W nb F' nodata /\
    same_cells T T' /\ (x0 T' == x0 T)%Q /\ (y0 T' == y0 T)%Q /\
    forall c i j, 0 <= c < nb -> 0 <= i < H -> 0 <= j < W -> exists q, F' c i j = Some q /\ (q == n c i j)%Q.
Proof.
  intros g T H W nb F n nodata x y k l G I D H2 W2 X Y EX EY N.
  rewrite (align_unfold g T H W nb F nodata DFloat x y Linear G X Y). cbn [sampling].
  pose proof (multiple_fixed x (x0 T) k X EX) as MX. pose proof (multiple_fixed y (y0 T) l Y EY) as MY.
  set (a := (x * inject_Z (rint (x0 T / x)))%Q) in *. set (b := (y * inject_Z (rint (y0 T / y)))%Q) in *.
  set (T' := mkT a b (dx T) (dy T) (sx T) (sy T)).
  assert (SC : same_cells T T') by (repeat split).
  assert (CP : forall i j, peq (centre T' i j) (centre T i j)) by (intros; apply centre_peq; [exact MX|exact MY|exact SC]).
  assert (AP : at_position T (centre T' 1 1) 1 1).
  { destruct (CP 1 1) as [C1 C2]. split; symmetry; [rewrite C1|rewrite C2]; unfold centre, world, half; cbn [fst snd]; change (inject_Z 1) with 1%Q; reflexivity. }
  assert (ONE : forall m, 2 <= m -> (1 < inject_Z m)%Q) by (clear; intros m Hm; change 1%Q with (inject_Z 1); rewrite <- Zlt_Qlt; lia).
  destruct (onto_linear g T H W nb F nodata T' H W 1 1 1%Q 1%Q 1 1 1%Q 1%Q G I D H2 W2 ltac:(lia) ltac:(lia) ltac:(lia) ltac:(lia) AP
    ltac:(lra) ltac:(lra) ltac:(lia) ltac:(lia) AP (ONE H H2) (ONE W W2)) as (g' & F' & E & G' & P).
  exists g', T', F'. split; [exact E|]. split; [exact G'|]. split; [exact SC|]. split; [exact MX|]. split; [exact MY|].
  intros c i j Hc Hi Hj. apply (sampled_centre T (F c) H W nodata (centre T' i j) i j (n c) _ I H2 W2 Hi Hj (CP i j)).
  - intros; apply N; assumption.
  - apply P; assumption.
Qed.

Theorem refused : forall (g : grid fl) dt x y m,
  ((x == 0 \/ y == 0)%Q -> align_origin junk g dt x y m = Err ZeroDivisionError) /\
  ((x <= 0 \/ y <= 0)%Q -> resample junk g dt x y m = Err ValueError) /\
  (forall T H W nb F nodata, grid_is g T H W nb F nodata -> 2 <= H -> 2 <= W ->
   forall tnew, resample_transform junk g dt tnew Other = Err NotImplementedError).
Proof.
  intros g dt x y m. split; [|split].
  - intros [E | E]; apply Qeq_bool_iff in E; unfold align_origin; rewrite E; [reflexivity|rewrite orb_true_r; reflexivity].
  - intros [E | E]; apply Qle_bool_iff in E; unfold resample; rewrite E; [reflexivity|rewrite orb_true_r; reflexivity].
  - intros T H W nb F nodata G H2 W2 tnew. destruct (grid_size _ _ _ _ _ _ _ _ G) as (Sz & _). unfold resample_transform. rewrite Sz.
    unfold onto. destruct (full_selects H ltac:(lia)) as [S1 _]. destruct (full_selects W ltac:(lia)) as [S2 _].
    destruct (coord_slices tnew H W _ _ _ _ _ _ _ _ S1 S2) as (xy & Exy & Sxy & _);
      [rewrite zrange_length; lia|rewrite zrange_length; lia|].
    unfold full. rewrite Exy. cbn [bind]. rewrite Sxy. reflexivity.
Qed.
End Grids.
