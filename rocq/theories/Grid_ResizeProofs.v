(** Resizing, masks and arithmetic on grids: proofs. *)
From Coq Require Import List ZArith QArith Qround Qabs Lia Lqa Bool.
From Verif Require Import Band_Model Band_Spec Band_Proofs Band_IndexModel Band_IndexSpec
  Band_IndexProofs Band_MaskProofs Grid_Model Grid_Spec Grid_Proofs Grid_OpsProofs.
Import ListNotations.
Open Scope Z_scope.

Lemma round_unique : forall q z, (inject_Z z - (1 # 2) < q)%Q -> (q <= inject_Z z + (1 # 2))%Q -> round_ q = z.
Proof.
  intros q z A B. unfold round_. pose proof (floor_bounds q) as [C D].
  destruct (Qle_bool (q - inject_Z (Qfloor q)) half) eqn:E;
    [apply Qle_bool_t in E|apply Qle_bool_f in E]; unfold half in E.
  - assert (X : (inject_Z (Qfloor q) < inject_Z (z + 1))%Q) by (rewrite inj_add, inj_1; lra).
    assert (X' : (inject_Z z < inject_Z (Qfloor q + 1))%Q) by (rewrite inj_add, inj_1; lra).
    rewrite <- Zlt_Qlt in *. lia.
  - assert (X : (inject_Z (Qfloor q) < inject_Z z)%Q) by lra.
    assert (X' : (inject_Z z < inject_Z (Qfloor q + 2))%Q)
      by (rewrite inj_add; change (inject_Z 2) with (2 # 1); lra).
    rewrite <- Zlt_Qlt in *. lia.
Qed.

Lemma bbox_unskewed : forall T H W, 0 <= H -> 0 <= W -> (0 < dx T)%Q -> (0 < dy T)%Q ->
  (sx T == 0)%Q -> (sy T == 0)%Q ->
  let '(b0, b1, b2, b3) := bbox T H W in (b0 == x0 T /\ b1 == y0 T /\
     b2 == x0 T + dx T * inject_Z W /\ b3 == y0 T + dy T * inject_Z H)%Q.
Proof.
  intros T H W HH HW Dx Dy Sx Sy. unfold bbox, extent. rewrite !Z.add_0_r.
  set (X1 := if Qeq_bool (sgn (dx T)) (sgn (sx T)) then _ else _).
  set (Y1 := if Qeq_bool (sgn (dy T)) (sgn (sy T)) then _ else _).
  assert (EX : (X1 == x0 T + dx T * inject_Z W + sx T * inject_Z H)%Q)
    by (apply corner_branch; left; assumption).
  assert (EY : (Y1 == y0 T + dy T * inject_Z H + sy T * inject_Z W)%Q)
    by (apply corner_branch; left; assumption).
  rewrite Sx in EX. rewrite Sy in EY.
  apply inj_le in HH, HW. change (inject_Z 0) with 0%Q in HH, HW.
  assert (x0 T <= X1)%Q by (rewrite EX; nra). assert (y0 T <= Y1)%Q by (rewrite EY; nra).
  destruct (qmin_spec (x0 T) X1) as [[? ?]|[? ?]]; destruct (qmax_spec (x0 T) X1) as [[? ?]|[? ?]];
  destruct (qmin_spec (y0 T) Y1) as [[? ?]|[? ?]]; destruct (qmax_spec (y0 T) Y1) as [[? ?]|[? ?]];
  repeat split; lra.
Qed.

Section Ops.
Variable V : Type.
Variable junk : Z -> Z -> V.
Variable v0 : V.

(** One axis: the copied interval and its place in the new grid. *)
Lemma axis_offsets : forall (o d n0 n2 : Q) (W a : Z), (0 < d)%Q ->
  (inject_Z a - (1 # 2) < (n0 - o) / d)%Q -> ((n0 - o) / d < inject_Z a + (1 # 2))%Q ->
  let c := Qceiling ((n2 - n0) / d) in
  let m := (n0 + d * inject_Z c)%Q in
  round_ ((m - n0) / d) = c /\ round_ ((o - n0) / d) = - a /\
  round_ ((n0 - o) / d) = a /\ round_ ((m - o) / d) = a + c.
Proof.
  intros o d n0 n2 W a D L U c m. subst m.
  assert (N : ~ (d == 0)%Q) by lra.
  split; [|split; [|split]]; apply round_unique.
  - assert (E : ((n0 + d * inject_Z c - n0) / d == inject_Z c)%Q) by (field; exact N). rewrite E. lra.
  - assert (E : ((n0 + d * inject_Z c - n0) / d == inject_Z c)%Q) by (field; exact N). rewrite E. lra.
  - assert (E : ((o - n0) / d == - ((n0 - o) / d))%Q) by (field; exact N). rewrite E, inject_Z_opp. lra.
  - assert (E : ((o - n0) / d == - ((n0 - o) / d))%Q) by (field; exact N). rewrite E, inject_Z_opp. lra.
  - lra.
  - lra.
  - assert (E : ((n0 + d * inject_Z c - o) / d == inject_Z c + (n0 - o) / d)%Q) by (field; exact N).
    rewrite E, inj_add. lra.
  - assert (E : ((n0 + d * inject_Z c - o) / d == inject_Z c + (n0 - o) / d)%Q) by (field; exact N).
    rewrite E, inj_add. lra.
Qed.

Lemma round_morph : forall a b, (a == b)%Q -> round_ a = round_ b.
Proof.
  intros a b E. unfold round_. rewrite (Qfloor_comp _ _ E).
  replace (Qle_bool (a - inject_Z (Qfloor b)) half) with (Qle_bool (b - inject_Z (Qfloor b)) half); [reflexivity|].
  apply eq_true_iff_eq. rewrite !Qle_bool_iff, E. reflexivity.
Qed.

Lemma resize_spec : forall g T H W nb F nodata n0 n1 n2 n3 a b,
  grid_is g T H W nb F nodata -> (0 < dx T)%Q -> (0 < dy T)%Q -> (sx T == 0)%Q -> (sy T == 0)%Q ->
  (inject_Z a - (1 # 2) < (n0 - x0 T) / dx T < inject_Z a + (1 # 2))%Q ->
  (inject_Z b - (1 # 2) < (n1 - y0 T) / dy T < inject_Z b + (1 # 2))%Q ->
  let nx := Qceiling ((n2 - n0) / dx T) in
  let ny := Qceiling ((n3 - n1) / dy T) in
  0 <= nx -> 0 <= ny -> a <= W -> 0 <= a + nx -> b <= H -> 0 <= b + ny ->
  exists g' F', resize junk v0 g (n0, n1, n2, n3) = Ok g' /\
    grid_is g' (mkT n0 n1 (dx T) (dy T) (sx T) (sy T)) ny nx nb F' nodata /\
    forall k i j, 0 <= k < nb -> 0 <= i < ny -> 0 <= j < nx ->
      (0 <= i + b < H -> 0 <= j + a < W -> F' k i j = F k (i + b) (j + a)) /\
      (~ (0 <= i + b < H /\ 0 <= j + a < W) -> F' k i j = nodata).
Proof.
  intros g T H W nb F nodata n0 n1 n2 n3 a b G Dx Dy Sx Sy A B nx ny NX NY A1 A2 B1 B2.
  destruct (grid_size V g T H W nb F nodata G) as (Sz & HH & HW & Hn).
  destruct G as (ET & SH & EN & Ed).
  unfold resize. rewrite Sz, ET, Ed. pose proof (bbox_unskewed T H W HH HW Dx Dy Sx Sy) as BB.
  destruct (bbox T H W) as [[[b0 b1] b2] b3]. destruct BB as (E0 & E1 & E2 & E3).
  rewrite (Qeq_bool_false (dx T) 0), (Qeq_bool_false (dy T) 0) by lra. simpl orb. cbv iota.
  fold nx ny.
  destruct (axis_offsets (x0 T) (dx T) n0 n2 W a Dx (proj1 A) (proj2 A)) as (R1 & R2 & R3 & R4).
  destruct (axis_offsets (y0 T) (dy T) n1 n3 H b Dy (proj1 B) (proj2 B)) as (S1 & S2 & S3 & S4).
  fold nx in R1, R4. fold ny in S1, S4.
  assert (M1 : forall z : Q, round_ ((b0 - z) / dx T) = round_ ((x0 T - z) / dx T))
    by (intros; apply round_morph; rewrite E0; reflexivity).
  assert (M2 : forall z : Q, round_ ((z - b0) / dx T) = round_ ((z - x0 T) / dx T))
    by (intros; apply round_morph; rewrite E0; reflexivity).
  assert (M3 : forall z : Q, round_ ((b1 - z) / dy T) = round_ ((y0 T - z) / dy T))
    by (intros; apply round_morph; rewrite E1; reflexivity).
  assert (M4 : forall z : Q, round_ ((z - b1) / dy T) = round_ ((z - y0 T) / dy T))
    by (intros; apply round_morph; rewrite E1; reflexivity).
  cbv zeta. rewrite M1, !M2, M3, !M4, R1, R2, R3, R4, S1, S2, S3, S4.
  clear M1 M2 M3 M4 R1 R2 R3 R4 S1 S2 S3 S4 E0 E1 E2 E3 A B Sx Sy.
  set (F' := fun k i j => if (0 <=? i + b) && (i + b <? H) && (0 <=? j + a) && (j + a <? W)
                          then F k (i + b) (j + a) else nodata).
  set (f := fun b' : band V => _).
  destruct (mapM_nth (band V) (band V) f (gbands g) (fun n b' => holds b' ny nx (F' (Z.of_nat n))))
    as (bs & Eb & L & P).
  { intros n b' Eb'. unfold f. destruct SH as [_ SH]. specialize (SH n b' Eb').
    destruct (new_band_holds V junk v0 (gcls g) ny nx (Some nodata) NY NX) as (nbd & f0 & En & Hn' & Hv).
    rewrite En. simpl.
    pose proof SH as (_ & _ & K).
    destruct (K junk (Z.max 0 b) (Z.max 0 a) (Z.min H (b + ny) - Z.max 0 b) (Z.min W (a + nx) - Z.max 0 a))
      as (blk & Ek & K1 & K2 & K3).
    { unfold in_bounds. lia. }
    rewrite Ek. simpl.
    destruct (setblock_holds V nbd ny nx f0 (Z.max 0 (- b)) (Z.max 0 (- a)) blk Hn') as (b'' & E'' & P'').
    { unfold in_bounds. lia. }
    unfold setblock_. rewrite E''. exists b''. split; [reflexivity|]. apply P''.
    intros p q Hp Hq. unfold F'. split.
    - intros C. rewrite K3 by lia.
      destruct ((0 <=? p + b) && (p + b <? H) && (0 <=? q + a) && (q + a <? W)) eqn:Ec.
      + f_equal; lia.
      + exfalso. lia.
    - intros C. rewrite (Hv nodata eq_refl).
      destruct ((0 <=? p + b) && (p + b <? H) && (0 <=? q + a) && (q + a <? W)) eqn:Ec; [|reflexivity].
      exfalso. apply C. lia. }
  rewrite Eb. simpl. eexists _, F'. split; [reflexivity|]. split.
  - split; [reflexivity|]. split; [|split; [simpl; lia|reflexivity]].
    split; [|exact P]. simpl. intros ->. simpl in L. lia.
  - intros k i j Hk Hi Hj. unfold F'.
    destruct ((0 <=? i + b) && (i + b <? H) && (0 <=? j + a) && (j + a <? W)) eqn:Ec; split; intros; try reflexivity; lia.
Qed.

(** * Masks *)
Variable isnan : V -> bool.
Variable veq : V -> V -> bool.

Lemma isdata_spec : forall nodata v, isdata isnan veq nodata v = true <-> is_data isnan veq nodata v.
Proof.
  intros. unfold isdata, is_data. destruct (isnan nodata); rewrite negb_true_iff; split; intuition congruence.
Qed.

Lemma full_selects : forall n, 0 <= n -> selects n full false (zrange 0 n) /\ forward n full.
Proof.
  intros n Hn. split.
  - rewrite <- py_range_full by assumption. constructor. apply full_slice. assumption.
  - intros s e st E. rewrite full_slice in E by assumption. injection E as <- <- <-. simpl. assumption.
Qed.

Lemma plane_read : forall bands H W F k, stack_holds bands H W F -> 0 <= k < Z.of_nat (length bands) ->
  exists r, getitem junk bands (KeyTuple [full; full; KInt k]) = Ok r /\ shp r = [H; W] /\
    forall i j, 0 <= i < H -> 0 <= j < W -> elt r [i; j] = F k i j.
Proof.
  intros bands H W F k SH Hk. destruct (stack_size V _ _ _ _ SH) as [HH HW].
  destruct (full_selects H HH) as [S1 F1]. destruct (full_selects W HW) as [S2 F2].
  destruct (getitem_spec V junk bands H W F full full [KInt k] false _ false _ true [k] SH S1 S2
              (selb_one _ _ _ _ (sel_int _ k Hk)) F1 F2) as (r & E & S & P).
  exists r. split; [exact E|]. split.
  - rewrite S. simpl. rewrite !zrange_length. f_equal; [lia|]. f_equal. lia.
  - intros i j Hi Hj. specialize (P (Z.to_nat i) (Z.to_nat j) 0%nat i j k). simpl in P.
    rewrite !Z2Nat.id in P by lia. apply P; [apply zrange_nth0; lia|apply zrange_nth0; lia|reflexivity].
Qed.

Lemma data_mask_full_spec : forall g T H W nb F nodata, grid_is g T H W nb F nodata ->
  exists m, data_mask_full junk isnan veq g = Ok (Mask3 H W nb m) /\
    forall y x k, 0 <= y < H -> 0 <= x < W -> 0 <= k < nb ->
      m y x k = isdata isnan veq nodata (F k y x).
Proof.
  intros g T H W nb F nodata G. destruct (grid_size V g T H W nb F nodata G) as (Sz & HH & HW & Hn).
  destruct G as (ET & SH & EN & Ed). unfold data_mask_full. rewrite Sz, EN.
  destruct (mapM_nth Z (nd V) (fun k => getitem junk (gbands g) (KeyTuple [full; full; KInt k]))
    (zrange 0 nb) (fun n p => forall i j, 0 <= i < H -> 0 <= j < W -> elt p [i; j] = F (Z.of_nat n) i j))
    as (ps & E & L & P).
  { intros n k Ek. apply zrange_nth in Ek.
    destruct (plane_read (gbands g) H W F k SH) as (r & Er & _ & Pr); [lia|].
    exists r. split; [exact Er|]. intros i j Hi Hj. rewrite Pr by assumption. f_equal. lia. }
  rewrite E. simpl. eexists. split; [reflexivity|]. intros y x k Hy Hx Hk. simpl.
  rewrite zrange_length in L.
  destruct (nth_error ps (Z.to_nat k)) as [p|] eqn:Ep.
  - rewrite (P _ _ Ep y x Hy Hx), Ed, Z2Nat.id by lia. reflexivity.
  - apply nth_error_None in Ep. lia.
Qed.

Lemma data_mask_spec : forall g T H W nb F nodata, grid_is g T H W nb F nodata ->
  exists m, data_mask junk isnan veq g = Ok (Mask2 H W m) /\
    forall y x, 0 <= y < H -> 0 <= x < W ->
      (m y x = true <-> forall k, 0 <= k < nb -> is_data isnan veq nodata (F k y x)).
Proof.
  intros g T H W nb F nodata G. destruct (data_mask_full_spec _ _ _ _ _ _ _ G) as (m & E & P).
  unfold data_mask. rewrite E. simpl. eexists. split; [reflexivity|]. intros y x Hy Hx. simpl.
  rewrite forallb_forall. split.
  - intros A k Hk. apply isdata_spec. rewrite <- (P y x k) by assumption. apply A, in_zrange. lia.
  - intros A k Hk. apply in_zrange in Hk. rewrite P by lia. apply isdata_spec, A. lia.
Qed.

Lemma set_nodata_spec : forall g T H W nb F nodata val, grid_is g T H W nb F nodata ->
  exists g' F', set_nodata_value junk isnan veq g val = (g', None) /\
    grid_is g' T H W nb F' val /\
    forall k y x, 0 <= k < nb -> 0 <= y < H -> 0 <= x < W ->
      (is_data isnan veq nodata (F k y x) -> F' k y x = F k y x) /\
      (~ is_data isnan veq nodata (F k y x) -> F' k y x = val).
Proof.
  intros g T H W nb F nodata val G. destruct (data_mask_full_spec _ _ _ _ _ _ _ G) as (m & Em & Pm).
  destruct (grid_size V g T H W nb F nodata G) as (Sz & HH & HW & Hn).
  destruct G as (ET & SH & EN & Ed). unfold set_nodata_value. rewrite Em.
  destruct (whole V junk (gbands g) H W F SH) as (r & Er & Sr & Pr). unfold full in *. rewrite Er. rewrite Sr.
  set (w := mkN [H; W; Z.of_nat (length (gbands g))] _).
  destruct (full_selects H HH) as [S1 F1]. destruct (full_selects W HW) as [S2 F2].
  destruct (full_selects (Z.of_nat (length (gbands g))) ltac:(lia)) as [S3 _].
  destruct (setitem_spec V (gbands g) H W F full full [full] false _ false _ false _ true w
     SH S1 S2 (selb_one _ _ _ _ S3) F1 F2 (or_introl eq_refl) (or_introl eq_refl)) as [K _].
  assert (CV : forall i j k : nat, cell_value true w (Z.of_nat (length (zrange 0 H))) (Z.of_nat (length (zrange 0 W)))
     (Z.of_nat (length (zrange 0 (Z.of_nat (length (gbands g)))))) (Z.of_nat i) (Z.of_nat j) (Z.of_nat k)
     = Some (elt w [Z.of_nat i; Z.of_nat j; Z.of_nat k])).
  { intros. unfold cell_value, w. simpl shp. cbv iota. rewrite !zrange_length, !Z.sub_0_r, !Z2Nat.id by lia.
    unfold rep. rewrite !Z.eqb_refl. reflexivity. }
  destruct K as (bands' & F' & E' & L' & SH' & P1 & P2).
  { exists 0%nat, 0%nat, 0%nat. rewrite CV. discriminate. }
  unfold full in E'. rewrite E'. eexists _, F'. split; [reflexivity|]. split.
  - split; [exact ET|]. split; [exact SH'|]. split; [simpl; lia|reflexivity].
  - intros k y x Hk Hy Hx. specialize (P1 (Z.to_nat y) (Z.to_nat x) (Z.to_nat k) y x k).
    rewrite CV in P1. rewrite !zrange_nth0 in P1 by lia.
    specialize (P1 eq_refl eq_refl eq_refl). injection P1 as P1. rewrite <- P1, !Z2Nat.id by lia.
    unfold w; simpl. rewrite Pm by lia. rewrite Pr by lia. rewrite <- isdata_spec.
    destruct (isdata isnan veq nodata (F k y x)); split; congruence.
Qed.

Lemma flat_map_single : forall A B (f : A -> list B) (p : A -> bool) (h : A -> B) l,
  (forall a, In a l -> f a = if p a then [h a] else []) -> flat_map f l = map h (filter p l).
Proof.
  intros A B f p h l. induction l as [|a l IH]; intros E; [reflexivity|]. simpl.
  rewrite E by (left; reflexivity). rewrite IH by (intros; apply E; right; assumption).
  destruct (p a); reflexivity.
Qed.

Lemma filter_ext_in' : forall A (p q : A -> bool) l, (forall a, In a l -> p a = q a) -> filter p l = filter q l.
Proof.
  intros A p q l. induction l as [|a l IH]; intros E; [reflexivity|]. simpl.
  rewrite E by (left; reflexivity). rewrite IH by (intros; apply E; right; assumption). reflexivity.
Qed.

Lemma apply_spec : forall g T H W F nodata func, grid_is g T H W 1 F nodata ->
  (forall l, length (func l) = length l) ->
  let valid := true_cells H W (fun y x => isdata isnan veq nodata (F 0 y x)) in
  exists g' F', apply junk isnan veq g func = (g', None) /\ grid_is g' T H W 1 F' nodata /\
    map (fun p => F' 0 (fst p) (snd p)) valid = func (map (fun p => F 0 (fst p) (snd p)) valid) /\
    forall y x, 0 <= y < H -> 0 <= x < W -> ~ is_data isnan veq nodata (F 0 y x) -> F' 0 y x = F 0 y x.
Proof.
  intros g T H W F nodata func G Len valid. destruct (data_mask_full_spec _ _ _ _ _ _ _ G) as (m & Em & Pm).
  destruct G as (ET & SH & EN & Ed). unfold apply. rewrite Em.
  destruct (get_mask_spec V junk (gbands g) H W F SH) as [_ GM]. rewrite EN in GM. rewrite GM.
  set (vs := flat_map _ _).
  assert (Ev : vs = map (fun p => F 0 (fst p) (snd p)) valid).
  { unfold vs. change (zrange 0 1) with [0].
    rewrite (flat_map_single _ _ _ (fun p => isdata isnan veq nodata (F 0 (fst p) (snd p)))
               (fun p => F 0 (fst p) (snd p))).
    - reflexivity.
    - intros p I. apply in_cells in I. simpl. rewrite Pm by lia.
      destruct (isdata isnan veq nodata (F 0 (fst p) (snd p))); reflexivity. }
  assert (Et : true_cells H W (mask_of (Mask3 H W 1 m) 0) = valid).
  { unfold valid, true_cells. apply filter_ext_in'. intros p I. apply in_cells in I. simpl. apply Pm; lia. }
  destruct (set_mask_spec V junk (gbands g) H W F (Mask3 H W 1 m) (M1 (func vs)) SH) as (bands' & F' & E' & L' & SH' & P1 & P2).
  { simpl. lia. }
  { intros k Hk. assert (k = 0)%nat by lia. subst k. exists (func vs). split; [reflexivity|].
    rewrite Len, Et, Ev, map_length. reflexivity. }
  rewrite E'. eexists _, F'. split; [reflexivity|]. split.
  - split; [exact ET|]. split; [exact SH'|]. split; [simpl; lia|exact Ed].
  - split.
    + specialize (P1 0%nat (func vs) ltac:(lia)). rewrite Et in P1. rewrite <- Ev. apply P1. split; [reflexivity|].
      rewrite Len, Ev, map_length. reflexivity.
    + intros y x Hy Hx ND. apply (P2 0%nat y x); [lia|]. simpl. rewrite Pm by lia.
      rewrite <- isdata_spec in ND. destruct (isdata isnan veq nodata (F 0 y x)); congruence.
Qed.

Lemma T_eqb_refl : forall T, T_eqb T T = true.
Proof. intros. unfold T_eqb. assert (R : forall q, Qeq_bool q q = true) by (intros; apply Qeq_bool_iff; reflexivity). rewrite !R. reflexivity. Qed.

Lemma read_all : forall bands H W F, stack_holds bands H W F ->
  exists r, getitem junk bands (KeyTuple [full; full]) = Ok r /\
    shp r = [H; W; Z.of_nat (length bands)] /\
    forall i j k, 0 <= i < H -> 0 <= j < W -> 0 <= k < Z.of_nat (length bands) -> elt r [i; j; k] = F k i j.
Proof.
  intros bands H W F SH. destruct (stack_size V _ _ _ _ SH) as [HH HW].
  destruct (full_selects H HH) as [S1 F1]. destruct (full_selects W HW) as [S2 F2].
  destruct (getitem_spec V junk bands H W F full full [] false _ false _ false _ SH S1 S2
              (selb_all _) F1 F2) as (r & E & S & P).
  exists r. split; [exact E|]. split.
  - rewrite S. simpl. rewrite !zrange_length. f_equal; [lia|]. f_equal; [lia|]. f_equal. lia.
  - intros i j k Hi Hj Hk. specialize (P (Z.to_nat i) (Z.to_nat j) (Z.to_nat k) i j k). simpl in P.
    rewrite !Z2Nat.id in P by lia. apply P; apply zrange_nth0; lia.
Qed.

Lemma combine_spec : forall op g h T H W nb F F2 nodata nodata2,
  grid_is g T H W nb F nodata -> grid_is h T H W nb F2 nodata2 ->
  exists r, combine_grids junk v0 op g h = Ok r /\
    grid_is r T H W nb (fun k i j => op (F k i j) (F2 k i j)) nodata.
Proof.
  intros op g h T H W nb F F2 nodata nodata2 G G2.
  destruct (grid_size V g T H W nb F nodata G) as (Sz & HH & HW & Hn).
  destruct (grid_size V h T H W nb F2 nodata2 G2) as (Sz2 & _).
  destruct G as (ET & SH & EN & Ed). destruct G2 as (ET2 & SH2 & EN2 & Ed2).
  unfold combine_grids. rewrite ET, ET2, T_eqb_refl, Sz, Sz2. simpl fst; simpl snd. rewrite !Z.eqb_refl.
  replace (Nat.eqb (length (gbands g)) (length (gbands h))) with true by (symmetry; apply Nat.eqb_eq; lia).
  simpl. destruct (read_all _ _ _ _ SH) as (r & E & S & P). destruct (read_all _ _ _ _ SH2) as (r2 & E2 & S2 & P2).
  rewrite E, E2. simpl. rewrite Ed.
  destruct (make_grid_spec V junk v0 ClsComp T (mkN (shp r) (fun idx => op (elt r idx) (elt r2 idx))) nodata
     H W nb (fun k i j => op (F k i j) (F2 k i j))) as (g' & E' & G' & _); auto.
  { simpl. rewrite S, EN. reflexivity. }
  { intros i j k Hi Hj Hk. simpl. rewrite P, P2 by lia. reflexivity. }
  exists g'. split; assumption.
Qed.

Lemma combine_mismatch : forall op g h T H W nb F nodata T2 H2 W2 nb2 F2 nodata2,
  grid_is g T H W nb F nodata -> grid_is h T2 H2 W2 nb2 F2 nodata2 ->
  (H <> H2 \/ W <> W2 \/ ~ x0 T == x0 T2 \/ ~ y0 T == y0 T2 \/ ~ dx T == dx T2 \/ ~ dy T == dy T2
   \/ ~ sx T == sx T2 \/ ~ sy T == sy T2)%Q ->
  combine_grids junk v0 op g h = Err ValueError.
Proof.
  intros op g h T H W nb F nodata T2 H2 W2 nb2 F2 nodata2 G G2 D.
  destruct (grid_size V g T H W nb F nodata G) as (Sz & _).
  destruct (grid_size V h T2 H2 W2 nb2 F2 nodata2 G2) as (Sz2 & _).
  unfold combine_grids. rewrite Sz, Sz2. destruct G as (-> & _). destruct G2 as (-> & _). simpl fst; simpl snd.
  unfold T_eqb.
  destruct D as [N|[N|[N|[N|[N|[N|[N|N]]]]]]];
    [apply Z.eqb_neq in N|apply Z.eqb_neq in N|apply Qeq_bool_false in N..]; rewrite N;
    rewrite ?andb_false_r, ?andb_false_l; reflexivity.
Qed.
End Ops.
