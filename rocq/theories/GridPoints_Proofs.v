(** Proofs about gridpoints. *)
From Coq Require Import List ZArith QArith Qround Qabs Bool Lia Lqa Permutation.
From Verif Require Import Band_Model Band_Spec Band_IndexModel Band_IndexSpec Band_Proofs
  Band_IndexProofs Band_MaskProofs Grid_Model Grid_Spec Grid_Proofs Grid_OpsProofs Grid_ResizeProofs
  Grid_MoreProofs GridSample_Model GridSample_Spec GridSample_Proofs GridBilinear_Proofs.
Import ListNotations.
Open Scope Z_scope.

(** The cell of a point. *)
Definition cell_of (T : transform) (p : Q * Q) : Z * Z :=
  match indices_ T (fst p) (snd p) with Some c => c | None => (0, 0) end.

Lemma option_all_map : forall A B (f : A -> option B) (h : A -> B) l,
  (forall a, f a = Some (h a)) -> option_all (map f l) = Some (map h l).
Proof.
  intros A B f h l E. induction l as [|a l IH]; [reflexivity|]. cbn [map option_all].
  rewrite E, IH. reflexivity.
Qed.

Definition here (i j : Z) (p : Z * Z * Q) : bool := (fst (fst p) =? i) && (snd (fst p) =? j).

Lemma fill_sum_acc : forall l i j s,
  (fold_left (fun s p => if (fst (fst p) =? i) && (snd (fst p) =? j) then (s + snd p)%Q else s) l s
   == s + fold_right Qplus 0 (map snd (filter (here i j) l)))%Q.
Proof.
  induction l as [|p l IH]; intros i j s; cbn [fold_left filter map fold_right].
  - ring.
  - unfold here at 1. destruct ((fst (fst p) =? i) && (snd (fst p) =? j)); rewrite IH; cbn [map fold_right]; ring.
Qed.
Lemma fill_count_acc : forall l i j s,
  fold_left (fun s p => if (fst (fst p) =? i) && (snd (fst p) =? j) then s + 1 else s) l s
   = s + Z.of_nat (length (filter (here i j) l)).
Proof.
  induction l as [|p l IH]; intros i j s; cbn [fold_left filter length].
  - lia.
  - unfold here at 1. destruct ((fst (fst p) =? i) && (snd (fst p) =? j)); rewrite IH; cbn [length]; lia.
Qed.

Lemma fill_mean : forall ny nx l i j,
  mean (map snd (filter (here i j) l)) (at_ (fillarray ny nx l) i j).
Proof.
  intros ny nx l i j. unfold fillarray. cbn [at_]. unfold fill_count, fill_sum.
  rewrite fill_count_acc, Z.add_0_l. set (k := filter (here i j) l).
  destruct (Z.eqb_spec (Z.of_nat (length k)) 0) as [E | N]; cbn [negb]; split.
  - reflexivity.
  - intro X. exfalso. apply X. destruct k; [reflexivity|discriminate].
  - intro X. exfalso. apply N. destruct k; [reflexivity|discriminate].
  - intros _. eexists. split; [reflexivity|]. rewrite map_length, fill_sum_acc. fold k. field.
    intro X. apply N. unfold Qeq, inject_Z in X. simpl in X. lia.
Qed.

Lemma values_filter : forall i j cs zs, length cs = length zs ->
  values_in (i, j) cs zs (map snd (filter (here i j) (combine cs zs))).
Proof.
  intros i j. induction cs as [|c cs IH]; intros [|z zs] L; try discriminate; [constructor|].
  injection L as L. cbn [combine filter]. unfold here at 1. cbn [fst snd]. destruct c as [a b]. cbn [fst snd].
  destruct (Z.eqb_spec a i) as [-> | N]; cbn [andb].
  - destruct (Z.eqb_spec b j) as [-> | N]; cbn [map snd].
    + constructor. apply IH; exact L.
    + apply vi_out; [congruence|apply IH; exact L].
  - apply vi_out; [congruence|apply IH; exact L].
Qed.

Lemma values_in_fun : forall c cs zs r r', values_in c cs zs r -> values_in c cs zs r' -> r = r'.
Proof.
  intros c cs zs r r' A. revert r'. induction A; intros r' B; inversion B; subst; try contradiction.
  - reflexivity.
  - f_equal. apply IHA. assumption.
  - apply IHA. assumption.
Qed.

Lemma rint_comp : forall q q', (q == q')%Q -> rint q = rint q'.
Proof.
  intros q q' E. unfold rint. rewrite (Qfloor_comp q q' E).
  assert (E1 : (q - inject_Z (Qfloor q') == q' - inject_Z (Qfloor q'))%Q) by (rewrite E; reflexivity).
  rewrite (Qleb_comp half half ltac:(reflexivity) _ _ E1), (Qleb_comp _ _ E1 half half ltac:(reflexivity)).
  reflexivity.
Qed.

(** Values of [np.round] for positions counted from the corner. *)
Lemma rint_range : forall v m, (0 <= v <= m)%Q -> 0 <= rint (v - (1 # 2)) <= Qfloor m.
Proof.
  intros v m [A B]. pose proof (rint_near (v - (1 # 2))) as [C D].
  destruct (floor_bounds m) as [E F]. split.
  - destruct (Qlt_le_dec 0 v) as [P | P].
    + assert (X : (inject_Z 0 < inject_Z (rint (v - (1 # 2))) + 1)%Q) by (change (inject_Z 0) with 0%Q; clear - P C; lra).
      apply qz_le in X. exact X.
    + assert (Z0 : (v - (1 # 2) == - (1 # 2))%Q) by (clear - A P; lra).
      rewrite (rint_comp _ _ Z0). vm_compute. discriminate.
  - apply qz_le. clear - D B F. lra.
Qed.

Lemma floor_mono_pos : forall v, (0 <= v)%Q -> 0 <= Qfloor v.
Proof.
  intros v P. change 0 with (Qfloor 0). apply Qfloor_resp_le. exact P.
Qed.

Section P.
Variable junk : Z -> Z -> fl.

Lemma plane_write : forall (g : grid fl) T H W F nodata (A : arr fl),
  grid_is g T H W 1 F nodata -> 0 < H -> 0 < W ->
  exists bands F', setitem (gbands g) (KeyTuple [full; full; KInt 0]) true
      (mkN [H; W] (fun idx => match idx with [i; j] => at_ A i j | _ => None end)) = (bands, None) /\
    grid_is (mkG (gT g) bands (gcls g) (gnodata g)) T H W 1 F' nodata /\
    forall i j, 0 <= i < H -> 0 <= j < W -> F' 0 i j = at_ A i j.
Proof.
  intros g T H W F nodata A G HH HW. destruct G as (ET & SH & EN & Ed).
  set (w := mkN [H; W] _).
  destruct (full_selects H ltac:(lia)) as [S1 F1]. destruct (full_selects W ltac:(lia)) as [S2 F2].
  assert (S3 : selects (Z.of_nat (length (gbands g))) (KInt 0) true [0]) by (apply sel_int; lia).
  destruct (setitem_spec fl (gbands g) H W F full full [KInt 0] false _ false _ true _ true w
     SH S1 S2 (selb_one _ _ _ _ S3) F1 F2 (or_introl eq_refl) (or_introl eq_refl)) as [K _].
  assert (CV : forall i j k : nat, cell_value true w (Z.of_nat (length (zrange 0 H))) (Z.of_nat (length (zrange 0 W)))
     (Z.of_nat (length [0])) (Z.of_nat i) (Z.of_nat j) (Z.of_nat k)
     = Some (elt w [Z.of_nat i; Z.of_nat j])).
  { intros. unfold cell_value, w. simpl shp. cbv iota. rewrite !zrange_length, !Z.sub_0_r, !Z2Nat.id by lia.
    unfold rep. rewrite !Z.eqb_refl. reflexivity. }
  destruct K as (bands' & F' & E' & L' & SH' & P1 & P2).
  { exists 0%nat, 0%nat, 0%nat. rewrite CV. discriminate. }
  exists bands', F'. split; [exact E'|]. split.
  - split; [exact ET|]. split; [exact SH'|]. split; [simpl; lia|exact Ed].
  - intros y x Hy Hx. specialize (P1 (Z.to_nat y) (Z.to_nat x) 0%nat y x 0).
    rewrite CV in P1. rewrite !zrange_nth0 in P1 by lia.
    specialize (P1 eq_refl eq_refl eq_refl). injection P1 as P1. rewrite <- P1, !Z2Nat.id by lia.
    reflexivity.
Qed.

Lemma gridpoints_cells : forall T pts,
  (0 < dx T)%Q -> (0 < dy T)%Q -> (sx T == 0)%Q -> (sy T == 0)%Q -> pts <> [] ->
  (forall p, In p pts -> (x0 T <= fst (fst p))%Q /\ (y0 T <= snd (fst p))%Q) ->
  exists g H W F, gridpoints junk T pts = Ok g /\ grid_is g T H W 1 F None /\
    (forall p, In p pts -> in_cell T (fst p) (cell_of T (fst p)) /\ in_grid H W (cell_of T (fst p))) /\
    (exists p, In p pts /\ H = Qfloor ((snd (fst p) - y0 T) / dy T) + 1) /\
    (forall p, In p pts -> Qfloor ((snd (fst p) - y0 T) / dy T) < H) /\
    (exists p, In p pts /\ W = Qfloor ((fst (fst p) - x0 T) / dx T) + 1) /\
    (forall p, In p pts -> Qfloor ((fst (fst p) - x0 T) / dx T) < W) /\
    forall i j, 0 <= i < H -> 0 <= j < W ->
      mean (map snd (filter (here i j) (combine (map (fun p => cell_of T (fst p)) pts) (map snd pts)))) (F 0 i j).
Proof.
  intros T pts DX DY SX SY NE IN. destruct pts as [|p0 rest]; [contradiction|]. clear NE.
  unfold gridpoints.
  rewrite (Qeq_bool_false (dx T) 0) by (clear - DX; lra). rewrite (Qeq_bool_false (dy T) 0) by (clear - DY; lra).
  cbn [orb].
  destruct (qmaxl_spec (map (fun p => snd (fst p)) rest) (snd (fst p0))) as (Y1 & Y2 & yv & Y3 & Y4).
  destruct (qmaxl_spec (map (fun p => fst (fst p)) rest) (fst (fst p0))) as (X1 & X2 & xv & X3 & X4).
  set (ym := qmaxl (map (fun p => snd (fst p)) rest) (snd (fst p0))) in *.
  set (xm := qmaxl (map (fun p => fst (fst p)) rest) (fst (fst p0))) in *.
  change (snd (fst p0) :: map (fun p => snd (fst p)) rest) with (map (fun p : Q*Q*Q => snd (fst p)) (p0 :: rest)) in Y3.
  change (fst (fst p0) :: map (fun p => fst (fst p)) rest) with (map (fun p : Q*Q*Q => fst (fst p)) (p0 :: rest)) in X3.
  apply in_map_iff in Y3. destruct Y3 as (py & <- & Ipy). apply in_map_iff in X3. destruct X3 as (px & <- & Ipx).
  assert (BY : forall p, In p (p0 :: rest) -> (y0 T <= snd (fst p) <= ym)%Q).
  { intros p Ip. split; [apply IN; exact Ip|]. destruct Ip as [<- | Ip]; [exact Y1|].
    apply Y2, (in_map (fun p : Q*Q*Q => snd (fst p))), Ip. }
  assert (BX : forall p, In p (p0 :: rest) -> (x0 T <= fst (fst p) <= xm)%Q).
  { intros p Ip. split; [apply IN; exact Ip|]. destruct Ip as [<- | Ip]; [exact X1|].
    apply X2, (in_map (fun p : Q*Q*Q => fst (fst p))), Ip. }
  assert (FY : forall y, (y0 T <= y <= ym)%Q -> (0 <= (y - y0 T) / dy T <= (ym - y0 T) / dy T)%Q).
  { intros y Hy. split; [apply Qle_shift_div_l; [exact DY|clear - Hy; lra]|].
    apply Qle_shift_div_l; [exact DY|]. field_simplify; [|clear - DY; lra].
    clear - Hy. lra. }
  assert (FX : forall y, (x0 T <= y <= xm)%Q -> (0 <= (y - x0 T) / dx T <= (xm - x0 T) / dx T)%Q).
  { intros y Hy. split; [apply Qle_shift_div_l; [exact DX|clear - Hy; lra]|].
    apply Qle_shift_div_l; [exact DX|]. field_simplify; [|clear - DX; lra].
    clear - Hy. lra. }
  set (H := Qfloor ((ym - y0 T) / dy T) + 1). set (W := Qfloor ((xm - x0 T) / dx T) + 1).
  assert (EH : H = Qfloor ((snd (fst py) - y0 T) / dy T) + 1).
  { unfold H. f_equal. apply Qfloor_comp. rewrite Y4. reflexivity. }
  assert (EW : W = Qfloor ((fst (fst px) - x0 T) / dx T) + 1).
  { unfold W. f_equal. apply Qfloor_comp. rewrite X4. reflexivity. }
  assert (PH : 1 <= H).
  { rewrite EH. assert (0 <= Qfloor ((snd (fst py) - y0 T) / dy T)) by (apply floor_mono_pos, FY, BY; exact Ipy). lia. }
  assert (PW : 1 <= W).
  { rewrite EW. assert (0 <= Qfloor ((fst (fst px) - x0 T) / dx T)) by (apply floor_mono_pos, FX, BX; exact Ipx). lia. }
  assert (INV : invertible T).
  { unfold invertible. rewrite SX. setoid_replace (dx T * dy T - 0 * sy T)%Q with (dx T * dy T)%Q by ring.
    intro Z. apply Qmult_integral in Z. clear - Z DX DY. lra. }
  assert (DY0 : ~ (dy T == 0)%Q) by (clear - DY; lra).
  assert (IC : forall x y, exists i j, positions T x y = Some (i, j) /\
     (i == (y - y0 T) / dy T - (1 # 2) /\ j == (x - x0 T) / dx T - (1 # 2))%Q).
  { intros x y. destruct (positions_affine T INV DY0) as (a & b & c & a' & b' & c' & Q).
    destruct (Q x y) as (i & j & E & _ & _ & K). exists i, j. split; [exact E|]. apply K; assumption. }
  assert (IE : forall p, indices_ T (fst p) (snd p) = Some (cell_of T p)).
  { intro p. unfold cell_of, indices_. destruct (IC (fst p) (snd p)) as (i & j & -> & _). reflexivity. }
  assert (CG : forall p, In p (p0 :: rest) -> in_grid H W (cell_of T (fst p))).
  { intros p Ip. unfold cell_of, indices_. destruct (IC (fst (fst p)) (snd (fst p))) as (i & j & -> & Ei & Ej).
    unfold in_grid. cbn [fst snd]. rewrite (rint_comp _ _ Ei), (rint_comp _ _ Ej).
    pose proof (rint_range _ _ (FY _ (BY _ Ip))). pose proof (rint_range _ _ (FX _ (BX _ Ip))).
    unfold H, W. lia. }
  unfold np_empty.
  destruct (Z.ltb_spec H 0); [lia|]. destruct (Z.ltb_spec W 0); [lia|]. cbn [orb bind].
  destruct (make_grid_spec2 fl junk (Some 0%Q) ClsComp T
     (mkN [H; W] (fun idx => match idx with [i; j] => junk i j | _ => None end)) None H W (fun _ i j => junk i j))
    as (g & Eg & G & _); try lia; [reflexivity|reflexivity|].
  cbn [at_]. rewrite Eg. cbn [bind].
  rewrite (option_all_map _ _ _ (fun p => cell_of T (fst p))) by (intro p; apply IE).
  set (cs := map (fun p : Q * Q * Q => cell_of T (fst p)) (p0 :: rest)).
  replace (existsb _ cs) with false.
  2:{ symmetry. apply not_true_is_false. intro X. apply existsb_exists in X. destruct X as (c & Ic & Xc).
      unfold cs in Ic. apply in_map_iff in Ic. destruct Ic as (p & <- & Ip). specialize (CG _ Ip).
      unfold in_grid in CG. rewrite !orb_true_iff, !Z.ltb_lt in Xc. lia. }
  destruct (plane_write g T H W _ None (fillarray H W (combine cs (map snd (p0 :: rest)))) G) as (bands & F' & E' & G' & P');
    [lia|lia|].
  rewrite E'. exists (mkG (gT g) bands (gcls g) (gnodata g)), H, W, F'. split; [reflexivity|]. split; [exact G'|].
  split.
  { intros p Ip. split; [|apply CG; exact Ip].
    destruct (indices_contain T (fst (fst p)) (snd (fst p)) INV DY0) as (i & j & u & v & E & P & Hu & Hv).
    unfold cell_of. rewrite E. exists u, v. cbn [fst snd]. destruct p as [[x y] z]. cbn [fst snd] in *. auto. }
  split; [exists py; split; [exact Ipy|exact EH]|].
  split. { intros p Ip. unfold H. pose proof (Qfloor_resp_le _ _ (proj2 (FY _ (BY _ Ip)))). lia. }
  split; [exists px; split; [exact Ipx|exact EW]|].
  split. { intros p Ip. unfold W. pose proof (Qfloor_resp_le _ _ (proj2 (FX _ (BX _ Ip)))). lia. }
  intros i j Hi Hj. rewrite P' by assumption. apply fill_mean.
Qed.

Theorem gridpoints_spec : forall T pts,
  (0 < dx T)%Q -> (0 < dy T)%Q -> (sx T == 0)%Q -> (sy T == 0)%Q -> pts <> [] ->
  (forall p, In p pts -> (x0 T <= fst (fst p))%Q /\ (y0 T <= snd (fst p))%Q) ->
  exists g H W F cs, gridpoints junk T pts = Ok g /\ grid_is g T H W 1 F None /\
    Forall2 (fun p c => in_cell T (fst p) c /\ in_grid H W c) pts cs /\
    (exists p, In p pts /\ (y0 T + inject_Z (H - 1) * dy T <= snd (fst p))%Q) /\
    (exists p, In p pts /\ (x0 T + inject_Z (W - 1) * dx T <= fst (fst p))%Q) /\
    forall i j, 0 <= i < H -> 0 <= j < W ->
      exists zs, values_in (i, j) cs (map snd pts) zs /\ mean zs (F 0 i j).
Proof.
  intros T pts DX DY SX SY NE IN.
  assert (LE : forall a b d n, (0 < d)%Q -> n = Qfloor ((b - a) / d) + 1 -> (a + inject_Z (n - 1) * d <= b)%Q).
  { intros a b d n D ->. replace (Qfloor ((b - a) / d) + 1 - 1) with (Qfloor ((b - a) / d)) by lia.
    destruct (floor_bounds ((b - a) / d)) as [L _].
    apply (Qmult_le_compat_r _ _ d) in L; [|clear - D; lra].
    setoid_replace ((b - a) / d * d)%Q with (b - a)%Q in L by (field; clear - D; lra). clear - L. lra. }
  destruct (gridpoints_cells T pts DX DY SX SY NE IN) as (g & H & W & F & E & G & C & (p1 & I1 & E1) & _ & (p2 & I2 & E2) & _ & M).
  exists g, H, W, F, (map (fun p => cell_of T (fst p)) pts). split; [exact E|]. split; [exact G|]. split.
  - clear - C. induction pts as [|p l IH]; [constructor|]. cbn [map]. constructor.
    + apply C. left. reflexivity.
    + apply IH. intros q Iq. apply C. right. exact Iq.
  - split; [exists p1; split; [exact I1|apply LE; assumption]|].
    split; [exists p2; split; [exact I2|apply LE; assumption]|].
    intros i j Hi Hj. eexists. split; [|apply M; assumption]. apply values_filter. rewrite !map_length. reflexivity.
Qed.

Lemma perm_sum : forall l l' : list Q, Permutation l l' -> (fold_right Qplus 0 l == fold_right Qplus 0 l')%Q.
Proof.
  intros l l' P. induction P; cbn [fold_right]; [reflexivity|rewrite IHP; reflexivity|ring|].
  rewrite IHP1. exact IHP2.
Qed.
Lemma mean_perm : forall l l' z z', Permutation l l' -> mean l z -> mean l' z' -> fsame z z'.
Proof.
  intros l l' z z' P [M1 M2] [N1 N2]. destruct l as [|a l].
  - apply Permutation_nil in P. subst l'. rewrite M1, N1 by reflexivity. exact I.
  - destruct M2 as (q & -> & Eq); [discriminate|]. destruct l' as [|b l'].
    { apply Permutation_sym, Permutation_nil in P. discriminate. }
    destruct N2 as (q' & -> & Eq'); [discriminate|]. cbn [fsame].
    rewrite (perm_sum _ _ P) in Eq. rewrite <- Eq' in Eq. rewrite (Permutation_length P) in Eq.
    apply Qmult_inj_r in Eq; [exact Eq|]. intro X. unfold Qeq, inject_Z in X. cbn [Qnum Qden length] in X. lia.
Qed.
Lemma perm_filter : forall A (f : A -> bool) l l', Permutation l l' -> Permutation (filter f l) (filter f l').
Proof.
  intros A f l l' P. induction P; cbn [filter].
  - constructor.
  - destruct (f x); [constructor|]; assumption.
  - destruct (f x), (f y); try apply Permutation_refl. apply perm_swap.
  - eapply Permutation_trans; eassumption.
Qed.

Theorem gridpoints_order : forall T pts pts',
  (0 < dx T)%Q -> (0 < dy T)%Q -> (sx T == 0)%Q -> (sy T == 0)%Q -> pts <> [] ->
  (forall p, In p pts -> (x0 T <= fst (fst p))%Q /\ (y0 T <= snd (fst p))%Q) ->
  Permutation pts pts' ->
  exists g g' H W F F', gridpoints junk T pts = Ok g /\ gridpoints junk T pts' = Ok g' /\
    grid_is g T H W 1 F None /\ grid_is g' T H W 1 F' None /\
    forall i j, 0 <= i < H -> 0 <= j < W -> fsame (F 0 i j) (F' 0 i j).
Proof.
  intros T pts pts' DX DY SX SY NE IN P.
  assert (NE' : pts' <> []). { intros ->. apply Permutation_sym, Permutation_nil in P. contradiction. }
  assert (IN' : forall p, In p pts' -> (x0 T <= fst (fst p))%Q /\ (y0 T <= snd (fst p))%Q).
  { intros p Ip. apply IN. apply (Permutation_in p (Permutation_sym P) Ip). }
  destruct (gridpoints_cells T pts DX DY SX SY NE IN) as (g & H & W & F & E & G & C & (p1 & I1 & E1) & A1 & (p2 & I2 & E2) & A2 & M).
  destruct (gridpoints_cells T pts' DX DY SX SY NE' IN') as (g' & H' & W' & F' & E' & G' & C' & (p1' & I1' & E1') & A1' & (p2' & I2' & E2') & A2' & M').
  assert (EHH : H' = H).
  { specialize (A1' p1 (Permutation_in _ P I1)). specialize (A1 p1' (Permutation_in _ (Permutation_sym P) I1')). lia. }
  assert (EWW : W' = W).
  { specialize (A2' p2 (Permutation_in _ P I2)). specialize (A2 p2' (Permutation_in _ (Permutation_sym P) I2')). lia. }
  clear E1' E2' E1 E2. subst H' W'. exists g, g', H, W, F, F'. split; [exact E|]. split; [exact E'|]. split; [exact G|]. split; [exact G'|].
  intros i j Hi Hj. eapply mean_perm; [|apply M; assumption|apply M'; assumption].
  apply Permutation_map, perm_filter.
  assert (Z : forall l, combine (map (fun p : Q*Q*Q => cell_of T (fst p)) l) (map snd l)
                        = map (fun p => (cell_of T (fst p), snd p)) l).
  { induction l as [|p l IHl]; [reflexivity|]. cbn [map combine]. rewrite IHl. reflexivity. }
  rewrite !Z. apply Permutation_map. exact P.
Qed.
End P.
