From Coq Require Import List ZArith QArith Qround Bool Lia Lqa Setoid ZifyBool ZifyNat.
From Verif Require Import Band_Model Band_Spec Band_Proofs Band_IndexModel Band_IndexSpec Band_IndexProofs
  Grid_Model Grid_Spec Grid_Proofs Grid_OpsProofs Grid_ResizeProofs Grid_MoreProofs
  GridSample_Model GridSample_Spec GridSample_Proofs Terrain_Model Terrain_Spec.
Import ListNotations.
Open Scope Z_scope.

(** Centred differences of [f] around (i, j). *)
Definition stx (f : Z -> Z -> Q) (i j : Z) (d : Q) : Q :=
  (((2 * f i (j + 1)%Z + f (i - 1)%Z (j + 1)%Z + f (i + 1)%Z (j + 1)%Z)
    - (2 * f i (j - 1)%Z + f (i - 1)%Z (j - 1)%Z + f (i + 1)%Z (j - 1)%Z)) / (8 * d))%Q.
Definition sty (f : Z -> Z -> Q) (i j : Z) (d : Q) : Q :=
  (((2 * f (i + 1)%Z j + f (i + 1)%Z (j + 1)%Z + f (i + 1)%Z (j - 1)%Z)
    - (2 * f (i - 1)%Z j + f (i - 1)%Z (j - 1)%Z + f (i - 1)%Z (j + 1)%Z)) / (8 * d))%Q.

Section P.
Variable junk : Z -> Z -> fl.

(** Reading one band as a matrix. *)
Lemma band_plane : forall bands H W F b, stack_holds bands H W F ->
  0 <= b < Z.of_nat (length bands) ->
  exists v, getitem junk bands (KeyTuple [full; full; KInt b]) = Ok v /\
    exists a, arr_of v = Ok a /\ nrow a = H /\ ncol a = W /\
      forall i j, 0 <= i < H -> 0 <= j < W -> at_ a i j = F b i j.
Proof.
  intros bands H W F b SH Hb. destruct (stack_size fl _ _ _ _ SH) as [HH HW].
  destruct (full_selects H HH) as [S1 F1]. destruct (full_selects W HW) as [S2 F2].
  destruct (getitem_spec fl junk bands H W F full full [KInt b] false _ false _ true [b]
              SH S1 S2 (selb_one _ _ _ _ (sel_int _ _ Hb)) F1 F2) as (r & E & S & P).
  exists r. split; [exact E|]. unfold arr_of. rewrite S. simpl. rewrite !zrange_length.
  eexists. split; [reflexivity|]. simpl. split; [lia|]. split; [lia|].
  intros i j Hi Hj.
  specialize (P (Z.to_nat i) (Z.to_nat j) 0%nat i j b (zrange_nth0 _ _ Hi) (zrange_nth0 _ _ Hj) eq_refl).
  simpl in P. rewrite !Z2Nat.id in P by lia. exact P.
Qed.

Lemma masked_spec : forall g T H W nb F nodata b, grid_is g T H W nb F nodata -> 0 <= b < nb ->
  exists D, masked_band junk g b = Ok D /\ nrow D = H /\ ncol D = W /\
    forall i j, 0 <= i < H -> 0 <= j < W ->
      (data_cell nb F nodata i j -> at_ D i j = F b i j) /\
      (~ data_cell nb F nodata i j -> at_ D i j = None).
Proof.
  intros g T H W nb F nodata b G Hb. pose proof G as (ET & SH & EN & ED).
  destruct (data_mask_ok fl junk fnan feq g T H W nb F nodata G) as (m & Em & Pm).
  destruct (band_plane _ _ _ _ b SH ltac:(lia)) as (v & Ev & a & Ea & R & C & Pa).
  unfold masked_band. rewrite Em. simpl. rewrite Ev. simpl. rewrite Ea. simpl.
  eexists. split; [reflexivity|]. simpl. split; [exact R|]. split; [exact C|].
  intros i j Hi Hj. specialize (Pm i j Hi Hj). rewrite (Pa i j Hi Hj). split; intro K.
  - apply Pm in K. rewrite K. reflexivity.
  - destruct (m i j); [exfalso; exact (K (proj1 Pm eq_refl))|reflexivity].
Qed.

Lemma result_spec : forall g a h w, nrow a = h -> ncol a = w -> 0 <= h -> 0 <= w ->
  exists g', result junk g a = Ok g' /\ grid_is g' (gT g) h w 1 (fun _ => at_ a) None.
Proof.
  intros g a h w R C Hh Hw. unfold result.
  destruct (make_grid_spec2 fl junk (Some 0%Q) ClsComp (gT g) (nd_of None a) None h w (fun _ => at_ a) Hh Hw)
    as (g' & E & G & _); [simpl; congruence|reflexivity|]. exists g'. split; assumption.
Qed.

Lemma not_skewed : forall g : grid fl, unskewed (gT g) -> skewed g = false.
Proof.
  intros g (A & B & _). unfold skewed. apply Qeq_bool_iff in A. apply Qeq_bool_iff in B. rewrite A, B. reflexivity.
Qed.

Lemma is_num_comp : forall z p q, is_num z p -> (p == q)%Q -> is_num z q.
Proof. intros z p q (r & E & K) E2. exists r. split; [exact E|]. rewrite K. exact E2. Qed.

Lemma num_fadd : forall a b p q, is_num a p -> is_num b q -> is_num (fadd a b) (p + q)%Q.
Proof. intros a b p q (p' & -> & A) (q' & -> & B). simpl. eexists. split; [reflexivity|]. rewrite A, B. reflexivity. Qed.
Lemma num_fscale : forall a p q, is_num a p -> is_num (fscale a q) (p * q)%Q.
Proof. intros a p q (p' & -> & A). simpl. eexists. split; [reflexivity|]. rewrite A. reflexivity. Qed.
Lemma num_fsub : forall a b p q, is_num a p -> is_num b q -> is_num (fsub a b) (p - q)%Q.
Proof.
  intros a b p q A B. unfold fsub. eapply is_num_comp; [apply num_fadd; [exact A|apply num_fscale; exact B]|]. ring.
Qed.
Lemma num_fdiv : forall a p q, is_num a p -> (~ q == 0)%Q -> is_num (fdiv a q) (p / q)%Q.
Proof.
  intros a p q A N. unfold fdiv. destruct (Qeq_bool q 0) eqn:E; [apply Qeq_bool_iff in E; contradiction|].
  apply num_fscale. exact A.
Qed.
Lemma num_fdiv_comp : forall a p q r, is_num a p -> (~ q == 0)%Q -> (p / q == r)%Q -> is_num (fdiv a q) r.
Proof. intros. eapply is_num_comp; [apply num_fdiv; eassumption|assumption]. Qed.

(** The stencils on numbers. *)
Lemma ddx_num : forall D resx f i j, (~ resx == 0)%Q ->
  (forall a b, near (i + 1) (j + 1) a b -> b <> j + 1 -> is_num (at_ D a b) (f a b)) ->
  is_num (at_ (ddx D resx) i j)
    (((2 * f (i + 1)%Z (j + 2)%Z + f i (j + 2)%Z + f (i + 2)%Z (j + 2)%Z)
      - (2 * f (i + 1)%Z j + f i j + f (i + 2)%Z j)) / (8 * resx))%Q.
Proof.
  intros D resx f i j N K. unfold ddx, view. simpl. rewrite !Z.add_0_r.
  assert (forall a b, (a = i \/ a = i + 1 \/ a = i + 2) -> (b = j \/ b = j + 2) ->
          is_num (at_ D a b) (f a b)) as Q by (intros; apply K; unfold near; lia).
  eapply num_fdiv_comp.
  - apply num_fsub.
    + apply num_fadd; [apply num_fadd; [apply num_fscale|]|]; apply Q; lia.
    + apply num_fadd; [apply num_fadd; [apply num_fscale|]|]; apply Q; lia.
  - intro Z. apply N. lra.
  - field. exact N.
Qed.

Lemma ddy_num : forall D resy f i j, (~ resy == 0)%Q ->
  (forall a b, near (i + 1) (j + 1) a b -> a <> i + 1 -> is_num (at_ D a b) (f a b)) ->
  is_num (at_ (ddy D resy) i j)
    (((2 * f (i + 2)%Z (j + 1)%Z + f (i + 2)%Z (j + 2)%Z + f (i + 2)%Z j)
      - (2 * f i (j + 1)%Z + f i j + f i (j + 2)%Z)) / (8 * resy))%Q.
Proof.
  intros D resy f i j N K. unfold ddy, view. simpl. rewrite !Z.add_0_r.
  assert (forall a b, (b = j \/ b = j + 1 \/ b = j + 2) -> (a = i \/ a = i + 2) ->
          is_num (at_ D a b) (f a b)) as Q by (intros; apply K; unfold near; lia).
  eapply num_fdiv_comp.
  - apply num_fsub.
    + apply num_fadd; [apply num_fadd; [apply num_fscale|]|]; apply Q; lia.
    + apply num_fadd; [apply num_fadd; [apply num_fscale|]|]; apply Q; lia.
  - intro Z. apply N. lra.
  - field. exact N.
Qed.

Lemma fadd_nan_l : forall b, fadd None b = None. Proof. reflexivity. Qed.
Lemma fadd_nan_r : forall a, fadd a None = None. Proof. destruct a; reflexivity. Qed.
Lemma fsub_nan_r : forall a, fsub a None = None. Proof. destruct a; reflexivity. Qed.
Lemma fsub_nan_l : forall a, fsub None a = None. Proof. reflexivity. Qed.
Lemma fdiv_nan : forall q, fdiv None q = None. Proof. intro q. unfold fdiv. destruct (Qeq_bool q 0); reflexivity. Qed.
Ltac nans := repeat (rewrite ?fadd_nan_l, ?fadd_nan_r, ?fsub_nan_l, ?fsub_nan_r, ?fdiv_nan; simpl); try reflexivity.

Lemma ddx_nan : forall D resx i j a b, near (i + 1) (j + 1) a b -> b <> j + 1 ->
  at_ D a b = None -> at_ (ddx D resx) i j = None.
Proof.
  intros D resx i j a b N B E. unfold ddx, view. simpl. rewrite !Z.add_0_r. unfold near in N.
  assert ((a = i \/ a = i + 1 \/ a = i + 2) /\ (b = j \/ b = j + 2)) as [A B'] by lia.
  destruct A as [-> | [-> | ->]]; destruct B' as [-> | ->]; rewrite E; nans.
Qed.
Lemma ddy_nan : forall D resx i j a b, near (i + 1) (j + 1) a b -> a <> i + 1 ->
  at_ D a b = None -> at_ (ddy D resx) i j = None.
Proof.
  intros D resx i j a b N B E. unfold ddy, view. simpl. rewrite !Z.add_0_r. unfold near in N.
  assert ((b = j \/ b = j + 1 \/ b = j + 2) /\ (a = i \/ a = i + 2)) as [A B'] by lia.
  destruct A as [-> | [-> | ->]]; destruct B' as [-> | ->]; rewrite E; nans.
Qed.

Lemma pad_in : forall V (n : V) r c a i j, r <= i < r + nrow a -> c <= j < c + ncol a ->
  at_ (pad_nan n r c a) i j = at_ a (i - r) (j - c).
Proof.
  intros V n r c a i j Hi Hj. unfold pad_nan. simpl.
  destruct (r <=? i) eqn:?; [|lia]. destruct (i <? r + nrow a) eqn:?; [|lia].
  destruct (c <=? j) eqn:?; [|lia]. destruct (j <? c + ncol a) eqn:?; [|lia]. reflexivity.
Qed.
Lemma pad_out : forall V (n : V) r c a i j, ~ (r <= i < r + nrow a /\ c <= j < c + ncol a) ->
  at_ (pad_nan n r c a) i j = n.
Proof.
  intros V n r c a i j N. unfold pad_nan. simpl.
  destruct ((r <=? i) && (i <? r + nrow a) && (c <=? j) && (j <? c + ncol a)) eqn:E; [lia|reflexivity].
Qed.

(** The gradient in general: the stencils around each inner cell. *)
Lemma gradient_spec : forall g T H W nb F nodata b, grid_is g T H W nb F nodata ->
  unskewed T -> 0 <= b < nb -> 2 <= H -> 2 <= W ->
  exists gx gy FX FY, gradient junk g b = Ok (gx, gy) /\
    grid_is gx T H W 1 FX None /\ grid_is gy T H W 1 FY None /\
    (forall i j, 0 <= i < H -> 0 <= j < W -> border H W i j -> FX 0 i j = None /\ FY 0 i j = None) /\
    (forall i j f, interior H W i j ->
       (forall a c, near i j a c -> c <> j -> data_cell nb F nodata a c /\ is_num (F b a c) (f a c)) ->
       is_num (FX 0 i j) (stx f i j (dx T))) /\
    (forall i j f, interior H W i j ->
       (forall a c, near i j a c -> a <> i -> data_cell nb F nodata a c /\ is_num (F b a c) (f a c)) ->
       is_num (FY 0 i j) (sty f i j (dy T))) /\
    (forall i j a c, interior H W i j -> near i j a c -> ~ data_cell nb F nodata a c \/ F b a c = None ->
       (c <> j -> FX 0 i j = None) /\ (a <> i -> FY 0 i j = None)).
Proof.
  intros g T H W nb F nodata b G U Hb HH HW. pose proof G as (ET & _).
  destruct (masked_spec g T H W nb F nodata b G Hb) as (D & ED & R & C & PD).
  unfold gradient. rewrite not_skewed by (rewrite ET; exact U). rewrite ED. simpl.
  set (X := pad_nan None 1 1 (ddx D (dx (gT g)))).
  set (Y := pad_nan None 1 1 (ddy D (dy (gT g)))).
  assert (nrow X = H /\ ncol X = W) as [RX CX].
  { unfold X, pad_nan, ddx, less2. simpl. rewrite R, C. lia. }
  assert (nrow Y = H /\ ncol Y = W) as [RY CY].
  { unfold Y, pad_nan, ddy, less2. simpl. rewrite R, C. lia. }
  destruct (result_spec g X H W RX CX ltac:(lia) ltac:(lia)) as (gx & E1 & G1).
  destruct (result_spec g Y H W RY CY ltac:(lia) ltac:(lia)) as (gy & E2 & G2).
  rewrite E1. simpl. rewrite E2. simpl.
  exists gx, gy, (fun _ => at_ X), (fun _ => at_ Y).
  rewrite ET in G1, G2. split; [reflexivity|]. split; [exact G1|]. split; [exact G2|].
  destruct U as (_ & _ & NX & NY).
  assert (forall i j, interior H W i j -> at_ X i j = at_ (ddx D (dx T)) (i - 1) (j - 1)) as IX.
  { intros i j [Hi Hj]. unfold X. rewrite ET. apply pad_in; cbn [nrow ncol ddx ddy]; unfold less2; rewrite ?R, ?C; lia. }
  assert (forall i j, interior H W i j -> at_ Y i j = at_ (ddy D (dy T)) (i - 1) (j - 1)) as IY.
  { intros i j [Hi Hj]. unfold Y. rewrite ET. apply pad_in; cbn [nrow ncol ddx ddy]; unfold less2; rewrite ?R, ?C; lia. }
  split; [|split; [|split]].
  - intros i j Hi Hj B. unfold X, Y. unfold border in B.
    split; apply pad_out; cbn [nrow ncol ddx ddy]; unfold less2; rewrite R, C; lia.
  - intros i j f I K. rewrite (IX i j I).
    eapply is_num_comp; [apply (ddx_num D (dx T) f (i - 1) (j - 1) NX)|].
    + intros a c N B. replace (i - 1 + 1) with i in * by lia. replace (j - 1 + 1) with j in * by lia.
      destruct (K a c N B) as [A1 A2]. unfold interior in I. unfold near in N.
      destruct (PD a c ltac:(lia) ltac:(lia)) as [P1 _]. rewrite (P1 A1). exact A2.
    + unfold stx. replace (i - 1 + 1) with i by lia. replace (j - 1 + 2) with (j + 1) by lia.
      replace (i - 1 + 2) with (i + 1) by lia. reflexivity.
  - intros i j f I K. rewrite (IY i j I).
    eapply is_num_comp; [apply (ddy_num D (dy T) f (i - 1) (j - 1) NY)|].
    + intros a c N B. replace (i - 1 + 1) with i in * by lia. replace (j - 1 + 1) with j in * by lia.
      destruct (K a c N B) as [A1 A2]. unfold interior in I. unfold near in N.
      destruct (PD a c ltac:(lia) ltac:(lia)) as [P1 _]. rewrite (P1 A1). exact A2.
    + unfold sty. replace (j - 1 + 1) with j by lia. replace (j - 1 + 2) with (j + 1) by lia.
      replace (i - 1 + 2) with (i + 1) by lia. reflexivity.
  - intros i j a c I N M.
    assert (at_ D a c = None) as Q.
    { unfold interior in I. unfold near in N. destruct (PD a c ltac:(lia) ltac:(lia)) as [P1 P2].
      destruct M as [M|M]; [exact (P2 M)|].
      assert (data_cell nb F nodata a c \/ ~ data_cell nb F nodata a c) as [K|K].
      { clear - G. unfold data_cell.
        assert (forall n, (forall k, 0 <= k < Z.of_nat n -> is_data fnan feq nodata (F k a c)) \/
                 ~ (forall k, 0 <= k < Z.of_nat n -> is_data fnan feq nodata (F k a c))) as Dn.
        { induction n as [|n [IH|IH]].
          - left. intros; lia.
          - destruct (is_data_dec fl fnan feq nodata (F (Z.of_nat n) a c)) as [K|K].
            + left. intros k Hk. destruct (Z.eq_dec k (Z.of_nat n)) as [->|]; [exact K|apply IH; lia].
            + right. intro A. apply K, A. lia.
          - right. intro A. apply IH. intros k Hk. apply A. lia. }
        destruct G as (_ & _ & EN & _). specialize (Dn (length (gbands g))). rewrite EN in Dn. exact Dn. }
      { rewrite (P1 K). exact M. } { exact (P2 K). } }
    split; intro B.
    + rewrite (IX i j I). apply (ddx_nan D _ _ _ a c); [|lia|exact Q]. unfold near in *. lia.
    + rewrite (IY i j I). apply (ddy_nan D _ _ _ a c); [|lia|exact Q]. unfold near in *. lia.
Qed.

(** Heights of a quadratic surface. *)
Lemma centre_xy : forall T i j, unskewed T ->
  (fst (centre T i j) == x0 T + (inject_Z j + (1#2)) * dx T)%Q /\
  (snd (centre T i j) == y0 T + (inject_Z i + (1#2)) * dy T)%Q.
Proof. intros T i j (A & B & _). unfold centre, world. simpl. rewrite A, B. split; ring. Qed.

Lemma qval_comp : forall h p q, (fst p == fst q)%Q -> (snd p == snd q)%Q -> (qval h p == qval h q)%Q.
Proof. intros h [a b] [c d] A B. simpl in *. rewrite A, B. reflexivity. Qed.
Lemma qdx_comp : forall h p q, (fst p == fst q)%Q -> (snd p == snd q)%Q -> (qdx h p == qdx h q)%Q.
Proof. intros h [a b] [c d] A B. simpl in *. rewrite A, B. reflexivity. Qed.
Lemma qdy_comp : forall h p q, (fst p == fst q)%Q -> (snd p == snd q)%Q -> (qdy h p == qdy h q)%Q.
Proof. intros h [a b] [c d] A B. simpl in *. rewrite A, B. reflexivity. Qed.

Lemma qval_centre : forall h T i j di dj, unskewed T ->
  (qval h (centre T (i + di) (j + dj)) ==
   qval h (fst (centre T i j) + inject_Z dj * dx T, snd (centre T i j) + inject_Z di * dy T))%Q.
Proof.
  intros h T i j di dj U. destruct (centre_xy T i j U) as [A B].
  destruct (centre_xy T (i + di) (j + dj) U) as [A2 B2].
  apply qval_comp.
  - rewrite A2. simpl (fst (_, _)). rewrite A, inject_Z_plus. ring.
  - rewrite B2. simpl (snd (_, _)). rewrite B, inject_Z_plus. ring.
Qed.

Lemma quad_x : forall h T i j, unskewed T ->
  let f a c := qval h (centre T a c) in
  (stx f i j (dx T) == qdx h (centre T i j))%Q.
Proof.
  intros h T i j U f. unfold f, stx.
  rewrite <- (Z.add_0_r i) at 1 4. unfold Z.sub.
  rewrite !qval_centre by exact U. destruct U as (_ & _ & NX & _).
  generalize (centre T i j) as p. intros [x y]. cbn [fst snd].
  unfold qval, qdx. simpl inject_Z. field. exact NX.
Qed.
Lemma quad_y : forall h T i j, unskewed T ->
  let f a c := qval h (centre T a c) in
  (sty f i j (dy T) == qdy h (centre T i j))%Q.
Proof.
  intros h T i j U f. unfold f, sty.
  rewrite <- (Z.add_0_r j) at 1 4. unfold Z.sub.
  rewrite !qval_centre by exact U. destruct U as (_ & _ & _ & NY).
  generalize (centre T i j) as p. intros [x y]. cbn [fst snd].
  unfold qval, qdy. simpl inject_Z. field. exact NY.
Qed.

Lemma stx_comp : forall f g i j d, (forall a c, near i j a c -> f a c == g a c)%Q -> (stx f i j d == stx g i j d)%Q.
Proof. intros f g i j d K. unfold stx. rewrite !K by (unfold near; lia). reflexivity. Qed.
Lemma sty_comp : forall f g i j d, (forall a c, near i j a c -> f a c == g a c)%Q -> (sty f i j d == sty g i j d)%Q.
Proof. intros f g i j d K. unfold sty. rewrite !K by (unfold near; lia). reflexivity. Qed.

Lemma gradient_quadratic : forall g T H W nb F nodata b h, grid_is g T H W nb F nodata ->
  unskewed T -> 0 <= b < nb -> 2 <= H -> 2 <= W ->
  (forall i j, 0 <= i < H -> 0 <= j < W -> data_cell nb F nodata i j ->
     is_num (F b i j) (qval h (centre T i j))) ->
  exists gx gy FX FY, gradient junk g b = Ok (gx, gy) /\
    grid_is gx T H W 1 FX None /\ grid_is gy T H W 1 FY None /\
    (forall i j, interior H W i j -> (forall a c, near i j a c -> data_cell nb F nodata a c) ->
       is_num (FX 0 i j) (qdx h (centre T i j)) /\ is_num (FY 0 i j) (qdy h (centre T i j))) /\
    (forall i j, 0 <= i < H -> 0 <= j < W -> border H W i j -> FX 0 i j = None /\ FY 0 i j = None) /\
    (forall i j a c, interior H W i j -> near i j a c -> ~ data_cell nb F nodata a c ->
       (c <> j -> FX 0 i j = None) /\ (a <> i -> FY 0 i j = None)).
Proof.
  intros g T H W nb F nodata b h G U Hb HH HW K.
  destruct (gradient_spec g T H W nb F nodata b G U Hb HH HW) as (gx & gy & FX & FY & E & GX & GY & B & PX & PY & N).
  exists gx, gy, FX, FY. split; [exact E|]. split; [exact GX|]. split; [exact GY|]. split; [|split; [exact B|]].
  - intros i j I D.
    assert (forall a c, near i j a c -> data_cell nb F nodata a c /\ is_num (F b a c) (qval h (centre T a c))) as Q.
    { intros a c Na. unfold interior in I. pose proof Na as Na'. unfold near in Na'.
      split; [apply D; exact Na|apply K; [lia|lia|apply D; exact Na]]. }
    split; (eapply is_num_comp; [|]).
    + apply (PX i j (fun a c => qval h (centre T a c)) I). intros; apply Q; assumption.
    + apply (quad_x h T i j U).
    + apply (PY i j (fun a c => qval h (centre T a c)) I). intros; apply Q; assumption.
    + apply (quad_y h T i j U).
  - intros i j a c I Na D. apply (N i j a c I Na). left. exact D.
Qed.

(** Linearity. *)
Lemma gradient_linear : forall g1 g2 g3 T H W nb1 nb2 nb3 F1 F2 F3 n1 n2 n3 b1 b2 b3 al be,
  grid_is g1 T H W nb1 F1 n1 -> grid_is g2 T H W nb2 F2 n2 -> grid_is g3 T H W nb3 F3 n3 ->
  unskewed T -> 0 <= b1 < nb1 -> 0 <= b2 < nb2 -> 0 <= b3 < nb3 -> 2 <= H -> 2 <= W ->
  exists x1 y1 x2 y2 x3 y3 X1 Y1 X2 Y2 X3 Y3,
    gradient junk g1 b1 = Ok (x1, y1) /\ gradient junk g2 b2 = Ok (x2, y2) /\
    gradient junk g3 b3 = Ok (x3, y3) /\
    grid_is x1 T H W 1 X1 None /\ grid_is y1 T H W 1 Y1 None /\
    grid_is x2 T H W 1 X2 None /\ grid_is y2 T H W 1 Y2 None /\
    grid_is x3 T H W 1 X3 None /\ grid_is y3 T H W 1 Y3 None /\
    forall i j, interior H W i j ->
      (forall a c, near i j a c -> data_cell nb1 F1 n1 a c /\ data_cell nb2 F2 n2 a c /\
         data_cell nb3 F3 n3 a c /\ exists p q, F1 b1 a c = Some p /\ F2 b2 a c = Some q /\
           is_num (F3 b3 a c) (al * p + be * q)%Q) ->
      exists px qx py qy, X1 0 i j = Some px /\ X2 0 i j = Some qx /\
        Y1 0 i j = Some py /\ Y2 0 i j = Some qy /\
        is_num (X3 0 i j) (al * px + be * qx)%Q /\ is_num (Y3 0 i j) (al * py + be * qy)%Q.
Proof.
  intros g1 g2 g3 T H W nb1 nb2 nb3 F1 F2 F3 n1 n2 n3 b1 b2 b3 al be G1 G2 G3 U B1 B2 B3 HH HW.
  destruct (gradient_spec g1 T H W nb1 F1 n1 b1 G1 U B1 HH HW) as (x1 & y1 & X1 & Y1 & E1 & GX1 & GY1 & _ & PX1 & PY1 & _).
  destruct (gradient_spec g2 T H W nb2 F2 n2 b2 G2 U B2 HH HW) as (x2 & y2 & X2 & Y2 & E2 & GX2 & GY2 & _ & PX2 & PY2 & _).
  destruct (gradient_spec g3 T H W nb3 F3 n3 b3 G3 U B3 HH HW) as (x3 & y3 & X3 & Y3 & E3 & GX3 & GY3 & _ & PX3 & PY3 & _).
  exists x1, y1, x2, y2, x3, y3, X1, Y1, X2, Y2, X3, Y3. repeat (split; [assumption|]).
  intros i j I K.
  set (val := fun (F : Z -> Z -> Z -> fl) b a c => match F b a c with Some q => q | None => 0%Q end).
  assert (forall a c, near i j a c -> is_num (F1 b1 a c) (val F1 b1 a c)) as V1.
  { intros a c N. destruct (K a c N) as (_ & _ & _ & p & q & P & Q & S). unfold val. rewrite P. exists p. split; reflexivity. }
  assert (forall a c, near i j a c -> is_num (F2 b2 a c) (val F2 b2 a c)) as V2.
  { intros a c N. destruct (K a c N) as (_ & _ & _ & p & q & P & Q & S). unfold val. rewrite Q. exists q. split; reflexivity. }
  assert (forall a c, near i j a c -> is_num (F3 b3 a c) (al * val F1 b1 a c + be * val F2 b2 a c)%Q) as V3.
  { intros a c N. destruct (K a c N) as (_ & _ & _ & p & q & P & Q & S). unfold val. rewrite P, Q. exact S. }
  destruct (PX1 i j (val F1 b1) I) as (px & A1 & A1').
  { intros a c N _. split; [apply K; exact N|apply V1; exact N]. }
  destruct (PY1 i j (val F1 b1) I) as (py & A2 & A2').
  { intros a c N _. split; [apply K; exact N|apply V1; exact N]. }
  destruct (PX2 i j (val F2 b2) I) as (qx & A3 & A3').
  { intros a c N _. split; [apply K; exact N|apply V2; exact N]. }
  destruct (PY2 i j (val F2 b2) I) as (qy & A4 & A4').
  { intros a c N _. split; [apply K; exact N|apply V2; exact N]. }
  pose proof U as (_ & _ & NX & NY).
  exists px, qx, py, qy. repeat (split; [assumption|]). split.
  - eapply is_num_comp; [apply (PX3 i j (fun a c => al * val F1 b1 a c + be * val F2 b2 a c)%Q I)|].
    + intros a c N _. split; [apply K; exact N|apply V3; exact N].
    + rewrite A1', A3'. unfold stx. field. exact NX.
  - eapply is_num_comp; [apply (PY3 i j (fun a c => al * val F1 b1 a c + be * val F2 b2 a c)%Q I)|].
    + intros a c N _. split; [apply K; exact N|apply V3; exact N].
    + rewrite A2', A4'. unfold sty. field. exact NY.
Qed.

(** Divergence. *)
Lemma div_spec : forall g T H W nb F nodata b0 b1, grid_is g T H W nb F nodata ->
  unskewed T -> 0 <= b0 < nb -> 0 <= b1 < nb -> 2 <= H -> 2 <= W ->
  exists gd FD, divergence junk g b0 b1 = Ok gd /\ grid_is gd T H W 1 FD None /\
    (forall i j, 0 <= i < H -> 0 <= j < W -> border H W i j -> FD 0 i j = None) /\
    (forall i j u v, interior H W i j ->
       is_num (F b0 i (j - 1)) (u (j - 1)) -> is_num (F b0 i (j + 1)) (u (j + 1)) ->
       is_num (F b1 (i - 1) j) (v (i - 1)) -> is_num (F b1 (i + 1) j) (v (i + 1)) ->
       is_num (FD 0 i j) ((u (j + 1)%Z - u (j - 1)%Z) / (2 * dx T) + (v (i + 1)%Z - v (i - 1)%Z) / (2 * dy T))%Q) /\
    (forall i j, interior H W i j ->
       F b0 i (j - 1) = None \/ F b0 i (j + 1) = None \/ F b1 (i - 1) j = None \/ F b1 (i + 1) j = None ->
       FD 0 i j = None).
Proof.
  intros g T H W nb F nodata b0 b1 G U Hb0 Hb1 HH HW. pose proof G as (ET & SH & EN & ED).
  destruct (band_plane _ _ _ _ b0 SH ltac:(lia)) as (v0 & E0 & A & EA & RA & CA & PA).
  destruct (band_plane _ _ _ _ b1 SH ltac:(lia)) as (v1 & E1 & B & EB & RB & CB & PB).
  unfold divergence. rewrite not_skewed by (rewrite ET; exact U).
  rewrite E0. cbn [bind]. rewrite EA. cbn [bind]. rewrite E1. cbn [bind]. rewrite EB. cbn [bind].
  unfold div_. unfold plus_. cbn [nrow ncol pad_nan].
  rewrite RA, CA, RB, CB. unfold less2, bdim.
  replace (H + 2 * 0 =? Z.max 0 (H - 2) + 2 * 1) with true by lia. cbn [bind].
  replace (Z.max 0 (W - 2) + 2 * 1 =? W + 2 * 0) with true by lia. cbn [bind].
  set (D := mkA _ _ _).
  assert (nrow D = H /\ ncol D = W) as [RD CD] by (unfold D; cbn [nrow ncol]; lia).
  destruct (result_spec g D H W RD CD ltac:(lia) ltac:(lia)) as (gd & Eg & Gd).
  exists gd, (fun _ => at_ D). rewrite ET in Gd. split; [exact Eg|]. split; [exact Gd|].
  pose proof U as (_ & _ & NX & NY).
  assert (forall i j, 0 <= i < H -> 0 <= j < W -> at_ D i j =
    fadd (if (1 <=? j) && (j <? W - 1) then fdiv (fsub (at_ A i (j + 1)) (at_ A i (j - 1))) (2 * dx T) else None)
         (if (1 <=? i) && (i <? H - 1) then fdiv (fsub (at_ B (i + 1) j) (at_ B (i - 1) j)) (2 * dy T) else None)) as ID.
  { intros i j Hi Hj. unfold D, pad_nan, view. cbn [at_ nrow ncol].
    rewrite ET.
    destruct (H + 2 * 0 =? 1) eqn:Q1; [lia|]. destruct (Z.max 0 (W - 2) + 2 * 1 =? 1) eqn:Q2; [lia|].
    destruct (Z.max 0 (H - 2) + 2 * 1 =? 1) eqn:Q3; [lia|]. destruct (W + 2 * 0 =? 1) eqn:Q4; [lia|].
    f_equal.
    - replace ((0 <=? i) && (i <? 0 + H) && (1 <=? j) && (j <? 1 + Z.max 0 (W - 2))) with ((1 <=? j) && (j <? W - 1)) by lia.
      replace (i - 0 + 0) with i by lia. replace (j - 1 + 2) with (j + 1) by lia. rewrite ?Z.add_0_r. reflexivity.
    - replace ((1 <=? i) && (i <? 1 + Z.max 0 (H - 2)) && (0 <=? j) && (j <? 0 + W)) with ((1 <=? i) && (i <? H - 1)) by lia.
      replace (j - 0 + 0) with j by lia. replace (i - 1 + 2) with (i + 1) by lia. rewrite ?Z.add_0_r. reflexivity. }
  split; [|split].
  - intros i j Hi Hj Bd. rewrite (ID i j Hi Hj). unfold border in Bd.
    destruct ((1 <=? j) && (j <? W - 1)) eqn:Q1; [|reflexivity].
    destruct ((1 <=? i) && (i <? H - 1)) eqn:Q2; [lia|]. apply fadd_nan_r.
  - intros i j u v I K1 K2 K3 K4. unfold interior in I. rewrite (ID i j) by lia.
    replace ((1 <=? j) && (j <? W - 1)) with true by lia. replace ((1 <=? i) && (i <? H - 1)) with true by lia.
    rewrite !PA, !PB by lia. apply num_fadd.
    + apply num_fdiv; [apply num_fsub; assumption|]. intro Z. apply NX. lra.
    + apply num_fdiv; [apply num_fsub; assumption|]. intro Z. apply NY. lra.
  - intros i j I K. unfold interior in I. rewrite (ID i j) by lia.
    replace ((1 <=? j) && (j <? W - 1)) with true by lia. replace ((1 <=? i) && (i <? H - 1)) with true by lia.
    rewrite !PA, !PB by lia.
    destruct K as [-> | [-> | [-> | ->]]]; nans.
Qed.

Lemma divergence_quadratic : forall g T H W nb F nodata b0 b1 hu hv, grid_is g T H W nb F nodata ->
  unskewed T -> 0 <= b0 < nb -> 0 <= b1 < nb -> 2 <= H -> 2 <= W ->
  (forall i j, 0 <= i < H -> 0 <= j < W ->
     is_num (F b0 i j) (qval hu (centre T i j)) /\ is_num (F b1 i j) (qval hv (centre T i j))) ->
  exists gd FD, divergence junk g b0 b1 = Ok gd /\ grid_is gd T H W 1 FD None /\
    (forall i j, 0 <= i < H -> 0 <= j < W -> border H W i j -> FD 0 i j = None) /\
    (forall i j, interior H W i j ->
       is_num (FD 0 i j) (qdx hu (centre T i j) + qdy hv (centre T i j))%Q).
Proof.
  intros g T H W nb F nodata b0 b1 hu hv G U Hb0 Hb1 HH HW K.
  destruct (div_spec g T H W nb F nodata b0 b1 G U Hb0 Hb1 HH HW) as (gd & FD & E & Gd & B & P & _).
  exists gd, FD. split; [exact E|]. split; [exact Gd|]. split; [exact B|].
  intros i j I. pose proof I as [Hi Hj].
  eapply is_num_comp.
  - apply (P i j (fun c => qval hu (centre T i c)) (fun a => qval hv (centre T a j)) I); apply K; lia.
  - cbv beta.
    pose proof (qval_centre hu T i j 0 1 U) as A1. pose proof (qval_centre hu T i j 0 (-1) U) as A2.
    pose proof (qval_centre hv T i j 1 0 U) as A3. pose proof (qval_centre hv T i j (-1) 0 U) as A4.
    rewrite Z.add_0_r in *. unfold Z.sub. change (- (1)) with (-1). rewrite A1, A2, A3, A4.
    destruct U as (_ & _ & NX & NY). generalize (centre T i j). intros [x y]. cbn [fst snd].
    unfold qval, qdx, qdy. simpl inject_Z. field. split; assumption.
Qed.

(** The gradient of a cell depends on the cells around it only. *)
Lemma gradient_local : forall g1 g2 T1 T2 H1 W1 H2 W2 nb1 nb2 F1 F2 n1 n2 b1 b2,
  grid_is g1 T1 H1 W1 nb1 F1 n1 -> grid_is g2 T2 H2 W2 nb2 F2 n2 ->
  unskewed T1 -> unskewed T2 -> (dx T1 == dx T2)%Q -> (dy T1 == dy T2)%Q ->
  0 <= b1 < nb1 -> 0 <= b2 < nb2 -> 2 <= H1 -> 2 <= W1 -> 2 <= H2 -> 2 <= W2 ->
  exists x1 y1 x2 y2 X1 Y1 X2 Y2,
    gradient junk g1 b1 = Ok (x1, y1) /\ gradient junk g2 b2 = Ok (x2, y2) /\
    grid_is x1 T1 H1 W1 1 X1 None /\ grid_is y1 T1 H1 W1 1 Y1 None /\
    grid_is x2 T2 H2 W2 1 X2 None /\ grid_is y2 T2 H2 W2 1 Y2 None /\
    forall i1 j1 i2 j2, interior H1 W1 i1 j1 -> interior H2 W2 i2 j2 ->
      (forall a c, near 0 0 a c ->
         data_cell nb1 F1 n1 (i1 + a) (j1 + c) /\ data_cell nb2 F2 n2 (i2 + a) (j2 + c) /\
         exists p, F1 b1 (i1 + a) (j1 + c) = Some p /\ F2 b2 (i2 + a) (j2 + c) = Some p) ->
      exists p q, is_num (X1 0 i1 j1) p /\ is_num (X2 0 i2 j2) p /\
                  is_num (Y1 0 i1 j1) q /\ is_num (Y2 0 i2 j2) q.
Proof.
  intros g1 g2 T1 T2 H1 W1 H2 W2 nb1 nb2 F1 F2 n1 n2 b1 b2 G1 G2 U1 U2 EX EY B1 B2 HH1 HW1 HH2 HW2.
  destruct (gradient_spec g1 T1 H1 W1 nb1 F1 n1 b1 G1 U1 B1 HH1 HW1) as (x1 & y1 & X1 & Y1 & E1 & GX1 & GY1 & _ & PX1 & PY1 & _).
  destruct (gradient_spec g2 T2 H2 W2 nb2 F2 n2 b2 G2 U2 B2 HH2 HW2) as (x2 & y2 & X2 & Y2 & E2 & GX2 & GY2 & _ & PX2 & PY2 & _).
  exists x1, y1, x2, y2, X1, Y1, X2, Y2. repeat (split; [assumption|]).
  intros i1 j1 i2 j2 I1 I2 K.
  set (f1 := fun a c => match F1 b1 a c with Some q => q | None => 0%Q end).
  set (f2 := fun a c => f1 (a - i2 + i1) (c - j2 + j1)).
  assert (forall a c, near i1 j1 a c -> data_cell nb1 F1 n1 a c /\ is_num (F1 b1 a c) (f1 a c)) as V1.
  { intros a c N. destruct (K (a - i1) (c - j1)) as (D1 & _ & p & P & _); [unfold near in *; lia|].
    replace (i1 + (a - i1)) with a in * by lia. replace (j1 + (c - j1)) with c in * by lia.
    split; [exact D1|]. unfold f1. rewrite P. exists p. split; reflexivity. }
  assert (forall a c, near i2 j2 a c -> data_cell nb2 F2 n2 a c /\ is_num (F2 b2 a c) (f2 a c)) as V2.
  { intros a c N. destruct (K (a - i2) (c - j2)) as (_ & D2 & p & P & P2); [unfold near in *; lia|].
    replace (i2 + (a - i2)) with a in * by lia. replace (j2 + (c - j2)) with c in * by lia.
    split; [exact D2|]. unfold f2, f1. replace (a - i2 + i1) with (i1 + (a - i2)) by lia.
    replace (c - j2 + j1) with (j1 + (c - j2)) by lia. rewrite P. exists p. split; [exact P2|reflexivity]. }
  exists (stx f1 i1 j1 (dx T1)), (sty f1 i1 j1 (dy T1)). split; [|split; [|split]].
  - apply PX1; [exact I1|]. intros; apply V1; assumption.
  - eapply is_num_comp; [apply (PX2 i2 j2 f2 I2); intros; apply V2; assumption|].
    unfold stx, f2. replace (i2 - i2 + i1) with i1 by lia. replace (i2 - 1 - i2 + i1) with (i1 - 1) by lia.
    replace (i2 + 1 - i2 + i1) with (i1 + 1) by lia. replace (j2 + 1 - j2 + j1) with (j1 + 1) by lia.
    replace (j2 - 1 - j2 + j1) with (j1 - 1) by lia. rewrite EX. reflexivity.
  - apply PY1; [exact I1|]. intros; apply V1; assumption.
  - eapply is_num_comp; [apply (PY2 i2 j2 f2 I2); intros; apply V2; assumption|].
    unfold sty, f2. replace (j2 - j2 + j1) with j1 by lia. replace (i2 - 1 - i2 + i1) with (i1 - 1) by lia.
    replace (i2 + 1 - i2 + i1) with (i1 + 1) by lia. replace (j2 + 1 - j2 + j1) with (j1 + 1) by lia.
    replace (j2 - 1 - j2 + j1) with (j1 - 1) by lia. rewrite EY. reflexivity.
Qed.
Lemma gradient_skewed : forall g T H W nb F nodata b, grid_is g T H W nb F nodata ->
  ~ (sx T == 0 /\ sy T == 0)%Q -> gradient junk g b = Err NotImplementedError /\
  forall b', divergence junk g b b' = Err NotImplementedError.
Proof.
  intros g T H W nb F nodata b (ET & _) N. unfold gradient, divergence, skewed. rewrite ET.
  destruct (Qeq_bool (sx T) 0) eqn:A; destruct (Qeq_bool (sy T) 0) eqn:B; try (split; reflexivity).
  exfalso. apply N. split; apply Qeq_bool_iff; assumption.
Qed.
End P.
