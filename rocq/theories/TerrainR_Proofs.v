From Coq Require Import List ZArith QArith Qreals Reals Bool Lia Lqa Lra Setoid ZifyBool ZifyNat.
From Verif Require Import Band_Model Band_Spec Band_Proofs Band_IndexModel Band_IndexSpec Band_IndexProofs
  Grid_Model Grid_Spec Grid_Proofs Grid_OpsProofs Grid_ResizeProofs Grid_MoreProofs
  GridSample_Model GridSample_Spec GridSample_Proofs Terrain_Model Terrain_Spec Terrain_Proofs TerrainR_Model TerrainR_Spec.
Import ListNotations.
Open Scope Z_scope.

(** Polar angles. *)
Lemma sqrt_pos_sum : forall x y : R, (x <> 0 \/ y <> 0 -> 0 < x * x + y * y)%R.
Proof.
  intros x y N.
  assert (forall r, 0 <= r * r)%R as S by (intro; apply Rle_0_sqr).
  assert (forall r, r <> 0 -> 0 < r * r)%R as P by (intros; apply Rsqr_pos_lt; assumption).
  pose proof (S x). pose proof (S y). destruct N as [N|N]; apply P in N; lra.
Qed.

Lemma cos_pos_of_atan : forall t, (0 < cos (atan t))%R.
Proof. intro t. destruct (atan_bound t). apply cos_gt_0; lra. Qed.

Lemma atan_polar : forall y x, (0 < x)%R ->
  let r := sqrt (x * x + y * y) in (r * cos (atan (y / x)) = x /\ r * sin (atan (y / x)) = y)%R.
Proof.
  intros y x P r.
  set (t := atan (y / x)). pose proof (cos_pos_of_atan (y / x)) as C. fold t in C.
  assert (sin t * x = y * cos t)%R as T.
  { pose proof (tan_atan (y / x)) as K. fold t in K. unfold tan in K.
    assert (sin t = y / x * cos t)%R as S by (rewrite <- K; field; lra). rewrite S. field. lra. }
  pose proof (sin2_cos2 t) as SC. unfold Rsqr in SC.
  assert (r * cos t = x)%R as A.
  { assert (0 < x / cos t)%R as Q by (apply Rdiv_lt_0_compat; assumption).
    assert (r = x / cos t)%R as ->; [|field; lra].
    unfold r. apply sqrt_lem_1.
    - pose proof (Rle_0_sqr x). pose proof (Rle_0_sqr y). unfold Rsqr in *. lra.
    - lra.
    - apply (Rmult_eq_reg_r (cos t * cos t)%R); [|apply Rgt_not_eq; apply Rmult_lt_0_compat; assumption].
      replace (x / cos t * (x / cos t) * (cos t * cos t))%R with (x * x)%R by (field; lra).
      replace ((x * x + y * y) * (cos t * cos t))%R with (x * x * (cos t * cos t) + (y * cos t) * (y * cos t))%R by ring.
      rewrite <- T. transitivity (x * x * (sin t * sin t + cos t * cos t))%R; [rewrite SC; ring|ring]. }
  split; [exact A|].
  apply (Rmult_eq_reg_r x); [|lra].
  replace (r * sin t * x)%R with (r * (sin t * x))%R by ring. rewrite T.
  replace (r * (y * cos t))%R with ((r * cos t) * y)%R by ring. rewrite A. ring.
Qed.

Lemma atan2_polar : forall flat y x, (x <> 0 \/ y <> 0)%R ->
  let r := sqrt (x * x + y * y) in
  (r * cos (atan2 flat y x) = x /\ r * sin (atan2 flat y x) = y /\
   - PI < atan2 flat y x <= PI)%R.
Proof.
  intros flat y x N r. pose proof PI_RGT_0 as PP. unfold atan2.
  destruct (Rlt_dec 0 x) as [P|P].
  - destruct (atan_polar y x P) as [A B]. split; [exact A|]. split; [exact B|].
    destruct (atan_bound (y / x)). lra.
  - destruct (Rlt_dec x 0) as [M|M].
    + destruct (atan_polar (- y) (- x) ltac:(lra)) as [A B].
      replace (- x * - x + - y * - y)%R with (x * x + y * y)%R in A, B by ring. fold r in A, B.
      replace (- y / - x)%R with (y / x)%R in A, B by (field; lra).
      destruct (atan_bound (y / x)) as [B1 B2].
      destruct (Rle_dec 0 y) as [Y|Y].
      * rewrite neg_cos, neg_sin. split; [lra|]. split; [lra|].
        split; [lra|].
        assert (atan (y / x) <= 0)%R; [|lra].
        destruct (Rle_lt_dec (atan (y / x)) 0) as [|K]; [assumption|]. exfalso.
        assert (0 < sin (atan (y / x)))%R by (apply sin_gt_0; lra).
        assert (0 < r)%R. { apply sqrt_lt_R0. apply sqrt_pos_sum. exact N. }
        nra.
      * replace (atan (y / x) - PI)%R with (- (PI - atan (y / x)))%R by ring.
        rewrite cos_neg, sin_neg, Rtrigo_facts.cos_pi_minus, sin_PI_x. split; [lra|]. split; [lra|].
        split; [|lra].
        assert (0 < atan (y / x))%R; [|lra].
        destruct (Rlt_le_dec 0 (atan (y / x))) as [|K]; [assumption|]. exfalso.
        assert (sin (atan (y / x)) <= 0)%R.
        { destruct (Req_dec (atan (y / x)) 0) as [->|]; [rewrite sin_0; lra|].
          left. apply sin_lt_0_var; lra. }
        assert (0 < r)%R. { apply sqrt_lt_R0. apply sqrt_pos_sum. exact N. }
        nra.
    + assert (x = 0)%R as -> by lra.
      assert (r = Rabs y) as Er.
      { unfold r. replace (0 * 0 + y * y)%R with (Rsqr y) by (unfold Rsqr; ring). apply sqrt_Rsqr_abs. }
      destruct (Rlt_dec 0 y) as [Y|Y].
      * rewrite cos_PI2, sin_PI2, Er, Rabs_right by lra. lra.
      * destruct (Rlt_dec y 0) as [Y'|Y']; [|lra].
        rewrite cos_neg, sin_neg, cos_PI2, sin_PI2, Er, Rabs_left by lra. lra.
Qed.

(** [z] is the real number [r]. *)
Definition is_real (z : rl) (r : R) : Prop := z = Some r.

Section P.
Variable junk : Z -> Z -> fl.
Variable junkr : Z -> Z -> rl.

Lemma lift2_num : forall f a b p q, is_num a p -> is_num b q -> lift2 f a b = Some (f (Q2R p) (Q2R q)).
Proof.
  intros f a b p q (p' & -> & A) (q' & -> & B). simpl. rewrite (Qeq_eqR _ _ A), (Qeq_eqR _ _ B). reflexivity.
Qed.
Lemma lift2_nan : forall f a b, a = None \/ b = None -> lift2 f a b = None.
Proof. intros f a b [-> | ->]; [reflexivity|destruct a; reflexivity]. Qed.

Lemma resultr_spec : forall (g : grid fl) a h w, nrow a = h -> ncol a = w -> 0 <= h -> 0 <= w ->
  exists g', resultr junkr g a = Ok g' /\ grid_is g' (gT g) h w 1 (fun _ => at_ a) None.
Proof.
  intros g a h w R C Hh Hw. unfold resultr.
  destruct (make_grid_spec2 rl junkr (Some 0%R) ClsComp (gT g) (nd_of None a) None h w (fun _ => at_ a) Hh Hw)
    as (g' & E & G & _); [simpl; congruence|reflexivity|]. exists g'. split; assumption.
Qed.

(** Stencils of the masked heights: numbers, and nan. *)
Lemma stencils : forall g T H W nb F nodata b, grid_is g T H W nb F nodata ->
  unskewed T -> 0 <= b < nb ->
  exists D, masked_band junk g b = Ok D /\ nrow D = H /\ ncol D = W /\
    (forall h i j, interior H W i j ->
       (forall a c, near i j a c -> data_cell nb F nodata a c /\ is_num (F b a c) (qval h (centre T a c))) ->
       is_num (at_ (ddx D (dx T)) (i - 1) (j - 1)) (qdx h (centre T i j)) /\
       is_num (at_ (ddy D (dy T)) (i - 1) (j - 1)) (qdy h (centre T i j))) /\
    (forall i j a c, interior H W i j -> near i j a c -> (a, c) <> (i, j) -> ~ data_cell nb F nodata a c ->
       at_ (ddx D (dx T)) (i - 1) (j - 1) = None \/ at_ (ddy D (dy T)) (i - 1) (j - 1) = None).
Proof.
  intros g T H W nb F nodata b G U Hb.
  destruct (masked_spec junk g T H W nb F nodata b G Hb) as (D & ED & R & C & PD).
  exists D. split; [exact ED|]. split; [exact R|]. split; [exact C|].
  pose proof U as (_ & _ & NX & NY). split.
  - intros h i j I K.
    assert (forall a c, near i j a c -> is_num (at_ D a c) (qval h (centre T a c))) as Q.
    { intros a c N. destruct (K a c N) as [K1 K2]. unfold interior in I. unfold near in N.
      destruct (PD a c ltac:(lia) ltac:(lia)) as [P1 _]. rewrite (P1 K1). exact K2. }
    split.
    + eapply is_num_comp; [apply (ddx_num junk D (dx T) (fun a c => qval h (centre T a c)) (i - 1) (j - 1) NX)|].
      * intros a c N _. apply Q. unfold near in *. lia.
      * rewrite <- (quad_x h T i j U). unfold stx.
        replace (i - 1 + 1) with i by lia. replace (j - 1 + 2) with (j + 1) by lia.
        replace (i - 1 + 2) with (i + 1) by lia. reflexivity.
    + eapply is_num_comp; [apply (ddy_num junk D (dy T) (fun a c => qval h (centre T a c)) (i - 1) (j - 1) NY)|].
      * intros a c N _. apply Q. unfold near in *. lia.
      * rewrite <- (quad_y h T i j U). unfold sty.
        replace (j - 1 + 1) with j by lia. replace (j - 1 + 2) with (j + 1) by lia.
        replace (i - 1 + 2) with (i + 1) by lia. reflexivity.
  - intros i j a c I N Ne Dn.
    assert (at_ D a c = None) as E.
    { unfold interior in I. unfold near in N. destruct (PD a c ltac:(lia) ltac:(lia)) as [_ P2]. exact (P2 Dn). }
    assert (c <> j \/ a <> i) as [K|K].
    { destruct (Z.eq_dec c j) as [->|]; [right|left; assumption]. intros ->. congruence. }
    + left. apply (ddx_nan junk D _ _ _ a c); [unfold near in *; lia|lia|exact E].
    + right. apply (ddy_nan junk D _ _ _ a c); [unfold near in *; lia|lia|exact E].
Qed.

(** Slope: the length of the gradient inside, odd reflection at the border. *)
Lemma slope_spec : forall g T H W nb F nodata b, grid_is g T H W nb F nodata ->
  unskewed T -> 0 <= b < nb -> 3 <= H -> 3 <= W ->
  exists gs S, slope junk junkr g b = Ok gs /\ grid_is gs T H W 1 S None /\
    (forall h i j, interior H W i j ->
       (forall a c, near i j a c -> data_cell nb F nodata a c /\ is_num (F b a c) (qval h (centre T a c))) ->
       S 0 i j = Some (sqrt (Q2R (qdx h (centre T i j)) * Q2R (qdx h (centre T i j)) +
                             Q2R (qdy h (centre T i j)) * Q2R (qdy h (centre T i j))))) /\
    (forall i j a c, interior H W i j -> near i j a c -> (a, c) <> (i, j) -> ~ data_cell nb F nodata a c ->
       S 0 i j = None) /\
    (forall s, (forall i j, interior H W i j -> S 0 i j = Some s) ->
       forall i j, 0 <= i < H -> 0 <= j < W -> S 0 i j = Some s).
Proof.
  intros g T H W nb F nodata b G U Hb HH HW. pose proof G as (ET & _).
  destruct (stencils g T H W nb F nodata b G U Hb) as (D & ED & R & C & PN & PM).
  unfold slope. rewrite not_skewed by (rewrite ET; exact U). rewrite ED. cbn [bind].
  unfold slope_, pad_reflect. cbn [nrow ncol zip2 ddx]. rewrite R, C, ET. unfold less2.
  destruct (Z.max 0 (H - 2) =? 0) eqn:Q1; [lia|]. destruct (Z.max 0 (W - 2) =? 0) eqn:Q2; [lia|].
  cbn [orb bind]. set (A := mkA _ _ _).
  assert (nrow A = H /\ ncol A = W) as [RA CA] by (unfold A; cbn [nrow ncol]; lia).
  destruct (resultr_spec g A H W RA CA ltac:(lia) ltac:(lia)) as (gs & Eg & Gs).
  rewrite ET in Gs. exists gs, (fun _ => at_ A). split; [exact Eg|]. split; [exact Gs|].
  assert (forall i j, interior H W i j ->
    at_ A i j = lift2 norm2 (at_ (ddx D (dx T)) (i - 1) (j - 1)) (at_ (ddy D (dy T)) (i - 1) (j - 1))) as IA.
  { intros i j [Hi Hj]. unfold A. cbn [at_]. unfold pad_odd.
    destruct (Z.max 0 (W - 2) =? 1) eqn:W1.
    - replace (j - 1) with 0 by lia. destruct (Z.max 0 (H - 2) =? 1) eqn:H1.
      + replace (i - 1) with 0 by lia. reflexivity.
      + destruct (i =? 0) eqn:?; [lia|]. destruct (i =? Z.max 0 (H - 2) + 1) eqn:?; [lia|]. reflexivity.
    - destruct (j =? 0) eqn:?; [lia|]. destruct (j =? Z.max 0 (W - 2) + 1) eqn:?; [lia|].
      destruct (Z.max 0 (H - 2) =? 1) eqn:H1.
      + replace (i - 1) with 0 by lia. reflexivity.
      + destruct (i =? 0) eqn:?; [lia|]. destruct (i =? Z.max 0 (H - 2) + 1) eqn:?; [lia|]. reflexivity. }
  split; [|split].
  - intros h i j I K. destruct (PN h i j I K) as [K1 K2]. rewrite (IA i j I).
    rewrite (lift2_num norm2 _ _ _ _ K1 K2). reflexivity.
  - intros i j a c I N Ne Dn. rewrite (IA i j I). apply lift2_nan. exact (PM i j a c I N Ne Dn).
  - intros s K i j Hi Hj.
    assert (forall i j, 0 <= i < H - 2 -> 0 <= j < W - 2 ->
      lift2 norm2 (at_ (ddx D (dx T)) i j) (at_ (ddy D (dy T)) i j) = Some s) as K'.
    { intros a c Ha Hc. specialize (K (a + 1) (c + 1)). rewrite <- K by (unfold interior; lia).
      rewrite IA by (unfold interior; lia). replace (a + 1 - 1) with a by lia.
      replace (c + 1 - 1) with c by lia. reflexivity. }
    assert (forall n f x, 1 <= n -> (forall y, 0 <= y < n -> f y = Some s) -> 0 <= x < n + 2 ->
              pad_odd n f x = Some s) as PO.
    { intros n f x Hn Kf Hx. unfold pad_odd.
      destruct (n =? 1) eqn:?; [apply Kf; lia|]. destruct (x =? 0) eqn:?.
      - rewrite !Kf by lia. simpl. f_equal. ring.
      - destruct (x =? n + 1) eqn:?; [|apply Kf; lia]. rewrite !Kf by lia. simpl. f_equal. ring. }
    unfold A. cbn [at_ zip2]. apply PO; [lia| |lia]. intros y Hy. apply PO; [lia| |lia].
    intros x Hx. apply K'; lia.
Qed.

Lemma slope_plane : forall g T H W nb F nodata b a1 b1 c1, grid_is g T H W nb F nodata ->
  unskewed T -> 0 <= b < nb -> 3 <= H -> 3 <= W ->
  (forall i j, 0 <= i < H -> 0 <= j < W ->
     data_cell nb F nodata i j /\ is_num (F b i j) (qval (plane a1 b1 c1) (centre T i j))) ->
  exists gs S, slope junk junkr g b = Ok gs /\ grid_is gs T H W 1 S None /\
    forall i j, 0 <= i < H -> 0 <= j < W ->
      S 0 i j = Some (sqrt (Q2R b1 * Q2R b1 + Q2R c1 * Q2R c1)).
Proof.
  intros g T H W nb F nodata b a1 b1 c1 G U Hb HH HW K.
  destruct (slope_spec g T H W nb F nodata b G U Hb HH HW) as (gs & S & E & Gs & P & _ & B).
  exists gs, S. split; [exact E|]. split; [exact Gs|]. apply B. intros i j I.
  rewrite (P (plane a1 b1 c1) i j I).
  - f_equal. f_equal.
    assert (forall p, qdx (plane a1 b1 c1) p == b1)%Q as X by (intros [x y]; unfold qdx, plane; simpl; ring).
    assert (forall p, qdy (plane a1 b1 c1) p == c1)%Q as Y by (intros [x y]; unfold qdy, plane; simpl; ring).
    rewrite (Qeq_eqR _ _ (X (centre T i j))), (Qeq_eqR _ _ (Y (centre T i j))). reflexivity.
  - intros x y N. apply K; unfold near, interior in *; lia.
Qed.

(** Aspect. *)
Lemma aspect_spec : forall flat g T H W nb F nodata b, grid_is g T H W nb F nodata ->
  unskewed T -> 0 <= b < nb -> 2 <= H -> 2 <= W ->
  exists ga A, aspect junk junkr flat g b = Ok ga /\ grid_is ga T H W 1 A None /\
    (forall h i j, interior H W i j ->
       (forall a c, near i j a c -> data_cell nb F nodata a c /\ is_num (F b a c) (qval h (centre T a c))) ->
       let p := Q2R (qdx h (centre T i j)) in let q := Q2R (qdy h (centre T i j)) in
       exists th, A 0 i j = Some th /\
         ((p <> 0 \/ q <> 0) -> - PI < th <= PI /\
            sqrt (p * p + q * q) * cos th = - p /\ sqrt (p * p + q * q) * sin th = q)%R) /\
    (forall i j, 0 <= i < H -> 0 <= j < W -> border H W i j -> A 0 i j = None) /\
    (forall i j a c, interior H W i j -> near i j a c -> (a, c) <> (i, j) -> ~ data_cell nb F nodata a c ->
       A 0 i j = None).
Proof.
  intros flat g T H W nb F nodata b G U Hb HH HW. pose proof G as (ET & _).
  destruct (stencils g T H W nb F nodata b G U Hb) as (D & ED & R & C & PN & PM).
  unfold aspect. rewrite not_skewed by (rewrite ET; exact U). rewrite ED. cbn [bind]. rewrite ET.
  set (A := aspect_ flat D (dx T) (dy T)).
  assert (nrow A = H /\ ncol A = W) as [RA CA].
  { unfold A, aspect_. cbn [nrow ncol pad_nan zip2 ddx]. unfold less2. rewrite R, C. lia. }
  destruct (resultr_spec g A H W RA CA ltac:(lia) ltac:(lia)) as (ga & Eg & Ga).
  rewrite ET in Ga. exists ga, (fun _ => at_ A). split; [exact Eg|]. split; [exact Ga|].
  assert (forall i j, interior H W i j -> at_ A i j = lift2 (fun a b => atan2 flat b (- a))
    (at_ (ddx D (dx T)) (i - 1) (j - 1)) (at_ (ddy D (dy T)) (i - 1) (j - 1))) as IA.
  { intros i j [Hi Hj]. unfold A, aspect_. rewrite (pad_in junk); [reflexivity| |]; cbn [nrow ncol zip2 ddx]; unfold less2; lia. }
  split; [|split].
  - intros h i j I K. destruct (PN h i j I K) as [K1 K2]. rewrite (IA i j I).
    rewrite (lift2_num _ _ _ _ _ K1 K2).
    set (p := Q2R (qdx h (centre T i j))). set (q := Q2R (qdy h (centre T i j))). eexists. split; [reflexivity|].
    intro N. destruct (atan2_polar flat q (- p)) as (A1 & A2 & A3); [lra|].
    replace (- p * - p)%R with (p * p)%R in A1, A2 by ring. split; [exact A3|]. split; assumption.
  - intros i j Hi Hj B. unfold A, aspect_. apply (pad_out junk). cbn [nrow ncol zip2 ddx]. unfold less2.
    unfold border in B. lia.
  - intros i j a c I N Ne Dn. rewrite (IA i j I). apply lift2_nan. exact (PM i j a c I N Ne Dn).
Qed.

Lemma in_numbers : forall a r, In r (numbers a) <->
  exists i j, 0 <= i < nrow a /\ 0 <= j < ncol a /\ at_ a i j = Some r.
Proof.
  intros a r. unfold numbers. rewrite in_flat_map. split.
  - intros (i & Hi & K). apply in_flat_map in K. destruct K as (j & Hj & K).
    apply in_zrange in Hi. apply in_zrange in Hj. destruct (at_ a i j) as [q|] eqn:E; [|destruct K].
    destruct K as [<-|[]]. exists i, j. split; [lia|]. split; [lia|exact E].
  - intros (i & j & Hi & Hj & E). exists i. split; [apply in_zrange; lia|].
    apply in_flat_map. exists j. split; [apply in_zrange; lia|]. rewrite E. left. reflexivity.
Qed.

Lemma fold_rmax : forall l r, In (fold_left Rmax l r) (r :: l) /\
  forall q, In q (r :: l) -> (q <= fold_left Rmax l r)%R.
Proof.
  induction l as [|x l IH]; intro r; simpl.
  - split; [left; reflexivity|]. intros q [->|[]]. lra.
  - destruct (IH (Rmax r x)) as [A B]. split.
    + destruct A as [A|A]; [|right; right; exact A].
      rewrite <- A. unfold Rmax. destruct (Rle_dec r x); [right; left; reflexivity|left; reflexivity].
    + intros q [->|[->|K]].
      * pose proof (B _ (or_introl eq_refl)). pose proof (Rmax_l q x). lra.
      * pose proof (B _ (or_introl eq_refl)). pose proof (Rmax_r r q). lra.
      * apply B. right. exact K.
Qed.

Lemma rmax_spec : forall l m, rmax l = Ok m -> In m l /\ forall q, In q l -> (q <= m)%R.
Proof. intros [|r l] m E; [discriminate|]. injection E as <-. apply fold_rmax. Qed.

Lemma norm2_zero : forall a b, norm2 a b = 0%R -> a = 0%R /\ b = 0%R.
Proof.
  intros a b E. unfold norm2 in E. apply sqrt_eq_0 in E.
  - destruct (Req_dec a 0) as [A|A]; [|exfalso; pose proof (sqrt_pos_sum a b (or_introl A)); lra].
    destruct (Req_dec b 0) as [B|B]; [|exfalso; pose proof (sqrt_pos_sum a b (or_intror B)); lra]. split; assumption.
  - pose proof (Rle_0_sqr a). pose proof (Rle_0_sqr b). unfold Rsqr in *. lra.
Qed.
Lemma norm2_sq : forall a b, (norm2 a b * norm2 a b = a * a + b * b)%R.
Proof.
  intros. unfold norm2. apply sqrt_sqrt. pose proof (Rle_0_sqr a). pose proof (Rle_0_sqr b). unfold Rsqr in *. lra.
Qed.
Lemma norm2_pos : forall a b, (0 <= norm2 a b)%R.
Proof. intros. apply sqrt_pos. Qed.

(** The gradient and its normalisation, together. *)
Lemma normed_spec : forall g T H W nb F nodata b, grid_is g T H W nb F nodata ->
  unskewed T -> 0 <= b < nb -> 2 <= H -> 2 <= W ->
  exists gx gy FX FY, gradient junk g b = Ok (gx, gy) /\
    grid_is gx T H W 1 FX None /\ grid_is gy T H W 1 FY None /\
    ((forall i j, 0 <= i < H -> 0 <= j < W -> FX 0 i j = None \/ FY 0 i j = None) ->
       normed_potential_vectors junk junkr g b = Err ValueError) /\
    ((exists i j, 0 <= i < H /\ 0 <= j < W /\ exists p q, FX 0 i j = Some p /\ FY 0 i j = Some q /\
        ~ (p == 0 /\ q == 0)%Q) ->
     exists gu gv U V m, normed_potential_vectors junk junkr g b = Ok (gu, gv) /\
       grid_is gu T H W 1 U None /\ grid_is gv T H W 1 V None /\ (0 < m)%R /\
       (forall i j, 0 <= i < H -> 0 <= j < W ->
          U 0 i j = match FX 0 i j with Some p => Some (Q2R p / m)%R | None => None end /\
          V 0 i j = match FY 0 i j with Some q => Some (Q2R q / m)%R | None => None end) /\
       (forall i j u v, 0 <= i < H -> 0 <= j < W -> U 0 i j = Some u -> V 0 i j = Some v ->
          (u * u + v * v <= 1)%R) /\
       (exists i j u v, 0 <= i < H /\ 0 <= j < W /\ U 0 i j = Some u /\ V 0 i j = Some v /\
          (u * u + v * v = 1)%R)).
Proof.
  intros g T H W nb F nodata b G U Hb HH HW. pose proof G as (ET & _).
  destruct (masked_spec junk g T H W nb F nodata b G Hb) as (D & ED & RD & CD & PD).
  unfold gradient, normed_potential_vectors. rewrite not_skewed by (rewrite ET; exact U).
  rewrite ED. cbn [bind grad_]. rewrite ET.
  set (X := ddx D (dx T)). set (Y := ddy D (dy T)).
  assert (nrow X = H - 2 /\ ncol X = W - 2) as [RX CX] by (unfold X, ddx, less2; cbn [nrow ncol]; lia).
  assert (nrow Y = H - 2 /\ ncol Y = W - 2) as [RY CY] by (unfold Y, ddy, less2; cbn [nrow ncol]; lia).
  destruct (result_spec junk g (pad_nan None 1 1 X) H W) as (gx & E1 & G1);
    [unfold pad_nan; cbn [nrow ncol]; lia..|].
  destruct (result_spec junk g (pad_nan None 1 1 Y) H W) as (gy & E2 & G2);
    [unfold pad_nan; cbn [nrow ncol]; lia..|].
  rewrite E1. cbn [bind]. rewrite E2. cbn [bind]. rewrite ET in G1, G2.
  exists gx, gy, (fun _ => at_ (pad_nan None 1 1 X)), (fun _ => at_ (pad_nan None 1 1 Y)).
  split; [reflexivity|]. split; [exact G1|]. split; [exact G2|].
  assert (forall r, In r (numbers (zip2 norm2 X Y)) <-> exists i j, 0 <= i < H /\ 0 <= j < W /\
     exists p q, at_ (pad_nan None 1 1 X) i j = Some p /\ at_ (pad_nan None 1 1 Y) i j = Some q /\
                 r = norm2 (Q2R p) (Q2R q)) as NR.
  { intro r. rewrite in_numbers. cbn [nrow ncol zip2 at_]. rewrite RX, CX. split.
    - intros (i & j & Hi & Hj & E). exists (i + 1), (j + 1). split; [lia|]. split; [lia|].
      rewrite !(pad_in junk) by lia. replace (i + 1 - 1) with i by lia. replace (j + 1 - 1) with j by lia.
      destruct (at_ X i j) as [p|]; [|discriminate]. destruct (at_ Y i j) as [q|]; [|discriminate].
      injection E as <-. exists p, q. split; [reflexivity|]. split; reflexivity.
    - intros (i & j & Hi & Hj & p & q & A & B & ->).
      assert (1 <= i < 1 + nrow X /\ 1 <= j < 1 + ncol X) as [I1 I2].
      { destruct (Z_le_dec 1 i), (Z_lt_dec i (1 + nrow X)), (Z_le_dec 1 j), (Z_lt_dec j (1 + ncol X)); try lia;
          rewrite (pad_out junk) in A by lia; discriminate. }
      rewrite (pad_in junk) in A by lia. rewrite (pad_in junk) in B by lia.
      exists (i - 1), (j - 1). split; [lia|]. split; [lia|]. rewrite A, B. reflexivity. }
  split.
  - intro None_. unfold normed_. fold X. fold Y.
    destruct (numbers (zip2 norm2 X Y)) as [|r l] eqn:EN; [reflexivity|]. exfalso.
    destruct (proj1 (NR r) (or_introl eq_refl)) as (i & j & Hi & Hj & p & q & A & B & _).
    destruct (None_ i j Hi Hj) as [K|K]; congruence.
  - intros (i0 & j0 & Hi0 & Hj0 & p0 & q0 & A0 & B0 & N0). unfold normed_. fold X. fold Y.
    destruct (rmax (numbers (zip2 norm2 X Y))) as [m|e] eqn:EM.
    2:{ exfalso. destruct (numbers (zip2 norm2 X Y)) as [|r l] eqn:EN; [|discriminate].
        apply (proj2 (NR (norm2 (Q2R p0) (Q2R q0)))). exists i0, j0. split; [exact Hi0|]. split; [exact Hj0|].
        exists p0, q0. repeat split; assumption. }
    apply rmax_spec in EM. destruct EM as [IM UM]. cbn [bind fst snd].
    assert (0 < m)%R as PM.
    { assert (norm2 (Q2R p0) (Q2R q0) <= m)%R as L.
      { apply UM. apply NR. exists i0, j0. split; [exact Hi0|]. split; [exact Hj0|].
        exists p0, q0. repeat split; assumption. }
      pose proof (norm2_pos (Q2R p0) (Q2R q0)) as P.
      destruct (Req_dec (norm2 (Q2R p0) (Q2R q0)) 0) as [Z|Z]; [|lra].
      apply norm2_zero in Z. exfalso. apply N0. destruct Z as [Z1 Z2].
      rewrite <- RMicromega.Q2R_0 in Z1, Z2. split; apply eqR_Qeq; assumption. }
    set (P1 := pad_nan None 1 1 (mkA (nrow X) (ncol X) (fun i j => rdiv (at_ X i j) m))).
    set (P2 := pad_nan None 1 1 (mkA (nrow Y) (ncol Y) (fun i j => rdiv (at_ Y i j) m))).
    destruct (resultr_spec g P1 H W) as (gu & Eu & Gu); [unfold P1, pad_nan; cbn [nrow ncol]; lia..|].
    destruct (resultr_spec g P2 H W) as (gv & Ev & Gv); [unfold P2, pad_nan; cbn [nrow ncol]; lia..|].
    rewrite Eu. cbn [bind]. rewrite Ev. cbn [bind]. rewrite ET in Gu, Gv.
    assert (forall (A : arr fl) i j, nrow A = H - 2 -> ncol A = W - 2 ->
      at_ (pad_nan None 1 1 (mkA (nrow A) (ncol A) (fun i j => rdiv (at_ A i j) m))) i j =
      match at_ (pad_nan None 1 1 A) i j with Some p => Some (Q2R p / m)%R | None => None end) as PU.
    { intros A i j _ _. unfold pad_nan. cbn [nrow ncol at_].
      destruct ((1 <=? i) && (i <? 1 + nrow A) && (1 <=? j) && (j <? 1 + ncol A)); [|reflexivity].
      unfold rdiv. destruct (at_ A (i - 1) (j - 1)); [|reflexivity].
      destruct (Req_EM_T m 0); [lra|reflexivity]. }
    exists gu, gv, (fun _ => at_ P1), (fun _ => at_ P2), m.
    split; [reflexivity|]. split; [exact Gu|]. split; [exact Gv|]. split; [exact PM|].
    assert (forall i j, at_ P1 i j = match at_ (pad_nan None 1 1 X) i j with Some p => Some (Q2R p / m)%R | None => None end) as L1
      by (intros; apply PU; assumption).
    assert (forall i j, at_ P2 i j = match at_ (pad_nan None 1 1 Y) i j with Some p => Some (Q2R p / m)%R | None => None end) as L2
      by (intros; apply PU; assumption).
    split; [intros i j _ _; split; [apply L1|apply L2]|].
    assert (forall a c : R, (a / m * (a / m) + c / m * (c / m) = norm2 a c * norm2 a c / (m * m))%R) as FM.
    { intros a c. rewrite norm2_sq. field. lra. }
    split.
    + intros i j u v Hi Hj Q1 Q2. rewrite L1 in Q1. rewrite L2 in Q2.
      destruct (at_ (pad_nan None 1 1 X) i j) as [p|] eqn:A; [|discriminate].
      destruct (at_ (pad_nan None 1 1 Y) i j) as [q|] eqn:B; [|discriminate].
      injection Q1 as <-. injection Q2 as <-. rewrite FM.
      assert (norm2 (Q2R p) (Q2R q) <= m)%R as L.
      { apply UM. apply NR. exists i, j. split; [exact Hi|]. split; [exact Hj|]. exists p, q. repeat split; assumption. }
      pose proof (norm2_pos (Q2R p) (Q2R q)).
      apply (Rmult_le_reg_r (m * m)%R); [nra|]. field_simplify; [nra|lra].
    + apply NR in IM. destruct IM as (i & j & Hi & Hj & p & q & A & B & Em).
      exists i, j, (Q2R p / m)%R, (Q2R q / m)%R. split; [exact Hi|]. split; [exact Hj|].
      rewrite L1, L2, A, B. split; [reflexivity|]. split; [reflexivity|]. rewrite FM, <- Em. field. lra.
Qed.

(** Hillshade. *)
Lemma hillshade_spec : forall pct az el g T H W nb F nodata b, grid_is g T H W nb F nodata ->
  unskewed T -> 0 <= b < nb -> 3 <= H -> 3 <= W ->
  forall h, (forall i j, 0 <= i < H -> 0 <= j < W ->
     data_cell nb F nodata i j /\ is_num (F b i j) (qval h (centre T i j))) ->
  exists gh S lo hi, hillshade junk junkr pct az el g b = Ok gh /\ grid_is gh T H W 1 S None /\
    (forall i j, 0 <= i < H -> 0 <= j < W -> border H W i j -> S 0 i j = None) /\
    (forall i j, interior H W i j -> S 0 i j = Some (Rmin (Rmax
       (shade az el (Q2R (dx T)) (Q2R (dy T)) (Q2R (qdx h (centre T i j))) (Q2R (qdy h (centre T i j)))) lo) hi)) /\
    (exists l, l <> [] /\ pct l = (lo, hi) /\
       forall r, In r l <-> exists i j, interior H W i j /\
         r = shade az el (Q2R (dx T)) (Q2R (dy T)) (Q2R (qdx h (centre T i j))) (Q2R (qdy h (centre T i j)))).
Proof.
  intros pct az el g T H W nb F nodata b G U Hb HH HW h K.
  destruct (gradient_quadratic junk g T H W nb F nodata b h G U Hb ltac:(lia) ltac:(lia))
    as (gx & gy & FX & FY & E & GX & GY & PN & PB & _).
  { intros. apply K; assumption. }
  unfold hillshade. rewrite E. cbn [bind fst snd].
  pose proof G as (ET & _). pose proof GX as (_ & SX & NX & _). pose proof GY as (_ & SY & NY & _).
  destruct (band_plane junk _ _ _ _ 0 SX ltac:(lia)) as (vx & Ex & a & Ea & Ra & Ca & Pa).
  destruct (band_plane junk _ _ _ _ 0 SY ltac:(lia)) as (vy & Ey & c & Ec & Rc & Cc & Pc).
  rewrite Ex. cbn [bind]. rewrite Ea. cbn [bind]. rewrite Ey. cbn [bind]. rewrite Ec. cbn [bind]. rewrite ET.
  set (sh := shade az el (Q2R (dx T)) (Q2R (dy T))). set (A := zip2 sh a c).
  assert (forall i j, 0 <= i < H -> 0 <= j < W -> border H W i j -> at_ A i j = None) as AB.
  { intros i j Hi Hj B. unfold A, zip2. cbn [at_]. apply lift2_nan. left. rewrite Pa by assumption. apply PB; assumption. }
  assert (forall i j, interior H W i j ->
    at_ A i j = Some (sh (Q2R (qdx h (centre T i j))) (Q2R (qdy h (centre T i j))))) as AI.
  { intros i j I. unfold A, zip2. cbn [at_]. unfold interior in I. rewrite Pa, Pc by lia.
    destruct (PN i j I) as [N1 N2]. { intros x y Nr. apply K; unfold near in Nr; lia. }
    apply lift2_num; assumption. }
  assert (forall r, In r (numbers A) <-> exists i j, interior H W i j /\
     r = sh (Q2R (qdx h (centre T i j))) (Q2R (qdy h (centre T i j)))) as NA.
  { intro r. rewrite in_numbers. unfold A at 1 2. cbn [nrow ncol zip2]. rewrite Ra, Ca. split.
    - intros (i & j & Hi & Hj & Q).
      assert (interior H W i j) as I.
      { destruct (Z.eq_dec i 0); [rewrite AB in Q by (unfold border; lia); discriminate|].
        destruct (Z.eq_dec i (H - 1)); [rewrite AB in Q by (unfold border; lia); discriminate|].
        destruct (Z.eq_dec j 0); [rewrite AB in Q by (unfold border; lia); discriminate|].
        destruct (Z.eq_dec j (W - 1)); [rewrite AB in Q by (unfold border; lia); discriminate|].
        unfold interior. lia. }
      exists i, j. split; [exact I|]. rewrite (AI i j I) in Q. congruence.
    - intros (i & j & I & ->). exists i, j. pose proof I as [I1 I2]. split; [lia|]. split; [lia|]. apply AI. exact I. }
  destruct (numbers A) as [|r l] eqn:EN.
  { exfalso. apply (proj2 (NA (sh (Q2R (qdx h (centre T 1 1))) (Q2R (qdy h (centre T 1 1)))))).
    exists 1, 1. split; [unfold interior; lia|reflexivity]. }
  destruct (pct (r :: l)) as [lo hi] eqn:EP.
  set (B := mkA (nrow A) (ncol A) _).
  destruct (resultr_spec g B H W) as (gh & Eh & Gh);
    [unfold B, A; cbn [nrow ncol zip2]; lia..|]. rewrite ET in Gh.
  exists gh, (fun _ => at_ B), lo, hi. split; [exact Eh|]. split; [exact Gh|]. split; [|split].
  - intros i j Hi Hj Bd. unfold B. cbn [at_]. rewrite AB by assumption. reflexivity.
  - intros i j I. unfold B. cbn [at_]. rewrite (AI i j I). reflexivity.
  - exists (r :: l). split; [discriminate|]. split; [exact EP|exact NA].
Qed.
End P.

Lemma shade_unit : forall az el p q, shade az el 1 1 p q = illumination az el p q.
Proof.
  intros az el p q. unfold shade, illumination.
  replace ((0 * q - p * 1) * (0 * q - p * 1) + (p * 0 - 1 * q) * (p * 0 - 1 * q) + (1 * 1 - 0 * 0) * (1 * 1 - 0 * 0))%R
    with (1 + p * p + q * q)%R by ring.
  set (s := sqrt (1 + p * p + q * q)).
  assert (0 < s)%R. { apply sqrt_lt_R0. pose proof (Rle_0_sqr p). pose proof (Rle_0_sqr q). unfold Rsqr in *. lra. }
  field. lra.
Qed.

Lemma hillshade_unit : forall junk junkr pct az el g T H W nb F nodata b h,
  grid_is g T H W nb F nodata ->
  (sx T == 0 /\ sy T == 0 /\ dx T == 1 /\ dy T == 1)%Q -> 0 <= b < nb -> 3 <= H -> 3 <= W ->
  (forall i j, 0 <= i < H -> 0 <= j < W ->
     data_cell nb F nodata i j /\ is_num (F b i j) (qval h (centre T i j))) ->
  let lit i j := illumination az el (Q2R (qdx h (centre T i j))) (Q2R (qdy h (centre T i j))) in
  exists gh S lo hi, hillshade junk junkr pct az el g b = Ok gh /\ grid_is gh T H W 1 S None /\
    (forall i j, 0 <= i < H -> 0 <= j < W -> border H W i j -> S 0 i j = None) /\
    (forall i j, interior H W i j -> S 0 i j = Some (Rmin (Rmax (lit i j) lo) hi)) /\
    (exists l, l <> [] /\ pct l = (lo, hi) /\
       forall r, In r l <-> exists i j, interior H W i j /\ r = lit i j).
Proof.
  intros junk junkr pct az el g T H W nb F nodata b h G (S1 & S2 & DX & DY) Hb HH HW K lit.
  destruct (hillshade_spec junk junkr pct az el g T H W nb F nodata b G) with (h := h)
    as (gh & S & lo & hi & E & Gh & B & P & l & Nl & El & Pl); try assumption.
  { repeat split; try assumption; [rewrite DX|rewrite DY]; discriminate. }
  assert (Q2R (dx T) = 1%R) as X by (rewrite <- RMicromega.Q2R_1; apply Qeq_eqR; exact DX).
  assert (Q2R (dy T) = 1%R) as Y by (rewrite <- RMicromega.Q2R_1; apply Qeq_eqR; exact DY).
  exists gh, S, lo, hi. split; [exact E|]. split; [exact Gh|]. split; [exact B|]. split.
  - intros i j I. rewrite (P i j I), X, Y, shade_unit. reflexivity.
  - exists l. split; [exact Nl|]. split; [exact El|]. intro r. rewrite Pl. unfold lit.
    split; intros (i & j & I & ->); exists i, j; (split; [exact I|]); rewrite X, Y, shade_unit; reflexivity.
Qed.
