(** Properties of the terrain functions (C24, C56-C58). *)
From Coq Require Import List ZArith QArith Qreals Reals Bool Lia Lqa Lra.
From Verif Require Import Band_Model Band_Spec Band_IndexModel Band_IndexSpec Grid_Model Grid_Spec Grid_OpsProofs
  GridSample_Model GridSample_Spec GridSample_Props Terrain_Model Terrain_Spec Terrain_Proofs
  TerrainR_Model TerrainR_Spec TerrainR_Proofs.
Import ListNotations.
Open Scope Z_scope.

(** C24, gradient: exact for every quadratic surface, hence for planes; nan on
    the border and beside cells without data. *)
Theorem C24_gradient_exact : forall junk g T H W nb F nodata b h, grid_is g T H W nb F nodata ->
  unskewed T -> 0 <= b < nb -> 2 <= H -> 2 <= W ->
  (forall i j, 0 <= i < H -> 0 <= j < W -> data_cell nb F nodata i j ->
     is_num (F b i j) (qval h (centre T i j))) ->
  exists gx gy FX FY, gradient junk g b = Ok (gx, gy) /\
    grid_is gx T H W 1 FX None /\ grid_is gy T H W 1 FY None /\
    (forall i j, interior H W i j -> (forall a c, near i j a c -> data_cell nb F nodata a c) ->
       is_num (FX 0 i j) (qdx h (centre T i j)) /\ is_num (FY 0 i j) (qdy h (centre T i j))) /\
    (forall i j, 0 <= i < H -> 0 <= j < W -> border H W i j -> FX 0 i j = None /\ FY 0 i j = None) /\
    (forall i j a c, interior H W i j -> near i j a c -> ~ data_cell nb F nodata a c ->
       (c <> j -> FX 0 i j = None) /\ (a <> i -> FY 0 i j = None)).
Proof. exact gradient_quadratic. Qed.
Print Assumptions C24_gradient_exact.

(** A grid of any size holding a given surface; the hypotheses above hold. *)
Definition surf (T : transform) (h : quad) (H W : Z) : nd fl :=
  mkN [H; W] (fun idx => match idx with [i; j] => Some (qval h (centre T i j)) | _ => None end).
Lemma surface : forall junk T h H W, 0 <= H -> 0 <= W ->
  exists g, make_grid junk (Some 0%Q) ClsComp T (surf T h H W) None = Ok g /\
    grid_is g T H W 1 (fun _ i j => Some (qval h (centre T i j))) None.
Proof.
  intros junk T h H W HH HW.
  destruct (make_grid_spec2 fl junk (Some 0%Q) ClsComp T (surf T h H W) None H W
    (fun _ i j => Some (qval h (centre T i j))) HH HW) as (g & E & G & _); [reflexivity|reflexivity|].
  exists g. split; assumption.
Qed.
Lemma surface_data : forall T h i j, data_cell 1 (fun _ i j => Some (qval h (centre T i j))) None i j.
Proof. intros T h i j k _. split; [reflexivity|discriminate]. Qed.

Definition exT : transform := mkT (10#1) (-3#1) (1#2) (-2#1) 0 0.
Example C24_gradient_example : exists g T H W nb F nodata h, grid_is g T H W nb F nodata /\
  unskewed T /\ 3 <= H /\ 4 <= W /\ ~ (qd h == 0)%Q /\
  (forall i j, 0 <= i < H -> 0 <= j < W -> data_cell nb F nodata i j /\
     is_num (F 0 i j) (qval h (centre T i j))).
Proof.
  destruct (surface fj exT (mkQuad 1 2 3 4 5 6) 3 4) as (g & _ & G); [lia|lia|].
  exists g, exT, 3, 4, 1. do 2 eexists. exists (mkQuad 1 2 3 4 5 6). split; [exact G|].
  split; [repeat split; try reflexivity; intro K; discriminate K|]. split; [lia|]. split; [lia|].
  split; [discriminate|]. intros i j Hi Hj. split; [apply surface_data|]. eexists. split; reflexivity.
Qed.

Theorem C24_gradient_linear : forall junk g1 g2 g3 T H W nb1 nb2 nb3 F1 F2 F3 n1 n2 n3 b1 b2 b3 al be,
  grid_is g1 T H W nb1 F1 n1 -> grid_is g2 T H W nb2 F2 n2 -> grid_is g3 T H W nb3 F3 n3 ->
  unskewed T -> 0 <= b1 < nb1 -> 0 <= b2 < nb2 -> 0 <= b3 < nb3 -> 2 <= H -> 2 <= W ->
  exists x1 y1 x2 y2 x3 y3 X1 Y1 X2 Y2 X3 Y3,
    gradient junk g1 b1 = Ok (x1, y1) /\ gradient junk g2 b2 = Ok (x2, y2) /\
    gradient junk g3 b3 = Ok (x3, y3) /\
    grid_is x1 T H W 1 X1 None /\ grid_is y1 T H W 1 Y1 None /\
    grid_is x2 T H W 1 X2 None /\ grid_is y2 T H W 1 Y2 None /\
    grid_is x3 T H W 1 X3 None /\ grid_is y3 T H W 1 Y3 None /\
    forall i j, interior H W i j ->
      (forall a c, near i j a c -> data_cell nb1 F1 n1 a c /\ data_cell nb2 F2 n2 a c /\
         data_cell nb3 F3 n3 a c /\ exists p q, F1 b1 a c = Some p /\ F2 b2 a c = Some q /\
           is_num (F3 b3 a c) (al * p + be * q)%Q) ->
      exists px qx py qy, X1 0 i j = Some px /\ X2 0 i j = Some qx /\
        Y1 0 i j = Some py /\ Y2 0 i j = Some qy /\
        is_num (X3 0 i j) (al * px + be * qx)%Q /\ is_num (Y3 0 i j) (al * py + be * qy)%Q.
Proof. exact gradient_linear. Qed.
Print Assumptions C24_gradient_linear.

(** Translation invariance: equal surroundings give equal derivatives. *)
Theorem C24_gradient_translation : forall junk g1 g2 T1 T2 H1 W1 H2 W2 nb1 nb2 F1 F2 n1 n2 b1 b2,
  grid_is g1 T1 H1 W1 nb1 F1 n1 -> grid_is g2 T2 H2 W2 nb2 F2 n2 ->
  unskewed T1 -> unskewed T2 -> (dx T1 == dx T2)%Q -> (dy T1 == dy T2)%Q ->
  0 <= b1 < nb1 -> 0 <= b2 < nb2 -> 2 <= H1 -> 2 <= W1 -> 2 <= H2 -> 2 <= W2 ->
  exists x1 y1 x2 y2 X1 Y1 X2 Y2,
    gradient junk g1 b1 = Ok (x1, y1) /\ gradient junk g2 b2 = Ok (x2, y2) /\
    grid_is x1 T1 H1 W1 1 X1 None /\ grid_is y1 T1 H1 W1 1 Y1 None /\
    grid_is x2 T2 H2 W2 1 X2 None /\ grid_is y2 T2 H2 W2 1 Y2 None /\
    forall i1 j1 i2 j2, interior H1 W1 i1 j1 -> interior H2 W2 i2 j2 ->
      (forall a c, near 0 0 a c ->
         data_cell nb1 F1 n1 (i1 + a) (j1 + c) /\ data_cell nb2 F2 n2 (i2 + a) (j2 + c) /\
         exists p, F1 b1 (i1 + a) (j1 + c) = Some p /\ F2 b2 (i2 + a) (j2 + c) = Some p) ->
      exists p q, is_num (X1 0 i1 j1) p /\ is_num (X2 0 i2 j2) p /\
                  is_num (Y1 0 i1 j1) q /\ is_num (Y2 0 i2 j2) q.
Proof. exact gradient_local. Qed.
Print Assumptions C24_gradient_translation.
Example C24_local_example : exists F1 F2, F1 <> F2 /\
  forall a c, near 0 0 a c -> data_cell 1 F1 None (1 + a) (1 + c) /\ data_cell 1 F2 None (2 + a) (5 + c) /\
    exists p, F1 0 (1 + a) (1 + c) = Some p /\ F2 0 (2 + a) (5 + c) = Some p.
Proof.
  exists (fun _ i j => num (i + 7 * j)), (fun _ i j => num (i - 1 + 7 * (j - 4))). split.
  - intro K. apply (f_equal (fun f => f 0 0 0)) in K. discriminate.
  - intros a c _. split; [intros k _; split; [reflexivity|discriminate]|].
    split; [intros k _; split; [reflexivity|discriminate]|].
    eexists. split; [reflexivity|]. unfold num. do 2 f_equal. lia.
Qed.

Theorem C24_skewed_raises : forall junk g T H W nb F nodata b, grid_is g T H W nb F nodata ->
  ~ (sx T == 0 /\ sy T == 0)%Q -> gradient junk g b = Err NotImplementedError /\
  forall b', divergence junk g b b' = Err NotImplementedError.
Proof. exact gradient_skewed. Qed.
Print Assumptions C24_skewed_raises.

(** C24, divergence: exact for a pair of quadratic components. *)
Theorem C24_divergence_exact : forall junk g T H W nb F nodata b0 b1 hu hv, grid_is g T H W nb F nodata ->
  unskewed T -> 0 <= b0 < nb -> 0 <= b1 < nb -> 2 <= H -> 2 <= W ->
  (forall i j, 0 <= i < H -> 0 <= j < W ->
     is_num (F b0 i j) (qval hu (centre T i j)) /\ is_num (F b1 i j) (qval hv (centre T i j))) ->
  exists gd FD, divergence junk g b0 b1 = Ok gd /\ grid_is gd T H W 1 FD None /\
    (forall i j, 0 <= i < H -> 0 <= j < W -> border H W i j -> FD 0 i j = None) /\
    (forall i j, interior H W i j ->
       is_num (FD 0 i j) (qdx hu (centre T i j) + qdy hv (centre T i j))%Q).
Proof. exact divergence_quadratic. Qed.
Print Assumptions C24_divergence_exact.
Example C24_divergence_example : exists g T F h, grid_is g T 3 4 1 F None /\ unskewed T /\
  forall i j, 0 <= i < 3 -> 0 <= j < 4 ->
    is_num (F 0 i j) (qval h (centre T i j)) /\ is_num (F 0 i j) (qval h (centre T i j)).
Proof.
  destruct (surface fj exT (mkQuad 1 2 3 4 5 6) 3 4) as (g & _ & G); [lia|lia|].
  exists g, exT. eexists. exists (mkQuad 1 2 3 4 5 6). split; [exact G|].
  split; [repeat split; try reflexivity; intro K; discriminate K|].
  intros i j Hi Hj. split; eexists; split; reflexivity.
Qed.

(** The divergence takes nodata values for velocities. *)
Theorem C24_divergence_nodata_refuted : exists g F,
  grid_is g unitT 3 3 1 F (num (-9999)) /\ ~ is_data fnan feq (num (-9999)) (F 0 1 0) /\
  exists gd, divergence fj g 0 0 = Ok gd /\
    fshow (Ok gd) = Some (3, 3, [[[None; None; None]; [None; Some (5000#1)%Q; None]; [None; None; None]]]).
Proof.
  exists (fget unitT (fnd 3 3 [num 1; num 1; num 1; num (-9999); num 1; num 1; num 1; num 1; num 1]) (num (-9999))).
  eexists. split; [apply fget_is; lia|]. split.
  - intros [_ B]. specialize (B eq_refl). discriminate B.
  - destruct (divergence fj _ 0 0) as [gd|] eqn:E; [|vm_compute in E; discriminate E].
    exists gd. split; [reflexivity|]. rewrite <- E. vm_compute. reflexivity.
Qed.
Print Assumptions C24_divergence_nodata_refuted.

(** A grid of one row has a gradient of two rows. *)
Theorem C24_one_row_refuted : exists g F, grid_is g unitT 1 3 1 F None /\
  match gradient fj g 0 with
  | Ok (gx, _) => fshow (Ok gx) = Some (2, 3, [[[None; None; None]; [None; None; None]]])
  | Err _ => False
  end.
Proof.
  exists (fget unitT (fnd 1 3 [num 1; num 2; num 3]) None). eexists.
  split; [apply fget_is; lia|]. vm_compute. reflexivity.
Qed.
Print Assumptions C24_one_row_refuted.

(** C24, slope: the length of the gradient of a quadratic surface at inner cells,
    nan beside cells without data. *)
Theorem C24_slope_exact : forall junk junkr g T H W nb F nodata b, grid_is g T H W nb F nodata ->
  unskewed T -> 0 <= b < nb -> 3 <= H -> 3 <= W ->
  exists gs S, slope junk junkr g b = Ok gs /\ grid_is gs T H W 1 S None /\
    (forall h i j, interior H W i j ->
       (forall a c, near i j a c -> data_cell nb F nodata a c /\ is_num (F b a c) (qval h (centre T a c))) ->
       S 0 i j = Some (sqrt (Q2R (qdx h (centre T i j)) * Q2R (qdx h (centre T i j)) +
                             Q2R (qdy h (centre T i j)) * Q2R (qdy h (centre T i j))))) /\
    (forall i j a c, interior H W i j -> near i j a c -> (a, c) <> (i, j) -> ~ data_cell nb F nodata a c ->
       S 0 i j = None) /\
    (forall s, (forall i j, interior H W i j -> S 0 i j = Some s) ->
       forall i j, 0 <= i < H -> 0 <= j < W -> S 0 i j = Some s).
Proof. exact slope_spec. Qed.
Print Assumptions C24_slope_exact.

(** On a plane the slope is right in every cell, the border included. *)
Theorem C24_slope_plane : forall junk junkr g T H W nb F nodata b a1 b1 c1, grid_is g T H W nb F nodata ->
  unskewed T -> 0 <= b < nb -> 3 <= H -> 3 <= W ->
  (forall i j, 0 <= i < H -> 0 <= j < W ->
     data_cell nb F nodata i j /\ is_num (F b i j) (qval (plane a1 b1 c1) (centre T i j))) ->
  exists gs S, slope junk junkr g b = Ok gs /\ grid_is gs T H W 1 S None /\
    forall i j, 0 <= i < H -> 0 <= j < W ->
      S 0 i j = Some (sqrt (Q2R b1 * Q2R b1 + Q2R c1 * Q2R c1)).
Proof. exact slope_plane. Qed.
Print Assumptions C24_slope_plane.
Example C24_plane_example : exists g F, grid_is g exT 3 3 1 F None /\ unskewed exT /\
  forall i j, 0 <= i < 3 -> 0 <= j < 3 ->
    data_cell 1 F None i j /\ is_num (F 0 i j) (qval (plane 1 2 3) (centre exT i j)).
Proof.
  destruct (surface fj exT (plane 1 2 3) 3 3) as (g & _ & G); [lia|lia|].
  exists g. eexists. split; [exact G|].
  split; [repeat split; try reflexivity; intro K; discriminate K|].
  intros i j Hi Hj. split; [apply surface_data|]. eexists. split; reflexivity.
Qed.

(** C56.  The aspect is an angle in (-pi, pi] with cosine -dh/dx and sine
    +dh/dy over the slope: right in x, mirrored in y. *)
Theorem C56_aspect_partial : forall junk junkr flat g T H W nb F nodata b, grid_is g T H W nb F nodata ->
  unskewed T -> 0 <= b < nb -> 2 <= H -> 2 <= W ->
  exists ga A, aspect junk junkr flat g b = Ok ga /\ grid_is ga T H W 1 A None /\
    (forall h i j, interior H W i j ->
       (forall a c, near i j a c -> data_cell nb F nodata a c /\ is_num (F b a c) (qval h (centre T a c))) ->
       let p := Q2R (qdx h (centre T i j)) in let q := Q2R (qdy h (centre T i j)) in
       exists th, A 0 i j = Some th /\
         ((p <> 0 \/ q <> 0) -> - PI < th <= PI /\
            sqrt (p * p + q * q) * cos th = - p /\ sqrt (p * p + q * q) * sin th = q)%R) /\
    (forall i j, 0 <= i < H -> 0 <= j < W -> border H W i j -> A 0 i j = None) /\
    (forall i j a c, interior H W i j -> near i j a c -> (a, c) <> (i, j) -> ~ data_cell nb F nodata a c ->
       A 0 i j = None).
Proof. exact aspect_spec. Qed.
Print Assumptions C56_aspect_partial.

(** A slope rising to the north: its aspect points north, up the slope. *)
Theorem C56_points_uphill_refuted : forall junk junkr flat, exists g F,
  grid_is g unitT 3 3 1 F None /\
  (forall i j, 0 <= i < 3 -> 0 <= j < 3 -> F 0 i j = Some (snd (centre unitT i j))) /\
  exists ga A, aspect junk junkr flat g 0 = Ok ga /\ grid_is ga unitT 3 3 1 A None /\
    A 0 1 1 = Some (PI / 2)%R.
Proof.
  intros junk junkr flat.
  set (F := fun (_ i j : Z) => Some (snd (centre unitT i j))).
  destruct (make_grid_spec2 fl junk (Some 0%Q) ClsComp unitT
    (mkN [3; 3] (fun idx => match idx with [i; j] => F 0 i j | _ => None end)) None 3 3 F) as (g & _ & G & _);
    [lia|lia|reflexivity|reflexivity|].
  exists g, F. split; [exact G|]. split; [reflexivity|].
  destruct (aspect_spec junk junkr flat g unitT 3 3 1 F None 0 G) as (ga & A & E & GA & P & _);
    [repeat split; try reflexivity; intro K; discriminate K|lia|lia|lia|].
  exists ga, A. split; [exact E|]. split; [exact GA|].
  destruct (P (plane 0 0 1) 1 1) as (th & -> & K).
  - unfold interior. lia.
  - intros a c _. split; [intros k _; split; [reflexivity|discriminate]|].
    unfold F. eexists. split; [reflexivity|]. unfold qval, plane; simpl. ring.
  - assert (Q2R (qdx (plane 0 0 1) (centre unitT 1 1)) = 0%R) as E0.
    { rewrite <- RMicromega.Q2R_0. apply Qeq_eqR. unfold qdx, plane; simpl. ring. }
    assert (Q2R (qdy (plane 0 0 1) (centre unitT 1 1)) = 1%R) as E1.
    { rewrite <- RMicromega.Q2R_1. apply Qeq_eqR. unfold qdy, plane; simpl. ring. }
    rewrite E0, E1 in K. destruct K as (B & C & S); [right; lra|].
    replace (0 * 0 + 1 * 1)%R with 1%R in C, S by ring. rewrite sqrt_1 in C, S.
    f_equal. assert (cos th = 0)%R as C0 by lra. assert (sin th = 1)%R as S0 by lra.
    assert (0 < th)%R.
    { destruct (Rle_lt_dec th 0) as [L|]; [|assumption]. exfalso.
      assert (sin th <= 0)%R; [|lra]. destruct (Req_dec th 0) as [->|]; [rewrite sin_0; lra|].
      left. apply sin_lt_0_var; lra. }
    apply cos_eq_0_2PI_0 in C0; [|lra|lra]. destruct C0 as [->| ->]; [reflexivity|]. lra.
Qed.
Print Assumptions C56_points_uphill_refuted.

(** C57.  The normalised vectors are the gradient over its greatest length: of
    length at most one, and one somewhere.  Without any gradient it raises. *)
Theorem C57_normed_vectors : forall junk junkr g T H W nb F nodata b, grid_is g T H W nb F nodata ->
  unskewed T -> 0 <= b < nb -> 2 <= H -> 2 <= W ->
  exists gx gy FX FY, gradient junk g b = Ok (gx, gy) /\
    grid_is gx T H W 1 FX None /\ grid_is gy T H W 1 FY None /\
    ((forall i j, 0 <= i < H -> 0 <= j < W -> FX 0 i j = None \/ FY 0 i j = None) ->
       normed_potential_vectors junk junkr g b = Err ValueError) /\
    ((exists i j, 0 <= i < H /\ 0 <= j < W /\ exists p q, FX 0 i j = Some p /\ FY 0 i j = Some q /\
        ~ (p == 0 /\ q == 0)%Q) ->
     exists gu gv U V m, normed_potential_vectors junk junkr g b = Ok (gu, gv) /\
       grid_is gu T H W 1 U None /\ grid_is gv T H W 1 V None /\ (0 < m)%R /\
       (forall i j, 0 <= i < H -> 0 <= j < W ->
          U 0 i j = match FX 0 i j with Some p => Some (Q2R p / m)%R | None => None end /\
          V 0 i j = match FY 0 i j with Some q => Some (Q2R q / m)%R | None => None end) /\
       (forall i j u v, 0 <= i < H -> 0 <= j < W -> U 0 i j = Some u -> V 0 i j = Some v ->
          (u * u + v * v <= 1)%R) /\
       (exists i j u v, 0 <= i < H /\ 0 <= j < W /\ U 0 i j = Some u /\ V 0 i j = Some v /\
          (u * u + v * v = 1)%R)).
Proof. exact normed_spec. Qed.
Print Assumptions C57_normed_vectors.
Example C57_example : exists g F gx gy FX FY, grid_is g exT 3 3 1 F None /\
  gradient fj g 0 = Ok (gx, gy) /\ grid_is gx exT 3 3 1 FX None /\ grid_is gy exT 3 3 1 FY None /\
  exists p q, FX 0 1 1 = Some p /\ FY 0 1 1 = Some q /\ ~ (p == 0 /\ q == 0)%Q.
Proof.
  destruct (surface fj exT (plane 1 2 3) 3 3) as (g & _ & G); [lia|lia|].
  destruct (gradient_quadratic fj g exT 3 3 1 _ None 0 (plane 1 2 3) G) as (gx & gy & FX & FY & E & GX & GY & P & _).
  - repeat split; try reflexivity; intro K; discriminate K.
  - lia. - lia. - lia. - intros. eexists. split; reflexivity.
  - destruct (P 1 1) as [(p & Ep & Qp) (q & Eq & Qq)]; [unfold interior; lia|intros; apply surface_data|].
    exists g. eexists. exists gx, gy, FX, FY. split; [exact G|]. split; [exact E|]. split; [exact GX|].
    split; [exact GY|]. exists p, q. split; [exact Ep|]. split; [exact Eq|].
    rewrite Qp. intros [K _]. vm_compute in K. discriminate K.
Qed.

(** C58, for cells of size one: each inner cell of a quadratic surface shows its
    illumination, limited to two percentiles of all of them. *)
Theorem C58_hillshade_partial : forall junk junkr pct az el g T H W nb F nodata b h,
  grid_is g T H W nb F nodata ->
  (sx T == 0 /\ sy T == 0 /\ dx T == 1 /\ dy T == 1)%Q -> 0 <= b < nb -> 3 <= H -> 3 <= W ->
  (forall i j, 0 <= i < H -> 0 <= j < W ->
     data_cell nb F nodata i j /\ is_num (F b i j) (qval h (centre T i j))) ->
  let lit i j := illumination az el (Q2R (qdx h (centre T i j))) (Q2R (qdy h (centre T i j))) in
  exists gh S lo hi, hillshade junk junkr pct az el g b = Ok gh /\ grid_is gh T H W 1 S None /\
    (forall i j, 0 <= i < H -> 0 <= j < W -> border H W i j -> S 0 i j = None) /\
    (forall i j, interior H W i j -> S 0 i j = Some (Rmin (Rmax (lit i j) lo) hi)) /\
    (exists l, l <> [] /\ pct l = (lo, hi) /\
       forall r, In r l <-> exists i j, interior H W i j /\ r = lit i j).
Proof. exact hillshade_unit. Qed.
Print Assumptions C58_hillshade_partial.

(** The plane h = x, lit from the side, in cells of size 10: the shade is that of
    a plane ten times less steep. *)
Definition tenT : transform := mkT 0 0 10 10 0 0.
Theorem C58_cell_size_refuted : forall junk junkr pct,
  (forall l c, l <> [] -> (forall r, In r l -> r = c) -> pct l = (c, c)) ->
  exists g F, grid_is g tenT 3 3 1 F None /\
  (forall i j, F 0 i j = Some (fst (centre tenT i j))) /\
  exists gh S, hillshade junk junkr pct 0 0 g 0 = Ok gh /\ grid_is gh tenT 3 3 1 S None /\
    S 0 1 1 = Some (illumination 0 0 (1 / 10) 0) /\ illumination 0 0 (1 / 10) 0 <> illumination 0 0 1 0.
Proof.
  intros junk junkr pct PC.
  set (F := fun (_ i j : Z) => Some (fst (centre tenT i j))).
  destruct (make_grid_spec2 fl junk (Some 0%Q) ClsComp tenT
    (mkN [3; 3] (fun idx => match idx with [i; j] => F 0 i j | _ => None end)) None 3 3 F) as (g & _ & G & _);
    [lia|lia|reflexivity|reflexivity|].
  exists g, F. split; [exact G|]. split; [reflexivity|].
  destruct (hillshade_spec junk junkr pct 0 0 g tenT 3 3 1 F None 0 G) with (h := plane 0 1 0)
    as (gh & S & lo & hi & E & Gh & _ & P & l & Nl & El & Pl);
    [repeat split; try reflexivity; intro K; discriminate K|lia|lia|lia| |].
  { intros i j _ _. split; [intros k _; split; [reflexivity|discriminate]|].
    unfold F. eexists. split; [reflexivity|]. unfold qval, plane; simpl. ring. }
  assert (forall i j, Q2R (qdx (plane 0 1 0) (centre tenT i j)) = 1%R) as X.
  { intros. rewrite <- RMicromega.Q2R_1. apply Qeq_eqR. unfold qdx, plane; simpl. ring. }
  assert (forall i j, Q2R (qdy (plane 0 1 0) (centre tenT i j)) = 0%R) as Y.
  { intros. rewrite <- RMicromega.Q2R_0. apply Qeq_eqR. unfold qdy, plane; simpl. ring. }
  assert (Q2R (dx tenT) = 10%R /\ Q2R (dy tenT) = 10%R) as [DX DY].
  { unfold tenT, Q2R; simpl. split; field. }
  set (c := shade 0 0 10 10 1 0).
  rewrite (PC l c Nl) in El.
  2:{ intros r I. apply Pl in I. destruct I as (i & j & _ & ->). rewrite X, Y, DX, DY. reflexivity. }
  injection El as <- <-.
  exists gh, S. split; [exact E|]. split; [exact Gh|].
  assert (0 * PI / 180 = 0)%R as Z0 by field.
  assert (forall p, illumination 0 0 p 0 = - p / sqrt (1 + p * p))%R as IL.
  { intro p. unfold illumination. rewrite Z0, cos_0, sin_0.
    replace (1 + p * p + 0 * 0)%R with (1 + p * p)%R by ring. f_equal. ring. }
  assert (forall p, 0 < sqrt (1 + p * p))%R as SP.
  { intro p. apply sqrt_lt_R0. pose proof (Rle_0_sqr p). unfold Rsqr in *. lra. }
  split.
  - rewrite (P 1 1) by (unfold interior; lia). rewrite X, Y, DX, DY. fold c.
    rewrite Rmax_left, Rmin_left by lra. f_equal. rewrite IL. unfold c, shade. rewrite Z0, cos_0, sin_0.
    replace ((0 * 0 - 1 * 10) * (0 * 0 - 1 * 10) + (1 * 0 - 10 * 0) * (1 * 0 - 10 * 0) + (10 * 10 - 0 * 0) * (10 * 10 - 0 * 0))%R
      with ((1 + 1 / 10 * (1 / 10)) * (100 * 100))%R by field.
    rewrite sqrt_mult by lra. rewrite sqrt_square by lra. pose proof (SP (1 / 10)%R). field. lra.
  - rewrite !IL. intro K.
    pose proof (SP (1 / 10)%R) as P1. pose proof (SP 1%R) as P2.
    assert (sqrt (1 + 1 * 1) = 10 * sqrt (1 + 1 / 10 * (1 / 10)))%R as Q.
    { apply (f_equal (fun r => r * sqrt (1 + 1 * 1) * sqrt (1 + 1 / 10 * (1 / 10)) * (-10))%R) in K.
      field_simplify in K; lra. }
    apply (f_equal (fun r => r * r)%R) in Q.
    replace (10 * sqrt (1 + 1 / 10 * (1 / 10)) * (10 * sqrt (1 + 1 / 10 * (1 / 10))))%R
      with (100 * (sqrt (1 + 1 / 10 * (1 / 10)) * sqrt (1 + 1 / 10 * (1 / 10))))%R in Q by ring.
    rewrite !sqrt_sqrt in Q by lra. lra.
Qed.
Print Assumptions C58_cell_size_refuted.
Example C58_pct_example : exists pct : list R -> R * R,
  forall l c, l <> [] -> (forall r, In r l -> r = c) -> pct l = (c, c).
Proof.
  exists (fun l => match l with r :: _ => (r, r) | [] => (0, 0)%R end). intros [|r l] c N K; [congruence|].
  rewrite (K r (or_introl eq_refl)). reflexivity.
Qed.
