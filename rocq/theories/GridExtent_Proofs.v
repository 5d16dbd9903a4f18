(** Proofs about data_extent. *)
From Coq Require Import List ZArith QArith Qround Qabs Bool Lia Lqa.
From Verif Require Import Band_Model Band_Spec Band_IndexModel Band_IndexSpec Band_Proofs
  Band_IndexProofs Band_MaskProofs Grid_Model Grid_Spec Grid_Proofs Grid_OpsProofs Grid_ResizeProofs
  Grid_MoreProofs GridSample_Model GridSample_Spec GridSample_Proofs GridBilinear_Proofs.
Import ListNotations.
Open Scope Z_scope.

(** Bounds after looking at the points [P], from the bounds [s]. *)
Definition bounds (P : list (Q * Q)) (s r : Q * Q * Q * Q) : Prop :=
  let '(lx, rx, b_, ty) := s in
  let '(lx', rx', b', ty') := r in
  ((lx' <= lx /\ rx <= rx' /\ b' <= b_ /\ ty <= ty') /\
  (forall p, In p P -> lx' <= fst p <= rx' /\ b' <= snd p <= ty') /\
  (lx' == lx \/ exists p, In p P /\ lx' == fst p) /\ (rx' == rx \/ exists p, In p P /\ rx' == fst p) /\
  (b' == b_ \/ exists p, In p P /\ b' == snd p) /\ (ty' == ty \/ exists p, In p P /\ ty' == snd p))%Q.

Definition row_points (T : transform) (isdata : fl -> bool) (i : Z) (row : list fl) : list (Q * Q) :=
  map (fun jv => (x0 T + half * dx T + half * sx T + inject_Z (fst jv) * dx T + inject_Z i * sx T,
                  y0 T + half * dy T + half * sy T + inject_Z i * dy T + inject_Z (fst jv) * sy T)%Q)
      (filter (fun jv => isdata (snd jv)) (enumerate row)).

Lemma row_bounds : forall T isdata i row acc,
  bounds (row_points T isdata i row) acc (extent_row T isdata i row acc).
Proof.
  intros T isdata i row [[[lx rx] b_] ty]. unfold extent_row, row_points.
  set (sel := filter _ _). destruct sel as [|s sel].
  - cbn [map]. unfold bounds. split; [repeat split; apply Qle_refl|]. split; [intros p []|].
    repeat split; left; reflexivity.
  - cbn [map].
    set (fx := fun jv : Z * fl => (x0 T + half * dx T + half * sx T + inject_Z (fst jv) * dx T + inject_Z i * sx T)%Q).
    set (fy := fun jv : Z * fl => (y0 T + half * dy T + half * sy T + inject_Z i * dy T + inject_Z (fst jv) * sy T)%Q).
    change (x0 T + half * dx T + half * sx T + inject_Z (fst s) * dx T + inject_Z i * sx T)%Q with (fx s).
    change (y0 T + half * dy T + half * sy T + inject_Z i * dy T + inject_Z (fst s) * sy T)%Q with (fy s).
    change (map (fun jv : Z * fl => (x0 T + half * dx T + half * sx T + inject_Z (fst jv) * dx T + inject_Z i * sx T,
                  y0 T + half * dy T + half * sy T + inject_Z i * dy T + inject_Z (fst jv) * sy T)%Q) sel)
      with (map (fun jv => (fx jv, fy jv)) sel).
    clearbody fx fy.
    destruct (qmaxl_spec (map fx sel) (fx s)) as (X1 & X2 & xv & X3 & X4).
    destruct (qminl_spec (map fx sel) (fx s)) as (x1 & x2 & xw & x3 & x4).
    destruct (qmaxl_spec (map fy sel) (fy s)) as (Y1 & Y2 & yv & Y3 & Y4).
    destruct (qminl_spec (map fy sel) (fy s)) as (y1 & y2 & yw & y3 & y4).
    set (xM := qmaxl (map fx sel) (fx s)) in *. set (xm := qminl (map fx sel) (fx s)) in *.
    set (yM := qmaxl (map fy sel) (fy s)) in *. set (ym := qminl (map fy sel) (fy s)) in *.
    clearbody xM xm yM ym.
    set (P := (fx s, fy s) :: map (fun jv => (fx jv, fy jv)) sel).
    assert (IN : forall p, In p P -> (xm <= fst p <= xM /\ ym <= snd p <= yM)%Q).
    { intros p [<- | Ip]; cbn [fst snd].
      - clear - X1 x1 Y1 y1. lra.
      - apply in_map_iff in Ip. destruct Ip as (q & <- & Iq). cbn [fst snd].
        repeat split; [apply x2|apply X2|apply y2|apply Y2]; apply in_map, Iq. }
    assert (EX : forall (f : Z * fl -> Q) v, In v (f s :: map f sel) -> exists q, In q (s :: sel) /\ v = f q).
    { intros f v. change (f s :: map f sel) with (map f (s :: sel)). intro Iv. apply in_map_iff in Iv.
      destruct Iv as (q & <- & Iq). exists q. auto. }
    assert (IP : forall q, In q (s :: sel) -> In (fx q, fy q) P).
    { intros q Iq. apply (in_map (fun jv => (fx jv, fy jv)) (s :: sel)), Iq. }
    apply EX in X3, x3, Y3, y3.
    destruct X3 as (qX & IX & ->), x3 as (qx & Ix & ->), Y3 as (qY & IY & ->), y3 as (qy & Iy & ->).
    apply IP in IX, Ix, IY, Iy. clearbody P. clear EX IP X1 X2 x1 x2 Y1 Y2 y1 y2.
    unfold bounds.
    destruct (Qle_bool lx xm) eqn:E1; cbn [negb]; [apply Qle_bool_t in E1|apply Qle_bool_f in E1];
    (destruct (Qle_bool xM rx) eqn:E2; cbn [negb]; [apply Qle_bool_t in E2|apply Qle_bool_f in E2]);
    (destruct (Qle_bool b_ ym) eqn:E3; cbn [negb]; [apply Qle_bool_t in E3|apply Qle_bool_f in E3]);
    (destruct (Qle_bool yM ty) eqn:E4; cbn [negb]; [apply Qle_bool_t in E4|apply Qle_bool_f in E4]);
    (split; [clear - E1 E2 E3 E4; repeat split; lra|]);
    (split; [intros p Ip; specialize (IN p Ip); clear - IN E1 E2 E3 E4; repeat split; lra|]);
    (split; [first [left; reflexivity | right; eexists; split; [exact Ix|exact x4]]|]);
    (split; [first [left; reflexivity | right; eexists; split; [exact IX|exact X4]]|]);
    (split; [first [left; reflexivity | right; eexists; split; [exact Iy|exact y4]]|]);
    (first [left; reflexivity | right; eexists; split; [exact IY|exact Y4]]).
Qed.

Lemma bounds_trans : forall P P' a b c, bounds P a b -> bounds P' b c -> bounds (P ++ P') a c.
Proof.
  intros P P' [[[a1 a2] a3] a4] [[[b1 b2] b3] b4] [[[c1 c2] c3] c4]. unfold bounds.
  intros (L & I & E1 & E2 & E3 & E4) (L' & I' & E1' & E2' & E3' & E4').
  split; [clear - L L'; lra|]. split.
  { intros p Ip. apply in_app_iff in Ip. destruct Ip as [Ip | Ip].
    - specialize (I p Ip). clear - I L'. lra.
    - apply I', Ip. }
  assert (C : forall u v w (f : Q * Q -> Q), (v == u \/ exists p, In p P /\ v == f p)%Q ->
     (w == v \/ exists p, In p P' /\ w == f p)%Q -> (w == u \/ exists p, In p (P ++ P') /\ w == f p)%Q).
  { clear. intros u v w f A [B | (p & Ip & B)].
    - destruct A as [A | (p & Ip & A)]; [left; rewrite B; exact A|].
      right. exists p. split; [apply in_or_app; auto|]. rewrite B. exact A.
    - right. exists p. split; [apply in_or_app; auto|exact B]. }
  split; [apply (C _ b1); assumption|]. split; [apply (C _ b2); assumption|].
  split; [apply (C _ b3); assumption|]. apply (C _ b4); assumption.
Qed.

Lemma fold_bounds : forall T isdata l acc,
  bounds (flat_map (fun ir => row_points T isdata (fst ir) (snd ir)) l) acc
    (fold_left (fun acc ir => extent_row T isdata (fst ir) (snd ir) acc) l acc).
Proof.
  intros T isdata. induction l as [|ir l IH]; intro acc; cbn [fold_left flat_map].
  - destruct acc as [[[a b] c] d]. unfold bounds. split; [repeat split; apply Qle_refl|].
    split; [intros p []|]. repeat split; left; reflexivity.
  - eapply bounds_trans; [apply row_bounds|apply IH].
Qed.

Section E.
Variable junk : Z -> Z -> fl.

Lemma row_points_in : forall T isd H W (f : Z -> Z -> fl) p,
  In p (flat_map (fun ir => row_points T isd (fst ir) (snd ir))
         (enumerate (map (fun i => map (fun j => f i j) (zrange 0 W)) (zrange 0 H)))) <->
  exists i j, 0 <= i < H /\ 0 <= j < W /\ isd (f i j) = true /\
    p = (x0 T + half * dx T + half * sx T + inject_Z j * dx T + inject_Z i * sx T,
         y0 T + half * dy T + half * sy T + inject_Z i * dy T + inject_Z j * sy T)%Q.
Proof.
  intros T isd H W f p. rewrite in_flat_map.
  assert (EN : forall A n (h : Z -> A) i a, In (i, a) (enumerate (map h (zrange 0 n))) <-> 0 <= i < n /\ a = h i).
  { intros A n h i a. split.
    - intro I. destruct (In_nth_error _ _ I) as (k & Ek).
      assert (Hi : 0 <= i).
      { apply in_combine_l in I. apply in_zrange in I. lia. }
      rewrite <- (Z2Nat.id i Hi) in I. apply enumerate_nth in I. rewrite nth_error_map in I.
      destruct (nth_error (zrange 0 n) (Z.to_nat i)) as [z|] eqn:Ez; [|discriminate]. injection I as <-.
      apply zrange_nth in Ez. assert (z = i) by lia. subst z. split; [lia|reflexivity].
    - intros [Hi ->]. rewrite <- (Z2Nat.id i) at 1 by lia. apply enumerate_nth. rewrite nth_error_map.
      rewrite (zrange_nth0 n i) by lia. reflexivity. }
  split.
  - intros ((i & row) & I & Ip). apply EN in I. destruct I as [Hi ->]. cbn [fst snd] in Ip.
    unfold row_points in Ip. apply in_map_iff in Ip. destruct Ip as ((j & v) & <- & I).
    apply filter_In in I. destruct I as [I D]. apply EN in I. destruct I as [Hj ->]. cbn [fst snd] in *.
    exists i, j. auto.
  - intros (i & j & Hi & Hj & D & ->). exists (i, map (fun j => f i j) (zrange 0 W)). split; [apply EN; auto|].
    unfold row_points. cbn [fst snd]. apply in_map_iff. exists (j, f i j). split; [reflexivity|].
    apply filter_In. split; [apply EN; auto|exact D].
Qed.

(** Unskewed grids with positive resolution whose data reach the starting value
    of the search for the right-hand end. *)
Theorem data_extent_spec : forall (g : grid fl) T H W F nodata,
  grid_is g T H W 1 F nodata -> (0 < dx T)%Q -> (0 < dy T)%Q -> (sx T == 0)%Q -> (sy T == 0)%Q ->
  (exists p, data_centre T H W (F 0) nodata p /\ (snd (centre T 0 0) <= fst p)%Q) ->
  exists c e, data_extent junk g true = Ok c /\ tight_box (data_centre T H W (F 0) nodata) c /\
    data_extent junk g false = Ok e /\ tight_box (data_point T H W (F 0) nodata) e.
Proof.
  intros g T H W F nodata G DX DY SX SY ((cx & cy) & (i1 & j1 & Hi1 & Hj1 & D1 & Ex & Ey) & L1).
  destruct (grid_size _ g T H W 1 F nodata G) as (Sz & HH & HW & Hn).
  pose proof G as (ET & SH & EN & Ed). unfold data_extent. rewrite Sz.
  assert (LEN : length (gbands g) = 1%nat) by lia.
  destruct (full_selects H HH) as [S1 F1]. destruct (full_selects W HW) as [S2 F2].
  destruct (getitem_spec fl junk (gbands g) H W F full full [] false _ false _ false
              (zrange 0 (Z.of_nat (length (gbands g)))) SH S1 S2 (selb_all _) F1 F2) as (r & E & S & P).
  rewrite E. cbn [bind]. rewrite LEN, Nat.eqb_refl, andb_false_r. rewrite ET, Ed.
  assert (RW : map (fun i => map (fun j => elt r [i; j; 0]) (zrange 0 W)) (zrange 0 H)
             = map (fun i => map (fun j => F 0 i j) (zrange 0 W)) (zrange 0 H)).
  { apply map_ext_in. intros i Ii. apply map_ext_in. intros j Ij. apply in_zrange in Ii, Ij.
    specialize (P (Z.to_nat i) (Z.to_nat j) 0%nat i j 0). simpl in P. rewrite !Z2Nat.id in P by lia.
    apply P; [apply zrange_nth0; lia|apply zrange_nth0; lia|]. apply (zrange_nth0 (Z.of_nat (length (gbands g))) 0). lia. }
  rewrite RW. clear r E S P RW. unfold data_extent_rows.
  set (rows := map _ (zrange 0 H)). set (isd := isdata fnan feq nodata).
  set (xa := (x0 T + half * dx T + half * sx T)%Q). set (ya := (y0 T + half * dy T + half * sy T)%Q).
  pose proof (fold_bounds T isd (enumerate rows) ((xa + inject_Z W * dx T)%Q, ya, (ya + inject_Z H * dy T)%Q, ya)) as B.
  destruct (fold_left _ (enumerate rows) _) as [[[lx rx] b_] ty]. unfold bounds in B.
  assert (PI : forall p, In p (flat_map (fun ir => row_points T isd (fst ir) (snd ir)) (enumerate rows)) <->
     exists i j, 0 <= i < H /\ 0 <= j < W /\ is_data fnan feq nodata (F 0 i j) /\
       p = (xa + inject_Z j * dx T + inject_Z i * sx T, ya + inject_Z i * dy T + inject_Z j * sy T)%Q).
  { intro p. unfold rows. rewrite row_points_in. split; intros (i & j & Hi & Hj & D & Ep); exists i, j;
      (split; [exact Hi|]); (split; [exact Hj|]); (split; [|exact Ep]); apply (isdata_spec fl None fnan feq nodata); exact D. }
  destruct B as (_ & I & B1 & B2 & B3 & B4).
  assert (IN : forall i j, 0 <= i < H -> 0 <= j < W -> is_data fnan feq nodata (F 0 i j) ->
     (lx <= xa + inject_Z j * dx T <= rx /\ b_ <= ya + inject_Z i * dy T <= ty)%Q).
  { intros i j Hi Hj D. assert (K := I _ (proj2 (PI _) (ex_intro _ i (ex_intro _ j (conj Hi (conj Hj (conj D eq_refl))))))).
    cbn [fst snd] in K. rewrite SX, SY in K. clear - K. lra. }
  clear I.
  assert (TOP : forall n k d, 0 <= k < n -> (0 < d)%Q -> (inject_Z k * d + d <= inject_Z n * d)%Q).
  { clear. intros n k d Hk D. assert (X := zlt_q k n ltac:(lia)). apply (Qmult_le_compat_r _ _ d) in X; [|lra]. lra. }
  assert (GE : forall k d, 0 <= k -> (0 < d)%Q -> (0 <= inject_Z k * d)%Q).
  { clear. intros k d Hk D. apply Qmult_le_0_compat; [|lra]. change 0%Q with (inject_Z 0). rewrite <- Zle_Qle. exact Hk. }
  pose proof (IN i1 j1 Hi1 Hj1 D1) as I1.
  unfold centre, world in L1, Ex, Ey. cbn [fst snd] in L1, Ex, Ey.
  change (inject_Z 0) with 0%Q in L1.
  assert (Exa : (xa == x0 T + half * dx T)%Q) by (unfold xa; rewrite SX; ring).
  assert (Eya : (ya == y0 T + half * dy T)%Q) by (unfold ya; rewrite SY; ring).
  unfold half in Exa, Eya.
  assert (C1 : exists i j, 0 <= i < H /\ 0 <= j < W /\ is_data fnan feq nodata (F 0 i j) /\ (lx == xa + inject_Z j * dx T)%Q).
  { destruct B1 as [B1 | (p & Ip & B1)].
    - exfalso. pose proof (TOP W j1 (dx T) Hj1 DX). clear - B1 I1 H0 DX. lra.
    - apply PI in Ip. destruct Ip as (i & j & Hi & Hj & D & ->). exists i, j. cbn [fst] in B1. rewrite SX in B1.
      repeat (split; [assumption|]). clear - B1. lra. }
  assert (C3 : exists i j, 0 <= i < H /\ 0 <= j < W /\ is_data fnan feq nodata (F 0 i j) /\ (b_ == ya + inject_Z i * dy T)%Q).
  { destruct B3 as [B3 | (p & Ip & B3)].
    - exfalso. pose proof (TOP H i1 (dy T) Hi1 DY). clear - B3 I1 H0 DY. lra.
    - apply PI in Ip. destruct Ip as (i & j & Hi & Hj & D & ->). exists i, j. cbn [snd] in B3. rewrite SY in B3.
      repeat (split; [assumption|]). clear - B3. lra. }
  assert (C2 : exists i j, 0 <= i < H /\ 0 <= j < W /\ is_data fnan feq nodata (F 0 i j) /\ (rx == xa + inject_Z j * dx T)%Q).
  { destruct B2 as [B2 | (p & Ip & B2)].
    - exists i1, j1. repeat (split; [assumption|]). rewrite SX in Ex. rewrite SY in L1. clear - B2 I1 L1 Ex Exa Eya. lra.
    - apply PI in Ip. destruct Ip as (i & j & Hi & Hj & D & ->). exists i, j. cbn [fst] in B2. rewrite SX in B2.
      repeat (split; [assumption|]). clear - B2. lra. }
  assert (C4 : exists i j, 0 <= i < H /\ 0 <= j < W /\ is_data fnan feq nodata (F 0 i j) /\ (ty == ya + inject_Z i * dy T)%Q).
  { destruct B4 as [B4 | (p & Ip & B4)].
    - exists i1, j1. repeat (split; [assumption|]). pose proof (GE i1 (dy T) (proj1 Hi1) DY). clear - B4 I1 H0. lra.
    - apply PI in Ip. destruct Ip as (i & j & Hi & Hj & D & ->). exists i, j. cbn [snd] in B4. rewrite SY in B4.
      repeat (split; [assumption|]). clear - B4. lra. }
  clear B1 B2 B3 B4 PI I1 L1 Ex Ey D1.
  eexists _, _. split; [reflexivity|]. split; [|split; [reflexivity|]].
  - unfold tight_box. split.
    + intros [px py] (i & j & Hi & Hj & D & E1 & E2). pose proof (IN i j Hi Hj D) as K. unfold centre, world in *. cbn [fst snd] in *.
      rewrite SX in E1. rewrite SY in E2. clear - K E1 E2 Exa Eya. repeat split; lra.
    + assert (CC : forall i j, 0 <= i < H -> 0 <= j < W -> is_data fnan feq nodata (F 0 i j) ->
        data_centre T H W (F 0) nodata (xa + inject_Z j * dx T, ya + inject_Z i * dy T)%Q).
      { intros i j Hi Hj D. exists i, j. repeat (split; [assumption|]). unfold centre, world, peq. cbn [fst snd].
        rewrite Exa, Eya, SX, SY. split; ring. }
      destruct C1 as (i2 & j2 & Hi2 & Hj2 & D2 & E2), C2 as (i3 & j3 & Hi3 & Hj3 & D3 & E3),
        C3 as (i4 & j4 & Hi4 & Hj4 & D4 & E4), C4 as (i5 & j5 & Hi5 & Hj5 & D5 & E5).
      split; [eexists; split; [exact (CC i2 j2 Hi2 Hj2 D2)|symmetry; exact E2]|].
      split; [eexists; split; [exact (CC i3 j3 Hi3 Hj3 D3)|symmetry; exact E3]|].
      split; [eexists; split; [exact (CC i4 j4 Hi4 Hj4 D4)|symmetry; exact E4]|].
      eexists; split; [exact (CC i5 j5 Hi5 Hj5 D5)|symmetry; exact E5].
  - unfold tight_box. split.
    + intros [px py] (i & j & Hi & Hj & D & u & v & (E1 & E2) & Hu & Hv). pose proof (IN i j Hi Hj D) as K.
      unfold world in *. cbn [fst snd] in *. rewrite SX in *. rewrite SY in *.
      assert (U1 : (0 <= (u - inject_Z i) * dy T)%Q) by (apply Qmult_le_0_compat; [clear - Hu; lra|clear - DY; lra]).
      assert (U2 : (0 <= (inject_Z i + 1 - u) * dy T)%Q) by (apply Qmult_le_0_compat; [clear - Hu; lra|clear - DY; lra]).
      assert (V1 : (0 <= (v - inject_Z j) * dx T)%Q) by (apply Qmult_le_0_compat; [clear - Hv; lra|clear - DX; lra]).
      assert (V2 : (0 <= (inject_Z j + 1 - v) * dx T)%Q) by (apply Qmult_le_0_compat; [clear - Hv; lra|clear - DX; lra]).
      unfold half. clear - K E1 E2 Exa Eya U1 U2 V1 V2. repeat split; lra.
    + assert (CC : forall i j u v, 0 <= i < H -> 0 <= j < W -> is_data fnan feq nodata (F 0 i j) ->
        (u == 0 \/ u == 1)%Q -> (v == 0 \/ v == 1)%Q ->
        data_point T H W (F 0) nodata (world T (inject_Z i + u) (inject_Z j + v))).
      { intros i j u v Hi Hj D Hu Hv. exists i, j. repeat (split; [assumption|]).
        exists (inject_Z i + u)%Q, (inject_Z j + v)%Q. split; [split; reflexivity|]. cbn [fst snd].
        clear - Hu Hv. split; lra. }
      destruct C1 as (i2 & j2 & Hi2 & Hj2 & D2 & E2), C2 as (i3 & j3 & Hi3 & Hj3 & D3 & E3),
        C3 as (i4 & j4 & Hi4 & Hj4 & D4 & E4), C4 as (i5 & j5 & Hi5 & Hj5 & D5 & E5).
      assert (Z0 : (0 == 0 \/ 0 == 1)%Q) by (left; reflexivity).
      assert (Z1 : (1 == 0 \/ 1 == 1)%Q) by (right; reflexivity).
      split; [|split; [|split]].
      * exists (world T (inject_Z i2 + 0) (inject_Z j2 + 0)). split; [apply CC; assumption|]. unfold world, half. cbn [fst].
        rewrite E2, Exa, SX. ring.
      * exists (world T (inject_Z i3 + 0) (inject_Z j3 + 1)). split; [apply CC; assumption|]. unfold world, half. cbn [fst].
        rewrite E3, Exa, SX. ring.
      * exists (world T (inject_Z i4 + 0) (inject_Z j4 + 0)). split; [apply CC; assumption|]. unfold world, half. cbn [snd].
        rewrite E4, Eya, SY. ring.
      * exists (world T (inject_Z i5 + 1) (inject_Z j5 + 0)). split; [apply CC; assumption|]. unfold world, half. cbn [snd].
        rewrite E5, Eya, SY. ring.
Qed.
(** Several bands. *)
Theorem data_extent_bands : forall (g : grid fl) T H W nb F nodata center,
  grid_is g T H W nb F nodata -> 0 < H -> nb <> 1 -> data_extent junk g center = Err IndexError.
Proof.
  intros g T H W nb F nodata center G PH NB.
  destruct (grid_size _ g T H W nb F nodata G) as (Sz & HH & HW & Hn).
  pose proof G as (ET & SH & EN & Ed). unfold data_extent. rewrite Sz.
  destruct (full_selects H HH) as [S1 F1]. destruct (full_selects W HW) as [S2 F2].
  destruct (getitem_spec fl junk (gbands g) H W F full full [] false _ false _ false
              (zrange 0 (Z.of_nat (length (gbands g)))) SH S1 S2 (selb_all _) F1 F2) as (r & E & S & P).
  rewrite E. cbn [bind]. rewrite (proj2 (Z.ltb_lt 0 H) PH), (proj2 (Nat.eqb_neq _ 1)) by lia. reflexivity.
Qed.
End E.
