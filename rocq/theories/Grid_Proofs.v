(** Georeferencing: proofs. *)
From Coq Require Import List ZArith QArith Qround Qabs Lia Lqa Bool.
From Verif Require Import Band_Model Band_Spec Band_Proofs Band_IndexModel Band_IndexSpec
  Band_IndexProofs Band_MaskProofs Grid_Model Grid_Spec.
Import ListNotations.
Open Scope Q_scope.

Lemma Qeq_bool_false : forall a b, ~ a == b -> Qeq_bool a b = false.
Proof. intros a b N. destruct (Qeq_bool a b) eqn:E; [|reflexivity]. apply Qeq_bool_iff in E. contradiction. Qed.

Lemma positions_spec : forall T x y, invertible T -> ~ dy T == 0 ->
  exists i j, positions T x y = Some (i, j) /\
    peq (world T (i + (1 # 2)) (j + (1 # 2))) (x, y).
Proof.
  intros T x y D Y. unfold positions.
  rewrite (Qeq_bool_false _ _ D), (Qeq_bool_false _ _ Y). simpl.
  eexists _, _. split; [reflexivity|]. unfold peq, world, half; simpl. unfold invertible in D.
  split; field; auto.
Qed.

Lemma positions_world : forall T u v, invertible T -> ~ dy T == 0 ->
  exists i j, positions T (fst (world T (u + (1 # 2)) (v + (1 # 2))))
                          (snd (world T (u + (1 # 2)) (v + (1 # 2)))) = Some (i, j) /\
    i == u /\ j == v.
Proof.
  intros T u v D Y. unfold positions.
  rewrite (Qeq_bool_false _ _ D), (Qeq_bool_false _ _ Y). simpl.
  eexists _, _. split; [reflexivity|]. unfold world, half; simpl. unfold invertible in D.
  split; field; auto.
Qed.

Lemma positions_eq : forall T x y x' y', x == x' -> y == y' -> 
  match positions T x y, positions T x' y' with
  | Some p, Some q => peq p q
  | None, None => True
  | _, _ => False
  end.
Proof.
  intros T x y x' y' E1 E2. unfold positions.
  destruct (Qeq_bool (dx T * dy T - sx T * sy T) 0 || Qeq_bool (dy T) 0); [exact I|].
  unfold peq; simpl. split; rewrite E1, E2; reflexivity.
Qed.

Lemma Qfloor_unique : forall q z, inject_Z z <= q -> q < inject_Z (z + 1) -> Qfloor q = z.
Proof.
  intros q z L U. pose proof (Qfloor_le q). pose proof (Qlt_floor q).
  assert (inject_Z z < inject_Z (Qfloor q + 1)) by lra.
  assert (inject_Z (Qfloor q) < inject_Z (z + 1)) by lra.
  rewrite <- Zlt_Qlt in *. lia.
Qed.

Lemma Qceiling_unique : forall q z, q <= inject_Z z -> inject_Z (z - 1) < q -> Qceiling q = z.
Proof.
  intros q z U L. pose proof (Qle_ceiling q). pose proof (Qceiling_lt q).
  assert (inject_Z (z - 1) < inject_Z (Qceiling q)) by lra.
  assert (inject_Z (Qceiling q - 1) < inject_Z z) by lra.
  rewrite <- Zlt_Qlt in *. lia.
Qed.

Lemma inj_add : forall a b, inject_Z (a + b) == inject_Z a + inject_Z b.
Proof. intros. rewrite inject_Z_plus. reflexivity. Qed.
Lemma inj_sub : forall a b, inject_Z (a - b) == inject_Z a - inject_Z b.
Proof. intros. unfold Z.sub. rewrite inject_Z_plus, inject_Z_opp. reflexivity. Qed.
Lemma inj_1 : inject_Z 1 == 1. Proof. reflexivity. Qed.

Lemma floor_bounds : forall q, inject_Z (Qfloor q) <= q /\ q < inject_Z (Qfloor q) + 1.
Proof. intros q. split; [apply Qfloor_le|]. pose proof (Qlt_floor q). rewrite inj_add in H. exact H. Qed.
Lemma ceil_bounds : forall q, q <= inject_Z (Qceiling q) /\ inject_Z (Qceiling q) < q + 1.
Proof. intros q. split; [apply Qle_ceiling|]. pose proof (Qceiling_lt q). rewrite inj_sub in H. unfold inject_Z at 2 in H. lra. Qed.

Lemma Qle_bool_t : forall a b, Qle_bool a b = true -> a <= b.
Proof. intros. apply Qle_bool_iff. assumption. Qed.
Lemma Qle_bool_f : forall a b, Qle_bool a b = false -> b < a.
Proof.
  intros a b E. apply Qnot_le_lt. intros L. apply Qle_bool_iff in L. congruence.
Qed.

(** [rint] is a nearest integer. *)
Lemma rint_near : forall q, q - (1 # 2) <= inject_Z (rint q) <= q + (1 # 2).
Proof.
  intros q. unfold rint. pose proof (floor_bounds q) as [A B].
  destruct (Qle_bool half (q - inject_Z (Qfloor q))) eqn:E1;
    [apply Qle_bool_t in E1|apply Qle_bool_f in E1]; unfold half in E1.
  - destruct (Qle_bool (q - inject_Z (Qfloor q)) half) eqn:E2;
      [apply Qle_bool_t in E2|apply Qle_bool_f in E2]; unfold half in E2.
    + destruct (Z.even (Qfloor q)); rewrite ?inj_add, ?inj_1; lra.
    + rewrite ?inj_add, ?inj_1; lra.
  - lra.
Qed.

Lemma rint_unique : forall q z, inject_Z z - (1 # 2) < q -> q < inject_Z z + (1 # 2) -> rint q = z.
Proof.
  intros q z A B. pose proof (rint_near q) as [C D].
  assert (inject_Z z < inject_Z (rint q + 1)) by (rewrite inj_add, inj_1; lra).
  assert (inject_Z (rint q) < inject_Z (z + 1)) by (rewrite inj_add, inj_1; lra).
  rewrite <- Zlt_Qlt in *. lia.
Qed.

Lemma coord_centre : forall T i j, peq (coord T i j) (centre T i j).
Proof. intros. unfold peq, coord, centre, world, coord_x, coord_y, half; simpl. split; ring. Qed.

Lemma indices_centre : forall T i j, invertible T -> ~ dy T == 0 ->
  indices_ T (fst (coord T i j)) (snd (coord T i j)) = Some (i, j).
Proof.
  intros T i j D Y. unfold indices_. destruct (coord_centre T i j) as [E1 E2].
  pose proof (positions_eq T _ _ _ _ E1 E2) as P. unfold centre in P.
  destruct (positions_world T (inject_Z i) (inject_Z j) D Y) as (i' & j' & E & Ei & Ej).
  rewrite E in P. destruct (positions T (fst (coord T i j)) (snd (coord T i j))) as [[a b]|]; [|contradiction].
  destruct P as [P1 P2]; simpl in P1, P2.
  rewrite (rint_unique a i), (rint_unique b j); [reflexivity| lra..].
Qed.

Lemma nthz_nth : forall l i z, nth_error l i = Some z -> nthz l (Z.of_nat i) = z.
Proof. intros l i z E. unfold nthz. rewrite Nat2Z.id. apply nth_error_nth with (d := 0%Z). exact E. Qed.

(** Two slices: a meshgrid. *)
Lemma coord_slices : forall T ny nx a b c a' b' c' li lj,
  selects ny (KSlice a b c) false li -> selects nx (KSlice a' b' c') false lj ->
  (1 < length li)%nat -> (1 < length lj)%nat ->
  exists r, coord_getitem T ny nx (KSlice a b c) (KSlice a' b' c') = Ok r /\
    shp r = [Z.of_nat (length li); Z.of_nat (length lj)] /\
    forall p q i j, nth_error li p = Some i -> nth_error lj q = Some j ->
      peq (elt r [Z.of_nat p; Z.of_nat q]) (centre T i j).
Proof.
  intros T ny nx a b c a' b' c' li lj S1 S2 L1 L2.
  inversion S1 as [| |? ? ? s e st E]; subst. inversion S2 as [| |? ? ? s' e' st' E']; subst.
  unfold coord_getitem, coord_axis. rewrite E, E'. simpl bind.
  replace ((1 <? len (py_range s e st))%Z && (1 <? len (py_range s' e' st'))%Z) with true.
  2: { symmetry. unfold len. apply andb_true_intro. split; apply Z.ltb_lt; lia. }
  eexists. split; [reflexivity|]. split; [reflexivity|]. intros p q i j Hp Hq. simpl.
  rewrite (nthz_nth _ _ _ Hp), (nthz_nth _ _ _ Hq). apply coord_centre.
Qed.

Lemma center_coords_spec : forall T ny nx i j,
  nrow (center_coords T ny nx) = ny /\ ncol (center_coords T ny nx) = nx /\
  peq (at_ (center_coords T ny nx) i j) (centre T i j).
Proof.
  intros. split; [reflexivity|]. split; [reflexivity|].
  unfold peq, centre, world, center_coords, half; simpl. split; reflexivity.
Qed.

(** * Extents *)

Lemma qmin_spec : forall a b, (qmin a b == a /\ a <= b) \/ (qmin a b == b /\ b <= a).
Proof.
  intros. unfold qmin. destruct (Qle_bool a b) eqn:E; [apply Qle_bool_t in E|apply Qle_bool_f in E].
  - left. split; [reflexivity|assumption].
  - right. split; [reflexivity|lra].
Qed.
Lemma qmax_spec : forall a b, (qmax a b == a /\ b <= a) \/ (qmax a b == b /\ a <= b).
Proof.
  intros. unfold qmax. destruct (Qle_bool b a) eqn:E; [apply Qle_bool_t in E|apply Qle_bool_f in E].
  - left. split; [reflexivity|assumption].
  - right. split; [reflexivity|lra].
Qed.

(** The second corner of [extent], given by either branch. *)
Lemma corner_branch : forall d s x kx ky, skew_agrees d s ->
  (if Qeq_bool (sgn d) (sgn s) then x + d * kx + s * ky else x + d * kx - s * ky)
  == x + d * kx + s * ky.
Proof.
  intros d s x kx ky SS. destruct (Qeq_bool (sgn d) (sgn s)) eqn:E; [reflexivity|].
  destruct SS as [Z|P]; [rewrite Z; ring|]. exfalso.
  assert (Ns : ~ s == 0) by (intros Z; rewrite Z in P; lra).
  assert (Nd : ~ d == 0) by (intros Z; rewrite Z in P; lra).
  assert (X : sgn d == sgn s).
  { unfold sgn. rewrite (Qeq_bool_false _ _ Ns), (Qeq_bool_false _ _ Nd).
    destruct (Qlt_le_dec 0 d); destruct (Qlt_le_dec 0 s).
    - rewrite !Qabs_pos by lra. field; split; lra.
    - nra.
    - nra.
    - rewrite !Qabs_neg by lra. field; split; lra. }
  apply Qeq_bool_iff in X. congruence.
Qed.

(** A linear form with agreeing signs runs from corner to corner. *)
Lemma lin_bounds : forall d s x kx ky u v, skew_agrees d s ->
  0 <= u <= ky -> 0 <= v <= kx ->
  qmin x (x + d * kx + s * ky) <= x + v * d + u * s <= qmax x (x + d * kx + s * ky).
Proof.
  intros d s x kx ky u v SS [U1 U2] [V1 V2].
  set (x1 := x + d * kx + s * ky).
  assert (B : (x <= x + v * d + u * s <= x1) \/ (x1 <= x + v * d + u * s <= x)).
  { subst x1. destruct SS as [Z|P].
    - rewrite Z. destruct (Qlt_le_dec 0 d); [left|right]; nra.
    - destruct (Qlt_le_dec 0 d).
      + assert (0 < s) by nra. left. nra.
      + assert (s < 0) by nra. right. nra. }
  destruct (qmin_spec x x1) as [[E1 L1]|[E1 L1]]; destruct (qmax_spec x x1) as [[E2 L2]|[E2 L2]];
    rewrite E1, E2; lra.
Qed.

Lemma minmax_corner : forall (P : Q * Q -> Prop) (f : Q * Q -> Q) x x1 a b, x == f a -> x1 == f b -> P a -> P b ->
  (exists p, P p /\ f p == qmin x x1) /\ (exists p, P p /\ f p == qmax x x1).
Proof.
  intros P f x x1 a b Ea Eb Pa Pb. split.
  - destruct (qmin_spec x x1) as [[E L]|[E L]]; [exists a|exists b]; split; auto; lra.
  - destruct (qmax_spec x x1) as [[E L]|[E L]]; [exists a|exists b]; split; auto; lra.
Qed.

Lemma qmin_eq : forall a b c, b == c -> qmin a b == qmin a c.
Proof.
  intros a b c E. destruct (qmin_spec a b) as [[E1 L1]|[E1 L1]];
  destruct (qmin_spec a c) as [[E2 L2]|[E2 L2]]; lra.
Qed.
Lemma qmax_eq : forall a b c, b == c -> qmax a b == qmax a c.
Proof.
  intros a b c E. destruct (qmax_spec a b) as [[E1 L1]|[E1 L1]];
  destruct (qmax_spec a c) as [[E2 L2]|[E2 L2]]; lra.
Qed.

Lemma inj_le : forall a b, (a <= b)%Z -> inject_Z a <= inject_Z b.
Proof. intros. rewrite <- Zle_Qle. assumption. Qed.

Lemma extent_edge : forall T H W, (0 <= H)%Z -> (0 <= W)%Z ->
  skew_agrees (dx T) (sx T) -> skew_agrees (dy T) (sy T) ->
  tight_box (cell_point T H W) (extent T H W false).
Proof.
  intros T H W PH PW Sx Sy. unfold extent. rewrite !Z.add_0_r.
  set (X1 := if Qeq_bool (sgn (dx T)) (sgn (sx T)) then _ else _).
  set (Y1 := if Qeq_bool (sgn (dy T)) (sgn (sy T)) then _ else _).
  assert (EX : X1 == x0 T + dx T * inject_Z W + sx T * inject_Z H) by (apply corner_branch; assumption).
  assert (EY : Y1 == y0 T + dy T * inject_Z H + sy T * inject_Z W) by (apply corner_branch; assumption).
  apply inj_le in PH, PW. unfold inject_Z at 1 in PH. unfold inject_Z at 1 in PW.
  assert (A : cell_point T H W (world T 0 0)) by (exists 0, 0; repeat split; lra).
  assert (B : cell_point T H W (world T (inject_Z H) (inject_Z W)))
    by (exists (inject_Z H), (inject_Z W); repeat split; lra).
  unfold tight_box. split.
  { intros p (u & v & U & Vv & ->). unfold world; simpl.
    rewrite (qmin_eq _ _ _ EX), (qmax_eq _ _ _ EX), (qmin_eq _ _ _ EY), (qmax_eq _ _ _ EY).
    split; [apply lin_bounds; assumption|].
    assert (E : y0 T + u * dy T + v * sy T == y0 T + u * dy T + v * sy T) by reflexivity.
    apply (lin_bounds (dy T) (sy T) (y0 T) (inject_Z H) (inject_Z W) v u); assumption. }
  destruct (minmax_corner (cell_point T H W) fst (x0 T) X1 (world T 0 0)
              (world T (inject_Z H) (inject_Z W))) as [P1 P2]; auto.
  { unfold world; simpl. ring. } { rewrite EX. unfold world; simpl. ring. }
  destruct (minmax_corner (cell_point T H W) snd (y0 T) Y1 (world T 0 0)
              (world T (inject_Z H) (inject_Z W))) as [P3 P4]; auto.
  { unfold world; simpl. ring. } { rewrite EY. unfold world; simpl. ring. }
Qed.

Lemma extent_centre : forall T H W, (0 < H)%Z -> (0 < W)%Z ->
  skew_agrees (dx T) (sx T) -> skew_agrees (dy T) (sy T) ->
  tight_box (cell_centre T H W) (extent T H W true).
Proof.
  intros T H W PH PW Sx Sy. unfold extent, center_llref.
  set (XA := x0 T + half * (dx T + sx T)). set (YA := y0 T + half * (dy T + sy T)).
  set (X1 := if Qeq_bool (sgn (dx T)) (sgn (sx T)) then _ else _).
  set (Y1 := if Qeq_bool (sgn (dy T)) (sgn (sy T)) then _ else _).
  assert (EX : X1 == XA + dx T * inject_Z (W + -1) + sx T * inject_Z (H + -1)) by (apply corner_branch; assumption).
  assert (EY : Y1 == YA + dy T * inject_Z (H + -1) + sy T * inject_Z (W + -1)) by (apply corner_branch; assumption).
  assert (A : cell_centre T H W (centre T 0 0)) by (exists 0%Z, 0%Z; repeat split; lia).
  assert (B : cell_centre T H W (centre T (H + -1) (W + -1)))
    by (exists (H + -1)%Z, (W + -1)%Z; repeat split; lia).
  unfold tight_box. split.
  { intros p (i & j & I & J & ->).
    rewrite (qmin_eq _ _ _ EX), (qmax_eq _ _ _ EX), (qmin_eq _ _ _ EY), (qmax_eq _ _ _ EY).
    assert (I' : 0 <= inject_Z i <= inject_Z (H + -1)).
    { split; [change 0 with (inject_Z 0)|]; rewrite <- Zle_Qle; lia. }
    assert (J' : 0 <= inject_Z j <= inject_Z (W + -1)).
    { split; [change 0 with (inject_Z 0)|]; rewrite <- Zle_Qle; lia. }
    pose proof (lin_bounds (dx T) (sx T) XA _ _ _ _ Sx I' J') as R1.
    pose proof (lin_bounds (dy T) (sy T) YA _ _ _ _ Sy J' I') as R2.
    assert (E1 : fst (centre T i j) == XA + inject_Z j * dx T + inject_Z i * sx T)
      by (unfold centre, world, XA, half; simpl; ring).
    assert (E2 : snd (centre T i j) == YA + inject_Z i * dy T + inject_Z j * sy T)
      by (unfold centre, world, YA, half; simpl; ring).
    rewrite E1, E2. split; assumption. }
  destruct (minmax_corner (cell_centre T H W) fst XA X1 (centre T 0 0)
              (centre T (H + -1) (W + -1))) as [P1 P2]; auto.
  { unfold centre, world, XA, half; simpl. change (inject_Z 0) with 0. ring. }
  { rewrite EX. unfold centre, world, XA, half; simpl. ring. }
  destruct (minmax_corner (cell_centre T H W) snd YA Y1 (centre T 0 0)
              (centre T (H + -1) (W + -1))) as [P3 P4]; auto.
  { unfold centre, world, YA, half; simpl. change (inject_Z 0) with 0. ring. }
  { rewrite EY. unfold centre, world, YA, half; simpl. ring. }
Qed.
