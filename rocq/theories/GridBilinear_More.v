(** Consequences of bilinear interpolation. *)
From Coq Require Import List ZArith QArith Qround Qabs Bool Lia Lqa.
From Verif Require Import Band_Model Band_Spec Band_IndexModel Band_IndexSpec Grid_Model Grid_Spec Grid_Proofs
  Grid_OpsProofs GridSample_Model GridSample_Spec GridSample_Proofs GridBilinear_Proofs.
Import ListNotations.
Open Scope Z_scope.

Lemma block : forall u H, 2 <= H -> (0 <= u <= inject_Z (H - 1))%Q ->
  exists i, 0 <= i /\ i + 1 < H /\ (inject_Z i <= u <= inject_Z i + 1)%Q.
Proof.
  intros u H L [A B]. destruct (floor_bounds u) as [C D].
  assert (F0 : 0 <= Qfloor u) by (change 0 with (Qfloor 0); apply Qfloor_resp_le; exact A).
  destruct (Z_le_gt_dec (Qfloor u) (H - 2)) as [E | E].
  - exists (Qfloor u). split; [lia|]. split; [lia|]. clear - C D. lra.
  - exists (H - 2). split; [lia|]. split; [lia|].
    assert (X : (inject_Z (H - 1) == inject_Z (H - 2) + 1)%Q).
    { replace (H - 1) with (H - 2 + 1) by lia. rewrite inj_add, inj_1. reflexivity. }
    assert (Y : H - 2 <= Qfloor u) by lia. rewrite Zle_Qle in Y. clear - X Y B C. lra.
Qed.

(** Interpolation is determined where all cells are numbers. *)
Lemma sampled_value : forall T f H W nodata p z u v n i j, invertible T ->
  sampled T f H W nodata p z -> at_position T p u v ->
  0 <= i -> i + 1 < H -> 0 <= j -> j + 1 < W ->
  (inject_Z i <= u <= inject_Z i + 1)%Q -> (inject_Z j <= v <= inject_Z j + 1)%Q ->
  (forall a b, 0 <= a < H -> 0 <= b < W -> (u - 1 <= inject_Z a <= u + 1)%Q ->
     (v - 1 <= inject_Z b <= v + 1)%Q -> f a b = Some (n a b)) ->
  exists q, z = Some q /\ (q == interpolate n i j u v)%Q.
Proof.
  intros T f H W nodata p z u v n i j I (u' & v' & P' & V & _) P A B C D E F G.
  assert (X : (u' == u /\ v' == v)%Q).
  { assert (Y : peq (world T (u' + (1 # 2)) (v' + (1 # 2))) (world T (u + (1 # 2)) (v + (1 # 2)))%Q).
    { destruct P as [P1 P2], P' as [P3 P4]. split; [rewrite P3, P1|rewrite P4, P2]; reflexivity. }
    apply (world_inj T _ _ _ _ I) in Y. clear - Y. lra. }
  destruct X as [X1 X2].
  destruct (V i j n A B C D) as (q & Ez & Eq).
  - clear - E X1. lra.
  - clear - F X2. lra.
  - intros a b Ha Hb Hu Hv. apply G; [exact Ha|exact Hb|clear - Hu X1; lra|clear - Hv X2; lra].
  - exists q. split; [exact Ez|]. rewrite Eq. unfold interpolate. rewrite X1, X2. reflexivity.
Qed.

(** A function that is linear along rows and along columns. *)
Lemma sampled_fun : forall T H W f nodata p z h, invertible T -> 2 <= H -> 2 <= W ->
  samples_of T H W f h -> sampled T f H W nodata p z -> between_centres T H W p ->
  (forall u v i j, at_position T p u v ->
     (interpolate (fun a b => h (centre T a b)) i j u v == h p)%Q) ->
  exists q, z = Some q /\ (q == h p)%Q.
Proof.
  intros T H W f nodata p z h I LH LW S B (u & v & P & Hu & Hv) E.
  destruct (block u H LH Hu) as (i & A1 & A2 & A3). destruct (block v W LW Hv) as (j & B1 & B2 & B3).
  set (n := fun a b => match f a b with Some q => q | None => 0%Q end).
  assert (N : forall a b, 0 <= a < H -> 0 <= b < W -> f a b = Some (n a b) /\ (n a b == h (centre T a b))%Q).
  { intros a b Ha Hb. destruct (S a b Ha Hb) as (q & Eq & Q). unfold n. rewrite Eq. auto. }
  destruct (sampled_value T f H W nodata p z u v n i j I B P A1 A2 B1 B2 A3 B3) as (q & Ez & Eq).
  { intros a b Ha Hb _ _. apply N; assumption. }
  exists q. split; [exact Ez|]. rewrite Eq, <- (E u v i j P). unfold interpolate.
  rewrite (proj2 (N i j ltac:(lia) ltac:(lia))), (proj2 (N (i + 1) j ltac:(lia) ltac:(lia))),
    (proj2 (N i (j + 1) ltac:(lia) ltac:(lia))), (proj2 (N (i + 1) (j + 1) ltac:(lia) ltac:(lia))).
  reflexivity.
Qed.

Theorem sampled_affine : forall T H W f nodata p z a b c, invertible T -> 2 <= H -> 2 <= W ->
  samples_of T H W f (fun r => a + b * fst r + c * snd r)%Q ->
  sampled T f H W nodata p z -> between_centres T H W p ->
  exists q, z = Some q /\ (q == a + b * fst p + c * snd p)%Q.
Proof.
  intros T H W f nodata p z a b c I LH LW S B C.
  apply (sampled_fun T H W f nodata p z (fun r => a + b * fst r + c * snd r)%Q I LH LW S B C).
  intros u v i j [P1 P2]. cbv beta. rewrite <- P1, <- P2.
  unfold interpolate, centre, world. cbn [fst snd]. rewrite !inj_add, !inj_1. ring.
Qed.

Theorem sampled_biaffine : forall T H W f nodata p z a b c d, invertible T -> 2 <= H -> 2 <= W ->
  (sx T == 0)%Q -> (sy T == 0)%Q ->
  samples_of T H W f (fun r => a + b * fst r + c * snd r + d * fst r * snd r)%Q ->
  sampled T f H W nodata p z -> between_centres T H W p ->
  exists q, z = Some q /\ (q == a + b * fst p + c * snd p + d * fst p * snd p)%Q.
Proof.
  intros T H W f nodata p z a b c d I LH LW SX SY S B C.
  apply (sampled_fun T H W f nodata p z (fun r => a + b * fst r + c * snd r + d * fst r * snd r)%Q I LH LW S B C).
  intros u v i j [P1 P2]. cbv beta. rewrite <- P1, <- P2.
  unfold interpolate, centre, world. cbn [fst snd]. rewrite !inj_add, !inj_1, SX, SY. ring.
Qed.

(** Between the least and the greatest of the cells at most one cell away. *)
Theorem sampled_bounded : forall T H W f nodata p z u v n lo hi, invertible T -> 2 <= H -> 2 <= W ->
  sampled T f H W nodata p z -> at_position T p u v ->
  (0 <= u <= inject_Z (H - 1) /\ 0 <= v <= inject_Z (W - 1))%Q ->
  (forall a b, 0 <= a < H -> 0 <= b < W -> (u - 1 <= inject_Z a <= u + 1)%Q ->
     (v - 1 <= inject_Z b <= v + 1)%Q -> f a b = Some (n a b) /\ (lo <= n a b <= hi)%Q) ->
  exists q, z = Some q /\ (lo <= q <= hi)%Q.
Proof.
  intros T H W f nodata p z u v n lo hi I LH LW B P [Hu Hv] N.
  destruct (block u H LH Hu) as (i & A1 & A2 & A3). destruct (block v W LW Hv) as (j & B1 & B2 & B3).
  destruct (sampled_value T f H W nodata p z u v n i j I B P A1 A2 B1 B2 A3 B3) as (q & Ez & Eq).
  { intros a b Ha Hb Hau Hbv. apply N; assumption. }
  exists q. split; [exact Ez|].
  assert (K : forall a b, (a = i \/ a = i + 1) -> (b = j \/ b = j + 1) -> (lo <= n a b <= hi)%Q).
  { intros a b Ha Hb. apply N; [lia|lia| |].
    - destruct Ha as [-> | ->]; rewrite ?inj_add, ?inj_1; clear - A3; lra.
    - destruct Hb as [-> | ->]; rewrite ?inj_add, ?inj_1; clear - B3; lra. }
  pose proof (K i j (or_introl eq_refl) (or_introl eq_refl)) as K1.
  pose proof (K (i + 1) j (or_intror eq_refl) (or_introl eq_refl)) as K2.
  pose proof (K i (j + 1) (or_introl eq_refl) (or_intror eq_refl)) as K3.
  pose proof (K (i + 1) (j + 1) (or_intror eq_refl) (or_intror eq_refl)) as K4.
  rewrite Eq. unfold interpolate. set (s := (u - inject_Z i)%Q). set (t := (v - inject_Z j)%Q).
  assert (Hs : (0 <= s <= 1)%Q) by (unfold s; clear - A3; lra).
  assert (Ht : (0 <= t <= 1)%Q) by (unfold t; clear - B3; lra).
  set (q1 := n i j) in *. set (q2 := n (i + 1) j) in *. set (q3 := n i (j + 1)) in *. set (q4 := n (i + 1) (j + 1)) in *.
  assert (L : forall x y w, (0 <= w <= 1)%Q -> (lo <= x <= hi)%Q -> (lo <= y <= hi)%Q ->
                (lo <= (1 - w) * x + w * y <= hi)%Q).
  { clear. intros x y w [W1 W2] [X1 X2] [Y1 Y2]. split.
    - assert (Z1 : (0 <= (1 - w) * (x - lo))%Q) by (apply Qmult_le_0_compat; lra).
      assert (Z2 : (0 <= w * (y - lo))%Q) by (apply Qmult_le_0_compat; lra).
      setoid_replace ((1 - w) * x + w * y)%Q with (lo + (1 - w) * (x - lo) + w * (y - lo))%Q by ring. lra.
    - assert (Z1 : (0 <= (1 - w) * (hi - x))%Q) by (apply Qmult_le_0_compat; lra).
      assert (Z2 : (0 <= w * (hi - y))%Q) by (apply Qmult_le_0_compat; lra).
      setoid_replace ((1 - w) * x + w * y)%Q with (hi - (1 - w) * (hi - x) - w * (hi - y))%Q by ring. lra. }
  setoid_replace ((1 - s) * (1 - t) * q1 + s * (1 - t) * q2 + (1 - s) * t * q3 + s * t * q4)%Q
    with ((1 - t) * ((1 - s) * q1 + s * q2) + t * ((1 - s) * q3 + s * q4))%Q by ring.
  apply L; [exact Ht| |]; apply L; assumption.
Qed.

(** At a cell centre, the value of the cell. *)
Theorem sampled_centre : forall T H W f nodata p z i j n, invertible T -> 2 <= H -> 2 <= W ->
  sampled T f H W nodata p z -> peq (centre T i j) p -> 0 <= i < H -> 0 <= j < W ->
  (forall a b, 0 <= a < H -> 0 <= b < W -> i - 1 <= a <= i + 1 -> j - 1 <= b <= j + 1 -> f a b = Some (n a b)) ->
  exists q, z = Some q /\ (q == n i j)%Q.
Proof.
  intros T H W f nodata p z i j n I LH LW B P Hi Hj N.
  set (i' := if i + 1 <? H then i else i - 1). set (j' := if j + 1 <? W then j else j - 1).
  assert (Ai : 0 <= i' /\ i' + 1 < H /\ (i = i' \/ i = i' + 1)) by (unfold i'; destruct (Z.ltb_spec (i + 1) H); lia).
  assert (Aj : 0 <= j' /\ j' + 1 < W /\ (j = j' \/ j = j' + 1)) by (unfold j'; destruct (Z.ltb_spec (j + 1) W); lia).
  clearbody i' j'. destruct Ai as (A1 & A2 & A3). destruct Aj as (B1 & B2 & B3).
  assert (Z1 : forall a, (inject_Z i - 1 <= inject_Z a <= inject_Z i + 1)%Q -> i - 1 <= a <= i + 1).
  { intros a Ha. rewrite !Zle_Qle, inj_sub, inj_add, inj_1. exact Ha. }
  assert (Z2 : forall a, (inject_Z j - 1 <= inject_Z a <= inject_Z j + 1)%Q -> j - 1 <= a <= j + 1).
  { intros a Ha. rewrite !Zle_Qle, inj_sub, inj_add, inj_1. exact Ha. }
  destruct (sampled_value T f H W nodata p z (inject_Z i) (inject_Z j) n i' j' I B P A1 A2 B1 B2) as (q & Ez & Eq).
  - destruct A3 as [-> | ->]; rewrite ?inj_add, ?inj_1; lra.
  - destruct B3 as [-> | ->]; rewrite ?inj_add, ?inj_1; lra.
  - intros a b Ha Hb Hau Hbv. apply N; auto.
  - exists q. split; [exact Ez|]. rewrite Eq. unfold interpolate.
    destruct A3 as [-> | ->], B3 as [-> | ->]; rewrite ?inj_add, ?inj_1; ring.
Qed.
