(** Nearest points and points along a line. *)
From Coq Require Import List ZArith Reals Bool Arith Lia Lra.
From Verif Require Import Geom_Model GeomR_Model GeomR_Spec GeomR_Proofs.
Import ListNotations.
Open Scope R_scope.

Lemma edist_lerp : forall a b t, edist a (lerp a b t) = Rabs t * edist a b.
Proof.
  intros [x y] [x' y'] t. unfold edist, lerp. cbn [fst snd].
  replace ((x - (x + t * (x' - x))) ^ 2 + (y - (y + t * (y' - y))) ^ 2) with (Rsqr t * ((x - x')^2 + (y - y')^2)) by (unfold Rsqr; ring).
  rewrite sqrt_mult_alt by apply Rle_0_sqr. rewrite sqrt_Rsqr_abs. reflexivity.
Qed.
Lemma lerp_1 : forall a b, lerp a b 1 = b.
Proof. intros [x y] [x' y']. unfold lerp. cbn [fst snd]. f_equal; ring. Qed.
Lemma lerp_0 : forall a b, lerp a b 0 = a.
Proof. intros [x y] [x' y']. unfold lerp. cbn [fst snd]. f_equal; ring. Qed.
Lemma lerp_swap : forall a b t, lerp a b t = lerp b a (1 - t).
Proof. intros [x y] [x' y'] t. unfold lerp. cbn [fst snd]. f_equal; ring. Qed.
Lemma edist_lerp' : forall a b t, t <= 1 -> edist (lerp a b t) b = (1 - t) * edist a b.
Proof. intros a b t T. rewrite edist_sym, lerp_swap, edist_lerp, (edist_sym b a), Rabs_right by lra. reflexivity. Qed.
Lemma lerp_lerp : forall a b t r, lerp (lerp a b t) b r = lerp a b (t + r * (1 - t)).
Proof. intros [x y] [x' y'] t r. unfold lerp. cbn [fst snd]. f_equal; ring. Qed.

(* ---- nearest point of one segment *)

Section One.
Variables p a b : rpt.
Let vx := fst b - fst a.
Let vy := snd b - snd a.
Let N := vx * vx + vy * vy.
Let k := ((fst p - fst a) * vx + (snd p - snd a) * vy) / N.
Hypothesis Npos : 0 < N.
Lemma along : forall t, edist p (lerp a b t) * edist p (lerp a b t) =
  edist p (lerp a b k) * edist p (lerp a b k) + N * (t - k)^2.
Proof.
  intros t. rewrite !edist_sq. unfold lerp. cbn [fst snd]. fold vx vy.
  assert (K : k * N = (fst p - fst a) * vx + (snd p - snd a) * vy) by (unfold k; field; lra).
  set (u := fst p - fst a) in *. set (w := snd p - snd a) in *.
  replace (fst p - (fst a + t * vx)) with (u - t * vx) by (unfold u; ring).
  replace (snd p - (snd a + t * vy)) with (w - t * vy) by (unfold w; ring).
  replace (fst p - (fst a + k * vx)) with (u - k * vx) by (unfold u; ring).
  replace (snd p - (snd a + k * vy)) with (w - k * vy) by (unfold w; ring).
  transitivity ((u - k * vx) ^ 2 + (w - k * vy) ^ 2 + N * (t - k) ^ 2 - 2 * (t - k) * (u * vx + w * vy - k * N)).
  - unfold N. ring.
  - rewrite K. ring.
Qed.
Lemma closer : forall s t, (s - k)^2 <= (t - k)^2 -> edist p (lerp a b s) <= edist p (lerp a b t).
Proof.
  intros s t H. apply Rsqr_incr_0; [|apply edist_nonneg|apply edist_nonneg].
  unfold Rsqr. rewrite (along s), (along t). apply Rplus_le_compat_l. apply Rmult_le_compat_l; lra.
Qed.
Lemma best : forall s, 0 <= s <= 1 -> (k <= s -> s <= k \/ s = 0) -> (s <= k -> k <= s \/ s = 1) ->
  nearest (on_segment a b) p (lerp a b s) (dist2 (lerp a b s) p).
Proof.
  intros s S H1 H2. split; [exists s; auto|]. split.
  { unfold dist2. rewrite edist_pdist. rewrite <- !surjective_pairing. reflexivity. }
  intros r (t & T & ->). unfold dist2. rewrite edist_pdist, <- !surjective_pairing. apply closer.
  destruct (Rle_dec k s) as [K|K].
  - destruct (H1 K) as [K'|K']; [assert (Es : s - k = 0) by lra; rewrite Es; pose proof (pow2_ge_0 (t - k)); lra|]. subst s. clearbody k. nra.
  - destruct (H2 ltac:(lra)) as [K'|K']; [lra|]. subst s. clearbody k. nra.
Qed.
Lemma best_eq : forall q s, q = lerp a b s -> 0 <= s <= 1 -> (k <= s -> s <= k \/ s = 0) -> (s <= k -> k <= s \/ s = 1) ->
  nearest (on_segment a b) p q (dist2 q p).
Proof. intros q s -> S H1 H2. apply best; assumption. Qed.
End One.

Lemma fmaxr_spec : forall a b, (a <= b -> fmaxr a b = b) /\ (b <= a -> fmaxr a b = a).
Proof. intros a b. unfold fmaxr. destruct (Rle_dec a b); split; intros; auto; lra. Qed.
Lemma fminr_spec : forall a b, (a <= b -> fminr a b = a) /\ (b <= a -> fminr a b = b).
Proof. intros a b. unfold fminr. destruct (Rle_dec a b); split; intros; auto; lra. Qed.

(** Comparing one coordinate of the projection with the ends. *)
Lemma sub_neg : forall k v a b, v = b - a -> v <> 0 ->
  (Rmax a b < k * v + a -> 1 < k /\ a < b \/ k < 0 /\ b < a) /\
  (k * v + a < Rmin a b -> 1 < k /\ b < a \/ k < 0 /\ a < b) /\
  (Rmin a b <= k * v + a <= Rmax a b -> 0 <= k <= 1).
Proof.
  intros k v a b E V. destruct (Rtotal_order v 0) as [L|[L|L]]; [|congruence|].
  - rewrite Rmax_left, Rmin_right by lra. (split; [|split]); intros H; [| |split].
    + right. split; [|lra]. destruct (Rle_dec 0 k); [|lra]. exfalso. assert (k * v <= 0) by nra. lra.
    + left. split; [|lra]. destruct (Rle_dec k 1); [|lra]. exfalso. assert (v <= k * v) by nra. lra.
    + destruct (Rle_dec 0 k); [lra|]. exfalso. assert (0 < k * v) by nra. lra.
    + destruct (Rle_dec k 1); [lra|]. exfalso. assert (k * v < v) by nra. lra.
  - rewrite Rmax_right, Rmin_left by lra. (split; [|split]); intros H; [| |split].
    + left. split; [|lra]. destruct (Rle_dec k 1); [|lra]. exfalso. assert (k * v <= v) by nra. lra.
    + right. split; [|lra]. destruct (Rle_dec 0 k); [|lra]. exfalso. assert (0 <= k * v) by nra. lra.
    + destruct (Rle_dec 0 k); [lra|]. exfalso. assert (k * v < 0) by nra. lra.
    + destruct (Rle_dec k 1); [lra|]. exfalso. assert (v < k * v) by nra. lra.
Qed.
Lemma fmaxr_Rmax : forall a b, fmaxr a b = Rmax a b.
Proof. intros. unfold fmaxr, Rmax. reflexivity. Qed.
Lemma fminr_Rmin : forall a b, fminr a b = Rmin a b.
Proof. intros. unfold fminr, Rmin. reflexivity. Qed.

Lemma pt_nearest_spec : forall p a b, regular a b -> exists q d, pt_nearest_planar p a b = Ok (q, d) /\
  nearest (on_segment a b) p q d.
Proof.
  intros p a b Rg. unfold pt_nearest_planar.
  set (vx := fst b - fst a). set (vy := snd b - snd a).
  assert (Npos : 0 < vx * vx + vy * vy).
  { destruct Rg as [H|H].
    - assert (vx <> 0). { intros E. replace (fst a - fst b) with (- vx) in H by (unfold vx; ring). rewrite E, Ropp_0, Rabs_R0 in H. lra. }
      nra.
    - assert (vy <> 0) by (unfold vy; lra). nra. }
  destruct (Req_EM_T (vx * vx + vy * vy) 0) as [Z|_]; [lra|].
  set (k := ((fst p - fst a) * vx + (snd p - snd a) * vy) / (vx * vx + vy * vy)).
  assert (Q : (k * vx + fst a, k * vy + snd a) = lerp a b k) by (unfold lerp; fold vx vy; f_equal; ring).
  assert (B : forall q s, q = lerp a b s -> 0 <= s <= 1 -> (k <= s -> s <= k \/ s = 0) -> (s <= k -> k <= s \/ s = 1) ->
    nearest (on_segment a b) p q (dist2 q p)) by (exact (best_eq p a b Npos)).
  assert (BA : k < 0 -> nearest (on_segment a b) p a (dist2 a p)).
  { intros K. apply (B a 0); [rewrite lerp_0; reflexivity|lra|auto|lra]. }
  assert (BB : 1 < k -> nearest (on_segment a b) p b (dist2 b p)).
  { intros K. apply (B b 1); [rewrite lerp_1; reflexivity|lra|lra|auto]. }
  assert (BQ : 0 <= k <= 1 -> nearest (on_segment a b) p (k * vx + fst a, k * vy + snd a) (dist2 (k * vx + fst a, k * vy + snd a) p)).
  { intros K. apply (B _ k); [exact Q|exact K|left; lra|left; lra]. }
  clear B Q. cbn [fst snd].
  rewrite (fmaxr_Rmax (fst a)), (fmaxr_Rmax (snd a)), (fminr_Rmin (fst a)), (fminr_Rmin (snd a)).
  destruct (Rlt_dec (Rabs (fst a - fst b)) (1 / 10000)) as [S|S].
  - assert (V : vy <> 0) by (destruct Rg; [lra|unfold vy; lra]).
    destruct (sub_neg k vy (snd a) (snd b) eq_refl V) as (C1 & C2 & C3).
    destruct (Rlt_dec (Rmax (snd a) (snd b)) (k * vy + snd a)) as [M|M].
    + destruct (Rlt_dec (snd b) (snd a)); do 2 eexists; (split; [reflexivity|]); [apply BA|apply BB]; specialize (C1 M); lra.
    + destruct (Rlt_dec (k * vy + snd a) (Rmin (snd a) (snd b))) as [M'|M'].
      * destruct (Rlt_dec (snd a) (snd b)); do 2 eexists; (split; [reflexivity|]); [apply BA|apply BB]; specialize (C2 M'); lra.
      * do 2 eexists; split; [reflexivity|]. apply BQ, C3. lra.
  - assert (V : vx <> 0).
    { intros E. apply S. replace (fst a - fst b) with (- vx) by (unfold vx; ring). rewrite E, Ropp_0, Rabs_R0. lra. }
    destruct (sub_neg k vx (fst a) (fst b) eq_refl V) as (C1 & C2 & C3).
    destruct (Rlt_dec (Rmax (fst a) (fst b)) (k * vx + fst a)) as [M|M].
    + destruct (Rlt_dec (fst b) (fst a)); do 2 eexists; (split; [reflexivity|]); [apply BA|apply BB]; specialize (C1 M); lra.
    + destruct (Rlt_dec (k * vx + fst a) (Rmin (fst a) (fst b))) as [M'|M'].
      * destruct (Rlt_dec (fst a) (fst b)); do 2 eexists; (split; [reflexivity|]); [apply BA|apply BB]; specialize (C2 M'); lra.
      * do 2 eexists; split; [reflexivity|]. apply BQ, C3. lra.
Qed.
Lemma pt_nearest_zero : forall p a, pt_nearest_planar p a a = Err ZeroDivisionError.
Proof. intros. unfold pt_nearest_planar. destruct (Req_EM_T _ 0) as [_|N]; [reflexivity|]. exfalso. apply N. ring. Qed.

(* ---- nearest point of a line *)
Lemma in_pairs : forall (l : list rpt) a b, In (a, b) (pairs l) <-> exists l1 l2, l = l1 ++ a :: b :: l2.
Proof.
  unfold pairs. induction l as [|v l IH]; intros a b; [split; [intros []|intros ([|? ?] & ? & E); discriminate]|].
  destruct l as [|w l].
  - split; [intros []|]. intros ([|? [|? ?]] & ? & E); discriminate.
  - change (combine (v :: w :: l) (tl (v :: w :: l))) with ((v, w) :: combine (w :: l) (tl (w :: l))).
    cbn [In]. rewrite IH. split.
    + intros [E|(l1 & l2 & E)]; [injection E as -> ->; exists [], l; reflexivity|].
      exists (v :: l1), l2. cbn [app]. rewrite E. reflexivity.
    + intros ([|x l1] & l2 & E); cbn [app] in E.
      * left. congruence.
      * right. exists l1, l2. congruence.
Qed.

Lemma nearest_loop_spec : forall (on : (rpt * rpt) -> rpt -> Prop) p segs ds i mp md,
  Forall2 (fun s r => nearest (on s) p (fst r) (snd r)) segs ds -> (0 < i)%nat ->
  let r := nearest_loop ds i mp md in
  (r = (md, mp) \/ exists s q, In s segs /\ snd r = Some q /\ nearest (on s) p q (fst r)) /\
  fst r <= md /\ (forall s q, In s segs -> on s q -> fst r <= edist p q).
Proof.
  intros on p segs ds i mp md F. revert i mp md. induction F as [|s [q d] segs ds N F IH]; intros i mp md I; cbn [nearest_loop].
  - cbn. split; [auto|]. split; [lra|]. intros ? ? [].
  - cbn [fst snd] in N.
    assert (G : d < md -> let r := nearest_loop ds (S i) (Some q) d in
      (r = (md, mp) \/ exists s0 q0, In s0 (s :: segs) /\ snd r = Some q0 /\ nearest (on s0) p q0 (fst r)) /\
      fst r <= md /\ (forall s0 q0, In s0 (s :: segs) -> on s0 q0 -> fst r <= edist p q0)).
    { intros D. destruct (IH (S i) (Some q) d ltac:(lia)) as (A & B & C). cbn zeta. split; [|split; [lra|]].
      - right. destruct A as [A|(s0 & q0 & A)].
        + exists s, q. rewrite A. cbn. auto.
        + exists s0, q0. cbn. intuition.
      - intros s0 q0 [<- |Hin] O; [|apply (C s0); assumption].
        destruct N as (_ & _ & N). specialize (N q0 O). lra. }
    destruct (Rlt_dec d md) as [D|D]; [apply G, D|].
    destruct (Nat.eqb_spec i 0) as [I0|I0]; [lia|].
    destruct (IH (S i) mp md ltac:(lia)) as (A & B & C). split; [|split; [lra|]].
    + destruct A as [A|(s0 & q0 & A)]; [left; exact A|]. right. exists s0, q0. cbn. intuition.
    + intros s0 q0 [<- |Hin] O; [|apply (C s0); assumption].
      destruct N as (_ & _ & N). specialize (N q0 O). lra.
Qed.
Lemma nearest_list : forall (on : (rpt * rpt) -> rpt -> Prop) p segs ds, segs <> [] ->
  Forall2 (fun s r => nearest (on s) p (fst r) (snd r)) segs ds ->
  exists d q, nearest_loop ds 0 None (-1) = (d, Some q) /\ nearest (fun r => exists s, In s segs /\ on s r) p q d.
Proof.
  intros on p segs ds Ne F. destruct F as [|s [q d] segs ds N F]; [congruence|]. clear Ne. cbn [nearest_loop fst snd] in *.
  assert (Dn : ~ d < -1). { destruct N as (_ & E & _). pose proof (edist_nonneg p q). lra. }
  destruct (Rlt_dec d (-1)) as [D|_]; [contradiction|]. cbn [Nat.eqb].
  destruct (nearest_loop_spec on p segs ds 1 (Some q) d F ltac:(lia)) as (A & B & C).
  destruct (nearest_loop ds 1 (Some q) d) as [d' q'] eqn:E. cbn [fst snd] in *.
  destruct A as [A|(s0 & q0 & Hin & A & N0)].
  - injection A as -> ->. exists d, q. split; [reflexivity|]. destruct N as (O & De & N).
    split; [exists s; cbn; auto|]. split; [exact De|]. intros r (s0 & [<- |Hin] & O'); [apply N, O'|apply (C s0); assumption].
  - subst q'. exists d', q0. split; [reflexivity|]. destruct N0 as (O & De & N0).
    split; [exists s0; cbn; auto|]. split; [exact De|]. intros r (s1 & [<- |Hin1] & O').
    + destruct N as (_ & _ & N). specialize (N r O'). lra.
    + apply (C s1); assumption.
Qed.
Lemma mapM_nearest : forall p segs, (forall s, In s segs -> regular (fst s) (snd s)) ->
  exists ds, mapM (fun s => pt_nearest_planar p (fst s) (snd s)) segs = Ok ds /\
    Forall2 (fun s r => nearest (on_segment (fst s) (snd s)) p (fst r) (snd r)) segs ds.
Proof.
  induction segs as [|s segs IH]; intros H; cbn [mapM].
  - exists []. split; [reflexivity|constructor].
  - destruct (pt_nearest_spec p (fst s) (snd s)) as (q & d & E & N); [apply H; cbn; auto|].
    rewrite E. cbn [bind]. destruct IH as (ds & E' & F); [intros; apply H; cbn; auto|]. rewrite E'. cbn [bind].
    exists ((q, d) :: ds). split; [reflexivity|]. constructor; assumption.
Qed.
Lemma nearest_ext : forall (P Q : rpt -> Prop) p q d, (forall r, P r <-> Q r) -> nearest P p q d -> nearest Q p q d.
Proof. intros P Q p q d H (A & B & C). split; [apply H, A|]. split; [exact B|]. intros r O. apply C, H, O. Qed.
Lemma on_path_pairs : forall l r, (exists s, In s (pairs l) /\ on_segment (fst s) (snd s) r) <-> on_path l r.
Proof.
  intros l r. split.
  - intros ([a b] & I & O). apply in_pairs in I. destruct I as (l1 & l2 & E). exists l1, a, b, l2. auto.
  - intros (l1 & a & b & l2 & E & O). exists (a, b). split; [apply in_pairs; eauto|exact O].
Qed.
Lemma nearest_line : forall l p, regular_path l -> (2 <= length l)%nat -> exists d q,
  nearest_to_point l p = Ok (d, Some q) /\ nearest (on_path l) p q d.
Proof.
  intros l p Rg L. unfold nearest_to_point.
  destruct (mapM_nearest p (pairs l)) as (ds & E & F).
  { intros [a b] I. apply in_pairs in I. destruct I as (l1 & l2 & I). apply (Rg _ _ _ _ I). }
  rewrite E. cbn [bind]. destruct (nearest_list (fun s => on_segment (fst s) (snd s)) p (pairs l) ds) as (d & q & E' & N); [|exact F|].
  { destruct l as [|a [|b l]]; cbn in L; try lia. discriminate. }
  exists d, q. split; [rewrite E'; reflexivity|]. eapply nearest_ext; [|exact N]. intros r. apply on_path_pairs.
Qed.
Lemma nearest_to_short : forall l p, (length l < 2)%nat -> nearest_to_point l p = Ok (-1, None).
Proof. intros [|a [|b l]] p H; cbn in H; try lia; reflexivity. Qed.

(* ---- within_distance *)
Lemma two_split : forall (u v a b : rpt) l1 l2, [u; v] = l1 ++ a :: b :: l2 -> a = u /\ b = v.
Proof. intros u v a b [|x [|y [|z l1]]] l2 E; cbn in E; try discriminate E. split; congruence. Qed.
Lemma within_all_spec : forall segs p d, (forall s, In s segs -> regular (fst s) (snd s)) ->
  exists b, within_all segs p d = Ok b /\
    (b = true <-> forall s, In s segs -> exists q, on_segment (fst s) (snd s) q /\ edist p q <= d).
Proof.
  induction segs as [|s segs IH]; intros p d H; cbn [within_all].
  - exists true. split; [reflexivity|]. split; [intros _ s []|reflexivity].
  - unfold shortest_distance_to at 1.
    destruct (nearest_line [fst s; snd s] p) as (m & q & E & N).
    { intros l1 a b l2 E. apply two_split in E. destruct E as [-> ->]. apply H. cbn; auto. }
    { cbn; lia. }
    rewrite E. cbn [bind fst].
    assert (NS : nearest (on_segment (fst s) (snd s)) p q m).
    { eapply nearest_ext; [|exact N]. intros r. split.
      - intros (l1 & a & b & l2 & El & O). apply two_split in El. destruct El as [-> ->]. exact O.
      - intros O. exists [], (fst s), (snd s), []. split; [reflexivity|exact O]. }
    destruct NS as (O & De & Mi).
    destruct (Rle_dec m d) as [M|M].
    + destruct (IH p d) as (b & Eb & B); [intros; apply H; cbn; auto|]. exists b. split; [exact Eb|].
      rewrite B. split.
      * intros G s0 [<- |I]; [exists q; split; [exact O|lra]|apply G, I].
      * intros G s0 I. apply G. cbn; auto.
    + exists false. split; [reflexivity|]. split; [discriminate|]. intros G.
      destruct (G s) as (q' & O' & D'); [cbn; auto|]. specialize (Mi q' O'). lra.
Qed.
Lemma within_distance_spec : forall l p d, regular_path l -> exists b, within_distance l p d = Ok b /\
  (b = true <-> forall l1 u v l2, l = l1 ++ u :: v :: l2 -> exists q, on_segment u v q /\ edist p q <= d).
Proof.
  intros l p d Rg. destruct (within_all_spec (pairs l) p d) as (b & E & B).
  { intros [a b] I. apply in_pairs in I. destruct I as (l1 & l2 & I). apply (Rg _ _ _ _ I). }
  exists b. split; [exact E|]. rewrite B. split.
  - intros G l1 u v l2 El. apply (G (u, v)). apply in_pairs. eauto.
  - intros G [u v] I. apply in_pairs in I. destruct I as (l1 & l2 & I). eapply G, I.
Qed.
Lemma within_distance_sound : forall l p d, regular_path l -> (2 <= length l)%nat ->
  within_distance l p d = Ok true -> exists q, on_path l q /\ edist p q <= d.
Proof.
  intros l p d Rg L W. destruct (within_distance_spec l p d Rg) as (b & E & B). rewrite W in E. injection E as <-.
  destruct l as [|u [|v l]]; cbn in L; try lia.
  destruct (proj1 B eq_refl [] u v l eq_refl) as (q & O & D). exists q. split; [|exact D]. exists [], u, v, l. auto.
Qed.
