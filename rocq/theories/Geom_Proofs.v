(** Proofs about boxes, areas, centroids and transformations of planar geometries. *)
From Coq Require Import List ZArith QArith Qabs Qfield Lqa Bool Arith Lia Setoid Morphisms.
From Verif Require Import Geom_Model Geom_Spec.
Import ListNotations.
Open Scope Q_scope.

(* ---- boxes *)
Lemma fmin_spec : forall a b, (fmin a b = a /\ a <= b) \/ (fmin a b = b /\ b <= a).
Proof.
  intros a b. unfold fmin. destruct (Qle_bool a b) eqn:E.
  - left. split; [reflexivity|]. apply Qle_bool_iff, E.
  - right. split; [reflexivity|]. destruct (Qlt_le_dec b a) as [L|L]; [lra|].
    apply Qle_bool_iff in L. congruence.
Qed.
Lemma fmax_spec : forall a b, (fmax a b = b /\ a <= b) \/ (fmax a b = a /\ b <= a).
Proof.
  intros a b. unfold fmax. destruct (Qle_bool a b) eqn:E.
  - left. split; [reflexivity|]. apply Qle_bool_iff, E.
  - right. split; [reflexivity|]. destruct (Qlt_le_dec b a) as [L|L]; [lra|].
    apply Qle_bool_iff in L. congruence.
Qed.
Lemma Qle_bool_f : forall a b, Qle_bool a b = false -> b < a.
Proof.
  intros a b E. destruct (Qlt_le_dec b a) as [L|L]; [exact L|].
  apply Qle_bool_iff in L. congruence.
Qed.

Lemma minl_spec : forall l a, minl a l <= a /\ (forall x, In x l -> minl a l <= x) /\
  (minl a l = a \/ In (minl a l) l).
Proof.
  induction l as [|x l IH]; intros a; unfold minl; cbn [fold_left].
  - split; [lra|]. split; [intros x []|left; reflexivity].
  - fold (minl (fmin a x) l). destruct (IH (fmin a x)) as (A & B & H).
    destruct (fmin_spec a x) as [[E L]|[E L]]; rewrite E in *.
    + split; [exact A|]. split; [intros y [<-|Hy]; [lra|auto]|].
      destruct H as [H|H]; [left; exact H|right; right; exact H].
    + split; [lra|]. split; [intros y [<-|Hy]; [exact A|auto]|].
      right. destruct H as [H|H]; [left; congruence|right; exact H].
Qed.
Lemma maxl_spec : forall l a, a <= maxl a l /\ (forall x, In x l -> x <= maxl a l) /\
  (maxl a l = a \/ In (maxl a l) l).
Proof.
  induction l as [|x l IH]; intros a; unfold maxl; cbn [fold_left].
  - split; [lra|]. split; [intros x []|left; reflexivity].
  - fold (maxl (fmax a x) l). destruct (IH (fmax a x)) as (A & B & H).
    destruct (fmax_spec a x) as [[E L]|[E L]]; rewrite E in *.
    + split; [lra|]. split; [intros y [<-|Hy]; [exact A|auto]|].
      right. destruct H as [H|H]; [left; congruence|right; exact H].
    + split; [exact A|]. split; [intros y [<-|Hy]; [lra|auto]|].
      destruct H as [H|H]; [left; exact H|right; right; exact H].
Qed.

Lemma bbox_loop_spec : forall l a b c d, bbox_loop l a b c d =
  (minl a (map fst l), minl b (map snd l), maxl c (map fst l), maxl d (map snd l)).
Proof.
  induction l as [|[x y] l IH]; intros a b c d; [reflexivity|].
  cbn [bbox_loop map fst snd]. rewrite IH. reflexivity.
Qed.
Lemma side : forall (f : pt -> Q) v l m, m = f v \/ In m (map f l) ->
  exists p, In p (v :: l) /\ f p == m.
Proof.
  intros f v l m [H|H].
  - exists v. split; [left; reflexivity|]. rewrite H. reflexivity.
  - apply in_map_iff in H. destruct H as (p & E & I). exists p.
    split; [right; exact I|]. rewrite E. reflexivity.
Qed.
Lemma bbox_c_tight : forall l, l <> [] ->
  exists x0 y0 x1 y1, bbox_c l = Some (x0, y0, x1, y1) /\ tight_box x0 y0 x1 y1 l.
Proof.
  intros [|[vx vy] l] Hl; [congruence|]. cbn [bbox_c]. rewrite bbox_loop_spec.
  do 4 eexists. split; [reflexivity|].
  destruct (minl_spec (map fst l) vx) as (A1 & A2 & A3).
  destruct (minl_spec (map snd l) vy) as (B1 & B2 & B3).
  destruct (maxl_spec (map fst l) vx) as (C1 & C2 & C3).
  destruct (maxl_spec (map snd l) vy) as (D1 & D2 & D3).
  split; [|split; [|split; [|split]]].
  - intros p [<-|Hp]; unfold covers; cbn [fst snd]; [split; split; assumption|].
    pose proof (in_map fst l p Hp) as I. pose proof (in_map snd l p Hp) as J.
    repeat split; auto.
  - apply (side fst (vx, vy)). exact A3.
  - apply (side snd (vx, vy)). exact B3.
  - apply (side fst (vx, vy)). exact C3.
  - apply (side snd (vx, vy)). exact D3.
Qed.

Lemma tight_unique : forall l x0 y0 x1 y1 a0 b0 a1 b1, tight_box x0 y0 x1 y1 l ->
  tight_box a0 b0 a1 b1 l -> x0 == a0 /\ y0 == b0 /\ x1 == a1 /\ y1 == b1.
Proof.
  intros l x0 y0 x1 y1 a0 b0 a1 b1 (A & (p1 & I1 & E1) & (p2 & I2 & E2) & (p3 & I3 & E3) & (p4 & I4 & E4))
    (B & (q1 & J1 & F1) & (q2 & J2 & F2) & (q3 & J3 & F3) & (q4 & J4 & F4)).
  pose proof (A _ J1) as [? ?]. pose proof (A _ J2) as [? ?]. pose proof (A _ J3) as [? ?].
  pose proof (A _ J4) as [? ?]. pose proof (B _ I1) as [? ?]. pose proof (B _ I2) as [? ?].
  pose proof (B _ I3) as [? ?]. pose proof (B _ I4) as [? ?]. repeat split; lra.
Qed.

(* ---- sums over rings *)
Lemma fold_plus : forall l a, fold_left Qplus l a == a + fold_left Qplus l 0.
Proof.
  induction l as [|x l IH]; intros a; cbn [fold_left]; [ring|].
  rewrite IH. rewrite (IH (0 + x)). ring.
Qed.
Lemma sumq_cons : forall x l, sumq (x :: l) == x + sumq l.
Proof. intros. unfold sumq. cbn [fold_left]. rewrite fold_plus. ring. Qed.

Lemma path_app : forall f l a b m, path_sum f a (l ++ b :: m) == path_sum f a (l ++ [b]) + path_sum f b m.
Proof.
  intros f l. induction l as [|c l IH]; intros a b m; cbn [app path_sum]; [ring|].
  rewrite IH. ring.
Qed.
Lemma path_ext : forall f g l a, (forall a b, f a b == g a b) -> path_sum f a l == path_sum g a l.
Proof.
  intros f g l. induction l as [|b l IH]; intros a H; cbn [path_sum]; [reflexivity|].
  rewrite H, IH; [reflexivity|exact H].
Qed.
Lemma path_lin : forall f g c l a, path_sum (fun p q => f p q + c * g p q) a l ==
  path_sum f a l + c * path_sum g a l.
Proof.
  intros f g c l. induction l as [|b l IH]; intros a; cbn [path_sum]; [ring|]. rewrite IH. ring.
Qed.
Lemma path_tele : forall h l a b, path_sum (fun p q => h q - h p) a (l ++ [b]) == h b - h a.
Proof.
  intros h l. induction l as [|c l IH]; intros a b; cbn [app path_sum]; [ring|]. rewrite IH. ring.
Qed.
Lemma path_scale : forall f c l a, path_sum (fun p q => c * f p q) a l == c * path_sum f a l.
Proof. intros f c l. induction l as [|b l IH]; intros a; cbn [path_sum]; [ring|]. rewrite IH. ring. Qed.
Lemma path_map : forall f h l a, path_sum f (h a) (map h l) = path_sum (fun p q => f (h p) (h q)) a l.
Proof. intros f h l. induction l as [|b l IH]; intros a; cbn [map path_sum]; [reflexivity|]. rewrite IH. reflexivity. Qed.

Lemma ring_ext : forall f g l, (forall a b, f a b == g a b) -> ring_sum f l == ring_sum g l.
Proof. intros f g [|v l] H; cbn [ring_sum]; [reflexivity|]. apply path_ext, H. Qed.
Lemma ring_lin : forall f g c l, ring_sum (fun p q => f p q + c * g p q) l == ring_sum f l + c * ring_sum g l.
Proof. intros f g c [|v l]; cbn [ring_sum]; [ring|]. apply path_lin. Qed.
Lemma ring_tele : forall h l, ring_sum (fun p q => h q - h p) l == 0.
Proof. intros h [|v l]; cbn [ring_sum]; [reflexivity|]. rewrite path_tele. ring. Qed.
Lemma ring_scale : forall f c l, ring_sum (fun p q => c * f p q) l == c * ring_sum f l.
Proof. intros f c [|v l]; cbn [ring_sum]; [ring|]. apply path_scale. Qed.
Lemma ring_map : forall f h l, ring_sum f (map h l) = ring_sum (fun p q => f (h p) (h q)) l.
Proof.
  intros f h [|v l]; cbn [ring_sum map]; [reflexivity|].
  change [h v] with (map h [v]). rewrite <- map_app. apply path_map.
Qed.
(** Dropping telescoping terms. *)
Lemma ring_mod : forall f g h c l, (forall a b, f a b == g a b + c * (h b - h a)) ->
  ring_sum f l == ring_sum g l.
Proof.
  intros f g h c l H. rewrite (ring_ext _ _ l H). rewrite (ring_lin g (fun p q => h q - h p)).
  rewrite ring_tele. ring.
Qed.
Lemma ring_rotate : forall f l m, ring_sum f (l ++ m) == ring_sum f (m ++ l).
Proof.
  intros f [|a l] [|b m]; rewrite ?app_nil_r; try reflexivity.
  cbn [app ring_sum]. rewrite <- !app_assoc. cbn [app]. rewrite (path_app f l a b (m ++ [a])), (path_app f m b a (l ++ [b])).
  ring.
Qed.
Lemma path_rev : forall f l a b, path_sum f a (l ++ [b]) == path_sum (fun p q => f q p) b (rev l ++ [a]).
Proof.
  intros f l. induction l as [|c l IH]; intros a b; cbn [app rev path_sum]; [reflexivity|].
  rewrite IH. rewrite <- app_assoc. cbn [app]. rewrite (path_app _ (rev l) b c [a]). cbn [path_sum]. ring.
Qed.
Lemma ring_rev : forall f l, ring_sum f (rev l) == ring_sum (fun p q => f q p) l.
Proof.
  intros f [|a l]; [reflexivity|]. cbn [rev]. rewrite ring_rotate. cbn [app ring_sum].
  rewrite path_rev. rewrite rev_involutive. reflexivity.
Qed.
Lemma ring_cut : forall f a l b m, (forall p q, f q p == - f p q) ->
  ring_sum f (a :: l ++ b :: m) == ring_sum f (a :: l ++ [b]) + ring_sum f (b :: m ++ [a]).
Proof.
  intros f a l b m H. cbn [ring_sum]. rewrite <- !app_assoc. cbn [app].
  rewrite (path_app f l a b (m ++ [a])), (path_app f l a b [a]), (path_app f m b a [b]). cbn [path_sum].
  rewrite (H a b). ring.
Qed.

(** [sumq] over consecutive pairs. *)
Lemma sum_consecutive : forall (f : pt -> pt -> Q) l a,
  sumq (map (fun s => f (fst s) (snd s)) (consecutive (a :: l))) == path_sum f a l.
Proof.
  intros f l. induction l as [|b l IH]; intros a; [reflexivity|].
  change (consecutive (a :: b :: l)) with ((a, b) :: consecutive (b :: l)).
  cbn [map fst snd path_sum]. rewrite sumq_cons, IH. reflexivity.
Qed.
Lemma path_close : forall f l a c, path_sum f a (l ++ [c]) == path_sum f a l + f (last (a :: l) a) c.
Proof.
  intros f l. induction l as [|b l IH]; intros a c; [cbn; ring|].
  cbn [app path_sum]. rewrite IH.
  replace (last (a :: b :: l) a) with (last (b :: l) b); [ring|].
  change (last (a :: b :: l) a) with (last (b :: l) a). clear.
  revert b. induction l as [|d l IH]; intros b; [reflexivity|]. change (last (d :: l) b = last (d :: l) a).
  clear IH. revert d. induction l as [|e l IH]; intros d; [reflexivity|]. apply IH.
Qed.
Lemma sum_pairs : forall (f : pt -> pt -> Q) l,
  sumq (map (fun s => f (fst s) (snd s)) (ring_pairs l)) == ring_sum f l.
Proof.
  intros f [|v l]; [reflexivity|]. unfold ring_pairs. cbn [map fst snd ring_sum].
  rewrite sumq_cons, sum_consecutive, path_close. ring.
Qed.

(* ---- area *)
Definition half (a b : pt) : Q := (1 # 2) * (fst a * snd b - fst b * snd a).
Lemma tri_mod : forall o l, ring_sum (tri o) l == ring_sum half l.
Proof.
  intros o l. apply (ring_mod _ _ (fun p => fst p * snd o - fst o * snd p) (1 # 2)).
  intros a b. unfold tri, half. ring.
Qed.
Lemma signed_area_any : forall o o' l, signed_area o l == signed_area o' l.
Proof. intros. unfold signed_area. rewrite !tri_mod. reflexivity. Qed.

Lemma ring_area_spec : forall l o, l <> [] -> exists a, ring_area l = Ok a /\ a == signed_area o l.
Proof.
  intros [|v l] o Hl; [congruence|]. unfold ring_area. eexists. split; [reflexivity|].
  set (x0 := minl _ _). clearbody x0.
  rewrite (sum_consecutive (fun p q => ((1 # 2) * (fst q + fst p) - x0) * (snd q - snd p)) l v).
  unfold signed_area. rewrite tri_mod. rewrite <- (ring_mod (fun p q => ((1 # 2) * (fst q + fst p) - x0) * (snd q - snd p))
    half (fun p => (1 # 2) * (fst p * snd p) - x0 * snd p) 1 (v :: l)).
  2: { intros a b. unfold half. ring. }
  cbn [ring_sum]. rewrite path_close. change (fst (last (v :: l) v)) with (fst (last (v :: l) v)). ring.
Qed.

Lemma ring_area_eq : forall l o a, ring_area l = Ok a -> a == signed_area o l.
Proof.
  intros l o a H. destruct l as [|v l]; [discriminate|].
  destruct (ring_area_spec (v :: l) o) as (b & E & Hb); [discriminate|]. congruence.
Qed.

(* consequences for signed areas *)
Lemma signed_rotate : forall o l m, signed_area o (l ++ m) == signed_area o (m ++ l).
Proof. intros. apply ring_rotate. Qed.
Lemma signed_rev : forall o l, signed_area o (rev l) == - signed_area o l.
Proof.
  intros o l. unfold signed_area. rewrite ring_rev.
  rewrite (ring_ext _ (fun p q => -(1) * tri o p q) l). { rewrite ring_scale. ring. }
  intros a b. unfold tri. ring.
Qed.
Lemma signed_affine : forall o a b c d e f l,
  signed_area o (map (affine a b c d e f) l) == (a * e - b * d) * signed_area o l.
Proof.
  intros. unfold signed_area. rewrite !tri_mod. rewrite ring_map. rewrite <- ring_scale.
  apply (ring_mod _ _ (fun p => (c * (d * fst p + e * snd p) - f * (a * fst p + b * snd p))) (1 # 2)).
  intros p q. unfold half, affine. cbn [fst snd]. ring.
Qed.
Lemma signed_cut : forall o a l b m, signed_area o (a :: l ++ b :: m) ==
  signed_area o (a :: l ++ [b]) + signed_area o (b :: m ++ [a]).
Proof. intros. unfold signed_area. rewrite !tri_mod. apply ring_cut. intros p q. unfold half. ring. Qed.

Section G.
Variables P D C : Type.
Notation geom := (geom P D C).

Lemma area_unfold : forall k v r subs (p : P) (d : option D) (c : C),
  area P D C (Geom P D C k v r subs p d c) =
  bind (ring_area (xys v)) (fun a =>
  bind (bind (mapM (area P D C) subs) (fun l => Ok (fold_right Qplus 0 l))) (fun s => Ok (Qabs a - s))).
Proof.
  intros. cbn [area]. destruct (ring_area (xys v)) as [a|e]; [|reflexivity]. cbn [bind].
  f_equal. clear. induction subs as [|s l IH]; [reflexivity|].
  cbn [mapM]. destruct (area P D C s) as [x|e]; [|reflexivity]. cbn [bind]. rewrite IH.
  destruct (mapM (area P D C) l); reflexivity.
Qed.

Lemma area_spec : forall (g : geom) o, xys (gverts P D C g) <> [] ->
  forall ls, mapM (area P D C) (gsubs P D C g) = Ok ls ->
  exists a, area P D C g = Ok a /\ a == Qabs (signed_area o (xys (gverts P D C g))) - fold_right Qplus 0 ls.
Proof.
  intros [k v r subs p d c] o Hv ls E. cbn [gverts gsubs] in *. rewrite area_unfold, E.
  destruct (ring_area_spec (xys v) o Hv) as (a & Ea & Ha). rewrite Ea. cbn [bind].
  eexists. split; [reflexivity|]. rewrite Ha. reflexivity.
Qed.
End G.
