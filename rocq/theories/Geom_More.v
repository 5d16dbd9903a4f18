(** Proofs about orientation, centroids, transformations and segments. *)
From Coq Require Import List ZArith QArith Qabs Qfield Lqa Bool Arith Lia Setoid Morphisms.
From Verif Require Import Geom_Model Geom_Spec Geom_Proofs.
Import ListNotations.
Open Scope Q_scope.

(* ---- Forall2 helpers *)
Lemma F2_map : forall {A B E F} (R : E -> F -> Prop) (f : A -> E) (g : B -> F) (S : A -> B -> Prop) l m,
  Forall2 S l m -> (forall a b, S a b -> R (f a) (g b)) -> Forall2 R (map f l) (map g m).
Proof. intros A B E F R f g S l m H K. induction H; constructor; auto. Qed.
Lemma F2_diag : forall {A B E} (R : B -> E -> Prop) (f : A -> B) (g : A -> E) l,
  (forall a, In a l -> R (f a) (g a)) -> Forall2 R (map f l) (map g l).
Proof. intros A B E R f g l. induction l as [|a l IH]; intros H; constructor; [apply H; left; reflexivity|]. apply IH. intros b Hb. apply H. right. exact Hb. Qed.
Lemma F2_diag1 : forall {A B} (R : B -> A -> Prop) (f : A -> B) l, (forall a, In a l -> R (f a) a) -> Forall2 R (map f l) l.
Proof. intros A B R f l H. rewrite <- (map_id l) at 2. apply F2_diag. exact H. Qed.

Lemma same_refl : forall p, same p p.
Proof. intros p. split; reflexivity. Qed.

(* sums over rings with equal vertices *)
Lemma ring_same : forall f l m, (forall a a' b b', same a a' -> same b b' -> f a b == f a' b') ->
  Forall2 same l m -> ring_sum f l == ring_sum f m.
Proof.
  intros f l m Hf H. assert (A : forall l m a b, Forall2 same l m -> same a b -> path_sum f a l == path_sum f b m).
  { clear - Hf. intros l m a b H. revert a b. induction H as [|x y l m Hxy H IH]; intros a b Hab; cbn [path_sum]; [reflexivity|].
    rewrite (Hf a b x y Hab Hxy). rewrite (IH x y Hxy). reflexivity. }
  destruct H as [|x y l m Hxy H]; [reflexivity|]. cbn [ring_sum]. apply A; [|exact Hxy].
  apply Forall2_app; [exact H|]. constructor; [exact Hxy|constructor].
Qed.
Lemma signed_same : forall o l m, Forall2 same l m -> signed_area o l == signed_area o m.
Proof.
  intros o l m H. apply ring_same; [|exact H]. intros a a' b b' [E1 E2] [E3 E4]. unfold tri.
  rewrite E1, E2, E3, E4. reflexivity.
Qed.

Lemma signed_tri : forall o a b c, signed_area o [a; b; c] == tri a b c.
Proof. intros o a b c. unfold signed_area, ring_sum. cbn [app path_sum]. unfold tri. ring. Qed.

Section G.
Variables P D C : Type.
Notation geom := (geom P D C).
Notation Geom := (Geom P D C).
Notation gverts := (gverts P D C).
Notation gkind := (gkind P D C).
Notation gprops := (gprops P D C).
Notation gdata := (gdata P D C).
Notation gcrs := (gcrs P D C).
Notation gsubs := (gsubs P D C).
Notation gring := (gring P D C).

(* ---- orientation *)
Lemma isclockwise_spec : forall (g : geom) o, gkind g = KPolygon ->
  (isclockwise P D C g = true <-> signed_area o (xys (gverts g)) < 0).
Proof.
  intros g o K. unfold isclockwise, segment_tuples. rewrite K.
  set (l := xys (gverts g)).
  assert (E : sumq (map (fun seg => (fst (snd seg) - fst (fst seg)) * (snd (snd seg) + snd (fst seg)))
     (match l with [] => consecutive l | v :: _ => (last l v, v) :: consecutive l end)) == -2 * signed_area o l).
  { assert (EE : (match l with [] => consecutive l | v :: _ => (last l v, v) :: consecutive l end) = ring_pairs l)
      by (destruct l; reflexivity).
    rewrite EE. rewrite (sum_pairs (fun a b => (fst b - fst a) * (snd b + snd a))).
    unfold signed_area. rewrite tri_mod. rewrite <- ring_scale.
    apply (ring_mod _ _ (fun p => fst p * snd p) 1). intros a b. unfold half. ring. }
  match goal with |- context [negb (Qle_bool ?s 0)] => set (S := s) in * end.
  destruct (Qle_bool S 0) eqn:B; cbn [negb].
  - apply Qle_bool_iff in B. split; [discriminate|]. intro H. exfalso. lra.
  - apply Qle_bool_f in B. split; [intros _|reflexivity]. lra.
Qed.

(* ---- centroid *)
Lemma cross_half : forall s, cross s == 2 * half (fst s) (snd s).
Proof. intros [[a b] [c d]]. unfold cross, half. cbn [fst snd]. ring. Qed.
Lemma moment_x_any : forall o l, moment_x o l == ring_sum (fun a b => half a b * ((fst a + fst b) / 3)) l.
Proof.
  intros o l. unfold moment_x.
  apply (ring_mod _ _ (fun p => half p o * ((fst p + fst o) / 3)) 1).
  intros a b. unfold tri, half. field.
Qed.
Lemma moment_y_any : forall o l, moment_y o l == ring_sum (fun a b => half a b * ((snd a + snd b) / 3)) l.
Proof.
  intros o l. unfold moment_y.
  apply (ring_mod _ _ (fun p => half p o * ((snd p + snd o) / 3)) 1).
  intros a b. unfold tri, half. field.
Qed.
Lemma centroid_spec : forall (g : geom) o, ~ signed_area o (xys (gverts g)) == 0 ->
  exists cx cy, centroid P D C g = Ok (cx, cy) /\
    cx * signed_area o (xys (gverts g)) == moment_x o (xys (gverts g)) /\
    cy * signed_area o (xys (gverts g)) == moment_y o (xys (gverts g)).
Proof.
  intros g o H. unfold centroid. set (l := xys (gverts g)) in *.
  assert (EA : 6 * ((1 # 2) * sumq (map cross (ring_pairs l))) == 6 * signed_area o l).
  { assert (E : sumq (map cross (ring_pairs l)) == 2 * ring_sum half l).
    { rewrite (sum_pairs (fun a b => cross (a, b)) l).
      rewrite <- ring_scale. apply ring_ext. intros a b. apply cross_half. }
    rewrite E. unfold signed_area. rewrite tri_mod. ring. }
  destruct (Qeq_bool _ 0) eqn:B.
  - exfalso. apply Qeq_bool_iff in B. rewrite EA in B. apply H. lra.
  - do 2 eexists. split; [reflexivity|]. rewrite EA.
    rewrite (sum_pairs (fun a b => (fst a + fst b) * cross (a, b)) l).
    rewrite (sum_pairs (fun a b => (snd a + snd b) * cross (a, b)) l).
    rewrite moment_x_any, moment_y_any.
    assert (E1 : ring_sum (fun a b => (fst a + fst b) * cross (a, b)) l ==
                 6 * ring_sum (fun a b => half a b * ((fst a + fst b) / 3)) l).
    { rewrite <- ring_scale. apply ring_ext. intros a b. rewrite cross_half. cbn [fst snd]. field. }
    assert (E2 : ring_sum (fun a b => (snd a + snd b) * cross (a, b)) l ==
                 6 * ring_sum (fun a b => half a b * ((snd a + snd b) / 3)) l).
    { rewrite <- ring_scale. apply ring_ext. intros a b. rewrite cross_half. cbn [fst snd]. field. }
    rewrite E1, E2. split; field; exact H.
Qed.

(* ---- transformations *)
Lemma transform2 : forall (g : geom) a b c d e f, xys (gverts g) <> [] ->
  exists h, apply_transform P D C g (M23 a b c d e f) = Ok h /\
    gkind h = gkind g /\ gprops h = gprops g /\ gcrs h = gcrs g /\
    (gkind g = KMultipoint -> gdata h = gdata g) /\ gsubs h = [] /\
    Forall2 same (xys (gverts h)) (map (affine a b c d e f) (xys (gverts g))) /\
    match gverts g, gverts h with
    | V2 _, V2 _ => True
    | V3 l, V3 m => Forall2 (fun p q => snd p == snd q) m l
    | _, _ => False
    end.
Proof.
  intros [k v r s p dd cc] a b c d e f Hv. unfold apply_transform. cbn [Geom_Model.gverts Geom_Model.gkind] in *.
  unfold nverts. destruct (Nat.eqb_spec (length (xys v)) 0) as [L|L].
  { apply length_zero_iff_nil in L. congruence. }
  cbn [complete bind]. eexists. split; [reflexivity|].
  destruct v as [l|l]; destruct k; cbn [remake make_line make_polygon Geom_Model.gverts Geom_Model.gkind
    Geom_Model.gprops Geom_Model.gcrs Geom_Model.gdata Geom_Model.gsubs xys];
  (split; [reflexivity|]; split; [reflexivity|]; split; [reflexivity|];
   split; [first [discriminate | reflexivity]|]; split; [reflexivity|]; split);
  try exact I; rewrite ?map_map;
  try (apply F2_diag; intros q _; unfold same, affine, dot34; cbn [fst snd]; split; ring);
  try (apply F2_diag1; intros q _; unfold dot34; cbn [fst snd]; ring).
Qed.
Lemma transform3 : forall (g : geom) l a1 a2 a3 a4 a5 a6 a7 a8 a9 a10 a11 a12, gverts g = V3 l -> l <> [] ->
  exists h m, apply_transform P D C g (M34 a1 a2 a3 a4 a5 a6 a7 a8 a9 a10 a11 a12) = Ok h /\
    gkind h = gkind g /\ gprops h = gprops g /\ gcrs h = gcrs g /\
    (gkind g = KMultipoint -> gdata h = gdata g) /\ gsubs h = [] /\ gverts h = V3 m /\
    Forall2 same3 m (map (affine3 a1 a2 a3 a4 a5 a6 a7 a8 a9 a10 a11 a12) l).
Proof.
  intros [k v r s p dd cc] l a1 a2 a3 a4 a5 a6 a7 a8 a9 a10 a11 a12 Hv Hl. cbn [Geom_Model.gverts] in Hv. subst v.
  unfold apply_transform. cbn [Geom_Model.gverts]. unfold nverts, xys. rewrite map_length.
  destruct (Nat.eqb_spec (length l) 0) as [L|L]. { apply length_zero_iff_nil in L. congruence. }
  cbn [complete bind]. do 2 eexists. split; [reflexivity|].
  destruct k; cbn [remake make_line make_polygon Geom_Model.gverts Geom_Model.gkind
    Geom_Model.gprops Geom_Model.gcrs Geom_Model.gdata Geom_Model.gsubs];
  (split; [reflexivity|]; split; [reflexivity|]; split; [reflexivity|];
   split; [first [discriminate | reflexivity]|]; split; [reflexivity|]; split; [reflexivity|]);
  (apply F2_diag; intros [[x y] z] _; unfold same3, same, affine3, dot34; cbn [fst snd]; repeat split; ring).
Qed.
(** A plane geometry under a 3x4 matrix: as if z were zero, dropped again. *)
Lemma transform3_flat : forall (g : geom) l a1 a2 a3 a4 a5 a6 a7 a8 a9 a10 a11 a12, gverts g = V2 l -> l <> [] ->
  exists h m, apply_transform P D C g (M34 a1 a2 a3 a4 a5 a6 a7 a8 a9 a10 a11 a12) = Ok h /\
    gkind h = gkind g /\ gverts h = V2 m /\ Forall2 same m (map (affine a1 a2 a4 a5 a6 a8) l).
Proof.
  intros [k v r s p dd cc] l a1 a2 a3 a4 a5 a6 a7 a8 a9 a10 a11 a12 Hv Hl. cbn [Geom_Model.gverts] in Hv. subst v.
  unfold apply_transform. cbn [Geom_Model.gverts]. unfold nverts, xys.
  destruct (Nat.eqb_spec (length l) 0) as [L|L]. { apply length_zero_iff_nil in L. congruence. }
  cbn [complete bind]. do 2 eexists. split; [reflexivity|].
  destruct k; cbn [remake make_line make_polygon Geom_Model.gverts Geom_Model.gkind];
  (split; [reflexivity|]; split; [reflexivity|]);
  (apply F2_diag; intros [x y] _; unfold same, affine, dot34; cbn [fst snd]; split; ring).
Qed.
Lemma transform_errors : forall (g : geom) M,
  (xys (gverts g) = [] -> apply_transform P D C g M = Err ValueError) /\
  apply_transform P D C g Mother = Err ValueError.
Proof.
  intros g M. split.
  - intros H. unfold apply_transform, nverts. rewrite H. reflexivity.
  - unfold apply_transform. destruct (_ =? 0)%nat; reflexivity.
Qed.

Lemma F2_trans_map : forall (f : pt -> pt) l m n, (forall p q, same p q -> same (f p) (f q)) ->
  Forall2 same l (map f m) -> Forall2 same m n -> Forall2 same l (map f n).
Proof.
  intros f l m n Hf H K. revert l H. induction K as [|p q m n Hpq K IH]; intros l H.
  - inversion H; constructor.
  - destruct l as [|x l]; [inversion H|]. inversion H as [|? ? ? ? A B]; subst. constructor.
    + destruct (Hf _ _ Hpq) as [E1 E2]. destruct A as [E3 E4]. split; [rewrite E3; exact E1|rewrite E4; exact E2].
    + apply IH, B.
Qed.
Lemma affine_same : forall a b c d e f p q, same p q -> same (affine a b c d e f p) (affine a b c d e f q).
Proof. intros a b c d e f p q [E1 E2]. unfold same, affine. cbn [fst snd]. rewrite E1, E2. split; reflexivity. Qed.
Lemma F2_same_trans : forall l m n, Forall2 same l m -> Forall2 same m n -> Forall2 same l n.
Proof.
  intros l m n H. revert n. induction H as [|p q l m A H IH]; intros n K; inversion K; subst; constructor.
  - destruct A as [E1 E2]. match goal with K : same q _ |- _ => destruct K as [E3 E4] end.
    split; [rewrite E1; exact E3|rewrite E2; exact E4].
  - apply IH. assumption.
Qed.

Lemma transform_compose : forall (g : geom) a b c d e f a' b' c' d' e' f', xys (gverts g) <> [] ->
  exists h h' k, apply_transform P D C g (M23 a b c d e f) = Ok h /\
    apply_transform P D C h (M23 a' b' c' d' e' f') = Ok h' /\
    apply_transform P D C g (M23 (a' * a + b' * d) (a' * b + b' * e) (a' * c + b' * f + c')
                                 (d' * a + e' * d) (d' * b + e' * e) (d' * c + e' * f + f')) = Ok k /\
    Forall2 same (xys (gverts h')) (xys (gverts k)) /\
    gkind h' = gkind k /\ gprops h' = gprops k /\ gcrs h' = gcrs k /\
    Forall2 same (xys (gverts h')) (map (fun p => affine a' b' c' d' e' f' (affine a b c d e f p)) (xys (gverts g))).
Proof.
  intros g a b c d e f a' b' c' d' e' f' Hv.
  destruct (transform2 g a b c d e f Hv) as (h & E & K1 & P1 & C1 & _ & _ & V1 & _).
  assert (Hh : xys (gverts h) <> []).
  { intro Z. rewrite Z in V1. destruct (xys (gverts g)); [congruence|inversion V1]. }
  destruct (transform2 h a' b' c' d' e' f' Hh) as (h' & E' & K2 & P2 & C2' & _ & _ & V2' & _).
  destruct (transform2 g (a' * a + b' * d) (a' * b + b' * e) (a' * c + b' * f + c')
     (d' * a + e' * d) (d' * b + e' * e) (d' * c + e' * f + f') Hv) as (k & E3 & K3 & P3 & C3' & _ & _ & V3' & _).
  assert (W : Forall2 same (xys (gverts h')) (map (fun p => affine a' b' c' d' e' f' (affine a b c d e f p)) (xys (gverts g)))).
  { rewrite <- (map_map (affine a b c d e f)). apply (F2_trans_map _ _ (xys (gverts h))); [apply affine_same|exact V2'|exact V1]. }
  exists h, h', k. split; [exact E|]. split; [exact E'|]. split; [exact E3|]. split.
  - apply (F2_same_trans _ _ _ W). clear - V3'.
    assert (S : forall l m, Forall2 same l m -> Forall2 same m l).
    { intros l m H. induction H as [|p q l m [A B] H IH]; constructor; [split; symmetry; assumption|exact IH]. }
    apply S. apply (F2_same_trans _ _ _ V3'). apply F2_diag. intros p _. unfold same, affine. cbn [fst snd]. split; ring.
  - split; [congruence|]. split; [congruence|]. split; [congruence|]. exact W.
Qed.

Lemma shift_spec : forall (g : geom) u v, xys (gverts g) <> [] ->
  exists h, shift P D C g [u; v] = Ok h /\ gkind h = gkind g /\ gprops h = gprops g /\ gcrs h = gcrs g /\
    (gkind g = KMultipoint -> gdata h = gdata g) /\
    Forall2 same (xys (gverts h)) (map (translate u v) (xys (gverts g))).
Proof.
  intros g u v Hv. destruct (transform2 g 1 0 u 0 1 v Hv) as (h & E & K1 & P1 & C1 & D1 & _ & V1 & _).
  exists h. split; [exact E|]. split; [exact K1|]. split; [exact P1|]. split; [exact C1|]. split; [exact D1|].
  apply (F2_same_trans _ _ _ V1). apply F2_diag. intros p _. unfold same, affine, translate. cbn [fst snd]. split; ring.
Qed.
Lemma shift_back : forall (g : geom) u v, xys (gverts g) <> [] ->
  exists h h', shift P D C g [u; v] = Ok h /\ shift P D C h [- u; - v] = Ok h' /\
    gkind h' = gkind g /\ gprops h' = gprops g /\ gcrs h' = gcrs g /\
    (gkind g = KMultipoint -> gdata h' = gdata g) /\
    Forall2 same (xys (gverts h')) (xys (gverts g)).
Proof.
  intros g u v Hv. destruct (shift_spec g u v Hv) as (h & E & K1 & P1 & C1 & D1 & V1).
  assert (Hh : xys (gverts h) <> []).
  { intro Z. rewrite Z in V1. destruct (xys (gverts g)); [congruence|inversion V1]. }
  destruct (shift_spec h (- u) (- v) Hh) as (h' & E' & K2 & P2 & C2' & D2 & V2').
  exists h, h'. split; [exact E|]. split; [exact E'|]. split; [congruence|]. split; [congruence|].
  split; [congruence|]. split; [intro K; rewrite D2, D1; congruence|].
  assert (W : Forall2 same (xys (gverts h')) (map (fun p => translate (- u) (- v) (translate u v p)) (xys (gverts g)))).
  { rewrite <- (map_map (translate u v)). apply (F2_trans_map _ _ (xys (gverts h))); [|exact V2'|exact V1].
    intros p q [A B]. unfold same, translate. cbn [fst snd]. rewrite A, B. split; reflexivity. }
  apply (F2_same_trans _ _ _ W). apply F2_diag1. intros p _. unfold same, translate. cbn [fst snd]. split; ring.
Qed.

Lemma area_transform : forall (g h : geom) a b c d e f x, gsubs g = [] ->
  apply_transform P D C g (M23 a b c d e f) = Ok h -> area P D C g = Ok x ->
  exists y, area P D C h = Ok y /\ y == Qabs (a * e - b * d) * x.
Proof.
  intros g h a b c d e f x Hs E A.
  assert (Hv : xys (gverts g) <> []).
  { intro Z. destruct (transform_errors g (M23 a b c d e f)) as [T _]. rewrite (T Z) in E. discriminate. }
  destruct (transform2 g a b c d e f Hv) as (h' & E' & _ & _ & _ & _ & S1 & V1 & _).
  assert (h' = h) by congruence. subst h'.
  destruct (area_spec P D C g (0, 0) Hv [] ltac:(rewrite Hs; reflexivity)) as (x' & A' & X).
  assert (x' = x) by congruence. subst x'.
  assert (Hh : xys (gverts h) <> []).
  { intro Z. rewrite Z in V1. destruct (xys (gverts g)); [congruence|inversion V1]. }
  destruct (area_spec P D C h (0, 0) Hh [] ltac:(rewrite S1; reflexivity)) as (y & B & Y).
  exists y. split; [exact B|]. rewrite Y, X. cbn [fold_right].
  rewrite (signed_same _ _ _ V1), signed_affine, Qabs_Qmult. ring.
Qed.

Lemma area_invariant : forall (g h : geom) l m x, gsubs g = [] -> gsubs h = [] ->
  xys (gverts g) = l ++ m -> area P D C g = Ok x ->
  xys (gverts h) = m ++ l \/ xys (gverts h) = rev (l ++ m) ->
  0 <= x /\ exists y, area P D C h = Ok y /\ y == x.
Proof.
  intros g h l m x Sg Sh Vg A V.
  assert (Ng : xys (gverts g) <> []).
  { intro Z. destruct g as [k v r s p d c]. cbn [Geom_Model.gverts] in Z. cbn [area] in A. rewrite Z in A. discriminate A. }
  assert (Nh : xys (gverts h) <> []).
  { intro Z. rewrite Vg in Ng. destruct V as [V|V]; rewrite Z in V; symmetry in V.
    - apply app_eq_nil in V. destruct V as [-> ->]. exact (Ng eq_refl).
    - apply (f_equal (@rev _)) in V. rewrite rev_involutive in V. exact (Ng V). }
  destruct (area_spec P D C g (0, 0) Ng [] ltac:(rewrite Sg; reflexivity)) as (x' & A' & X).
  destruct (area_spec P D C h (0, 0) Nh [] ltac:(rewrite Sh; reflexivity)) as (y & B & Y).
  assert (x' = x) by congruence. subst x'. cbn [fold_right] in X, Y. split.
  - rewrite X. generalize (Qabs_nonneg (signed_area (0, 0) (xys (gverts g)))). clear. intros. lra.
  - exists y. split; [exact B|]. rewrite X, Y, Vg. destruct V as [V|V]; rewrite V.
    + rewrite signed_rotate. reflexivity.
    + rewrite signed_rev, Qabs_opp. reflexivity.
Qed.

Lemma point_shift_transform : forall (p : point P C) u v, exists q r,
  point_shift P C p [u; v] = Ok q /\ point_transform P C p (M23 1 0 u 0 1 v) = Ok r /\
  pprops P C q = pprops P C p /\ pcrs P C q = pcrs P C p /\ pprops P C r = pprops P C p /\ pcrs P C r = pcrs P C p /\
  match pcoord P C p, pcoord P C q, pcoord P C r with
  | C2 x y, C2 a b, C2 a' b' => a == x + u /\ b == y + v /\ a' == a /\ b' == b
  | C3 x y z, C3 a b c, C3 a' b' c' => a == x + u /\ b == y + v /\ c == z /\ a' == a /\ b' == b /\ c' == c
  | _, _, _ => False
  end.
Proof.
  intros [[x y|x y z] pp cc] u v; cbn; do 2 eexists; (split; [reflexivity|]); (split; [reflexivity|]);
  cbn; repeat split; ring.
Qed.
Lemma point_transform_spec : forall (p : point P C) a b c d e f, exists r,
  point_transform P C p (M23 a b c d e f) = Ok r /\ pprops P C r = pprops P C p /\ pcrs P C r = pcrs P C p /\
  match pcoord P C p, pcoord P C r with
  | C2 x y, C2 x' y' => same (x', y') (affine a b c d e f (x, y))
  | C3 x y z, C3 x' y' z' => same (x', y') (affine a b c d e f (x, y)) /\ z' == z
  | _, _ => False
  end.
Proof.
  intros [[x y|x y z] pp cc] a b c d e f; cbn; eexists; (split; [reflexivity|]); cbn; unfold same, affine; cbn [fst snd];
  repeat split; ring.
Qed.

Lemma point_transform3 : forall (p : point P C) a1 a2 a3 a4 a5 a6 a7 a8 a9 a10 a11 a12, exists r,
  point_transform P C p (M34 a1 a2 a3 a4 a5 a6 a7 a8 a9 a10 a11 a12) = Ok r /\
  pprops P C r = pprops P C p /\ pcrs P C r = pcrs P C p /\
  match pcoord P C p, pcoord P C r with
  | C2 x y, C2 x' y' => same (x', y') (affine a1 a2 a4 a5 a6 a8 (x, y))
  | C3 x y z, C3 x' y' z' => same3 (x', y', z') (affine3 a1 a2 a3 a4 a5 a6 a7 a8 a9 a10 a11 a12 (x, y, z))
  | _, _ => False
  end.
Proof.
  intros [[x y|x y z] pp cc] a1 a2 a3 a4 a5 a6 a7 a8 a9 a10 a11 a12; cbn; eexists; (split; [reflexivity|]); cbn;
  unfold same3, same, affine, affine3; cbn [fst snd]; repeat split; ring.
Qed.

(* ---- segments *)
Lemma mapM_ok : forall {A B} (f : A -> res B) l, (forall a, In a l -> exists b, f a = Ok b) ->
  exists m, mapM f l = Ok m /\ Forall2 (fun a b => f a = Ok b) l m.
Proof.
  intros A B f l. induction l as [|a l IH]; intros H; [exists []; split; [reflexivity|constructor]|].
  destruct (H a (or_introl eq_refl)) as (b & E). destruct IH as (m & E' & F).
  { intros x Hx. apply H. right. exact Hx. }
  exists (b :: m). cbn [mapM]. rewrite E. cbn [bind]. rewrite E'. split; [reflexivity|constructor; assumption].
Qed.
Lemma subset_two : forall (g : geom) i j, (i < nverts (gverts g))%nat -> (j < nverts (gverts g))%nat ->
  exists s, subset P D C g [i; j] = Ok s /\ seg_of P D C g s i j.
Proof.
  intros [k v r s p d c] i j Hi Hj. unfold subset. cbn [Geom_Model.gverts] in *. unfold nverts, xys in *.
  destruct v as [l|l]; rewrite ?map_length in *;
  (destruct (nth_error l i) as [a|] eqn:Ei; [|apply nth_error_None in Ei; lia]);
  (destruct (nth_error l j) as [b|] eqn:Ej; [|apply nth_error_None in Ej; lia]);
  cbn [mapM]; unfold vat; rewrite Ei, Ej; cbn [bind]; eexists; (split; [reflexivity|]);
  unfold seg_of, make_line, nverts, xys, nth_v; cbn [Geom_Model.gkind Geom_Model.gprops Geom_Model.gcrs Geom_Model.gverts];
  rewrite Ei, Ej; (split; [reflexivity|]); (split; [reflexivity|]); (split; [reflexivity|]); (split; [reflexivity|]);
  do 2 eexists; repeat split; reflexivity.
Qed.
Lemma F2_nth : forall {A B} (R : A -> B -> Prop) l m i a, Forall2 R l m -> nth_error l i = Some a ->
  exists b, nth_error m i = Some b /\ R a b.
Proof.
  intros A B R l m i a H. revert i. induction H as [|x y l m Hxy H IH]; intros [|i] E; cbn in *; try discriminate.
  - inversion E; subst. exists y. split; [reflexivity|exact Hxy].
  - apply IH, E.
Qed.
Lemma F2_len : forall {A B} (R : A -> B -> Prop) l m, Forall2 R l m -> length l = length m.
Proof. intros A B R l m H. induction H; cbn; congruence. Qed.

Lemma line_segments : forall (g : geom), gkind g <> KPolygon ->
  exists ss, segments P D C g = Ok ss /\ length ss = (nverts (gverts g) - 1)%nat /\
    forall i s, nth_error ss i = Some s -> seg_of P D C g s i (S i).
Proof.
  intros g K. unfold segments.
  destruct (mapM_ok (subset P D C g) (map (fun i => [i; S i]) (seq 0 (nverts (gverts g) - 1)))) as (m & E & F).
  { intros a Ha. apply in_map_iff in Ha. destruct Ha as (i & <- & Hi). apply in_seq in Hi.
    destruct (subset_two g i (S i)) as (s & Es & _); [lia|lia|]. exists s. exact Es. }
  exists m. split; [destruct (gkind g); congruence|]. pose proof (F2_len _ _ _ F) as L. rewrite map_length, seq_length in L.
  split; [congruence|]. intros i s Hs.
  assert (Hi : (i < nverts (gverts g) - 1)%nat) by (rewrite L; apply nth_error_Some; congruence).
  destruct (F2_nth _ _ _ i [i; S i] F) as (s' & N & Es').
  { rewrite nth_error_map. rewrite (nth_error_nth' _ 0%nat) by (rewrite seq_length; exact Hi).
    rewrite seq_nth by exact Hi. reflexivity. }
  assert (s' = s) by congruence. subst s'. destruct (subset_two g i (S i)) as (t & Et & Ht); [lia|lia|].
  congruence.
Qed.
Lemma polygon_segments : forall (g : geom), gkind g = KPolygon -> (0 < nverts (gverts g))%nat ->
  exists ss, segments P D C g = Ok ss /\ length ss = nverts (gverts g) /\
    forall i s, nth_error ss i = Some s ->
      seg_of P D C g s i (if (S i =? nverts (gverts g))%nat then 0%nat else S i).
Proof.
  intros g K N. unfold segments. rewrite K. set (n := nverts (gverts g)) in *.
  destruct (mapM_ok (subset P D C g) (map (fun i => [i; S i]) (seq 0 (n - 1)) ++ [[(n - 1)%nat; 0%nat]])) as (m & E & F).
  { intros a Ha. apply in_app_iff in Ha. destruct Ha as [Ha|[<-|[]]].
    - apply in_map_iff in Ha. destruct Ha as (i & <- & Hi). apply in_seq in Hi.
      destruct (subset_two g i (S i)) as (s & Es & _); [fold n; lia|fold n; lia|]. exists s. exact Es.
    - destruct (subset_two g (n - 1) 0) as (s & Es & _); [fold n; lia|fold n; lia|]. exists s. exact Es. }
  exists m. split; [exact E|]. pose proof (F2_len _ _ _ F) as L. rewrite app_length, map_length, seq_length in L. cbn in L.
  split; [lia|]. intros i s Hs.
  assert (Hi : (i < n)%nat) by (assert (i < length m)%nat by (apply nth_error_Some; congruence); lia).
  destruct (Nat.eqb_spec (S i) n) as [En|En].
  - destruct (F2_nth _ _ _ i [(n - 1)%nat; 0%nat] F) as (s' & N' & Es').
    { rewrite nth_error_app2; rewrite map_length, seq_length; [|lia]. replace (i - (n - 1))%nat with 0%nat by lia. reflexivity. }
    assert (s' = s) by congruence. subst s'. replace (n - 1)%nat with i in Es' by lia.
    destruct (subset_two g i 0) as (t & Et & Ht); [fold n; lia|fold n; lia|]. congruence.
  - destruct (F2_nth _ _ _ i [i; S i] F) as (s' & N' & Es').
    { rewrite nth_error_app1 by (rewrite map_length, seq_length; lia).
      rewrite nth_error_map. rewrite (nth_error_nth' _ 0%nat) by (rewrite seq_length; lia).
      rewrite seq_nth by lia. reflexivity. }
    assert (s' = s) by congruence. subst s'.
    destruct (subset_two g i (S i)) as (t & Et & Ht); [fold n; lia|fold n; lia|]. congruence.
Qed.
Lemma polygon_segments_empty : forall (g : geom), gkind g = KPolygon -> nverts (gverts g) = 0%nat ->
  segments P D C g = Err IndexError.
Proof.
  intros g K N. unfold segments. rewrite K, N. cbn [Nat.sub seq map app mapM].
  unfold subset. destruct g as [k v r s p d c]. cbn [Geom_Model.gverts] in *. unfold nverts, xys in N.
  destruct v as [l|l]; destruct l; try discriminate; reflexivity.
Qed.

(** [segment_tuples]: the same edges; a polygon's closing edge comes first. *)
Lemma consecutive_nth : forall {A} (l : list A) i a b,
  nth_error (consecutive l) i = Some (a, b) <-> path_edge l i a b.
Proof.
  intros A l. unfold consecutive. induction l as [|x [|y l] IH]; intros i a b; cbn [tl combine].
  - destruct i; (split; [discriminate|intros [H _]; discriminate H]).
  - destruct i as [|[|i]]; (split; [discriminate|intros [H H']; cbn in *; discriminate]).
  - destruct i as [|i].
    + unfold path_edge. cbn. split; [intros H; inversion H; subst; split; reflexivity|].
      intros [H H']. congruence.
    + cbn [nth_error]. cbn [tl] in IH. rewrite IH. unfold path_edge. reflexivity.
Qed.
Lemma line_tuples : forall (g : geom) i a b, gkind g <> KPolygon ->
  (nth_error (segment_tuples P D C g) i = Some (a, b) <-> path_edge (xys (gverts g)) i a b).
Proof.
  intros g i a b K. rewrite <- consecutive_nth. unfold segment_tuples.
  destruct (gkind g); [reflexivity|congruence|reflexivity].
Qed.
Lemma last_nth : forall {A} (l : list A) d, l <> [] -> nth_error l (length l - 1) = Some (last l d).
Proof.
  intros A l d H. induction l as [|x [|y l] IH]; [congruence|reflexivity|].
  replace (length (x :: y :: l) - 1)%nat with (S (length (y :: l) - 1)) by (cbn [length]; lia).
  change (nth_error (y :: l) (length (y :: l) - 1) = Some (last (y :: l) d)). apply IH. discriminate.
Qed.
Lemma polygon_tuples : forall (g : geom) i a b, gkind g = KPolygon ->
  (nth_error (segment_tuples P D C g) i = Some (a, b) <->
   (i < nverts (gverts g))%nat /\
   ring_edge (xys (gverts g)) (if (i =? 0)%nat then nverts (gverts g) - 1 else i - 1)%nat a b).
Proof.
  intros g i a b K. unfold segment_tuples, nverts. rewrite K. set (l := xys (gverts g)). clearbody l. clear.
  destruct l as [|v l].
  - destruct i; (split; [discriminate|intros [H _]; cbn in H; lia]).
  - pose proof (last_nth (v :: l) v ltac:(discriminate)) as L.
    destruct i as [|i].
    + cbn [Nat.eqb nth_error]. unfold ring_edge. rewrite L.
      replace (S (length (v :: l) - 1)) with (length (v :: l)) by (cbn [length]; lia).
      rewrite Nat.eqb_refl. cbn [nth_error]. split.
      * intros H. injection H as <- <-. split; [cbn [length]; lia|]. split; reflexivity.
      * intros [_ [A B]]. congruence.
    + change (nth_error ((last (v :: l) v, v) :: consecutive (v :: l)) (S i)) with (nth_error (consecutive (v :: l)) i).
      rewrite consecutive_nth. cbn [Nat.eqb]. replace (S i - 1)%nat with i by lia.
      unfold ring_edge, path_edge. destruct (Nat.eqb_spec (S i) (length (v :: l))) as [E|E].
      * split; [intros [_ B]; exfalso; assert (S i < length (v :: l))%nat by (apply nth_error_Some; congruence); lia|].
        intros [H _]. lia.
      * split; [intros [A B]; split; [apply nth_error_Some; congruence|split; assumption]|intros [_ H]; exact H].
Qed.

(* ---- boxes of geometries *)
Lemma bbox_spec : forall (g : geom), xys (gverts g) <> [] ->
  exists x0 y0 x1 y1, bbox P D C g = Some (x0, y0, x1, y1) /\ extent P D C g = Some (x0, x1, y0, y1) /\
    tight_box x0 y0 x1 y1 (xys (gverts g)).
Proof.
  intros g H. destruct (bbox_c_tight _ H) as (x0 & y0 & x1 & y1 & E & T).
  exists x0, y0, x1, y1. unfold extent, bbox. rewrite E. split; [reflexivity|]. split; [reflexivity|exact T].
Qed.
Lemma overlap_spec : forall (g h : geom) x0 y0 x1 y1 a0 b0 a1 b1,
  tight_box x0 y0 x1 y1 (xys (gverts g)) -> tight_box a0 b0 a1 b1 (xys (gverts h)) ->
  (bbox_overlap P D C g h = true <-> exists p, covers x0 y0 x1 y1 p /\ covers a0 b0 a1 b1 p).
Proof.
  intros g h x0 y0 x1 y1 a0 b0 a1 b1 T U.
  assert (G : xys (gverts g) <> []) by (intro Z; rewrite Z in T; destruct T as (_ & (? & [] & _) & _)).
  assert (H : xys (gverts h) <> []) by (intro Z; rewrite Z in U; destruct U as (_ & (? & [] & _) & _)).
  destruct (bbox_spec g G) as (p0 & q0 & p1 & q1 & E & _ & T').
  destruct (bbox_spec h H) as (r0 & s0 & r1 & s1 & F & _ & U').
  destruct (tight_unique _ _ _ _ _ _ _ _ _ T T') as (e1 & e2 & e3 & e4).
  destruct (tight_unique _ _ _ _ _ _ _ _ _ U U') as (f1 & f2 & f3 & f4).
  assert (N : p0 <= p1 /\ q0 <= q1).
  { destruct T' as (A & (p & I & _) & _). destruct (A _ I) as [? ?]. split; lra. }
  assert (M : r0 <= r1 /\ s0 <= s1).
  { destruct U' as (A & (p & I & _) & _). destruct (A _ I) as [? ?]. split; lra. }
  unfold bbox_overlap. rewrite E, F. rewrite !andb_true_iff, !Qle_bool_iff. clear - N M e1 e2 e3 e4 f1 f2 f3 f4.
  split.
  - intros [[[A1 A2] A3] A4].
    exists (fmax p0 r0, fmax q0 s0). unfold covers. cbn [fst snd].
    destruct (fmax_spec p0 r0) as [[-> ?]|[-> ?]], (fmax_spec q0 s0) as [[-> ?]|[-> ?]]; repeat split; lra.
  - intros (p & [A1 A2] & [B1 B2]). repeat split; lra.
Qed.
Lemma multi_bbox_spec : forall (parts : list (list pt)) bbs, parts <> [] ->
  Forall2 (fun l b => bbox_c l = Some b) parts bbs ->
  exists x0 y0 x1 y1, multi_bbox bbs = Ok (x0, y0, x1, y1) /\ tight_box x0 y0 x1 y1 (concat parts).
Proof.
  intros parts bbs Hp H. destruct H as [|l b parts bbs Hb H]; [congruence|].
  destruct b as [[[x0 y0] x1] y1]. cbn [multi_bbox]. do 4 eexists. split; [reflexivity|].
  set (fa := fun b : Q * Q * Q * Q => let '(a, _, _, _) := b in a).
  set (fb := fun b : Q * Q * Q * Q => let '(_, a, _, _) := b in a).
  set (fc := fun b : Q * Q * Q * Q => let '(_, _, a, _) := b in a).
  set (fd := fun b : Q * Q * Q * Q => let '(_, _, _, a) := b in a).
  assert (T0 : tight_box x0 y0 x1 y1 l).
  { assert (Hl : l <> []) by (intro Z; subst l; discriminate).
    destruct (bbox_c_tight l Hl) as (a & b & c & d & E & T). rewrite Hb in E. injection E as -> -> -> ->. exact T. }
  assert (TT : Forall2 (fun l b => tight_box (fa b) (fb b) (fc b) (fd b) l) parts bbs).
  { clear - H. induction H as [|l b ps bs Hb H IH]; constructor; [|exact IH].
    assert (Hl : l <> []) by (intro Z; subst l; discriminate).
    destruct (bbox_c_tight l Hl) as (a & b' & c & d & E & T). rewrite Hb in E. injection E as ->. exact T. }
  clear H Hb Hp.
  assert (LO : forall (f : Q * Q * Q * Q -> Q) (co : pt -> Q) z,
    (forall l b, tight_box (fa b) (fb b) (fc b) (fd b) l -> (forall p, In p l -> f b <= co p) /\ exists p, In p l /\ co p == f b) ->
    (forall p, In p l -> z <= co p) -> (exists p, In p l /\ co p == z) ->
    (forall p, In p (concat (l :: parts)) -> minl z (map f bbs) <= co p) /\
    exists p, In p (concat (l :: parts)) /\ co p == minl z (map f bbs)).
  { intros f co z Hf Hz [pz [Iz Ez]]. destruct (minl_spec (map f bbs) z) as (A & B & H). cbn [concat]. split.
    - intros p Ip. apply in_app_iff in Ip. destruct Ip as [Ip|Ip].
      + apply Qle_trans with z; [exact A|apply Hz, Ip].
      + apply in_concat in Ip. destruct Ip as (m & Im & Ip). clear - TT B Hf Im Ip.
        assert (exists b, In b bbs /\ tight_box (fa b) (fb b) (fc b) (fd b) m) as (b & Ib & Tb).
        { clear - TT Im. induction TT as [|x y ls bs Hxy TT IH]; [destruct Im|]. destruct Im as [<-|Im].
          - exists y. split; [left; reflexivity|exact Hxy].
          - destruct (IH Im) as (b & Ib & Tb). exists b. split; [right; exact Ib|exact Tb]. }
        apply Qle_trans with (f b); [apply B, in_map, Ib|]. destruct (Hf m b Tb) as [K _]. apply K, Ip.
    - destruct H as [H|H].
      + exists pz. rewrite H. split; [apply in_or_app; left; exact Iz|exact Ez].
      + apply in_map_iff in H. destruct H as (b & Eb & Ib).
        assert (exists m, In m parts /\ tight_box (fa b) (fb b) (fc b) (fd b) m) as (m & Im & Tb).
        { clear - TT Ib. induction TT as [|x y ls bs Hxy TT IH]; [destruct Ib|]. destruct Ib as [<-|Ib].
          - exists x. split; [left; reflexivity|exact Hxy].
          - destruct (IH Ib) as (m & Im & Tb). exists m. split; [right; exact Im|exact Tb]. }
        destruct (Hf m b Tb) as [_ (p & Ip & Ep)]. exists p. rewrite <- Eb. split; [|exact Ep].
        apply in_or_app. right. apply in_concat. exists m. split; assumption. }
  assert (HI : forall (f : Q * Q * Q * Q -> Q) (co : pt -> Q) z,
    (forall l b, tight_box (fa b) (fb b) (fc b) (fd b) l -> (forall p, In p l -> co p <= f b) /\ exists p, In p l /\ co p == f b) ->
    (forall p, In p l -> co p <= z) -> (exists p, In p l /\ co p == z) ->
    (forall p, In p (concat (l :: parts)) -> co p <= maxl z (map f bbs)) /\
    exists p, In p (concat (l :: parts)) /\ co p == maxl z (map f bbs)).
  { intros f co z Hf Hz [pz [Iz Ez]]. destruct (maxl_spec (map f bbs) z) as (A & B & H). cbn [concat]. split.
    - intros p Ip. apply in_app_iff in Ip. destruct Ip as [Ip|Ip].
      + apply Qle_trans with z; [apply Hz, Ip|exact A].
      + apply in_concat in Ip. destruct Ip as (m & Im & Ip). clear - TT B Hf Im Ip.
        assert (exists b, In b bbs /\ tight_box (fa b) (fb b) (fc b) (fd b) m) as (b & Ib & Tb).
        { clear - TT Im. induction TT as [|x y ls bs Hxy TT IH]; [destruct Im|]. destruct Im as [<-|Im].
          - exists y. split; [left; reflexivity|exact Hxy].
          - destruct (IH Im) as (b & Ib & Tb). exists b. split; [right; exact Ib|exact Tb]. }
        apply Qle_trans with (f b); [destruct (Hf m b Tb) as [K _]; apply K, Ip|apply B, in_map, Ib].
    - destruct H as [H|H].
      + exists pz. rewrite H. split; [apply in_or_app; left; exact Iz|exact Ez].
      + apply in_map_iff in H. destruct H as (b & Eb & Ib).
        assert (exists m, In m parts /\ tight_box (fa b) (fb b) (fc b) (fd b) m) as (m & Im & Tb).
        { clear - TT Ib. induction TT as [|x y ls bs Hxy TT IH]; [destruct Ib|]. destruct Ib as [<-|Ib].
          - exists x. split; [left; reflexivity|exact Hxy].
          - destruct (IH Ib) as (m & Im & Tb). exists m. split; [right; exact Im|exact Tb]. }
        destruct (Hf m b Tb) as [_ (p & Ip & Ep)]. exists p. rewrite <- Eb. split; [|exact Ep].
        apply in_or_app. right. apply in_concat. exists m. split; assumption. }
  destruct T0 as (A & S1 & S2 & S3 & S4).
  destruct (LO fa fst x0) as [L1 L2].
  { intros m b (K & U1 & _). split; [intros p Ip; destruct (K p Ip) as [[? ?] _]; assumption|exact U1]. }
  { intros p Ip. destruct (A p Ip) as [[? ?] _]. assumption. } { exact S1. }
  destruct (LO fb snd y0) as [L3 L4].
  { intros m b (K & _ & U1 & _). split; [intros p Ip; destruct (K p Ip) as [_ [? ?]]; assumption|exact U1]. }
  { intros p Ip. destruct (A p Ip) as [_ [? ?]]. assumption. } { exact S2. }
  destruct (HI fc fst x1) as [L5 L6].
  { intros m b (K & _ & _ & U1 & _). split; [intros p Ip; destruct (K p Ip) as [[? ?] _]; assumption|exact U1]. }
  { intros p Ip. destruct (A p Ip) as [[? ?] _]. assumption. } { exact S3. }
  destruct (HI fd snd y1) as [L7 L8].
  { intros m b (K & _ & _ & _ & U1). split; [intros p Ip; destruct (K p Ip) as [_ [? ?]]; assumption|exact U1]. }
  { intros p Ip. destruct (A p Ip) as [_ [? ?]]. assumption. } { exact S4. }
  split; [|split; [exact L2|split; [exact L4|split; [exact L6|exact L8]]]].
  intros p Ip. split; split; auto.
Qed.
End G.
