(** Proofs for the point-in-polygon properties: the counting part. *)
From Coq Require Import List ZArith QArith Qabs Bool Arith Lia Lqa Reals Qreals.
From Verif Require Import Geom_Model Geom_Spec Geom_Proofs Inter_Model Inter_Spec Inter_Proofs Contains_Model Contains_Spec.
Import ListNotations.
Open Scope Q_scope.

Lemma qlt_t : forall a b, qlt a b = true -> a < b.
Proof. intros a b H. apply ltq_t, H. Qed.
Lemma qlt_f : forall a b, qlt a b = false -> b <= a.
Proof. intros a b H. apply ltq_f, H. Qed.

(** The three cases of an edge. *)
Lemma isleft_tri : forall p a b, isleft p a b == 2 * tri p a b.
Proof. intros p a b. unfold isleft, tri. ring. Qed.
Lemma edge_count_cases : forall p a b,
  (snd a <= snd p /\ snd p < snd b /\ 0 < tri p a b /\ edge_count p a b = 1%Z) \/
  (snd a <= snd p /\ snd p < snd b /\ tri p a b <= 0 /\ edge_count p a b = 0%Z) \/
  (snd p < snd a /\ snd b <= snd p /\ tri p a b < 0 /\ edge_count p a b = (-1)%Z) \/
  (snd p < snd a /\ snd b <= snd p /\ 0 <= tri p a b /\ edge_count p a b = 0%Z) \/
  (snd a <= snd p /\ snd b <= snd p /\ edge_count p a b = 0%Z) \/
  (snd p < snd a /\ snd p < snd b /\ edge_count p a b = 0%Z).
Proof.
  intros p a b. unfold edge_count. pose proof (isleft_tri p a b) as T.
  destruct (Qle_bool (snd a) (snd p)) eqn:E1; cbn [andb].
  - apply Qle_bool_t in E1 || apply Qle_bool_iff in E1.
    destruct (qlt (snd p) (snd b)) eqn:E2.
    + apply qlt_t in E2. destruct (qlt 0 (isleft p a b)) eqn:E3.
      * apply qlt_t in E3. left. repeat split; try assumption. lra.
      * apply qlt_f in E3. right; left. repeat split; try assumption. lra.
    + apply qlt_f in E2.
      assert (E3 : qlt (snd p) (snd a) = false).
      { destruct (qlt (snd p) (snd a)) eqn:E3; [|reflexivity]. apply qlt_t in E3. lra. }
      rewrite E3. cbn [andb]. right; right; right; right; left. repeat split; assumption.
  - assert (N : snd p < snd a).
    { destruct (Qlt_le_dec (snd p) (snd a)) as [|K]; [assumption|]. apply Qle_bool_iff in K. congruence. }
    assert (E3 : qlt (snd p) (snd a) = true).
    { destruct (qlt (snd p) (snd a)) eqn:E3; [reflexivity|]. apply qlt_f in E3. lra. }
    rewrite E3. cbn [andb]. destruct (Qle_bool (snd b) (snd p)) eqn:E2.
    + apply Qle_bool_iff in E2. destruct (qlt (isleft p a b) 0) eqn:E4.
      * apply qlt_t in E4. right; right; left. repeat split; try assumption. lra.
      * apply qlt_f in E4. right; right; right; left. repeat split; try assumption. lra.
    + right; right; right; right; right. repeat split; try assumption.
      destruct (Qlt_le_dec (snd p) (snd b)) as [|K]; [assumption|]. apply Qle_bool_iff in K. congruence.
Qed.
Lemma tri_anti : forall p a b, tri p b a == - tri p a b.
Proof. intros. unfold tri. ring. Qed.
Lemma edge_count_anti : forall p a b, edge_count p b a = (- edge_count p a b)%Z.
Proof.
  intros p a b. pose proof (tri_anti p a b) as T.
  destruct (edge_count_cases p a b) as [(A & B & D & ->)|[(A & B & D & ->)|[(A & B & D & ->)|[(A & B & D & ->)|[(A & B & ->)|(A & B & ->)]]]]];
  destruct (edge_count_cases p b a) as [(A' & B' & D' & ->)|[(A' & B' & D' & ->)|[(A' & B' & D' & ->)|[(A' & B' & D' & ->)|[(A' & B' & ->)|(A' & B' & ->)]]]]];
  try reflexivity; exfalso; lra.
Qed.

(** The count is the sum over the edges of the ring. *)
Definition ec (p a b : pt) : Q := inject_Z (edge_count p a b).
Lemma count_loop_sum : forall p l a c, inject_Z (count_loop p a l c) == inject_Z c + path_sum (ec p) a l.
Proof.
  intros p l. induction l as [|b l IH]; intros a c; cbn [count_loop path_sum]; [ring|].
  rewrite IH, inject_Z_plus. unfold ec. ring.
Qed.
Lemma count_sum : forall p l, inject_Z (count p l) == ring_sum (ec p) l.
Proof.
  intros p [|v l]; [reflexivity|]. unfold count, ring_sum. rewrite count_loop_sum.
  change (inject_Z 0) with 0. ring.
Qed.
Lemma injz : forall a b, inject_Z a == inject_Z b -> a = b.
Proof. intros a b H. unfold Qeq in H. cbn in H. lia. Qed.
Lemma count_rotate : forall p l m, count p (l ++ m) = count p (m ++ l).
Proof. intros. apply injz. rewrite !count_sum. apply ring_rotate. Qed.
Lemma count_rev : forall p l, count p (rev l) = (- count p l)%Z.
Proof.
  intros p l. apply injz. rewrite inject_Z_opp, !count_sum, ring_rev.
  transitivity (ring_sum (fun a b => (-(1)) * ec p a b) l).
  - apply ring_ext. intros a b. unfold ec. rewrite edge_count_anti, inject_Z_opp. ring.
  - rewrite ring_scale. ring.
Qed.
(** Two rings with a common edge, passed in opposite directions. *)
Lemma count_cut : forall p a l b m,
  count p (a :: l ++ b :: m) = (count p (a :: l ++ [b]) + count p (b :: m ++ [a]))%Z.
Proof.
  intros. apply injz. rewrite inject_Z_plus, !count_sum. apply ring_cut.
  intros u v. unfold ec. rewrite edge_count_anti, inject_Z_opp. reflexivity.
Qed.

(** Outside the bounding box. *)
Lemma path_zero : forall f l a, (forall u v, In u (a :: l) -> In v (a :: l) -> f u v == 0) -> path_sum f a l == 0.
Proof.
  intros f l. induction l as [|b l IH]; intros a H; cbn [path_sum]; [reflexivity|].
  rewrite IH. - rewrite (H a b); [ring|left; reflexivity|right; left; reflexivity].
  - intros u v A B. apply H; right; assumption.
Qed.
Lemma path_ext_in : forall f g l a, (forall u v, In u (a :: l) -> In v (a :: l) -> f u v == g u v) -> path_sum f a l == path_sum g a l.
Proof.
  intros f g l. induction l as [|b l IH]; intros a H; cbn [path_sum]; [reflexivity|].
  rewrite IH. - rewrite (H a b); [ring|left; reflexivity|right; left; reflexivity].
  - intros u v A B. apply H; right; assumption.
Qed.
Lemma ring_ext_in : forall f g l, (forall u v, In u l -> In v l -> f u v == g u v) -> ring_sum f l == ring_sum g l.
Proof.
  intros f g [|a l] H; cbn [ring_sum]; [reflexivity|]. apply path_ext_in.
  assert (forall u, In u (a :: l ++ [a]) -> In u (a :: l)).
  { intros u [<- |U]; [left; reflexivity|]. apply in_app_or in U. destruct U as [U|[<- |[]]]; [right; exact U|left; reflexivity]. }
  intros u v A B. apply H; auto.
Qed.
Definition step (y : Q) (a : pt) : Q := if Qle_bool (snd a) y then 0 else 1.
Lemma count_outside : forall p l,
  (forall q, In q l -> snd q <= snd p) \/ (forall q, In q l -> snd p < snd q) \/
  (forall q, In q l -> fst q <= fst p) \/ (forall q, In q l -> fst p < fst q) -> count p l = 0%Z.
Proof.
  intros p l H. apply injz. rewrite count_sum.
  transitivity (ring_sum (fun a b => 0 * (step (snd p) b - step (snd p) a)) l);
  [|rewrite (ring_scale (fun a b => step (snd p) b - step (snd p) a)); ring].
  assert (Z : forall z, z = 0%Z -> inject_Z z == 0) by (intros z ->; reflexivity).
  destruct H as [H|[H|[H|H]]].
  - apply ring_ext_in. intros a b A B. apply H in A. apply H in B. rewrite Qmult_0_l. apply Z.
    destruct (edge_count_cases p a b) as [(C1 & C2 & D & E)|[(C1 & C2 & D & E)|[(C1 & C2 & D & E)|[(C1 & C2 & D & E)|[(C1 & C2 & E)|(C1 & C2 & E)]]]]]; try exact E; exfalso; lra.
  - apply ring_ext_in. intros a b A B. apply H in A. apply H in B. rewrite Qmult_0_l. apply Z.
    destruct (edge_count_cases p a b) as [(C1 & C2 & D & E)|[(C1 & C2 & D & E)|[(C1 & C2 & D & E)|[(C1 & C2 & D & E)|[(C1 & C2 & E)|(C1 & C2 & E)]]]]]; try exact E; exfalso; lra.
  - apply ring_ext_in. intros a b A B. apply H in A. apply H in B. rewrite Qmult_0_l. apply Z.
    destruct (edge_count_cases p a b) as [(C1 & C2 & D & E)|[(C1 & C2 & D & E)|[(C1 & C2 & D & E)|[(C1 & C2 & D & E)|[(C1 & C2 & E)|(C1 & C2 & E)]]]]]; try exact E; exfalso; unfold tri in D; nra.
  - rewrite (ring_scale (fun a b => step (snd p) b - step (snd p) a)), ring_tele.
    transitivity (ring_sum (fun a b => step (snd p) b - step (snd p) a) l); [|rewrite ring_tele; ring].
    apply ring_ext_in. intros a b A B. apply H in A. apply H in B. unfold ec, step.
    destruct (edge_count_cases p a b) as [(C1 & C2 & D & E)|[(C1 & C2 & D & E)|[(C1 & C2 & D & E)|[(C1 & C2 & D & E)|[(C1 & C2 & E)|(C1 & C2 & E)]]]]];
    rewrite E; destruct (Qle_bool (snd a) (snd p)) eqn:LA; destruct (Qle_bool (snd b) (snd p)) eqn:LB;
    (apply Qleb_t in LA || apply Qleb_f in LA); (apply Qleb_t in LB || apply Qleb_f in LB);
    try (exfalso; lra); try reflexivity; exfalso; unfold tri in D; nra.
Qed.

Lemma sq0 : forall x y, x * x + y * y <= 0 -> x == 0 /\ y == 0.
Proof.
  assert (F : forall x y, x * x + y * y <= 0 -> x == 0).
  { intros x y H. destruct (Q_dec x 0) as [[N|N]|E]; [exfalso; nra|exfalso; nra|exact E]. }
  intros x y H. split; [apply (F x y H)|apply (F y x)]. lra.
Qed.
Lemma on_edge : forall p a b : pt, (tri p a b == 0)%Q ->
  ((fst a - fst p) * (fst b - fst p) + (snd a - snd p) * (snd b - snd p) <= 0)%Q -> on_seg (a, b) p.
Proof.
  intros [px py] [ax ay] [bx b_y]. unfold tri, on_seg, along, same. cbn [fst snd]. intros T D.
  set (u := (ax - px)%Q) in *. set (v := (ay - py)%Q) in *. set (w := (bx - px)%Q) in *. set (z := (b_y - py)%Q) in *.
  set (L := ((w - u) * (w - u) + (z - v) * (z - v))%Q).
  assert (CR : (u * z == w * v)%Q) by lra.
  destruct (Qlt_le_dec 0 L) as [LP|LN].
  - exists ((u * (u - w) + v * (v - z)) / L)%Q.
    assert (B : (0 <= u * (u - w) + v * (v - z) <= L)%Q).
    { assert (0 <= u * u /\ 0 <= v * v /\ 0 <= w * w /\ 0 <= z * z)%Q by (repeat split; nra).
      unfold L. split; [lra|]. lra. }
    split.
    { split; [apply Qle_shift_div_l; lra|apply Qle_shift_div_r; lra]. }
    assert (NZ : ~ (L == 0)%Q) by lra.
    split.
    + apply (Qmult_inj_r _ _ L NZ). 
      transitivity ((ax * L + (u * (u - w) + v * (v - z)) * (bx - ax)))%Q; [|field; exact NZ].
      assert (E : (bx - ax == w - u)%Q) by (unfold w, u; ring). rewrite E.
      assert (E2 : (ax == u + px)%Q) by (unfold u; ring). rewrite E2. unfold L.
      assert (E3 : (px * ((w - u) * (w - u) + (z - v) * (z - v)) == (u + px) * ((w - u) * (w - u) + (z - v) * (z - v)) + (u * (u - w) + v * (v - z)) * (w - u) - (z - v) * (u * z - w * v))%Q) by ring.
      rewrite E3, CR. ring.
    + apply (Qmult_inj_r _ _ L NZ).
      transitivity ((ay * L + (u * (u - w) + v * (v - z)) * (b_y - ay)))%Q; [|field; exact NZ].
      assert (E : (b_y - ay == z - v)%Q) by (unfold z, v; ring). rewrite E.
      assert (E2 : (ay == v + py)%Q) by (unfold v; ring). rewrite E2. unfold L.
      assert (E3 : (py * ((w - u) * (w - u) + (z - v) * (z - v)) == (v + py) * ((w - u) * (w - u) + (z - v) * (z - v)) + (u * (u - w) + v * (v - z)) * (z - v) + (w - u) * (u * z - w * v))%Q) by ring.
      rewrite E3, CR. ring.
  - exists 0%Q. split; [lra|].
    assert (A : (w - u == 0 /\ z - v == 0)%Q) by (apply sq0, LN). destruct A as [A B].
    assert (A' : (w == u)%Q) by lra. assert (B' : (z == v)%Q) by lra. rewrite A', B' in D.
    assert (u == 0 /\ v == 0)%Q as [U V] by (apply sq0, D). unfold u, v in U, V. split; lra.
Qed.
Lemma left_off : forall p a b, left_of p a b \/ right_of p a b -> ~ on_seg (a, b) p.
Proof.
  intros [px py] [ax ay] [bx b_y] L (t & _ & X & Y). unfold left_of, right_of, tri, along in *. cbn [fst snd] in *.
  assert (E : ((ax - px) * (b_y - py) - (bx - px) * (ay - py) == 0)%Q); [|destruct L; lra].
  rewrite X, Y. ring.
Qed.
Lemma right_left : forall p a b, right_of p b a -> left_of p a b.
Proof. intros p a b H. unfold left_of, right_of in *. rewrite tri_anti. lra. Qed.

(** The recursion over sub-polygons. *)
Section Poly.
Variables P D C : Type.
Implicit Types g s : geom P D C.
Lemma contains_eq : forall k v r subs pr d c p,
  contains P D C (Geom P D C k v r subs pr d c) p =
  if r then if Z.eqb (count p (xys v)) 0 then Ok false
            else bind ((fix any (l : list (geom P D C)) : res bool :=
                 match l with
                 | [] => Ok false
                 | s :: l' => bind (contains P D C s p) (fun c => if c then Ok true else any l')
                 end) subs) (fun c => Ok (negb c))
  else Err TypeError.
Proof. intros. cbn [contains]. unfold contains_c. destruct r; cbn [bind]; [|reflexivity]. destruct (Z.eqb _ 0); reflexivity. Qed.
Lemma contains_not_ring : forall g p, gring P D C g = false -> contains P D C g p = Err TypeError.
Proof. intros [k v r subs pr d c] p H. cbn in H. subst r. apply contains_eq. Qed.
(** Without sub-polygons. *)
Lemma contains_simple : forall g p, gring P D C g = true -> gsubs P D C g = [] ->
  contains P D C g p = Ok (negb (Z.eqb (count p (xys (gverts P D C g))) 0)).
Proof.
  intros [k v r subs pr d c] p H S. cbn in H, S. subst r subs. rewrite contains_eq.
  destruct (Z.eqb _ 0); reflexivity.
Qed.
Lemma contains_true_outer : forall g p, contains P D C g p = Ok true -> count p (xys (gverts P D C g)) <> 0%Z.
Proof.
  intros [k v r subs pr d c] p. rewrite contains_eq. cbn [gverts]. destruct r; [|discriminate].
  destruct (Z.eqb_spec (count p (xys v)) 0); [discriminate|]. intros _. assumption.
Qed.
Lemma contains_bbox : forall g p x0 y0 x1 y1, tight_box x0 y0 x1 y1 (xys (gverts P D C g)) ->
  contains P D C g p = Ok true -> x0 <= fst p < x1 /\ y0 <= snd p < y1.
Proof.
  intros g p x0 y0 x1 y1 (T & _) H. apply contains_true_outer in H.
  destruct (Qlt_le_dec (snd p) y0) as [K1|K1].
  { exfalso. apply H, count_outside. right; left. intros q I. destruct (T q I). lra. }
  destruct (Qlt_le_dec (snd p) y1) as [K2|K2].
  2:{ exfalso. apply H, count_outside. left. intros q I. destruct (T q I). lra. }
  destruct (Qlt_le_dec (fst p) x0) as [K3|K3].
  { exfalso. apply H, count_outside. right; right; right. intros q I. destruct (T q I). lra. }
  destruct (Qlt_le_dec (fst p) x1) as [K4|K4].
  2:{ exfalso. apply H, count_outside. right; right; left. intros q I. destruct (T q I). lra. }
  split; split; assumption.
Qed.
Fixpoint rings_always g : rings P D C g -> forall p, exists b, contains P D C g p = Ok b.
Proof.
  destruct g as [k v r subs pr d c]. cbn [rings]. intros [-> H] p. rewrite contains_eq.
  destruct (Z.eqb _ 0); [eexists; reflexivity|].
  assert (exists b, (fix any (l : list (geom P D C)) : res bool :=
                 match l with
                 | [] => Ok false
                 | s :: l' => bind (contains P D C s p) (fun c => if c then Ok true else any l')
                 end) subs = Ok b) as (b & ->); [|eexists; reflexivity].
  induction subs as [|s subs IH]; [eexists; reflexivity|]. destruct H as [H1 H2].
  destruct (rings_always s H1 p) as (b & ->). cbn [bind]. destruct b; [eexists; reflexivity|]. apply IH, H2.
Qed.
(** A point in a sub-polygon is not in the polygon. *)
Lemma contains_hole : forall g p s, rings P D C g -> In s (gsubs P D C g) -> contains P D C s p = Ok true ->
  contains P D C g p = Ok false.
Proof.
  intros [k v r subs pr d c] p s. cbn [rings gsubs]. intros [-> H] I K. rewrite contains_eq.
  destruct (Z.eqb _ 0); [reflexivity|].
  induction subs as [|t subs IH]; [contradiction|]. destruct H as [H1 H2].
  destruct (rings_always t H1 p) as (b & E). destruct I as [-> |I].
  - rewrite K. cbn [bind]. reflexivity.
  - rewrite E. cbn [bind]. destruct b; [reflexivity|]. apply IH; assumption.
Qed.
Lemma contains_iff : forall g p, rings P D C g ->
  (contains P D C g p = Ok true <-> count p (xys (gverts P D C g)) <> 0%Z /\
   forall s, In s (gsubs P D C g) -> contains P D C s p <> Ok true).
Proof.
  intros [k v r subs pr d c] p. cbn [rings gsubs gverts]. intros [-> H]. rewrite contains_eq.
  destruct (Z.eqb_spec (count p (xys v)) 0) as [E|E].
  { split; [discriminate|]. intros [N _]. contradiction. }
  induction subs as [|s subs IH].
  - cbn [bind negb]. split; [intros _|reflexivity]. split; [exact E|]. intros s [].
  - destruct H as [H1 H2]. destruct (rings_always s H1 p) as (b & B). rewrite B. cbn [bind]. destruct b.
    + cbn [bind negb]. split; [discriminate|]. intros [_ N]. exfalso. apply (N s); [left; reflexivity|exact B].
    + specialize (IH H2). rewrite IH. split; intros [N M]; split; try exact N.
      * intros t [<- |T]; [congruence|]. apply M, T.
      * intros t T. apply M. right. exact T.
Qed.
End Poly.
