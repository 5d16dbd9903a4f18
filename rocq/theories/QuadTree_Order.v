(** Independence of the search result from capacity and insertion order, and
    the behaviour of the construction with IEEE doubles. *)
From Coq Require Import List ZArith Bool Lia Permutation SpecFloat.
From Verif Require Import QuadTree_Model QuadTree_Spec QuadTree_Proofs.
Import ListNotations.

Section Order.
Context {num : Type} (ltb eqb : num -> num -> bool) (mid : num -> num -> num).
Hypothesis L : coordinate_laws ltb eqb mid.

Definition insideb (q : bbox num) (xy : num * num) : bool :=
  ltb (xmin q) (fst xy) && ltb (fst xy) (xmax q) &&
  ltb (ymin q) (snd xy) && ltb (snd xy) (ymax q).

Lemma coords_filter pts q :
  map (nth_error pts) (filter (matchb ltb pts q) (seq 0 (length pts))) =
  map Some (filter (insideb q) pts).
Proof.
  assert (G : forall rest pre, pts = pre ++ rest ->
    map (nth_error pts) (filter (matchb ltb pts q) (seq (length pre) (length rest))) =
    map Some (filter (insideb q) rest)).
  { induction rest as [|[x y] rest IH]; intros pre E; [reflexivity|].
    cbn [length seq filter].
    assert (N : nth_error pts (length pre) = Some (x, y)).
    { rewrite E, nth_error_app2, Nat.sub_diag by lia. reflexivity. }
    specialize (IH (pre ++ [(x, y)])). rewrite app_length in IH. cbn [length] in IH.
    rewrite Nat.add_1_r in IH. rewrite <- app_assoc in IH. specialize (IH E).
    assert (M : matchb ltb pts q (length pre) = insideb q (x, y)).
    { unfold matchb. rewrite N. reflexivity. }
    rewrite M. destruct (insideb q (x, y)); cbn [map]; [rewrite N|]; congruence. }
  exact (G pts [] eq_refl).
Qed.

Lemma search_any_perm fuel cap bb pts qt q :
  encloses ltb bb pts ->
  build ltb eqb mid fuel cap bb (numbers pts) = Ok qt ->
  Permutation (search_within ltb qt q)
              (filter (matchb ltb pts q) (seq 0 (length pts))).
Proof.
  intros Henc H. destruct pts as [|p pts].
  - rewrite build_nil in H. injection H as <-. constructor.
  - destruct (build_Ok_cap _ _ _ _ _ _ _ _ H) as [K|K]; [discriminate|].
    eapply (search_exact_perm ltb eqb mid L); eauto; [lia|].
    eapply (encloses_wf ltb eqb mid L); eauto; discriminate.
Qed.

Lemma filter_Permutation {A} (f : A -> bool) l l' :
  Permutation l l' -> Permutation (filter f l) (filter f l').
Proof.
  induction 1; cbn.
  - constructor.
  - destruct (f x); [now constructor|assumption].
  - destruct (f x), (f y); try apply perm_swap; apply Permutation_refl.
  - etransitivity; eassumption.
Qed.

Lemma encloses_perm bb pts pts' : Permutation pts pts' ->
  encloses ltb bb pts -> encloses ltb bb pts'.
Proof.
  intros P H x y Hi. apply H. eapply Permutation_in; [symmetry; exact P|exact Hi].
Qed.

Lemma search_order_indep fuel fuel' cap cap' bb pts pts' qt qt' q :
  encloses ltb bb pts -> Permutation pts pts' ->
  build ltb eqb mid fuel cap bb (numbers pts) = Ok qt ->
  build ltb eqb mid fuel' cap' bb (numbers pts') = Ok qt' ->
  Permutation (map (nth_error pts) (search_within ltb qt q))
              (map (nth_error pts') (search_within ltb qt' q)).
Proof.
  intros Henc P H H'.
  rewrite (Permutation_map _ (search_any_perm _ _ _ _ _ q Henc H)).
  rewrite (Permutation_map _ (search_any_perm _ _ _ _ _ q (encloses_perm _ _ _ P Henc) H')).
  rewrite !coords_filter. apply Permutation_map, filter_Permutation, P.
Qed.

Lemma search_cap_indep fuel fuel' cap cap' bb pts qt qt' q :
  encloses ltb bb pts ->
  build ltb eqb mid fuel cap bb (numbers pts) = Ok qt ->
  build ltb eqb mid fuel' cap' bb (numbers pts) = Ok qt' ->
  Permutation (search_within ltb qt q) (search_within ltb qt' q).
Proof.
  intros Henc H H'. rewrite (search_any_perm _ _ _ _ _ q Henc H).
  symmetry. apply (search_any_perm _ _ _ _ _ q Henc H').
Qed.

End Order.

(** IEEE binary64 coordinates ([double] in quadtree.h): the midpoint
    [0.5*(a+b)] with each operation rounded to nearest even. *)
Definition dbl := spec_float.
Definition dlt (a b : dbl) : bool := SFltb a b.
Definition deq (a b : dbl) : bool := SFeqb a b.
Definition dhalf : dbl := S754_finite false 4503599627370496 (-53).
Definition dmid (a b : dbl) : dbl := SFmul 53 1024 dhalf (SFadd 53 1024 a b).

(** 1 + k * 2^-52, and k / 4. *)
Definition ulp1 (k : positive) : dbl := S754_finite false (4503599627370496 + k) (-52).
Definition d0 : dbl := S754_zero false.
Definition d1 : dbl := S754_finite false 4503599627370496 (-52).
Definition dquarter : dbl := S754_finite false 4503599627370496 (-54).

(** Three points on the line x = 1 + 2^-52 and one at x = 1 + 2^-51. *)
Definition close_points : list (dbl * dbl) :=
  [(ulp1 1, d0); (ulp1 1, d1); (ulp1 1, dquarter); (ulp1 2, d0)].
Definition close_box : bbox dbl := mkBbox (ulp1 1) d0 (ulp1 2) d1.

Lemma close_box_encloses : encloses dlt close_box close_points.
Proof.
  intros x y H. cbn in H.
  repeat (destruct H as [H|H]; [injection H as <- <-; vm_compute; auto|]).
  destruct H.
Qed.

Lemma close_points_dangle fuel : 
  build dlt deq dmid (2 + fuel) 2 close_box (numbers close_points) = DanglingPointer.
Proof.
  cbn [Nat.add]. destruct fuel; vm_compute; reflexivity.
Qed.
