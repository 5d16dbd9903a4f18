(** Proofs about the spatial selection of points. *)
From Coq Require Import String List Bool Arith Lia QArith Reals Lra.
From Verif Require Import Table_Model Table_Spec Multi_Model Multi_Spec Multi_Proofs Multi_MoreProofs
  QuadTree_Model QuadTree_Spec QuadTree_Proofs QuadTree_Termination Geom_Model Geom_Spec Geom_Proofs Contains_Model Contains_Spec Contains_Proofs
  Sphere_Model Sphere_Proofs Multi_SelModel Multi_SelSpec.
Import Multi_Spec.
Import ListNotations.
Local Open Scope list_scope.

Lemma inside_iff {num : Type} (ltb : num -> num -> bool) q p : inside num ltb q p = true <-> in_box ltb q p.
Proof. unfold inside, in_box. rewrite !andb_true_iff. tauto. Qed.
Lemma strictly_iff {P num : Type} (ltb : num -> num -> bool) (xy : P -> num * num) l q i :
  strictly_inside ltb (map xy l) q i <-> exists p, nth_error l i = Some p /\ in_box ltb q (xy p).
Proof.
  unfold strictly_inside, in_box. split.
  - intros (x&y&E&H). destruct (nth_error l i) as [p|] eqn:Ep.
    + rewrite (map_nth_error xy i l Ep) in E. injection E as E. exists p. rewrite E. cbn. tauto.
    + apply nth_error_None in Ep. assert (nth_error (map xy l) i <> None) as X by congruence. apply nth_error_Some in X. rewrite map_length in X. lia.
  - intros (p&E&H). exists (fst (xy p)), (snd (xy p)). rewrite (map_nth_error xy i l E). split; [f_equal; apply surjective_pairing|tauto].
Qed.

Section Any.
Variables P val num : Type.
Variable vnone : val.
Variables (ltb eqb : num -> num -> bool) (mid : num -> num -> num).
Hypothesis laws : coordinate_laws ltb eqb mid.
Variable xy : P -> num * num.

Lemma index_search (l : list P) qt q : index_over ltb eqb mid xy l qt ->
  NoDup (search_within ltb qt q) /\ forall i, In i (search_within ltb qt q) <-> exists p, nth_error l i = Some p /\ in_box ltb q (xy p).
Proof.
  intros (fuel&bb&E&B). destruct (@search_exact_any num ltb eqb mid laws fuel 50 bb _ qt q E B) as (ND&A). split; [exact ND|].
  intros i. rewrite A. apply strictly_iff.
Qed.
Lemma bbox_select (m : multi P val) qt q : one_record_each m -> (forall t, qt = Some t -> index_over ltb eqb mid xy (parts m) t) ->
  exists r ids, mp_within_bbox P val num ltb xy (fields (tbl m)) m qt q = Table_Model.Ok r /\
    positions (fun p => in_box ltb q (xy p)) (parts m) ids /\ restricted m r ids /\ fields (tbl r) = fields (tbl m) /\ props r = props m.
Proof.
  intros W HI. destruct (within_bbox_ok P val vnone m (fun p => inside num ltb q (xy p)) (option_map (fun t => search_within ltb t q) qt) W) as (r&ids&E&Ps&H).
  - intros ids. destruct qt as [t|]; [|discriminate]. intros [= <-]. destruct (index_search _ t q (HI t eq_refl)) as (ND&A).
    split; [exact ND|]. intros i. rewrite A. split; intros (p&Ep&B); exists p; (split; [exact Ep|]); now apply inside_iff.
  - exists r, ids. split; [exact E|]. split; [|exact H]. destruct Ps as (S&A). split; [exact S|]. intros i. rewrite A.
    split; intros (p&Ep&B); exists p; (split; [exact Ep|]); now apply inside_iff.
Qed.
Lemma test_select (m : multi P val) qt q (test : P -> Table_Model.res bool) (b : P -> bool) : one_record_each m ->
  (forall t, qt = Some t -> index_over ltb eqb mid xy (parts m) t) ->
  (forall p, In p (parts m) -> test p = Table_Model.Ok (b p)) ->
  (qt <> None -> forall p, In p (parts m) -> b p = true -> in_box ltb q (xy p)) ->
  exists r ids, within_test (fields (tbl m)) m (option_map (fun t => search_within ltb t q) qt) test = Table_Model.Ok r /\
    positions (fun p => b p = true) (parts m) ids /\ restricted m r ids /\ fields (tbl r) = fields (tbl m) /\ props r = props m.
Proof.
  intros W HI HT HB. apply (within_test_ok P val vnone m test b); [exact W|exact HT|].
  intros ids. destruct qt as [t|]; [|discriminate]. intros [= <-]. destruct (index_search _ t q (HI t eq_refl)) as (ND&A).
  split; [exact ND|]. split.
  - intros i I. apply A in I as (p&E&_). apply nth_error_Some. congruence.
  - intros i p E B. apply A. exists p. split; [exact E|]. apply HB; [discriminate|exact (nth_error_In _ _ E)|exact B].
Qed.
End Any.

(* ---- radius *)
Lemma rlt_iff a b : rlt a b = true <-> (a < b)%R.
Proof. unfold rlt. destruct (Rlt_dec a b); intuition (auto; discriminate). Qed.
Lemma rlt_niff a b : rlt a b = false <-> (b <= a)%R.
Proof. unfold rlt. destruct (Rlt_dec a b); split; intros; try discriminate; try reflexivity; lra. Qed.
Lemma R_laws : coordinate_laws rlt req (fun a b => (a + b) / 2)%R.
Proof.
  split.
  - intros a. apply rlt_niff. lra.
  - intros a b c. rewrite !rlt_iff. lra.
  - intros a b c. rewrite !rlt_iff. intros H. destruct (Rlt_dec a b); [now left|right; lra].
  - intros a b. rewrite !rlt_niff. unfold req. destruct (Req_EM_T a b); split; intros; try discriminate; try reflexivity; try lra. 
  - intros a b. rewrite !rlt_niff. lra.
  - intros a b. rewrite !rlt_niff. lra.
  - intros a b. rewrite !rlt_iff. lra.
Qed.
Lemma flat_box c p r : (flat_distance c p < r)%R -> in_box rlt (mkBbox (fst c - r) (snd c - r) (fst c + r) (snd c + r))%R p.
Proof.
  unfold flat_distance, plane_distance. intros H.
  set (dx := (fst p - fst c)%R) in *. set (dy := (snd p - snd c)%R) in *.
  assert (X : forall a b, (sqrt (a * a + b * b) < r -> - r < a < r)%R).
  { clear. intros a b H. assert (Rabs a <= sqrt (a * a + b * b))%R.
    { rewrite <- sqrt_Rsqr_abs. apply sqrt_le_1_alt. unfold Rsqr. assert (0 <= b * b)%R by apply Rle_0_sqr. lra. }
    unfold Rabs in *. destruct (Rcase_abs a); lra. }
  assert (A := X dx dy H). rewrite Rplus_comm in H. assert (B := X dy dx H). clear X.
  unfold in_box. cbn [xmin xmax ymin ymax]. rewrite !rlt_iff. unfold dx, dy in *. lra.
Qed.
Lemma radius_select (P val : Type) (vnone : val) (xy : P -> R * R) (dist : R * R -> R * R -> R) (m : multi P val) qt c r : one_record_each m ->
  (forall t, qt = Some t -> index_over rlt req (fun a b => (a + b) / 2)%R xy (parts m) t) ->
  (qt <> None -> forall p, In p (parts m) -> (dist c (xy p) < r)%R -> in_box rlt (mkBbox (fst c - r) (snd c - r) (fst c + r) (snd c + r))%R (xy p)) ->
  exists s ids, mp_within_radius xy dist (fields (tbl m)) m qt c r = Table_Model.Ok s /\
    positions (fun p => (dist c (xy p) < r)%R) (parts m) ids /\ restricted m s ids /\ fields (tbl s) = fields (tbl m) /\ props s = props m.
Proof.
  intros W HI HB. destruct (test_select P val R vnone rlt req _ R_laws xy m qt (mkBbox (fst c - r) (snd c - r) (fst c + r) (snd c + r))%R
    (fun p => Table_Model.Ok (rlt (dist c (xy p)) r)) (fun p => rlt (dist c (xy p)) r) W HI) as (s&ids&E&(S&A)&H).
  - reflexivity.
  - intros N p I B. apply rlt_iff in B. now apply HB.
  - exists s, ids. split; [exact E|]. split; [|exact H]. split; [exact S|]. intros i. rewrite A.
    split; intros (p&Ep&B); exists p; (split; [exact Ep|]); now apply rlt_iff.
Qed.

(* ---- polygon *)
Lemma polygon_select (P val A B C : Type) (vnone : val) (xy : P -> Q * Q) (m : multi P val) qt (g : geom A B C) x0 y0 x1 y1 :
  one_record_each m -> rings A B C g -> tight_box x0 y0 x1 y1 (xys (gverts A B C g)) ->
  (forall t, qt = Some t -> index_over Qltb Qeq_bool Qmid xy (parts m) t) ->
  (qt <> None -> forall p, In p (parts m) -> ~ fst (xy p) == x0 /\ ~ snd (xy p) == y0)%Q ->
  exists s ids, mp_within_polygon xy (fields (tbl m)) m qt g = Table_Model.Ok s /\
    positions (fun p => contains A B C g (xy p) = Geom_Model.Ok true) (parts m) ids /\
    restricted m s ids /\ fields (tbl s) = fields (tbl m) /\ props s = props m.
Proof.
  intros W HR HTB HI HE. unfold mp_within_polygon.
  assert (NE : xys (gverts A B C g) <> []).
  { intros N. destruct HTB as (_&(p&I&_)&_). rewrite N in I. destruct I. }
  destruct (bbox_c_tight _ NE) as (a0&b0&a1&b1&E&T'). unfold Geom_Model.bbox. rewrite E.
  destruct (tight_unique _ _ _ _ _ _ _ _ _ HTB T') as (EA&EB&EC&ED).
  set (b := fun p => match contains A B C g (xy p) with Geom_Model.Ok b => b | Geom_Model.Err _ => false end).
  assert (RA : forall p, contains A B C g (xy p) = Geom_Model.Ok (b p)).
  { intros p. unfold b. destruct (Contains_Proofs.rings_always A B C g HR (xy p)) as (x&->). reflexivity. }
  destruct (test_select P val Q vnone Qltb Qeq_bool Qmid Q_laws xy m qt (mkBbox a0 b0 a1 b1)
    (fun p => match contains A B C g (xy p) with Geom_Model.Ok b => Table_Model.Ok b | Geom_Model.Err _ => Table_Model.Err Table_Model.TypeError end) b W HI) as (s&ids&Es&(S&Ai)&H).
  - intros p _. now rewrite RA.
  - intros N p I Bp. destruct (HE N p I) as (NX&NY).
    assert (CB := contains_bbox A B C g (xy p) a0 b0 a1 b1 T'). rewrite RA, Bp in CB. destruct (CB eq_refl) as ((C1&C2)&(C3&C4)).
    unfold in_box. cbn [xmin xmax ymin ymax]. unfold Qltb. rewrite !negb_true_iff.
    assert (QL : forall u v, (u < v)%Q -> Qle_bool v u = false).
    { intros u v L. apply not_true_iff_false. rewrite Qle_bool_iff. now apply Qlt_not_le. }
    assert (QN : forall u v, (u <= v)%Q -> ~ (v == u)%Q -> (u < v)%Q).
    { intros u v L X. destruct (Qlt_le_dec u v) as [|K]; [assumption|]. exfalso. apply X. now apply Qle_antisym. }
    repeat split; apply QL; auto; apply QN; auto; intros X; [apply NX|apply NY]; rewrite X; now symmetry.
  - exists s, ids. split; [exact Es|]. split; [|exact H]. split; [exact S|]. intros i. rewrite Ai.
    split; intros (p&Ep&Bp); exists p; (split; [exact Ep|]); rewrite RA in *; congruence.
Qed.
