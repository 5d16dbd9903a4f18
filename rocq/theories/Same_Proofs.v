(** Proofs about equality and hashing of geometries. *)
From Coq Require Import String List ZArith Bool Arith SpecFloat Lia.
From Verif Require Import Table_Model Table_Spec Table_Proofs Multi_Model Multi_Spec Multi_Proofs Same_Model Same_Spec.
From Verif Require Crs_Model Crs_Spec Crs_Proofs.
Import ListNotations.
Local Open Scope list_scope.

Lemma SFeqb_iff x y : SFeqb x y = true <-> one_number x y.
Proof.
  unfold one_number, number, zero.
  destruct x as [s|s| |s m e], y as [t|t| |t n f];
    try (split; [cbn; try destruct s; try destruct t; discriminate|
                 intros (A&[[=]|((?&?)&(?&?))]); congruence]).
  - split; [|reflexivity]. intros _. split; [discriminate|]. right. split; eexists; reflexivity.
  - split.
    + intros H. split; [discriminate|]. left. destruct s, t; (reflexivity || discriminate).
    + intros (_&[[= ->]|((?&?)&_)]); [now destruct t|discriminate].
  - unfold SFeqb, SFcompare. split.
    + intros H. split; [discriminate|]. left.
      destruct s, t; try discriminate; (destruct (Z.compare_spec e f); try discriminate); subst;
        (destruct (Pos.compare_cont Eq m n) eqn:E; try discriminate);
        change (Pos.compare m n = Eq) in E; apply Pos.compare_eq in E; now subst.
    + intros (_&[[= -> -> ->]|((?&?)&_)]); [|discriminate].
      rewrite Z.compare_refl. assert (P : Pos.compare_cont Eq n n = Eq) by exact (Pos.compare_refl n). rewrite P. now destruct t.
Qed.
Lemma list_eqb_iff {A} (eqb : A -> A -> bool) (R : A -> A -> Prop) : (forall a b, eqb a b = true <-> R a b) ->
  forall u v, list_eqb eqb u v = true <-> Forall2 R u v.
Proof.
  intros H u. induction u as [|a u IH]; intros [|b v]; cbn [list_eqb].
  - split; [constructor|reflexivity].
  - split; [discriminate|]. intros X. inversion X.
  - split; [discriminate|]. intros X. inversion X.
  - rewrite andb_true_iff, H, IH. split; [intros (?&?); now constructor|]. intros X. inversion X. now split.
Qed.
Lemma vertex_eqb_iff u v : list_eqb SFeqb u v = true <-> one_vertex u v.
Proof. exact (list_eqb_iff SFeqb one_number SFeqb_iff u v). Qed.
Lemma path_eqb_iff u v : list_eqb (list_eqb SFeqb) u v = true <-> one_path u v.
Proof. exact (list_eqb_iff _ one_vertex vertex_eqb_iff u v). Qed.
Lemma strings_eqb_iff u v : list_eqb String.eqb u v = true <-> u = v.
Proof.
  rewrite (list_eqb_iff String.eqb eq String.eqb_eq). split; [|intros ->; induction v; constructor; auto].
  induction 1; congruence.
Qed.

Lemma one_path_length u v : one_path u v -> List.length u = List.length v.
Proof. induction 1; cbn; congruence. Qed.
Lemma one_vertex_length u v : one_vertex u v -> List.length u = List.length v.
Proof. induction 1; cbn; congruence. Qed.

(* ---- arrays *)
Lemma arrays_equal_iff u v b : List.length u = List.length v -> arrays_equal u v = Ok b -> (b = true <-> one_path u v).
Proof.
  intros L. unfold arrays_equal. destruct u as [|a u], v as [|a' v]; try discriminate L.
  - intros [= <-]. split; [constructor|reflexivity].
  - destruct (List.length a =? List.length a'); [|discriminate]. intros [= <-]. exact (path_eqb_iff (a :: u) (a' :: v)).
Qed.
Lemma arrays_equal_err u v e : arrays_equal u v = Err e -> e = ValueError /\ ~ one_path u v.
Proof.
  unfold arrays_equal. destruct u as [|a u], v as [|b v]; try discriminate.
  destruct (List.length a =? List.length b) eqn:E; [discriminate|]. intros [= <-]. split; [reflexivity|].
  intros H. inversion H as [|? ? ? ? H1]; subst. apply one_vertex_length in H1. apply Nat.eqb_neq in E. contradiction.
Qed.
Lemma arrays_equal_rank r u v : of_rank r u -> of_rank r v -> exists b, arrays_equal u v = Ok b.
Proof.
  intros U V. unfold arrays_equal. destruct u as [|a u], v as [|b v]; try (now eexists).
  inversion U; inversion V; subst. replace (List.length b =? List.length a) with true by (symmetry; apply Nat.eqb_eq; congruence).
  replace (List.length a =? List.length b) with true by (symmetry; apply Nat.eqb_eq; congruence). now eexists.
Qed.

(* ---- systems *)
Lemma system_eqb_iff x y : complete x -> complete y -> (system_eqb x y = true <-> one_system x y).
Proof.
  unfold one_system, same_text, complete, Crs_Spec.complete_crs.
  destruct x as [i|i n a|i n a], y as [j|j m b|j m b]; cbn [system_eqb object_of projected same_object]; intros Ca Cb.
  - rewrite Nat.eqb_eq. split; [now left|]. intros [H|([[]|[]]&_)]. exact H.
  - split; [discriminate|]. intros [[]|([[]|[]]&_)].
  - split; [discriminate|]. intros [[]|(_&o&o'&s&t&E&_)]. discriminate.
  - split; [discriminate|]. intros [[]|([[]|[]]&_)].
  - rewrite Nat.eqb_eq. split; [now left|]. intros [H|([[]|[]]&_)]. exact H.
  - rewrite Crs_Proofs.crs_eqb_iff. destruct Ca as (?&?&?&?). split.
    + intros (_&_&(s&?&?)&(t&?&?)). right. split; [now right|]. exists a, b, s, t. repeat split; assumption.
    + intros [[]|(_&o&o'&s&t&[= <-]&[= <-]&?&?&?&?)]. repeat split; try assumption; [exists s|exists t]; now split.
  - split; [discriminate|]. intros [[]|(_&o&o'&s&t&_&E&_)]. discriminate.
  - rewrite Crs_Proofs.crs_eqb_iff. destruct Cb as (?&?&?&?). split.
    + intros (_&_&(s&?&?)&(t&?&?)). right. split; [now left|]. exists a, b, s, t. repeat split; assumption.
    + intros [[]|(_&o&o'&s&t&[= <-]&[= <-]&?&?&?&?)]. repeat split; try assumption; [exists s|exists t]; now split.
  - rewrite Crs_Proofs.crs_eqb_iff. destruct Cb as (?&?&?&?). split.
    + intros (_&_&(s&?&?)&(t&?&?)). right. split; [now left|]. exists a, b, s, t. repeat split; assumption.
    + intros [[]|(_&o&o'&s&t&[= <-]&[= <-]&?&?&?&?)]. repeat split; try assumption; [exists s|exists t]; now split.
Qed.

Lemma one_system_refl x : complete x -> one_system x x.
Proof.
  unfold complete, one_system, same_text. destruct x as [i|i n a|i n a]; cbn; [now left|now left|].
  intros (_&_&S1&S2). right. split; [now left|].
  destruct (Crs_Model.srs a) as [s|] eqn:E1; [|congruence]. destruct (Crs_Model.initstring a) as [t|] eqn:E2; [|congruence].
  exists a, a, s, t. repeat split; assumption.
Qed.
Lemma one_system_sym x y : one_system x y -> one_system y x.
Proof.
  intros [H|(P&a&b&s&t&?&?&?&?&?&?)].
  - left. destruct x, y; cbn in *; auto.
  - right. split; [tauto|]. exists b, a, s, t. repeat split; assumption.
Qed.
Lemma one_system_trans x y z : one_class x y -> one_class y z -> one_system x y -> one_system y z -> one_system x z.
Proof.
  intros C1 C2 [H|(P&a&b&s&t&?&?&?&?&?&?)] [K|(P'&a'&b'&s'&t'&?&?&?&?&?&?)].
  - left. destruct x, y, z; cbn in *; try contradiction; congruence.
  - exfalso. unfold one_class in *. destruct x, y, z; cbn in *; tauto.
  - exfalso. unfold one_class in *. destruct x, y, z; cbn in *; tauto.
  - right. split; [unfold one_class in *; tauto|]. exists a, b', s, t. repeat split; try assumption; congruence.
Qed.

Section Values.
Variable val : Type.
Variable veqb : val -> val -> bool.
Notation point := (point val).
Notation geom := (geom val).

Lemma dict_eqb_iff (d e : dict val) : dict_eqb veqb d e = true <-> one_dict veqb d e.
Proof.
  unfold dict_eqb, one_dict, one_value. rewrite forallb_forall. split.
  - intros H k. specialize (H k). destruct (dict_get d k) as [a|] eqn:D.
    + assert (I : In k (map fst d)).
      { destruct (in_dec string_dec k (map fst d)) as [I|N]; [exact I|]. rewrite (dict_get_notin _ d k N) in D. discriminate. }
      specialize (H (in_or_app _ _ _ (or_introl I))). destruct (dict_get e k); [exact H|discriminate].
    + destruct (dict_get e k) as [b|] eqn:D'; [|exact Logic.I].
      assert (I : In k (map fst e)).
      { destruct (in_dec string_dec k (map fst e)) as [I|N]; [exact I|]. rewrite (dict_get_notin _ e k N) in D'. discriminate. }
      specialize (H (in_or_app _ _ _ (or_intror I))). discriminate.
  - intros H k _. specialize (H k). destruct (dict_get d k), (dict_get e k); tauto.
Qed.
Lemma table_eqb_iff (t u : table val) : table_eqb veqb t u = true <-> one_table veqb t u.
Proof.
  unfold table_eqb, one_table. rewrite andb_true_iff, strings_eqb_iff.
  rewrite (list_eqb_iff (list_eqb veqb) (Forall2 (fun a b => veqb a b = true))); [tauto|].
  apply list_eqb_iff. tauto.
Qed.

Lemma points_equal (p q : point) : complete (pcrs p) -> complete (pcrs q) ->
  (point_eqb veqb p q = true <-> one_vertex (pvertex p) (pvertex q) /\ one_dict veqb (pprops p) (pprops q) /\ one_system (pcrs p) (pcrs q)).
Proof.
  intros Cp Cq. unfold point_eqb. rewrite !andb_true_iff, vertex_eqb_iff, dict_eqb_iff, (system_eqb_iff _ _ Cp Cq). tauto.
Qed.
Definition single (g : geom) : Prop := gkind g <> Multipoint.
Lemma kind_eqb_iff a b : kind_eqb a b = true <-> a = b.
Proof. destruct a, b; cbn; split; (reflexivity || discriminate). Qed.

Lemma lines_equal (g h : geom) : single g -> complete (gcrs g) -> complete (gcrs h) ->
  exists b, geom_eq veqb g h = Ok b /\
    (b = true <-> gkind g = gkind h /\ one_path (gverts g) (gverts h) /\ one_dict veqb (gprops g) (gprops h) /\ one_system (gcrs g) (gcrs h)).
Proof.
  intros S Cg Ch. unfold geom_eq. destruct (kind_eqb (gkind g) (gkind h)) eqn:K; cbn [negb].
  2:{ exists false. split; [reflexivity|]. split; [discriminate|]. intros (E&_). apply kind_eqb_iff in E. congruence. }
  apply kind_eqb_iff in K. destruct (List.length (gverts g) =? List.length (gverts h)) eqn:L; cbn [negb].
  2:{ exists false. split; [reflexivity|]. split; [discriminate|]. intros (_&E&_). apply one_path_length in E. apply Nat.eqb_neq in L. contradiction. }
  apply Nat.eqb_eq in L. destruct (arrays_equal (gverts g) (gverts h)) as [b|e] eqn:A.
  - exists (b && (dict_eqb veqb (gprops g) (gprops h) && system_eqb (gcrs g) (gcrs h))).
    split; [unfold single in S; now destruct (gkind g)|].
    rewrite !andb_true_iff, (arrays_equal_iff _ _ _ L A), dict_eqb_iff, (system_eqb_iff _ _ Cg Ch). tauto.
  - exists false. split; [unfold single in S; now destruct (gkind g)|]. split; [discriminate|]. intros (_&E&_).
    now apply (arrays_equal_err _ _ _ A) in E.
Qed.
Lemma multipoints_equal (g h : geom) r : gkind g = Multipoint -> complete (gcrs g) -> complete (gcrs h) ->
  of_rank r (gverts g) -> of_rank r (gverts h) ->
  exists b, geom_eq veqb g h = Ok b /\
    (b = true <-> gkind h = Multipoint /\ one_path (gverts g) (gverts h) /\ one_table veqb (gdata g) (gdata h) /\
                  one_dict veqb (gprops g) (gprops h) /\ one_system (gcrs g) (gcrs h)).
Proof.
  intros S Cg Ch Rg Rh. unfold geom_eq. rewrite S. destruct (kind_eqb Multipoint (gkind h)) eqn:K; cbn [negb].
  2:{ exists false. split; [reflexivity|]. split; [discriminate|]. intros (E&_). rewrite E in K. discriminate. }
  apply kind_eqb_iff in K. destruct (List.length (gverts g) =? List.length (gverts h)) eqn:L; cbn [negb].
  2:{ exists false. split; [reflexivity|]. split; [discriminate|]. intros (_&E&_). apply one_path_length in E. apply Nat.eqb_neq in L. contradiction. }
  apply Nat.eqb_eq in L. destruct (arrays_equal_rank r _ _ Rg Rh) as (b&A). rewrite A.
  eexists. split; [reflexivity|].
  rewrite !andb_true_iff, (arrays_equal_iff _ _ _ L A), dict_eqb_iff, table_eqb_iff, (system_eqb_iff _ _ Cg Ch).
  split; [intros ((?&?)&?&?); auto|intros (?&?&?&?&?); auto].
Qed.
Lemma multipoints_rank (g h : geom) r s : gkind g = Multipoint -> gkind h = Multipoint -> r <> s -> gverts g <> [] ->
  List.length (gverts g) = List.length (gverts h) -> of_rank r (gverts g) -> of_rank s (gverts h) ->
  geom_eq veqb g h = Err ValueError.
Proof.
  intros Kg Kh N Ne L Rg Rh. unfold geom_eq. rewrite Kg, Kh. cbn [kind_eqb negb]. rewrite (proj2 (Nat.eqb_eq _ _) L). cbn [negb].
  unfold arrays_equal. destruct (gverts g) as [|a u]; [congruence|]. destruct (gverts h) as [|b v]; [discriminate L|].
  inversion Rg; inversion Rh; subst. now rewrite (proj2 (Nat.eqb_neq _ _) N).
Qed.

(* ---- an equivalence *)
Hypothesis EV : equivalence veqb.
Lemma one_number_sym x y : one_number x y -> one_number y x.
Proof. unfold one_number, number, zero. intros (N&[<-|((s&->)&(t&->))]); [auto|]. split; [discriminate|]. right. split; eexists; reflexivity. Qed.
Lemma one_number_trans x y z : one_number x y -> one_number y z -> one_number x z.
Proof. unfold one_number, zero. intros (N&[<-|(A&B)]) (M&[<-|(A'&B')]); auto. Qed.
Lemma Forall2_sym {A} (R : A -> A -> Prop) : (forall x y, R x y -> R y x) -> forall u v, Forall2 R u v -> Forall2 R v u.
Proof. intros H u v. induction 1; constructor; auto. Qed.
Lemma Forall2_trans {A} (R : A -> A -> Prop) : (forall x y z, R x y -> R y z -> R x z) ->
  forall u v w, Forall2 R u v -> Forall2 R v w -> Forall2 R u w.
Proof. intros H u v w U. revert w. induction U; intros w W; inversion W; subst; constructor; eauto. Qed.
Lemma Forall2_refl {A} (R : A -> A -> Prop) (l : list A) : (forall x, In x l -> R x x) -> Forall2 R l l.
Proof. induction l; intros H; constructor; [apply H; now left|apply IHl; intros x I; apply H; now right]. Qed.
Lemma one_path_sym u v : one_path u v -> one_path v u.
Proof. apply Forall2_sym, Forall2_sym, one_number_sym. Qed.
Lemma one_path_trans u v w : one_path u v -> one_path v w -> one_path u w.
Proof. apply Forall2_trans, Forall2_trans, one_number_trans. Qed.
Lemma one_vertex_refl u : Forall number u -> one_vertex u u.
Proof. intros H. rewrite Forall_forall in H. apply Forall2_refl. intros x I. split; auto. Qed.
Lemma one_path_refl u : no_nan u -> one_path u u.
Proof. intros H. unfold no_nan in H. rewrite Forall_forall in H. apply Forall2_refl. intros x I. apply one_vertex_refl; auto. Qed.
Lemma one_dict_refl d : one_dict veqb d d.
Proof. destruct EV as (E&_). intros k. unfold one_value. destruct (dict_get d k); auto. Qed.
Lemma one_dict_sym d e : one_dict veqb d e -> one_dict veqb e d.
Proof. destruct EV as (_&E&_). intros H k. specialize (H k). unfold one_value in *. destruct (dict_get d k), (dict_get e k); auto. Qed.
Lemma one_dict_trans d e f : one_dict veqb d e -> one_dict veqb e f -> one_dict veqb d f.
Proof.
  destruct EV as (_&_&E). intros H K k. specialize (H k). specialize (K k). unfold one_value in *.
  destruct (dict_get d k), (dict_get e k), (dict_get f k); try tauto. eauto.
Qed.
Lemma one_table_refl t : one_table veqb t t.
Proof. destruct EV as (E&_). split; [reflexivity|]. apply Forall2_refl. intros r _. apply Forall2_refl. auto. Qed.
Lemma one_table_sym t u : one_table veqb t u -> one_table veqb u t.
Proof. destruct EV as (_&E&_). intros (F&H). split; [auto|]. revert H. apply Forall2_sym, Forall2_sym. auto. Qed.
Lemma one_table_trans t u w : one_table veqb t u -> one_table veqb u w -> one_table veqb t w.
Proof.
  destruct EV as (_&_&E). intros (F&H) (G&K). split; [congruence|]. revert H K. apply Forall2_trans, Forall2_trans. eauto.
Qed.

Lemma points_refl (p : point) : Forall number (pvertex p) -> complete (pcrs p) -> point_eqb veqb p p = true.
Proof. intros N C. apply points_equal; auto using one_vertex_refl, one_dict_refl, one_system_refl. Qed.
Lemma points_sym (p q : point) : complete (pcrs p) -> complete (pcrs q) -> point_eqb veqb p q = point_eqb veqb q p.
Proof.
  intros Cp Cq. assert (H := points_equal p q Cp Cq). assert (K := points_equal q p Cq Cp).
  assert (X : point_eqb veqb p q = true <-> point_eqb veqb q p = true).
  { rewrite H, K. split; intros (?&?&?); (split; [now apply (Forall2_sym _ one_number_sym)|split; [now apply one_dict_sym|now apply one_system_sym]]). }
  destruct (point_eqb veqb p q), (point_eqb veqb q p); destruct X as (X&Y); try reflexivity; [now rewrite X|now rewrite Y].
Qed.
Lemma points_trans (p q r : point) : complete (pcrs p) -> complete (pcrs q) -> complete (pcrs r) ->
  one_class (pcrs p) (pcrs q) -> one_class (pcrs q) (pcrs r) ->
  point_eqb veqb p q = true -> point_eqb veqb q r = true -> point_eqb veqb p r = true.
Proof.
  intros Cp Cq Cr O1 O2. rewrite !points_equal by assumption. intros (A&B&D) (A'&B'&D').
  split; [exact (Forall2_trans _ one_number_trans _ _ _ A A')|split; [now apply one_dict_trans with (pprops q)|now apply one_system_trans with (pcrs q)]].
Qed.

(** One predicate for what a True answer says, of all kinds. *)
Definition same (g h : geom) : Prop :=
  gkind g = gkind h /\ one_path (gverts g) (gverts h) /\ (gkind g = Multipoint -> one_table veqb (gdata g) (gdata h)) /\
  one_dict veqb (gprops g) (gprops h) /\ one_system (gcrs g) (gcrs h).
Lemma geom_true (g h : geom) : complete (gcrs g) -> complete (gcrs h) ->
  (geom_eq veqb g h = Ok true <-> same g h).
Proof.
  intros Cg Ch. unfold same. destruct (gkind g) eqn:K.
  1,2: destruct (lines_equal g h) as (b&E&H); [unfold single; congruence|assumption|assumption|]; rewrite E, K in *;
    split; [intros [= ->]; destruct (proj1 H eq_refl) as (?&?&?&?); repeat split; try assumption; discriminate|intros (?&?&_&?&?); f_equal; tauto].
  split.
  - intros E. unfold geom_eq in E. rewrite K in E. destruct (kind_eqb Multipoint (gkind h)) eqn:K'; [|discriminate].
    apply kind_eqb_iff in K'. cbn [negb] in E. destruct (List.length (gverts g) =? List.length (gverts h)) eqn:L; [|discriminate].
    cbn [negb] in E. apply Nat.eqb_eq in L. destruct (arrays_equal (gverts g) (gverts h)) as [b|e] eqn:A; [|discriminate].
    injection E as E. rewrite !andb_true_iff, dict_eqb_iff, table_eqb_iff, (system_eqb_iff _ _ Cg Ch) in E.
    destruct E as ((->&T)&D&S). split; [assumption|]. split; [now apply (arrays_equal_iff _ _ _ L A)|]. split; [intros _; exact T|]. split; [exact D|exact S].
  - intros (Kh&P&T&D&S). specialize (T eq_refl). unfold geom_eq. rewrite K, <- Kh. cbn [kind_eqb negb].
    assert (L := one_path_length _ _ P). rewrite (proj2 (Nat.eqb_eq _ _) L). cbn [negb].
    destruct (arrays_equal (gverts g) (gverts h)) as [b|e] eqn:A; [|now apply (arrays_equal_err _ _ _ A) in P].
    f_equal. apply (arrays_equal_iff _ _ _ L A) in P. subst b. cbn [andb].
    apply table_eqb_iff in T. apply dict_eqb_iff in D. apply (system_eqb_iff _ _ Cg Ch) in S. now rewrite T, D, S.
Qed.
Lemma geom_refl (g : geom) : no_nan (gverts g) -> complete (gcrs g) -> geom_eq veqb g g = Ok true.
Proof.
  intros N C. apply geom_true; [assumption|assumption|]. unfold same.
  split; [reflexivity|]. split; [now apply one_path_refl|]. split; [intros _; apply one_table_refl|].
  split; [apply one_dict_refl|now apply one_system_refl].
Qed.
Lemma geom_sym (g h : geom) : complete (gcrs g) -> complete (gcrs h) -> geom_eq veqb g h = Ok true -> geom_eq veqb h g = Ok true.
Proof.
  intros Cg Ch. rewrite !geom_true by assumption. unfold same. intros (K&P&T&D&S).
  split; [auto|]. split; [now apply one_path_sym|]. split; [intros E; apply one_table_sym, T; congruence|]. split; [now apply one_dict_sym|now apply one_system_sym].
Qed.
Lemma geom_trans (g h k : geom) : complete (gcrs g) -> complete (gcrs h) -> complete (gcrs k) ->
  one_class (gcrs g) (gcrs h) -> one_class (gcrs h) (gcrs k) ->
  geom_eq veqb g h = Ok true -> geom_eq veqb h k = Ok true -> geom_eq veqb g k = Ok true.
Proof.
  intros Cg Ch Ck O1 O2. rewrite !geom_true by assumption. unfold same. intros (K&P&T&D&S) (K'&P'&T'&D'&S').
  split; [congruence|]. split; [now apply one_path_trans with (gverts h)|].
  split; [intros E; apply one_table_trans with (gdata h); [now apply T|apply T'; congruence]|].
  split; [now apply one_dict_trans with (gprops h)|now apply one_system_trans with (gcrs h)].
Qed.

(* ---- membership *)
Lemma contains_iff (vnone : val) (m : multi vertex val) c (q : point) : one_record_each m ->
  exists b, contains veqb m c q = Ok b /\
    (b = true <-> exists i p, getitem m i = Ok p /\ point_eqb veqb (mkPoint (mpart p) (mprops p) c) q = true).
Proof.
  intros W. destruct (iterate_ok _ _ vnone m W) as (ms&E&L&H). unfold contains. rewrite E. cbn [bind].
  eexists. split; [reflexivity|]. rewrite existsb_exists. split.
  - intros (p&I&X). apply In_nth_error in I as (i&Ei). assert (Lt : i < List.length (parts m)) by (rewrite <- L; apply nth_error_Some; congruence).
    destruct (H i Lt) as (p'&E1&E2). exists i, p. split; [congruence|exact X].
  - intros (i&p&E1&X). destruct (Nat.lt_ge_cases i (List.length (parts m))) as [Lt|Ge].
    + destruct (H i Lt) as (p'&E2&E3). exists p. split; [|exact X]. apply nth_error_In with i. congruence.
    + rewrite (getitem_out _ _ vnone m i W Ge) in E1. discriminate.
Qed.

(* ---- hashes *)
Lemma point_hash_equal hs ht (p q : point) : (forall u v, one_vertex u v -> ht u = ht v) ->
  complete (pcrs p) -> complete (pcrs q) -> system_str (pcrs p) = system_str (pcrs q) ->
  point_eqb veqb p q = true -> point_hash hs ht p = point_hash hs ht q.
Proof.
  intros H Cp Cq S E. apply (points_equal p q Cp Cq) in E as (V&_). unfold point_hash. now rewrite S, (H _ _ V).
Qed.
Lemma geom_hash_equal hs hb (g h : geom) : complete (gcrs g) -> complete (gcrs h) ->
  system_str (gcrs g) = system_str (gcrs h) ->
  (forall x, In x (concat (gverts g)) \/ In x (concat (gverts h)) -> x <> S754_zero true) ->
  geom_eq veqb g h = Ok true -> geom_hash hs hb g = geom_hash hs hb h.
Proof.
  intros Cg Ch S Z E. apply (geom_true g h Cg Ch) in E as (K&P&_). unfold geom_hash. rewrite K, S.
  replace (concat (gverts h)) with (concat (gverts g)); [reflexivity|].
  assert (F : Forall2 one_number (concat (gverts g)) (concat (gverts h))).
  { clear - P. induction P; cbn; [constructor|]. now apply Forall2_app. }
  revert Z F. generalize (concat (gverts g)) (concat (gverts h)). intros u v Z F. induction F as [|x y u v R F IH]; [reflexivity|].
  f_equal; [|apply IH; intros z I; apply Z; cbn; tauto].
  destruct R as (_&[E|((s&->)&(t&->))]); [exact E|].
  assert (Zs := Z (S754_zero s)). assert (Zt := Z (S754_zero t)). destruct s, t; try reflexivity; exfalso; [apply Zs|apply Zt]; cbn; auto.
Qed.
End Values.
