(** The sweep over longitudes: what its lists hold, and that it answers. *)
From Coq Require Import List ZArith Reals Bool Lra Lia Sorted Permutation Arith.
From Verif Require Import GeomR_Model Sphere_Model Sphere_Proofs Gsweep_Model Gsweep_Spec Gsweep_Geom.
Import ListNotations.
Open Scope R_scope.

Lemma seg_eqb_t : forall s t, seg_eqb s t = true <-> s = t.
Proof.
  intros [[a b] [c d] e] [[a' b'] [c' d'] e']. unfold seg_eqb. cbn [p0 p1 color fst snd]. rewrite !andb_true_iff, !req_t, eqb_true_iff.
  split; [intros ((((-> & ->) & ->) & ->) & ->); reflexivity|]. intros H. injection H. tauto.
Qed.
Lemma seg_eqb_refl : forall s, seg_eqb s s = true. Proof. intros. apply seg_eqb_t. reflexivity. Qed.
Lemma seg_eqb_f : forall s t, s <> t -> seg_eqb s t = false.
Proof. intros s t H. destruct (seg_eqb s t) eqn:E; [apply seg_eqb_t in E; contradiction|reflexivity]. Qed.

Definition xlo (s : seg) : R := fminr (fst (p0 s)) (fst (p1 s)).
Definition xhi (s : seg) : R := fmaxr (fst (p0 s)) (fst (p1 s)).
Definition nv (s : seg) : Prop := fst (p0 s) <> fst (p1 s).
Lemma nv_lohi : forall s, nv s -> xlo s < xhi s.
Proof. intros s H. unfold nv, xlo, xhi, fminr, fmaxr in *. destruct (Rle_dec _ _); lra. Qed.

(* ---- positions in lists *)
Lemma index_split : forall pre s post, ~ In s pre -> index (pre ++ s :: post) s = Some (length pre).
Proof.
  induction pre as [|t pre IH]; intros s post N; cbn [app index].
  - rewrite seg_eqb_refl. reflexivity.
  - rewrite seg_eqb_f by (intros ->; apply N; left; reflexivity). rewrite IH; [reflexivity|]. intros I. apply N. right. exact I.
Qed.
Lemma remove_split : forall pre s post, ~ In s pre -> remove (pre ++ s :: post) s = Some (pre ++ post).
Proof.
  intros pre s post N. unfold remove. rewrite index_split by exact N. f_equal. f_equal.
  - rewrite firstn_app, Nat.sub_diag, firstn_all. cbn [firstn]. apply app_nil_r.
  - replace (S (length pre)) with (length (pre ++ [s])) by (rewrite app_length; cbn; lia).
    replace (pre ++ s :: post) with ((pre ++ [s]) ++ post) by (rewrite <- app_assoc; reflexivity).
    rewrite skipn_app, Nat.sub_diag, skipn_all. reflexivity.
Qed.
Lemma rightof_split : forall pre s post, ~ In s pre -> rightof (pre ++ s :: post) s = Some (hd_error post).
Proof.
  intros pre s post N. unfold rightof. rewrite index_split by exact N. f_equal.
  rewrite nth_error_app2 by lia. replace (S (length pre) - length pre)%nat with 1%nat by lia. cbn [nth_error]. destruct post; reflexivity.
Qed.
Lemma exists_last_or : forall {A} (l : list A), l = [] \/ exists l' a, l = l' ++ [a].
Proof. intros A l. destruct l as [|a l]; [left; reflexivity|right]. destruct (@exists_last A (a :: l)) as (l' & b & E); [discriminate|]. eauto. Qed.
Lemma leftof_split : forall pre s post, ~ In s pre -> leftof (pre ++ s :: post) s = Some (hd_error (rev pre)).
Proof.
  intros pre s post N. unfold leftof. rewrite index_split by exact N.
  destruct (exists_last_or pre) as [-> |(pre' & t & ->)]; [reflexivity|].
  rewrite app_length. cbn [length]. replace (length pre' + 1)%nat with (S (length pre')) by lia. rewrite rev_unit. cbn [hd_error]. f_equal.
  rewrite <- app_assoc. rewrite nth_error_app2 by lia. rewrite Nat.sub_diag. reflexivity.
Qed.
Lemma split_unique : forall (pre : list seg) s post a b, pre ++ s :: post = a ++ s :: b -> ~ In s pre -> ~ In s a -> pre = a /\ post = b.
Proof.
  induction pre as [|t pre IH]; intros s post a b H N1 N2.
  - destruct a as [|u a]; cbn [app] in H; [injection H as ->; auto|]. injection H as -> H. exfalso. apply N2. left. reflexivity.
  - destruct a as [|u a]; cbn [app] in H; injection H as -> H; [exfalso; apply N1; left; reflexivity|].
    destruct (IH s post a b H) as [-> ->]; [intros I; apply N1; right; exact I|intros I; apply N2; right; exact I|auto].
Qed.
(* ---- the neighbours of a segment that ends *)
Definition kept (E : list seg) (t : seg) : bool := negb (existsb (seg_eqb t) E).
Lemma kept_t : forall E t, kept E t = true <-> ~ In t E.
Proof.
  intros E t. unfold kept. rewrite negb_true_iff. split.
  - intros H I. assert (existsb (seg_eqb t) E = true); [|congruence]. apply existsb_exists. exists t. split; [exact I|apply seg_eqb_refl].
  - intros H. destruct (existsb (seg_eqb t) E) eqn:X; [|reflexivity]. apply existsb_exists in X. destruct X as (u & I & Q). apply seg_eqb_t in Q. subst u. contradiction.
Qed.
Lemma skip_right : forall post fuel pre s E, NoDup (pre ++ s :: post) -> (length post + 1 < fuel)%nat ->
  skip_ending fuel (rightof (pre ++ s :: post)) E (Some s) = Ret (find (kept E) (s :: post)).
Proof.
  induction post as [|t post IH]; intros fuel pre s E N F; (destruct fuel as [|fuel]; [lia|]); cbn [skip_ending find];
    (assert (NP : ~ In s pre) by (apply NoDup_remove_2 in N; intros I; apply N, in_or_app; left; exact I)); unfold kept at 1; destruct (existsb (seg_eqb s) E); cbn [negb]; try reflexivity; rewrite rightof_split by exact NP; cbn [hd_error].
  - destruct fuel; [cbn in F; lia|]. reflexivity.
  - replace (pre ++ s :: t :: post) with ((pre ++ [s]) ++ t :: post) in * by (rewrite <- app_assoc; reflexivity). apply IH; [exact N|]. cbn in F. lia.
Qed.
Lemma skip_left : forall rpre fuel pre s post E, rpre = rev pre -> NoDup (pre ++ s :: post) -> (length pre + 1 < fuel)%nat ->
  skip_ending fuel (leftof (pre ++ s :: post)) E (Some s) = Ret (find (kept E) (s :: rpre)).
Proof.
  induction rpre as [|t rpre IH]; intros fuel pre s post E RV N F; (destruct fuel as [|fuel]; [lia|]); cbn [skip_ending find];
    (assert (NP : ~ In s pre) by (apply NoDup_remove_2 in N; intros I; apply N, in_or_app; left; exact I)); unfold kept at 1; destruct (existsb (seg_eqb s) E); cbn [negb]; try reflexivity; rewrite leftof_split by exact NP; rewrite <- RV; cbn [hd_error].
  - destruct fuel; [lia|]. reflexivity.
  - assert (PE : pre = rev rpre ++ [t]). { rewrite <- (rev_involutive pre), <- RV. reflexivity. }
    subst pre. rewrite <- app_assoc in *. cbn [app] in *. apply IH; [rewrite rev_involutive; reflexivity|exact N|]. rewrite app_length in F. cbn in F. lia.
Qed.
(** [t] comes after [s]. *)
Definition before (q : list seg) (s t : seg) : Prop := exists a b c, q = a ++ s :: b ++ t :: c.
Lemma before_remove : forall pre s post t u, before (pre ++ post) t u -> before (pre ++ s :: post) t u.
Proof.
  intros pre s post t u (a & b & c & E).
  apply app_eq_app in E. destruct E as (l & [(E1 & E2)|(E1 & E2)]).
  - (* pre = a ++ l *) subst pre. destruct l as [|x l].
    + cbn [app] in E2. subst post. exists (a ++ [s]), b, c. rewrite ?app_nil_r. repeat first [rewrite <- app_assoc | progress cbn [app]]. reflexivity.
    + cbn [app] in E2. injection E2 as <- E2. apply app_eq_app in E2. destruct E2 as (l' & [(F1 & F2)|(F1 & F2)]).
      * (* b = l ++ l' *) subst. exists a, (l ++ s :: l'), c. repeat first [rewrite <- app_assoc | progress cbn [app]]. reflexivity.
      * subst l. destruct l' as [|y l'].
        -- cbn [app] in F2. subst post. exists a, (b ++ [s]), c. rewrite ?app_nil_r. repeat first [rewrite <- app_assoc | progress cbn [app]]. reflexivity.
        -- cbn [app] in F2. injection F2 as <- F2. subst c. exists a, b, (l' ++ s :: post). repeat first [rewrite <- app_assoc | progress cbn [app]]. reflexivity.
  - (* a = pre ++ l *) subst. exists (pre ++ s :: l), b, c. repeat first [rewrite <- app_assoc | progress cbn [app]]. reflexivity.
Qed.
Lemma find_split : forall (f : seg -> bool) l t, find f l = Some t -> f t = true /\ exists a c, l = a ++ t :: c.
Proof.
  induction l as [|u l IH]; intros t H; cbn [find] in H; [discriminate|]. destruct (f u) eqn:E.
  - injection H as <-. split; [exact E|]. exists [], l. reflexivity.
  - destruct (IH t H) as (A & a & c & ->). split; [exact A|]. exists (u :: a), c. reflexivity.
Qed.
Lemma find_right : forall E s post pre t, In s E -> find (kept E) (s :: post) = Some t -> ~ In t E /\ before (pre ++ s :: post) s t.
Proof.
  intros E s post pre t I H. cbn [find] in H. destruct (kept E s) eqn:K; [apply kept_t in K; contradiction|].
  apply find_split in H. destruct H as (A & a & c & ->). split; [apply kept_t; exact A|]. exists pre, a, c. reflexivity.
Qed.
Definition neighbour (E q1 : list seg) (s : seg) (p : option seg * option seg) : Prop :=
  forall r, snd p = Some r -> ~ In r E /\ before q1 s r.
(** Removal of the segments that end. *)
Lemma end_segments_ok : forall E q1 todo q, NoDup q -> (forall t u, before q t u -> before q1 t u) -> NoDup todo -> (forall s, In s todo -> In s q /\ In s E) ->
  exists q' nb, (forall fuel, (length q + 1 < fuel)%nat -> end_segments fuel E todo q = Ret (q', nb)) /\ NoDup q' /\ (forall t, In t q' <-> In t q /\ ~ In t todo) /\
    (forall t u, before q' t u -> before q1 t u) /\ Forall2 (neighbour E q1) todo nb.
Proof.
  intros E q1. induction todo as [|s todo IH]; intros q N BF NT IT; cbn [end_segments].
  - exists q, []. split; [intros; reflexivity|]. split; [exact N|]. split; [intros t; cbn [In]; tauto|]. split; [exact BF|constructor].
  - destruct (IT s (or_introl eq_refl)) as [Iq IE]. destruct (in_split s q Iq) as (pre & post & ->).
    assert (NP : ~ In s pre) by (apply NoDup_remove_2 in N; intros I; apply N, in_or_app; left; exact I).
    assert (NQ : ~ In s (pre ++ post)) by (apply NoDup_remove_2 in N; exact N).
    inversion NT as [|? ? NS NT']; subst.
    destruct (IH (pre ++ post)) as (q' & nb & EQ & N' & I' & B' & FA).
    + apply NoDup_remove_1 in N. exact N.
    + intros t u B. apply BF, before_remove, B.
    + exact NT'.
    + intros t I. destruct (IT t (or_intror I)) as [A B]. split; [|exact B]. apply in_app_or in A. apply in_or_app. destruct A as [A|[A|A]]; auto. subst t. contradiction.
    + eexists _, _. split.
      { intros fuel F. rewrite (skip_left (rev pre) fuel pre s post E eq_refl N) by (rewrite app_length in F; cbn in F; lia).
        rewrite (skip_right post fuel pre s E N) by (rewrite app_length in F; cbn in F; lia). cbn [obind].
        rewrite remove_split by exact NP. rewrite EQ by (rewrite app_length in *; cbn in F; lia). reflexivity. }
      split; [exact N'|]. split; [|split; [exact B'|]].
      * intros t. rewrite I'. cbn [In]. rewrite !in_app_iff. cbn [In]. split.
        -- intros [A B]. split; [tauto|]. intros [-> |C]; [apply NQ, in_or_app; exact A|contradiction].
        -- intros [A B]. split; [|tauto]. destruct A as [A|[A|A]]; auto. exfalso. apply B. left. exact A.
      * constructor; [|exact FA]. intros r R. cbn [snd] in R. destruct (find_right E s post pre r IE R) as [A B]. split; [exact A|]. apply BF, B.
Qed.

(* ---- events *)
Definition sortedx (q : list event) : Prop := StronglySorted (fun e f => ex e <= ex f) q.
Lemma push_perm : forall e q, Permutation (e :: q) (push e q).
Proof.
  induction q as [|t q IH]; cbn [push]; [reflexivity|]. destruct (ev_cmp e t); try reflexivity.
  rewrite perm_swap. constructor. exact IH.
Qed.
Lemma rcmp_spec : forall a b, (rcmp a b = Lt /\ a < b) \/ (rcmp a b = Eq /\ a = b) \/ (rcmp a b = Gt /\ b < a).
Proof.
  intros a b. unfold rcmp. destruct (rlt a b) eqn:E; [apply rlt_t in E; auto|]. apply rlt_f in E.
  destruct (rlt b a) eqn:G; [apply rlt_t in G; auto|]. apply rlt_f in G. right. left. split; [reflexivity|lra].
Qed.
Lemma push_sorted : forall e q, sortedx q -> sortedx (push e q).
Proof.
  unfold sortedx. induction q as [|t q IH]; intros H; cbn [push].
  - constructor; constructor.
  - assert (HT := H). inversion H as [|? ? H1 H2]; subst. rewrite Forall_forall in H2.
    assert (LE : ex e <= ex t -> StronglySorted (fun e0 f => ex e0 <= ex f) (e :: t :: q)).
    { intros L. constructor; [exact HT|]. apply Forall_forall. intros d [<- |I]; [exact L|]. specialize (H2 d I). cbn beta in H2. lra. }
    assert (GE : ex t <= ex e -> StronglySorted (fun e0 f => ex e0 <= ex f) (t :: push e q)).
    { intros L. constructor; [apply IH, H1|]. apply Forall_forall. intros d I. apply (Permutation_in d (Permutation_sym (push_perm e q))) in I.
      destruct I as [<- |I]; [exact L|apply H2, I]. }
    unfold ev_cmp. destruct (rcmp_spec (ex e) (ex t)) as [[-> L]|[[-> L]|[-> L]]]; cbn [lex].
    + apply LE. lra.
    + destruct (seg_cmp (eseg e) (eseg t)); [apply LE|apply LE|apply GE]; lra.
    + apply GE. lra.
Qed.
Lemma events_fold : forall es q, sortedx q ->
  sortedx (fold_left (fun q e => push e q) es q) /\ Permutation (es ++ q) (fold_left (fun q e => push e q) es q).
Proof.
  induction es as [|e es IH]; intros q H; cbn [fold_left app]; [split; [exact H|reflexivity]|].
  destruct (IH (push e q) (push_sorted e q H)) as [A B]. split; [exact A|]. rewrite <- B. rewrite <- push_perm. apply Permutation_middle.
Qed.
Lemma events_ok : forall ss, sortedx (events ss) /\ Permutation (flat_map seg_events ss) (events ss).
Proof. intros ss. unfold events. destruct (events_fold (flat_map seg_events ss) [] (SSorted_nil _)) as [A B]. rewrite app_nil_r in B. auto. Qed.
Definition good_event (e : event) : Prop :=
  match ekind e with
  | Left => nv (eseg e) /\ ex e = xlo (eseg e)
  | Right => nv (eseg e) /\ ex e = xhi (eseg e)
  | Bottom | Top => ~ nv (eseg e) /\ ex e = fst (p0 (eseg e))
  end.
Lemma lohi_lt : forall s, fst (p0 s) < fst (p1 s) -> xlo s = fst (p0 s) /\ xhi s = fst (p1 s).
Proof. intros s H. unfold xlo, xhi, fminr, fmaxr. destruct (Rle_dec _ _); lra. Qed.
Lemma lohi_gt : forall s, fst (p1 s) < fst (p0 s) -> xlo s = fst (p1 s) /\ xhi s = fst (p0 s).
Proof. intros s H. unfold xlo, xhi, fminr, fmaxr. destruct (Rle_dec _ _); lra. Qed.
(** The events of a segment are those. *)
Lemma seg_events_iff : forall s e, In e (seg_events s) <-> good_event e /\ eseg e = s.
Proof.
  intros s [x k t]. unfold seg_events, good_event. cbn [ekind ex eseg].
  destruct (req (fst (p0 s)) (fst (p1 s))) eqn:V; [apply req_t in V|apply req_f in V].
  - assert (S : In (mkEv x k t) (if rlt (snd (p0 s)) (snd (p1 s)) then [mkEv (fst (p0 s)) Bottom s; mkEv (fst (p0 s)) Top s] else [mkEv (fst (p0 s)) Top s; mkEv (fst (p0 s)) Bottom s]) <-> (k = Bottom \/ k = Top) /\ x = fst (p0 s) /\ t = s).
    { destruct (rlt _ _); cbn [In]; (split; [intros [G|[G|[]]]; injection G as <- <- <-; auto|intros [[-> | ->] [-> ->]]; auto]). }
    rewrite S. clear S. destruct k; split.
    + intros [[G|G] _]; discriminate.
    + intros [[G _] ->]. unfold nv in G. contradiction.
    + intros [[G|G] _]; discriminate.
    + intros [[G _] ->]. unfold nv in G. contradiction.
    + intros (_ & -> & ->). unfold nv. split; [split; [tauto|reflexivity]|reflexivity].
    + intros [[_ ->] ->]. auto.
    + intros (_ & -> & ->). unfold nv. split; [split; [tauto|reflexivity]|reflexivity].
    + intros [[_ ->] ->]. auto.
  - assert (S : In (mkEv x k t) (if rlt (fst (p0 s)) (fst (p1 s)) then [mkEv (fst (p0 s)) Left s; mkEv (fst (p1 s)) Right s] else [mkEv (fst (p1 s)) Left s; mkEv (fst (p0 s)) Right s]) <-> ((k = Left /\ x = xlo s) \/ (k = Right /\ x = xhi s)) /\ t = s).
    { destruct (rlt _ _) eqn:L; [apply rlt_t in L; destruct (lohi_lt s L) as [-> ->]|apply rlt_f in L; destruct (lohi_gt s ltac:(lra)) as [-> ->]];
      cbn [In]; (split; [intros [G|[G|[]]]; injection G as <- <- <-; auto|intros [[[-> ->]|[-> ->]] ->]; auto]). }
    rewrite S. clear S. destruct k; split.
    + intros [[[_ ->]|[G _]] ->]; [|discriminate]. auto.
    + intros [[_ ->] ->]. auto.
    + intros [[[G _]|[_ ->]] ->]; [discriminate|]. auto.
    + intros [[_ ->] ->]. auto.
    + intros [[[G _]|[G _]] _]; discriminate.
    + intros [[G _] ->]. contradiction.
    + intros [[[G _]|[G _]] _]; discriminate.
    + intros [[G _] ->]. contradiction.
Qed.
Lemma seg_events_nodup : forall s, NoDup (seg_events s).
Proof.
  intros s. unfold seg_events. destruct (req _ _); destruct (rlt _ _); (constructor; [intros [G|[]]; discriminate|constructor; [intros []|constructor]]).
Qed.
Lemma flat_nodup : forall ss, NoDup ss -> NoDup (flat_map seg_events ss).
Proof.
  induction ss as [|s ss IH]; intros N; cbn [flat_map]; [constructor|]. inversion N as [|? ? A B]; subst.
  assert (D : forall a, In a (seg_events s) -> ~ In a (flat_map seg_events ss)).
  { intros a I J. apply in_flat_map in J. destruct J as (t & T & J). apply seg_events_iff in I, J. destruct I as [_ I], J as [_ J]. subst s. subst t. contradiction. }
  specialize (IH B). revert D. pose proof (seg_events_nodup s) as NS. induction NS as [|e l NE NL IHl]; intros D; cbn [app]; [exact IH|].
  constructor; [|apply IHl; intros a I; apply D; right; exact I]. intros I. apply in_app_or in I. destruct I as [I|I]; [contradiction|]. apply (D e); [left; reflexivity|exact I].
Qed.
Lemma take_same_spec : forall x q g r, take_same x q = (g, r) -> sortedx q -> (forall e, In e q -> x <= ex e) ->
  q = g ++ r /\ (forall e, In e g -> ex e = x) /\ (forall e, In e r -> x < ex e) /\ sortedx r.
Proof.
  induction q as [|f q IH]; intros g r H S L; cbn [take_same] in H.
  - injection H as <- <-. split; [reflexivity|]. split; [intros e []|]. split; [intros e []|constructor].
  - inversion S as [|? ? S1 S2]; subst. destruct (req x (ex f)) eqn:E.
    + apply req_t in E. destruct (take_same x q) as [g' r'] eqn:T. injection H as <- <-.
      destruct (IH g' r' eq_refl S1 ltac:(intros e I; apply L; right; exact I)) as (A & B & C & D). subst q.
      split; [reflexivity|]. split; [|auto]. intros e [<- |I]; [symmetry; exact E|auto].
    + apply req_f in E. injection H as <- <-. split; [reflexivity|]. split; [intros e []|]. split; [|exact S].
      assert (X : x < ex f). { pose proof (L f (or_introl eq_refl)). lra. }
      intros e [<- |I]; [exact X|]. rewrite Forall_forall in S2. specialize (S2 e I). cbn beta in S2. lra.
Qed.

Lemma NoDup_app_l : forall {A} (a b : list A), NoDup (a ++ b) -> NoDup a.
Proof.
  intros A a b. induction a as [|x a IH]; intros H; [constructor|]. cbn [app] in H. inversion H; subst. constructor; [|apply IH; assumption].
  intros I. apply H2, in_or_app. left. exact I.
Qed.
Lemma NoDup_app_r : forall {A} (a b : list A), NoDup (a ++ b) -> NoDup b.
Proof. intros A a b. induction a as [|x a IH]; intros H; [exact H|]. cbn [app] in H. inversion H; subst. apply IH. assumption. Qed.
Lemma NoDup_app_intro : forall {A} (a b : list A), NoDup a -> NoDup b -> (forall x, In x a -> ~ In x b) -> NoDup (a ++ b).
Proof.
  intros A a b Na Nb D. induction Na as [|x a NI Na IH]; [exact Nb|]. cbn [app]. constructor.
  - intros I. apply in_app_or in I. destruct I as [I|I]; [contradiction|]. apply (D x); [left; reflexivity|exact I].
  - apply IH. intros y I. apply D. right. exact I.
Qed.
Lemma NoDup_map_inj : forall {A B} (f : A -> B) l, (forall x y, In x l -> In y l -> f x = f y -> x = y) -> NoDup l -> NoDup (map f l).
Proof.
  intros A B f l. induction l as [|x l IH]; intros J N; cbn [map]; [constructor|]. inversion N; subst. constructor.
  - intros I. apply in_map_iff in I. destruct I as (y & E & I). assert (x = y); [|subst; contradiction]. apply J; [left; reflexivity|right; exact I|symmetry; exact E].
  - apply IH; [|assumption]. intros y z Iy Iz. apply J; right; assumption.
Qed.
(* ---- the loop *)
Section Loop.
Variable height : seg -> R -> option R.
Lemma insert_perm : forall s x q, Permutation (s :: q) (sweep_insert height q s x).
Proof. induction q as [|t q IH]; cbn [sweep_insert]; [reflexivity|]. destruct (goes_on height t s x); [|reflexivity]. rewrite perm_swap. constructor. exact IH. Qed.
Lemma enter_perm : forall evs q, Permutation (map eseg (filter (of_kind Left) evs) ++ q) (enter height evs q).
Proof.
  induction evs as [|e evs IH]; intros q; unfold enter in *; cbn [fold_left filter]; [reflexivity|].
  destruct (of_kind Left e); cbn [map app]; rewrite <- IH; [|reflexivity]. rewrite <- insert_perm. apply Permutation_middle.
Qed.
Variable ss : list seg.
Hypothesis ND : NoDup ss.
(** The queue holds what is to come, the sweep line what is open. *)
Record Inv (x0 : R) (queue : list event) (q : list seg) : Prop := {
  i_sort : sortedx queue;
  i_nodup : NoDup queue;
  i_queue : forall e, In e queue <-> In (eseg e) ss /\ good_event e /\ x0 < ex e;
  i_qn : NoDup q;
  i_q : forall s, In s q <-> In s ss /\ nv s /\ xlo s <= x0 < xhi s }.
Lemma left_kind : forall k e, of_kind k e = true <-> ekind e = k.
Proof. intros k [x k' s]. destruct k, k'; cbn; split; intros H; try discriminate; reflexivity. Qed.
(** What is found when the answer is True at one position. *)
Definition hit (x : R) : Prop :=
  (exists q' s t, NoDup q' /\ (forall u, In u q' <-> In u ss /\ nv u /\ xlo u <= x < xhi u) /\ In s q' /\ In t q' /\ s <> t /\ xlo s = x /\ intersects2 t s = true) \/
  (exists evs q s r, NoDup (enter height evs q) /\ (forall u, In u q -> In u ss /\ nv u /\ xlo u < x <= xhi u) /\ In s q /\ (forall u, In u (enter height evs q) -> In u ss /\ nv u /\ xlo u <= x <= xhi u) /\
     before (enter height evs q) s r /\ xhi s = x /\ xhi r <> x /\ intersects2 r s = true) \/
  (exists q' s, (forall u, In u q' -> In u ss /\ nv u /\ xlo u <= x < xhi u) /\ In s ss /\ ~ nv s /\ fst (p0 s) = x /\ crosses_vertical q' s = true).
(** Neighbours in a list. *)
Definition adj (q : list seg) (s t : seg) : Prop := exists a b, q = a ++ s :: t :: b \/ q = a ++ t :: s :: b.
(** What was tested when the answer is not given at one position. *)
Definition miss (x : R) : Prop := exists q', NoDup q' /\ (forall u, In u q' <-> In u ss /\ nv u /\ xlo u <= x < xhi u) /\
  (forall s t, In s q' -> xlo s = x -> adj q' s t -> intersects2 t s = false) /\
  (forall s, In s ss -> ~ nv s -> fst (p0 s) = x -> crosses_vertical q' s = false).
Section Check.
Variables (x : R) (q' q1 : list seg) (E : list seg).
Hypothesis ND' : NoDup q'.
Hypothesis LEFT : forall s, xlo s = x -> In s ss -> nv s -> In s q'.
Lemma check_ok : forall evs nb, (forall e, In e evs -> In (eseg e) ss /\ good_event e /\ ex e = x) ->
  Forall2 (neighbour E q1) (endings evs) nb ->
  exists b, check q' evs nb = Ret b /\
   (b = true -> (exists s t, In s q' /\ In t q' /\ s <> t /\ xlo s = x /\ intersects2 t s = true) \/
                (exists s r, In s (endings evs) /\ ~ In r E /\ before q1 s r /\ intersects2 r s = true) \/
                (exists s, In s ss /\ ~ nv s /\ fst (p0 s) = x /\ crosses_vertical q' s = true)) /\
   (b = false -> (forall s t, In (mkEv x Left s) evs -> adj q' s t -> intersects2 t s = false) /\
                 (forall s, In (mkEv x Bottom s) evs -> crosses_vertical q' s = false)).
Proof.
  induction evs as [|e evs IH]; intros nb HE FA; cbn [check].
  - exists false. split; [reflexivity|]. split; [discriminate|]. intros _. split; [intros s t []|intros s []].
  - destruct (HE e (or_introl eq_refl)) as (IS & G & X). destruct e as [ex_ k s]. cbn [eseg ex ekind] in *. subst ex_. unfold good_event in G. cbn [ekind eseg ex] in G.
    assert (HE' : forall e, In e evs -> In (eseg e) ss /\ good_event e /\ ex e = x) by (intros e I; apply HE; right; exact I).
    assert (PASS : forall nb', Forall2 (neighbour E q1) (endings evs) nb' -> (k = Left -> forall t, adj q' s t -> intersects2 t s = false) -> (k = Bottom -> crosses_vertical q' s = false) ->
      exists b, check q' evs nb' = Ret b /\
       (b = true -> (exists s t, In s q' /\ In t q' /\ s <> t /\ xlo s = x /\ intersects2 t s = true) \/
                    (exists s0 r, In s0 (endings (mkEv x k s :: evs)) /\ ~ In r E /\ before q1 s0 r /\ intersects2 r s0 = true) \/
                    (exists s, In s ss /\ ~ nv s /\ fst (p0 s) = x /\ crosses_vertical q' s = true)) /\
       (b = false -> (forall s0 t, In (mkEv x Left s0) (mkEv x k s :: evs) -> adj q' s0 t -> intersects2 t s0 = false) /\
                     (forall s0, In (mkEv x Bottom s0) (mkEv x k s :: evs) -> crosses_vertical q' s0 = false))).
    { intros nb' FA' P1 P2. destruct (IH nb' HE' FA') as (b & C & T & F). exists b. split; [exact C|]. split.
      - intros B. destruct (T B) as [H|[(s0 & r & A & H)|H]]; auto. right. left. exists s0, r. split; [|exact H].
        unfold endings in *. cbn [filter]. destruct (of_kind Right (mkEv x k s)); [right|]; exact A.
      - intros B. destruct (F B) as [F1 F2]. split.
        + intros s0 t [H|H]; [injection H as -> ->; auto|auto].
        + intros s0 [H|H]; [injection H as -> ->; auto|auto]. }
    cbn [eseg ekind]. destruct k.
    + destruct G as [NVs XL]. assert (Is : In s q') by (apply LEFT; auto). destruct (in_split s q' Is) as (pre & post & EQ). rewrite EQ in ND'.
      assert (NP : ~ In s pre) by (apply NoDup_remove_2 in ND'; intros I; apply ND', in_or_app; left; exact I).
      pose proof (NoDup_remove_2 _ _ _ ND') as NQ.
      assert (LO : leftof q' s = Some (hd_error (rev pre))) by (rewrite EQ; apply leftof_split; exact NP).
      assert (RO : rightof q' s = Some (hd_error post)) by (rewrite EQ; apply rightof_split; exact NP).
      rewrite LO, RO. clear LO RO.
      assert (ADJ : forall t, adj q' s t -> hd_error (rev pre) = Some t \/ hd_error post = Some t).
      { intros t (a & b & [H|H]).
        - rewrite EQ in H. right. assert (pre = a /\ post = t :: b) as [-> ->]; [|reflexivity].
          apply (split_unique pre s post a (t :: b)); [exact H|exact NP|]. intros I. rewrite H in ND'. apply NoDup_remove_2 in ND'. apply ND', in_or_app. left. exact I.
        - rewrite EQ in H. left. assert (pre = a ++ [t] /\ post = b) as [-> ->]; [|rewrite rev_unit; reflexivity].
          apply (split_unique pre s post (a ++ [t]) b); [rewrite <- app_assoc; exact H|exact NP|]. intros I. replace (a ++ t :: s :: b) with ((a ++ [t]) ++ s :: b) in H by (rewrite <- app_assoc; reflexivity).
          rewrite H in ND'. apply NoDup_remove_2 in ND'. apply ND', in_or_app. left. exact I. }
      assert (MEM : forall t, hd_error (rev pre) = Some t \/ hd_error post = Some t -> In t q' /\ s <> t).
      { intros t H. assert (I : In t (pre ++ post)).
        { apply in_or_app. destruct H as [H|H]; [left; apply in_rev; destruct (rev pre)|right; destruct post]; try discriminate; injection H as ->; left; reflexivity. }
        split; [rewrite EQ; apply in_app_or in I; apply in_or_app; destruct I; [left|right; right]; assumption|]. intros ->. contradiction. }
      destruct (match hd_error (rev pre) with Some t => intersects2 t s | None => false end) eqn:L1.
      { exists true. split; [reflexivity|]. split; [|discriminate]. intros _. left. destruct (hd_error (rev pre)) as [t|]; [|discriminate].
        destruct (MEM t (or_introl eq_refl)) as [I NE]. exists s, t. auto. }
      destruct (match hd_error post with Some t => intersects2 t s | None => false end) eqn:L2.
      { exists true. split; [reflexivity|]. split; [|discriminate]. intros _. left. destruct (hd_error post) as [t|]; [|discriminate].
        destruct (MEM t (or_intror eq_refl)) as [I NE]. exists s, t. auto. }
      apply PASS; [exact FA| |discriminate]. intros _ t H. apply ADJ in H. destruct H as [H|H]; rewrite H in *; assumption.
    + unfold endings in FA. cbn [filter of_kind ekind map] in FA. inversion FA as [|? p ? nb' NB FA']; subst.
      destruct p as [[l|] [r|]]; try (apply PASS; [exact FA'|discriminate|discriminate]).
      destruct (intersects2 r s) eqn:I2; [|apply PASS; [exact FA'|discriminate|discriminate]].
      exists true. split; [reflexivity|]. split; [|discriminate]. intros _. right. left. destruct (NB r eq_refl) as [A B]. exists s, r.
      split; [left; reflexivity|]. auto.
    + destruct (crosses_vertical q' s) eqn:CV; [|apply PASS; [exact FA|discriminate|intros _; reflexivity]].
      exists true. split; [reflexivity|]. split; [|discriminate]. intros _. right. right. exists s. destruct G as [G1 G2]. auto.
    + apply PASS; [exact FA|discriminate|discriminate].
Qed.
End Check.
(** One turn. *)
Lemma turn : forall x0 e queue q evs rest, Inv x0 (e :: queue) q -> take_same (ex e) (e :: queue) = (evs, rest) ->
  exists q' nb b, (forall fuel, (length ss + 1 < fuel)%nat -> end_segments fuel (endings evs) (endings evs) (enter height evs q) = Ret (q', nb)) /\ check q' evs nb = Ret b /\
    (b = true -> hit (ex e)) /\ (b = false -> miss (ex e)) /\ Inv (ex e) rest q' /\ e :: queue = evs ++ rest /\ x0 < ex e /\ evs <> [].
Proof.
  intros x0 e queue q evs rest [SO NQ IQ NS IS] TS. set (x := ex e) in *.
  assert (LX : forall d, In d (e :: queue) -> x <= ex d).
  { intros d [<- |I]; [unfold x; lra|]. inversion SO as [|? ? _ H]; subst. rewrite Forall_forall in H. exact (H d I). }
  destruct (take_same_spec x _ _ _ TS SO LX) as (EQ & GX & RX & SR).
  assert (X0 : x0 < x) by (apply (IQ e); left; reflexivity).
  assert (IE : forall d, In d evs <-> In (eseg d) ss /\ good_event d /\ ex d = x).
  { intros d. split.
    - intros I. assert (J : In d (e :: queue)) by (rewrite EQ; apply in_or_app; left; exact I). apply IQ in J. destruct J as (A & B & _). auto.
    - intros (A & B & C). assert (J : In d (e :: queue)) by (apply IQ; split; [exact A|split; [exact B|rewrite C; exact X0]]). rewrite EQ in J. apply in_app_or in J.
      destruct J as [J|J]; [exact J|]. apply RX in J. lra. }
  assert (NE : NoDup evs) by (rewrite EQ in NQ; apply NoDup_app_l in NQ; exact NQ).
  (* no event lies between *)
  assert (GAP : forall d, In (eseg d) ss -> good_event d -> x0 < ex d -> x <= ex d).
  { intros d A B C. apply LX, IQ. auto. }
  assert (LOX : forall s, In s ss -> nv s -> x0 < xlo s -> x <= xlo s) by (intros s A B C; apply (GAP (mkEv (xlo s) Left s)); [exact A|split; [exact B|reflexivity]|exact C]).
  assert (HIX : forall s, In s ss -> nv s -> x0 < xhi s -> x <= xhi s) by (intros s A B C; apply (GAP (mkEv (xhi s) Right s)); [exact A|split; [exact B|reflexivity]|exact C]).
  assert (IL : forall s, In s (map eseg (filter (of_kind Left) evs)) <-> In s ss /\ nv s /\ xlo s = x).
  { intros s. rewrite in_map_iff. split.
    - intros (d & <- & I). apply filter_In in I. destruct I as [I K]. apply left_kind in K. apply IE in I. destruct I as (A & B & C). unfold good_event in B. rewrite K in B. destruct B as [B1 B2]. split; [exact A|]. split; [exact B1|lra].
    - intros (A & B & C). exists (mkEv x Left s). split; [reflexivity|]. apply filter_In. split; [|reflexivity]. apply IE. cbn. split; [exact A|]. split; [split; [exact B|symmetry; exact C]|reflexivity]. }
  assert (IR : forall s, In s (endings evs) <-> In s ss /\ nv s /\ xhi s = x).
  { intros s. unfold endings. rewrite in_map_iff. split.
    - intros (d & <- & I). apply filter_In in I. destruct I as [I K]. apply left_kind in K. apply IE in I. destruct I as (A & B & C). unfold good_event in B. rewrite K in B. destruct B as [B1 B2]. split; [exact A|]. split; [exact B1|lra].
    - intros (A & B & C). exists (mkEv x Right s). split; [reflexivity|]. apply filter_In. split; [|reflexivity]. apply IE. cbn. split; [exact A|]. split; [split; [exact B|symmetry; exact C]|reflexivity]. }
  assert (NK : forall k, (k = Left \/ k = Right) -> NoDup (map eseg (filter (of_kind k) evs))).
  { intros k HK. apply NoDup_map_inj; [|apply NoDup_filter, NE]. intros d d' I I' Q. apply filter_In in I, I'. destruct I as [I K], I' as [I' K']. apply left_kind in K, K'.
    apply IE in I, I'. destruct I as (_ & _ & X), I' as (_ & _ & X'). destruct d, d'. cbn in *. congruence. }
  set (q1 := enter height evs q).
  pose proof (enter_perm evs q) as PE. fold q1 in PE.
  assert (I1 : forall s, In s q1 <-> In s ss /\ nv s /\ xlo s <= x <= xhi s).
  { intros s. transitivity (In s (map eseg (filter (of_kind Left) evs) ++ q)).
    - split; [apply Permutation_in, Permutation_sym, PE|apply Permutation_in, PE].
    - rewrite in_app_iff, IL, IS. split.
      + intros [(A & B & C)|(A & B & C)]; (split; [exact A|]); (split; [exact B|]). { pose proof (nv_lohi s B). lra. } specialize (HIX s A B). lra.
      + intros (A & B & C). destruct (Rlt_le_dec x0 (xlo s)) as [L|L]; [left|right]; (split; [exact A|]); (split; [exact B|]). { specialize (LOX s A B L). lra. } lra. }
  assert (N1 : NoDup q1).
  { apply (Permutation_NoDup PE). apply NoDup_app_intro; [apply NK; auto|exact NS|]. intros s A B. apply IL in A. apply IS in B. lra. }
  assert (LEN : (length q1 <= length ss)%nat) by (apply NoDup_incl_length; [exact N1|intros s I; apply I1 in I; apply I]).
  destruct (end_segments_ok (endings evs) q1 (endings evs) q1 N1) as (q' & nb & EE & N' & I' & _ & FA).
  { auto. } { apply NK. auto. } { intros s I. split; [|exact I]. apply IR in I. apply I1. destruct I as (A & B & C). pose proof (nv_lohi s B). split; [exact A|]. split; [exact B|lra]. }
  assert (IQ' : forall s, In s q' <-> In s ss /\ nv s /\ xlo s <= x < xhi s).
  { intros s. rewrite I', I1, IR. split.
    - intros [(A & B & C) D]. split; [exact A|]. split; [exact B|]. destruct (Req_dec (xhi s) x) as [Z|Z]; [exfalso; apply D; auto|lra].
    - intros (A & B & C). split; [split; [exact A|split; [exact B|lra]]|]. intros (_ & _ & D). lra. }
  destruct (check_ok x q' q1 (endings evs) N') with (evs := evs) (nb := nb) as (b & CK & T & FF).
  { intros s X A B. apply IQ'. pose proof (nv_lohi s B). split; [exact A|]. split; [exact B|lra]. }
  { intros d I. apply IE, I. } { exact FA. }
  exists q', nb, b. split; [intros fuel F; apply EE; lia|]. split; [exact CK|]. split; [|split; [|split; [|split; [|split]]]].
  - intros B. destruct (T B) as [(s & t & A1 & A2 & A3 & A4 & A5)|[(s & r & A1 & A2 & A3 & A4)|(s & A1 & A2 & A3 & A4)]].
    + left. exists q', s, t. auto 8.
    + right. left. exists evs, q, s, r. fold q1. apply IR in A1. destruct A1 as (S1 & S2 & S3).
      split; [exact N1|]. split. { intros u I. apply IS in I. destruct I as (U1 & U2 & U3). specialize (HIX u U1 U2). split; [exact U1|]. split; [exact U2|lra]. }
      split. { apply IS. pose proof (nv_lohi s S2). split; [exact S1|]. split; [exact S2|]. destruct (Rlt_le_dec x0 (xlo s)) as [L|L]; [|lra]. specialize (LOX s S1 S2 L). lra. }
      split; [intros u I; apply I1, I|]. split; [exact A3|]. split; [exact S3|]. split; [|exact A4].
      intros Z. apply A2, IR. assert (In r q1) by (destruct A3 as (a & b' & c & ->); apply in_or_app; right; right; apply in_or_app; right; left; reflexivity).
      apply I1 in H. destruct H as (H1 & H2 & _). auto.
    + right. right. exists q', s. split; [intros u I; apply IQ', I|]. auto.
  - intros B. destruct (FF B) as [F1 F2]. exists q'. split; [exact N'|]. split; [exact IQ'|]. split.
    + intros s t I X A. apply (F1 s t); [|exact A]. apply IE. apply IQ' in I. destruct I as (A1 & A2 & _). cbn. split; [exact A1|]. split; [split; [exact A2|symmetry; exact X]|reflexivity].
    + intros s A B' C. apply F2, IE. cbn. split; [exact A|]. split; [split; [exact B'|symmetry; exact C]|reflexivity].
  - constructor; [exact SR| |  |exact N'|exact IQ'].
    + rewrite EQ in NQ. apply NoDup_app_r in NQ. exact NQ.
    + intros d. split.
      * intros I. assert (J : In d (e :: queue)) by (rewrite EQ; apply in_or_app; right; exact I). apply IQ in J. destruct J as (A & B & _). split; [exact A|]. split; [exact B|apply RX, I].
      * intros (A & B & C). assert (J : In d (e :: queue)) by (apply IQ; split; [exact A|split; [exact B|lra]]). rewrite EQ in J. apply in_app_or in J.
        destruct J as [J|J]; [|exact J]. apply GX in J. lra.
  - exact EQ.
  - exact X0.
  - intros Z. assert (In e evs) by (apply IE; assert (J : In e (e :: queue)) by (left; reflexivity); apply IQ in J; destruct J as (A & B & _); auto). rewrite Z in H. destruct H.
Qed.
Lemma sweep_ok : forall n x0 queue q, (length queue <= n)%nat -> Inv x0 queue q ->
  exists w, (forall fuel, (length ss + 1 < fuel)%nat -> sweep height fuel n queue q = Ret w) /\ (w = true -> exists x, hit x) /\
    (w = false -> forall x, x0 < x -> (exists e, In (eseg e) ss /\ good_event e /\ ex e = x) -> miss x).
Proof.
  induction n as [|n IH]; intros x0 queue q L I.
  - destruct queue; [|cbn in L; lia]. cbn [sweep]. exists false. split; [intros; reflexivity|]. split; [discriminate|].
    intros _ x X (e & A & B & C). exfalso. assert (In e []) by (apply (i_queue _ _ _ I); split; [exact A|split; [exact B|lra]]). destruct H.
  - destruct queue as [|e queue].
    + cbn [sweep]. exists false. split; [intros; reflexivity|]. split; [discriminate|].
      intros _ x X (e & A & B & C). exfalso. assert (In e []) by (apply (i_queue _ _ _ I); split; [exact A|split; [exact B|lra]]). destruct H.
    + cbn [sweep]. destruct (take_same (ex e) (e :: queue)) as [evs rest] eqn:TS.
      destruct (turn x0 e queue q evs rest I TS) as (q' & nb & b & EE & CK & T & FF & I' & EQ & X0 & NZ).
      destruct b.
      * exists true. split; [intros fuel F; rewrite (EE fuel F); cbn [obind fst snd]; rewrite CK; reflexivity|]. split; [|discriminate]. intros _. exists (ex e). apply T. reflexivity.
      * destruct (IH (ex e) rest q') as (w & SW & T' & F').
        { assert (length (e :: queue) = length evs + length rest)%nat by (rewrite EQ, app_length; reflexivity). destruct evs; [contradiction|]. cbn in H, L. lia. }
        { exact I'. }
        exists w. split; [intros fuel F; rewrite (EE fuel F); cbn [obind fst snd]; rewrite CK; cbn [obind]; apply SW; exact F|]. split; [exact T'|]. intros W x X HE. destruct (Rlt_le_dec (ex e) x) as [C|C]; [apply F'; assumption|].
        destruct HE as (d & D1 & D2 & D3). assert (J : In d (e :: queue)) by (apply (i_queue _ _ _ I); split; [exact D1|split; [exact D2|lra]]).
        assert (x = ex e).
        { destruct J as [J|J]; [subst d; symmetry; exact D3|]. pose proof (i_sort _ _ _ I) as SO. inversion SO as [|? ? _ H]; subst. rewrite Forall_forall in H. specialize (H d J). cbn beta in H. lra. }
        subst x. rewrite H. apply FF. reflexivity.
Qed.
(** The start. *)
Lemma below : forall l : list R, exists m, forall y, In y l -> m < y.
Proof.
  induction l as [|y l (m & H)]; [exists 0; intros y []|]. exists (Rmin m (y - 1)). intros z [<- |I].
  - pose proof (Rmin_r m (y - 1)). lra.
  - pose proof (Rmin_l m (y - 1)). specialize (H z I). lra.
Qed.
Lemma start : exists x0, Inv x0 (events ss) [] /\ forall e, In (eseg e) ss -> good_event e -> x0 < ex e.
Proof.
  destruct (events_ok ss) as [SO PM]. destruct (below (map ex (events ss))) as (m & M). exists m.
  assert (IE : forall e, In e (events ss) <-> In (eseg e) ss /\ good_event e).
  { intros e. transitivity (In e (flat_map seg_events ss)); [split; [apply Permutation_in, Permutation_sym, PM|apply Permutation_in, PM]|].
    rewrite in_flat_map. split.
    - intros (s & A & B). apply seg_events_iff in B. destruct B as [B <-]. auto.
    - intros [A B]. exists (eseg e). split; [exact A|]. apply seg_events_iff. auto. }
  assert (MM : forall e, In (eseg e) ss -> good_event e -> m < ex e) by (intros e A B; apply M, in_map, IE; auto).
  split; [|exact MM]. constructor.
  - exact SO.
  - apply (Permutation_NoDup PM), flat_nodup, ND.
  - intros e. rewrite IE. split; [intros [A B]; auto|tauto].
  - constructor.
  - intros s. split; [intros []|]. intros (A & B & C). specialize (MM (mkEv (xlo s) Left s) A (conj B eq_refl)). cbn in MM. lra.
Qed.
Lemma events_length : (length (events ss) = 2 * length ss)%nat.
Proof.
  destruct (events_ok ss) as [_ P]. rewrite <- (Permutation_length P). clear. induction ss as [|s l IH]; [reflexivity|]. cbn [flat_map length]. rewrite app_length, IH.
  unfold seg_events. destruct (req _ _); destruct (rlt _ _); cbn [length]; lia.
Qed.
Lemma sweep_all :
  exists w, (forall fuel, (length ss + 1 < fuel)%nat -> sweep height fuel (length (events ss)) (events ss) [] = Ret w) /\ (w = true -> exists x, hit x) /\
    (w = false -> forall x, (exists e, In (eseg e) ss /\ good_event e /\ ex e = x) -> miss x).
Proof.
  destruct start as (x0 & I & M). destruct (sweep_ok _ x0 _ _ (le_n _) I) as (w & A & B & C).
  exists w. split; [exact A|]. split; [exact B|]. intros W x HE. apply C; [exact W| |exact HE]. destruct HE as (e & H1 & H2 & <-). apply M; assumption.
Qed.
End Loop.

(** Without heights every segment is inserted in front. *)
Lemma enter_front : forall evs q, enter exact_height evs q = rev (map eseg (filter (of_kind Left) evs)) ++ q.
Proof.
  assert (IN : forall q s x, sweep_insert exact_height q s x = s :: q).
  { intros [|t q] s x; cbn [sweep_insert]; [reflexivity|]. unfold goes_on. rewrite no_height. reflexivity. }
  induction evs as [|e evs IH]; intros q; unfold enter in *; cbn [fold_left filter]; [reflexivity|].
  destruct (of_kind Left e); rewrite IH; [|reflexivity]. rewrite IN. cbn [map rev]. rewrite <- app_assoc. reflexivity.
Qed.
Lemma before_old : forall a q s r, NoDup (a ++ q) -> In s q -> before (a ++ q) s r -> In r q.
Proof.
  intros a q s r N I (u & b & c & E). apply app_eq_app in E. destruct E as (l & [(E1 & E2)|(E1 & E2)]).
  - destruct l as [|y l]; [cbn [app] in E2; rewrite <- E2; right; apply in_or_app; right; left; reflexivity|]. exfalso. cbn [app] in E2. injection E2 as <- E2.
    subst a. destruct (in_split s q I) as (q1 & q2 & ->). rewrite <- app_assoc in N. cbn [app] in N. apply NoDup_remove_2 in N. apply N. apply in_or_app. right. apply in_or_app. right. apply in_or_app. right. left. reflexivity.
  - subst q. apply in_or_app. right. right. apply in_or_app. right. left. reflexivity.
Qed.
