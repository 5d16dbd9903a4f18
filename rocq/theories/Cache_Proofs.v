(** Proofs about the cache. *)
From Coq Require Import List Bool Arith.
From Verif Require Import Cache_Model Cache_Spec.
Import ListNotations.

Section Proofs.
Variables V crs box ext num : Type.
Variable same : crs -> crs -> bool.
Variable is_geo : crs -> bool.
Variable planar_box geo_box : list V -> box.
Variable transform : crs -> crs -> list V -> list V.
Variable planar_len : list V -> num.
Variable geo_len : crs -> list V -> num.
Variable extent_of : box -> ext.
Variable parts_box : crs -> list V -> option crs -> box.
Hypothesis laws : crs_laws same is_geo transform parts_box.

Notation loose := (loose_bbox same is_geo planar_box geo_box transform).
Notation now := (now_bbox same is_geo planar_box geo_box transform parts_box).
Notation BBOX := (@bbox V crs box ext num same is_geo planar_box geo_box transform parts_box).
Notation EXT := (@extent V crs box ext num same is_geo planar_box geo_box transform extent_of parts_box).
Notation LOOSE := (@cached_loose V crs box ext num same is_geo planar_box geo_box transform).

Lemma same_cong : forall c d e, same c d = true -> same c e = same d e.
Proof.
  intros c d e H. apply eq_true_iff_eq. split; intros K.
  - apply (same_trans _ _ _ _ _ _ _ laws) with c; [apply (same_sym _ _ _ _ _ _ _ laws); exact H | exact K].
  - apply (same_trans _ _ _ _ _ _ _ laws) with d; assumption.
Qed.
Lemma loose_same : forall o c d, same c d = true -> loose o (Some c) = loose o (Some d).
Proof.
  intros o c d H. unfold loose_bbox, in_crs. rewrite (same_cong c d (ocrs o) H). destruct (same d (ocrs o)); [reflexivity |].
  destruct (verts o) as [vs | vs]; [| reflexivity].
  rewrite (same_geo _ _ _ _ _ _ _ laws c d H), (same_transform _ _ _ _ _ _ _ laws (ocrs o) c d vs H). reflexivity.
Qed.
Lemma loose_own : forall o c, same c (ocrs o) = true -> loose o (Some c) = loose o None.
Proof. intros o c H. unfold loose_bbox, in_crs. rewrite H. reflexivity. Qed.
Lemma now_same : forall o a b, opt_eqb same a b = true -> now o a = now o b.
Proof.
  intros o [c |] [d |] H; cbn in H; try discriminate; [| reflexivity].
  unfold now_bbox. destruct (okind o); try (apply loose_same; exact H).
  unfold multi_bbox, typed. destruct (verts o); [| reflexivity]. rewrite (same_parts _ _ _ _ _ _ _ laws (ocrs o) c d vs H). reflexivity.
Qed.
Lemma form_now : forall o f g, form_eqb same f g = true -> now o (crs_arg f) = now o (crs_arg g).
Proof.
  intros o f g H. destruct f as [| c | c], g as [| d | d]; cbn [form_eqb crs_arg] in *; try discriminate; try reflexivity; apply now_same; exact H.
Qed.

Definition valid (o : obj V crs) (k : cache crs box ext num) : Prop :=
  (forall f b, c_bbox k = Some (f, b) -> now o (crs_arg f) = Ok b) /\
  (forall f x, c_extent k = Some (f, x) -> now_extent same is_geo planar_box geo_box transform extent_of parts_box o (crs_arg f) = Ok x) /\
  (forall n, c_length k = Some n -> raw_length is_geo planar_len geo_len o = Ok n).
Lemma valid_bbox : forall o k f b, valid o k -> now o (crs_arg f) = Ok b -> valid o (mkCache (Some (f, b)) (c_extent k) (c_length k)).
Proof.
  intros o k f b (_ & E & L) H. split; [| split; assumption]. cbn. intros f' b' I. injection I as <- <-. exact H.
Qed.
Lemma cached_loose_ok : forall o k f, okind o <> Parts -> valid o k ->
  fst (LOOSE o k f) = now o (crs_arg f) /\ valid o (snd (LOOSE o k f)).
Proof.
  intros o k f K Vd. unfold cached_loose. assert (forall c, now o c = loose o c) as N by (intros; unfold now_bbox; destruct (okind o); congruence).
  assert (fst (match loose o (crs_arg f) with Ok b => (Ok b, mkCache (Some (f, b)) (c_extent k) (c_length k)) | Raise e => (Raise e, k) end) = now o (crs_arg f) /\
          valid o (snd (match loose o (crs_arg f) with Ok b => (Ok b, mkCache (Some (f, b)) (c_extent k) (c_length k)) | Raise e => (Raise e, k) end))) as C.
  { rewrite <- N. destruct (now o (crs_arg f)) as [b | e] eqn:E; cbn [fst snd]; split; auto using valid_bbox. }
  destruct (c_bbox k) as [[g b] |] eqn:B; [| exact C]. destruct (form_eqb same f g) eqn:F; [| exact C].
  cbn [fst snd]. split; [| exact Vd]. rewrite (form_now o f g F). symmetry. apply (proj1 Vd). exact B.
Qed.
Lemma now_eff : forall o c, okind o = Connected ->
  now o (Some (match c with Some d' => if same d' (ocrs o) then ocrs o else d' | None => ocrs o end)) = now o c.
Proof.
  intros o c K. unfold now_bbox. rewrite K. destruct c as [d |].
  - destruct (same d (ocrs o)) eqn:E; [| reflexivity]. rewrite (loose_own o (ocrs o)) by apply (same_refl _ _ _ _ _ _ _ laws). symmetry. apply loose_own. exact E.
  - apply loose_own. apply (same_refl _ _ _ _ _ _ _ laws).
Qed.
Lemma connected_ok : forall o k c, okind o = Connected -> valid o k ->
  fst (@connected_bbox V crs box ext num same is_geo planar_box geo_box transform o k c) = now o c /\
  valid o (snd (@connected_bbox V crs box ext num same is_geo planar_box geo_box transform o k c)).
Proof.
  intros o k c K Vd. unfold connected_bbox. destruct (in_crs same transform o c) as [[s d] | e] eqn:I.
  - destruct (is_geo d) eqn:G.
    + cbn [fst snd]. split; [| exact Vd]. unfold now_bbox. rewrite K. unfold loose_bbox. rewrite I, G. reflexivity.
    + destruct (cached_loose_ok o k (Keyword (Some (match c with Some d' => if same d' (ocrs o) then ocrs o else d' | None => ocrs o end)))) as [A B]; [rewrite K; discriminate | exact Vd |].
      split; [| exact B]. rewrite A. cbn [crs_arg]. apply now_eff. exact K.
  - cbn [fst snd]. split; [| exact Vd]. unfold now_bbox. rewrite K. unfold loose_bbox. rewrite I. reflexivity.
Qed.
Lemma bbox_ok : forall o k f, valid o k -> fst (BBOX o k f) = now o (crs_arg f) /\ valid o (snd (BBOX o k f)).
Proof.
  intros o k f Vd. unfold bbox. destruct (okind o) eqn:K.
  - apply cached_loose_ok; [rewrite K; discriminate | exact Vd].
  - destruct (connected_ok o k (crs_arg f) K Vd) as [A B].
    destruct (connected_bbox same is_geo planar_box geo_box transform o k (crs_arg f)) as [[b | e] k'] eqn:C; cbn [fst snd] in A, B.
    + assert (valid o (mkCache (Some (f, b)) (c_extent k') (c_length k'))) by (apply valid_bbox; auto).
      destruct (c_bbox k) as [[g b'] |] eqn:Bx; [destruct (form_eqb same f g) eqn:F |]; cbn [fst snd]; auto.
      split; [| exact Vd]. rewrite (form_now o f g F). symmetry. apply (proj1 Vd). exact Bx.
    + destruct (c_bbox k) as [[g b'] |] eqn:Bx; [destruct (form_eqb same f g) eqn:F |]; cbn [fst snd]; auto.
      split; [| exact Vd]. rewrite (form_now o f g F). symmetry. apply (proj1 Vd). exact Bx.
  - assert (forall c, now o c = multi_bbox parts_box o c) as N by (intros; unfold now_bbox; rewrite K; reflexivity).
    rewrite <- N. destruct (now o (crs_arg f)) as [b | e] eqn:E; cbn [fst snd].
    + assert (valid o (mkCache (Some (f, b)) (c_extent k) (c_length k))) by (apply valid_bbox; auto).
      destruct (c_bbox k) as [[g b'] |] eqn:Bx; [destruct (form_eqb same f g) eqn:F |]; cbn [fst snd]; auto.
      split; [| exact Vd]. rewrite <- E, (form_now o f g F). symmetry. apply (proj1 Vd). exact Bx.
    + destruct (c_bbox k) as [[g b'] |] eqn:Bx; [destruct (form_eqb same f g) eqn:F |]; cbn [fst snd]; auto.
      split; [| exact Vd]. rewrite <- E, (form_now o f g F). symmetry. apply (proj1 Vd). exact Bx.
Qed.
Lemma extent_ok : forall o k f, valid o k ->
  fst (EXT o k f) = now_extent same is_geo planar_box geo_box transform extent_of parts_box o (crs_arg f) /\ valid o (snd (EXT o k f)).
Proof.
  intros o k f Vd. unfold extent. destruct (bbox_ok o k (Keyword (crs_arg f)) Vd) as [A B]. cbn [crs_arg] in A.
  assert (forall g x, c_extent k = Some (g, x) -> form_eqb same f g = true -> Ok x = now_extent same is_geo planar_box geo_box transform extent_of parts_box o (crs_arg f)) as R.
  { intros g x Ex F. unfold now_extent. rewrite (form_now o f g F). symmetry. apply (proj1 (proj2 Vd)). exact Ex. }
  destruct (BBOX o k (Keyword (crs_arg f))) as [[b | e] k'] eqn:C; cbn [fst snd] in A, B.
  - assert (now_extent same is_geo planar_box geo_box transform extent_of parts_box o (crs_arg f) = Ok (extent_of b)) as N by (unfold now_extent; rewrite <- A; reflexivity).
    assert (valid o (mkCache (c_bbox k') (Some (f, extent_of b)) (c_length k'))).
    { destruct B as (B1 & B2 & B3). split; [exact B1 |]. split; [| exact B3]. cbn. intros f' x' I. injection I as <- <-. exact N. }
    destruct (c_extent k) as [[g x] |] eqn:Ex; [destruct (form_eqb same f g) eqn:F |]; cbn [fst snd]; auto.
    split; [apply (R g x); auto | exact Vd].
  - assert (now_extent same is_geo planar_box geo_box transform extent_of parts_box o (crs_arg f) = Raise e) as N by (unfold now_extent; rewrite <- A; reflexivity).
    destruct (c_extent k) as [[g x] |] eqn:Ex; [destruct (form_eqb same f g) eqn:F |]; cbn [fst snd]; auto.
    split; [apply (R g x); auto | exact Vd].
Qed.
Lemma empty_valid : forall o, valid o empty.
Proof. intros o. repeat split; cbn; discriminate. Qed.

Theorem transparent_from : forall h o k, valid o k -> Forall not_setitem h ->
  run same is_geo planar_box geo_box transform planar_len geo_len extent_of parts_box o k h =
  plain same is_geo planar_box geo_box transform planar_len geo_len extent_of parts_box o h.
Proof.
  induction h as [| e h IH]; intros o k Vd F; [reflexivity |]. inversion F as [| ? ? F1 F2]; subst. cbn [run plain].
  destruct e as [f | f | | vs | i v].
  - destruct (bbox_ok o k f Vd) as [A B]. destruct (BBOX o k f) as [r k']. cbn [fst snd] in *. rewrite A, (IH o k') by auto. reflexivity.
  - destruct (extent_ok o k f Vd) as [A B]. destruct (EXT o k f) as [r k']. cbn [fst snd] in *. rewrite A, (IH o k') by auto. reflexivity.
  - unfold length_. destruct (c_length k) as [n |] eqn:L.
    + rewrite (proj2 (proj2 Vd) n L), (IH o k) by auto. reflexivity.
    + destruct (raw_length is_geo planar_len geo_len o) as [n | e] eqn:R.
      * rewrite (IH o); auto. destruct Vd as (A & B & C). split; [exact A |]. split; [exact B |]. cbn. intros m M. injection M as <-. exact R.
      * rewrite (IH o k) by auto. reflexivity.
  - cbn [extend]. f_equal. apply IH; [apply empty_valid | exact F2].
  - contradiction.
Qed.
Theorem transparent : forall o h, Forall not_setitem h ->
  run same is_geo planar_box geo_box transform planar_len geo_len extent_of parts_box o empty h =
  plain same is_geo planar_box geo_box transform planar_len geo_len extent_of parts_box o h.
Proof. intros o h. apply transparent_from, empty_valid. Qed.

(** The box of a multipoint does not follow its vertices. *)
Theorem stale : forall vs c f i v vs', set_nth i v vs = Some vs' ->
  forall b, now (mkObj (Coords vs) c Loose) (crs_arg f) = Ok b ->
  run same is_geo planar_box geo_box transform planar_len geo_len extent_of parts_box (mkObj (Coords vs) c Loose) empty [EBbox f; ESetitem i v; EBbox f] =
  [SBbox (Ok b); SNothing (Ok tt); SBbox (Ok b)].
Proof.
  intros vs c f i v vs' S b N. cbn [run bbox okind]. unfold cached_loose at 1. cbn [c_bbox empty].
  unfold now_bbox in N. cbn [okind] in N. rewrite N. cbn [setitem verts]. rewrite S. cbn [ocrs okind].
  cbn [run bbox okind]. unfold cached_loose. cbn [c_bbox].
  assert (form_eqb same f f = true) as ->; [| reflexivity].
  destruct f as [| [d |] | [d |]]; cbn; auto; apply (same_refl _ _ _ _ _ _ _ laws).
Qed.

(** After [extend] nothing cached can be computed. *)
Theorem extend_breaks : forall o vs f, okind o <> Parts -> exists e1 e2 e3,
  run same is_geo planar_box geo_box transform planar_len geo_len extent_of parts_box o empty [EExtend vs; EBbox f; EExtent f; ELength] =
  [SNothing (Ok tt); SBbox (Raise e1); SExtent (Raise e2); SLength (Raise e3)].
Proof.
  intros o vs f K.
  assert (exists e, forall c, match (mkObj (match verts o with Coords us => Arr (us ++ vs) | Arr us => Arr (us ++ vs) end) (ocrs o) (okind o)) with o' => 
     (now o' c = Raise TypeError \/ now o' c = Raise AttributeError) /\ raw_length is_geo planar_len geo_len o' = Raise e end) as (e & H).
  { exists (if is_geo (ocrs o) then AttributeError else TypeError). intros c. split.
    - unfold now_bbox. cbn [okind]. destruct (okind o); try congruence; unfold loose_bbox, in_crs; cbn [verts ocrs];
        (destruct (verts o); (destruct c as [d |]; [destruct (same d (ocrs o)) |]; auto; destruct (is_geo (ocrs o)); auto)).
    - unfold raw_length. cbn [ocrs verts]. destruct (is_geo (ocrs o)), (verts o); reflexivity. }
  rewrite transparent by (repeat constructor). cbn [plain].
  destruct (H (crs_arg f)) as [N L]. unfold now_extent. rewrite L.
  destruct N as [-> | ->]; do 3 eexists; reflexivity.
Qed.
End Proofs.
