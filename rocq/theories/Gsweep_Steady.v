(** Lines always eastward or always westward, and edges on a meridian. *)
From Coq Require Import List ZArith Reals Bool Lra Lia Sorted Permutation Arith.
From Verif Require Import GeomR_Model Sphere_Model Sphere_Spec Sphere_Proofs Sphere_Dist Sphere_Bnd Sphere_Inter Gsweep_Model Gsweep_Spec Gsweep_Geom Gsweep_Merid Gsweep_Sweep Gsweep_Line.
Import ListNotations.
Open Scope R_scope.

Lemma reduced_inner : forall p, inner p -> reduced p = p.
Proof. intros [x y] (X & _). unfold reduced. cbn [fst snd] in *. rewrite reduce_degr_id by lra. reflexivity. Qed.
Definition seg_of (c : bool) (e : rpt * rpt) : seg := mkSeg (fst e) (snd e) c.
Lemma to_seg_inner : forall c e, inner (fst e) -> inner (snd e) -> to_seg c e = seg_of c e.
Proof. intros c e A B. unfold to_seg, seg_of. rewrite !reduced_inner by assumption. reflexivity. Qed.
Definition ends_inner (l : list rpt) : Prop := forall p, In p l -> inner p.
Lemma edge_in : forall l ring e, edge_of l ring e -> In (fst e) l /\ In (snd e) l.
Proof. intros l ring e (i & [[A B]|(_ & _ & A & B)]); split; eapply nth_error_In; eassumption. Qed.
Lemma in_segs : forall a ra b rb, ends_inner a -> ends_inner b -> forall s, In s (segs a ra b rb) <->
  (exists e, edge_of a ra e /\ s = seg_of false e) \/ (exists f, edge_of b rb f /\ s = seg_of true f).
Proof.
  intros a ra b rb Ia Ib s. unfold segs. rewrite in_app_iff, !in_map_iff.
  assert (F : forall c l ring, ends_inner l -> ((exists e, to_seg c e = s /\ In e (sph_edges l ring)) <-> exists e, edge_of l ring e /\ s = seg_of c e)).
  { intros c l ring H. split.
    - intros (e & <- & I). apply in_edges in I. exists e. split; [exact I|]. destruct (edge_in l ring e I). apply to_seg_inner; apply H; assumption.
    - intros (e & I & ->). exists e. split; [|apply in_edges, I]. destruct (edge_in l ring e I). apply to_seg_inner; apply H; assumption. }
  rewrite (F false a ra Ia), (F true b rb Ib). reflexivity.
Qed.

(* ---- edges on a meridian *)
Lemma vertical_found : forall e f, plain e -> upright f -> inner (fst f) -> inner (snd f) ->
  (fst (fst e) <= fst (fst f) <= fst (snd e) \/ fst (snd e) <= fst (fst f) <= fst (fst e)) -> resolved_at e (fst (fst f)) ->
  forall q c, In (seg_of (negb c) e) q -> meet e f -> crosses_vertical q (seg_of c f) = true.
Proof.
  intros e f Pe U I1 I2 RG RES q c I (p & Oe & Of). unfold crosses_vertical. apply existsb_exists. exists (seg_of (negb c) e). split; [exact I|].
  cbn [seg_of color p0 p1]. replace (Bool.eqb c (negb c)) with false by (destruct c; reflexivity).
  assert (X : -180 < fst (fst f) < 180) by apply I1.
  destruct (merid_spec e (fst (fst f)) Pe X RG RES) as (y & Y & E & O). rewrite E.
  destruct (upright_pos f p U I1 I2 Of) as (y' & Y' & -> & B).
  assert (y = y') by (apply (one_height e (fst (fst f)) y y'); try assumption; lra). subst y'.
  destruct B as [B|B]; apply orb_true_iff; [left|right]; apply andb_true_iff; rewrite !rle_t; lra.
Qed.
Lemma vertical_sound : forall e f, plain e -> upright f -> inner (fst f) -> inner (snd f) ->
  (fst (fst e) <= fst (fst f) <= fst (snd e) \/ fst (snd e) <= fst (fst f) <= fst (fst e)) -> resolved_at e (fst (fst f)) ->
  (exists y, intersection_meridian (fst e) (snd e) (fst (fst f)) = Some y /\ ((rle (snd (fst f)) y && rle y (snd (snd f))) || (rle (snd (snd f)) y && rle y (snd (fst f)))) = true) -> meet e f.
Proof.
  intros e f Pe U I1 I2 RG RES (y & E & B). assert (X : -180 < fst (fst f) < 180) by apply I1.
  destruct (merid_spec e (fst (fst f)) Pe X RG RES) as (y' & Y' & E' & O). rewrite E in E'. injection E' as <-.
  exists (pos (fst (fst f)) y). split; [exact O|]. apply upright_on; try assumption.
  apply orb_true_iff in B. destruct B as [B|B]; apply andb_true_iff in B; rewrite !rle_t in B; lra.
Qed.
Lemma lohi_range : forall c e x, xlo (seg_of c e) <= x <= xhi (seg_of c e) <-> (fst (fst e) <= x <= fst (snd e) \/ fst (snd e) <= x <= fst (fst e)).
Proof. intros c e x. unfold xlo, xhi. cbn [seg_of p0 p1]. apply minmax. Qed.
Lemma upright_nv : forall c e, upright e <-> ~ nv (seg_of c e).
Proof. intros c e. unfold upright, nv. cbn [seg_of p0 p1]. split; [tauto|]. intros H. destruct (Req_dec (fst (fst e)) (fst (snd e))); [assumption|contradiction]. Qed.
Lemma plain_nv : forall c e, plain e -> nv (seg_of c e).
Proof. intros c e (_ & _ & H & _). exact H. Qed.
(** True whatever the heights are. *)
Lemma geog_vertical : forall height a ra b rb, no_repeat a ra -> no_repeat b rb -> ends_inner a -> ends_inner b ->
  (forall e, edge_of a ra e -> regular e /\ one_side e) -> (forall e, edge_of b rb e -> regular e /\ one_side e) ->
  (exists e f, (edge_of a ra e /\ edge_of b rb f \/ edge_of a ra f /\ edge_of b rb e) /\ plain e /\ upright f /\
     (fst (fst e) <= fst (fst f) < fst (snd e) \/ fst (snd e) <= fst (fst f) < fst (fst e)) /\ resolved_at e (fst (fst f)) /\ meet e f) ->
  forall fuel, (length a + length b + 1 < fuel)%nat -> geog_intersects height fuel a ra b rb = Ret true.
Proof.
  intros height a ra b rb Na Nb Ia Ib Ea Eb (e & f & IN & Pe & U & RG & RES & M) fuel F.
  rewrite geog_boxes; [|assumption..|].
  2: { destruct IN as [[A B]|[A B]]; [exists e, f; auto|]. destruct M as (p & M1 & M2). exists f, e. split; [exact A|]. split; [exact B|]. exists p. auto. }
  destruct (intersects_sph_sweep height a ra b rb Na Nb) as (w & S & _ & MI). rewrite (S fuel F). f_equal. destruct w; [reflexivity|exfalso].
  assert (CC : exists c, In (seg_of (negb c) e) (segs a ra b rb) /\ In (seg_of c f) (segs a ra b rb) /\ inner (fst f) /\ inner (snd f)).
  { destruct IN as [[A B]|[A B]]; [exists true|exists false]; cbn [negb]; (split; [apply in_segs; [assumption..|]; eauto|]); (split; [apply in_segs; [assumption..|]; eauto|]);
      [destruct (edge_in _ _ _ B); split; apply Ib; assumption|destruct (edge_in _ _ _ A); split; apply Ia; assumption]. }
  destruct CC as (c & I1 & I2 & V1 & V2).
  assert (NF : ~ nv (seg_of c f)) by (apply upright_nv, U).
  destruct (MI eq_refl (fst (fst f))) as (q' & ND & IQ & _ & CV).
  { exists (mkEv (fst (fst f)) Bottom (seg_of c f)). cbn [eseg]. split; [exact I2|]. split; [|reflexivity]. split; [exact NF|reflexivity]. }
  specialize (CV (seg_of c f) I2 NF eq_refl). rewrite (vertical_found e f Pe U V1 V2) in CV; try assumption; [discriminate|lra|].
  apply IQ. split; [exact I1|]. split; [apply plain_nv, Pe|]. unfold xlo, xhi, fminr, fmaxr. cbn [seg_of p0 p1]. destruct (Rle_dec _ _); lra.
Qed.

(* ---- steady lines *)
Section Steady.
Variables a b : list rpt.
Hypothesis Sa : steady a.
Hypothesis Sb : steady b.
Hypothesis AP : apart a b.
Let ss := segs a false b false.
Lemma steady_plain : forall l e, steady l -> edge_of l false e -> plain e.
Proof.
  intros l e (M & I & SP) E. destruct (edge_in _ _ _ E) as [A B]. specialize (SP e E). destruct E as (i & [[H1 H2]|(H & _)]); [|discriminate].
  split; [apply I, A|]. split; [apply I, B|]. split; [|exact SP].
  destruct M as [M|M]; specialize (M i (S i) _ _ (Nat.lt_succ_diag_r i) H1 H2); lra.
Qed.
Lemma edge_index : forall l i j e f, edge_at l false i e -> edge_at l false j f -> steady l -> i = j \/
  forall c d, xhi (seg_of c e) <= xlo (seg_of d f) \/ xhi (seg_of d f) <= xlo (seg_of c e).
Proof.
  intros l i j e f [[E1 E2]|(H & _)] [[F1 F2]|(H' & _)] (M & _); try discriminate.
  destruct (Nat.eq_dec i j) as [Q|Q]; [left; exact Q|right]. intros c d. unfold xlo, xhi, fminr, fmaxr. cbn [seg_of p0 p1].
  assert (LE : forall m n p q, (m <= n)%nat -> nth_error l m = Some p -> nth_error l n = Some q -> (eastward l -> fst p <= fst q) /\ (westward l -> fst q <= fst p)).
  { intros m n p q L P1 P2. destruct (Nat.eq_dec m n) as [-> |N].
    - rewrite P1 in P2. injection P2 as ->. split; intros; lra.
    - split; intros W; specialize (W m n p q ltac:(lia) P1 P2); lra. }
  assert (ADV : (eastward l -> fst (fst e) < fst (snd e) /\ fst (fst f) < fst (snd f)) /\ (westward l -> fst (snd e) < fst (fst e) /\ fst (snd f) < fst (fst f))).
  { split; intros W; split; [apply (W i (S i))|apply (W j (S j))|apply (W i (S i))|apply (W j (S j))]; try assumption; lia. }
  destruct ADV as [AE AW].
  destruct (Nat.lt_total i j) as [L|[L|L]]; [|contradiction|].
  - destruct (LE (S i) j _ _ ltac:(lia) E2 F1) as [G1 G2]. destruct M as [M|M]; [specialize (G1 M); specialize (AE M); left|specialize (G2 M); specialize (AW M); right]; destruct (Rle_dec _ _), (Rle_dec _ _); lra.
  - destruct (LE (S j) i _ _ ltac:(lia) F2 E1) as [G1 G2]. destruct M as [M|M]; [specialize (G1 M); specialize (AE M); right|specialize (G2 M); specialize (AW M); left]; destruct (Rle_dec _ _), (Rle_dec _ _); lra.
Qed.
Lemma steady_norepeat : forall l, steady l -> no_repeat l false.
Proof.
  intros l S i j e f E F C1 L1 C2 L2. destruct (edge_index l i j e f E F S) as [H|H]; [exact H|]. exfalso.
  assert (Pe : plain e) by (apply (steady_plain l e S); exists i; exact E). assert (Pf : plain f) by (apply (steady_plain l f S); exists j; exact F).
  assert (Q1 : fst (fst e) = fst (fst f)). { destruct Pe as ((A & _) & _), Pf as ((B & _) & _). apply (congd_uniq (fst (fst f))); [apply congd_sym, C1|apply congd_refl|lra]. }
  assert (Q2 : fst (snd e) = fst (snd f)). { destruct Pe as (_ & (A & _) & _), Pf as (_ & (B & _) & _). apply (congd_uniq (fst (snd f))); [apply congd_sym, C2|apply congd_refl|lra]. }
  specialize (H true true). pose proof (nv_lohi _ (plain_nv true e Pe)). unfold xlo, xhi in *. cbn [seg_of p0 p1] in *. rewrite Q1, Q2 in *. lra.
Qed.
Lemma in_ss : forall s, In s ss <-> (exists e, edge_of a false e /\ s = seg_of false e) \/ (exists f, edge_of b false f /\ s = seg_of true f).
Proof. apply in_segs; [exact (proj1 (proj2 Sa))|exact (proj1 (proj2 Sb))]. Qed.
(** Open at the same place: of different lines. *)
Lemma other_colour : forall s t x y, In s ss -> In t ss -> s <> t -> x < y -> xlo s <= x -> y <= xhi s -> xlo t <= x -> y <= xhi t -> color s <> color t.
Proof.
  intros s t x y Is It NE L S1 S2 T1 T2 CE. apply in_ss in Is, It.
  destruct Is as [(e & (i & E) & ->)|(e & (i & E) & ->)]; destruct It as [(f & (j & F) & ->)|(f & (j & F) & ->)]; cbn [seg_of color] in CE; try discriminate.
  - destruct (edge_index a i j e f E F Sa) as [-> |H]; [|specialize (H false false); lra]. apply NE. f_equal. apply sph_edges_nth in E, F. congruence.
  - destruct (edge_index b i j e f E F Sb) as [-> |H]; [|specialize (H true true); lra]. apply NE. f_equal. apply sph_edges_nth in E, F. congruence.
Qed.
Lemma pair_sound : forall s t, In s ss -> In t ss -> color s <> color t -> intersects2 s t = true -> exists e f, edge_of a false e /\ edge_of b false f /\ meet e f.
Proof.
  intros s t Is It NC H. apply in_ss in Is, It. unfold intersects2 in H.
  destruct Is as [(e & E & ->)|(e & E & ->)]; destruct It as [(f & F & ->)|(f & F & ->)]; cbn [seg_of color p0 p1] in *; try (exfalso; apply NC; reflexivity).
  - exists e, f. split; [exact E|]. split; [exact F|]. destruct (AP e f E F) as (R1 & _). apply two_sound; [apply (steady_plain a); assumption|apply (steady_plain b); assumption|exact R1|exact H].
  - destruct (AP f e F E) as (_ & R2 & _). destruct (two_sound e f (steady_plain b e Sb E) (steady_plain a f Sa F) R2 H) as (p & A & B).
    exists f, e. split; [exact F|]. split; [exact E|]. exists p. auto.
Qed.
Lemma circle_sym : forall e f, same_circle f e -> same_circle e f.
Proof.
  intros e f. unfold same_circle, crossing_of, crossing. set (u := vprod (pos (fst (fst e)) _) _). set (v := vprod (pos (fst (fst f)) _) _). clearbody u v.
  unfold vprod. intros H. destruct u as [[u1 u2] u3], v as [[v1 v2] v3]. cbn [fst snd] in *. injection H as H1 H2 H3. apply v3_eq; lra.
Qed.
Lemma pair_complete : forall s t, In s ss -> In t ss -> color s <> color t -> meet (p0 s, p1 s) (p0 t, p1 t) -> intersects2 s t = true.
Proof.
  intros s t Is It NC H. apply in_ss in Is, It. unfold intersects2.
  destruct Is as [(e & E & ->)|(e & E & ->)]; destruct It as [(f & F & ->)|(f & F & ->)]; cbn [seg_of color p0 p1] in *; try (exfalso; apply NC; reflexivity).
  - destruct (AP e f E F) as (R1 & _ & NS). apply two_complete; [apply (steady_plain a); assumption|apply (steady_plain b); assumption|exact R1|exact NS|]. destruct e, f. exact H.
  - destruct (AP f e F E) as (_ & R2 & NS). apply two_complete; [apply (steady_plain b); assumption|apply (steady_plain a); assumption|exact R2| |].
    + intros C. apply NS, circle_sym, C.
    + destruct e, f. exact H.
Qed.
Lemma two_list : forall (q : list seg) s t, NoDup q -> In s q -> In t q -> s <> t -> (forall u, In u q -> u = s \/ u = t) -> adj q s t.
Proof.
  intros q s t N Is It NE A. destruct (in_split s q Is) as (q1 & q2 & ->).
  assert (F : forall u, In u (q1 ++ q2) -> u = t).
  { intros u I. destruct (A u) as [-> | ->]; [apply in_app_or in I; apply in_or_app; destruct I; [left|right; right]; assumption| |reflexivity].
    exfalso. apply NoDup_remove_2 in N. contradiction. }
  apply NoDup_remove_1 in N. assert (It' : In t (q1 ++ q2)).
  { apply in_app_or in It. apply in_or_app. destruct It as [H|[H|H]]; auto. contradiction. }
  destruct q1 as [|u q1].
  - destruct q2 as [|u q2]; [destruct It'|]. assert (u = t) by (apply F; left; reflexivity). subst u. exists [], q2. left. reflexivity.
  - assert (u = t) by (apply F; left; reflexivity). subst u. cbn [app] in N. inversion N as [|? ? NI _]; subst.
    assert (NN : forall u, ~ In u (q1 ++ q2)). { intros u I. assert (u = t) by (apply F; right; exact I). subst u. contradiction. }
    destruct q1 as [|u q1]; [|exfalso; apply (NN u); left; reflexivity]. exists [], q2. right. reflexivity.
Qed.
(** Edges of both lines open over a common interval were tested. *)
Lemma tested : (forall x, (exists e, In (eseg e) ss /\ good_event e /\ ex e = x) -> miss ss x) ->
  forall s t, In s ss -> In t ss -> nv s -> nv t -> color s <> color t -> xlo s <= xlo t -> xlo t < xhi s -> intersects2 s t = false.
Proof.
  intros MI s t Is It Ns Nt NC L1 L2. destruct (MI (xlo t)) as (q' & ND & IQ & AD & _).
  { exists (mkEv (xlo t) Left t). cbn [eseg]. split; [exact It|]. split; [|reflexivity]. split; [exact Nt|reflexivity]. }
  pose proof (nv_lohi t Nt) as LT. assert (Qs : In s q') by (apply IQ; split; [exact Is|split; [exact Ns|lra]]). assert (Qt : In t q') by (apply IQ; split; [exact It|split; [exact Nt|lra]]).
  apply (AD t s Qt eq_refl). apply two_list; try assumption; [intros ->; apply NC; reflexivity|].
  intros u Qu. apply IQ in Qu. destruct Qu as (Iu & Nu & Lu).
  assert (DEC : forall v w : seg, v = w \/ v <> w) by (intros v w; destruct (seg_eqb v w) eqn:E; [left; apply seg_eqb_t; exact E|right; intros Z; apply seg_eqb_t in Z; congruence]).
  destruct (DEC u t) as [A|A]; [left; exact A|]. destruct (DEC u s) as [B|B]; [right; exact B|]. exfalso.
  set (y := Rmin (xhi u) (Rmin (xhi s) (xhi t))).
  assert (Y : xlo t < y /\ y <= xhi u /\ y <= xhi s /\ y <= xhi t).
  { unfold y. pose proof (Rmin_l (xhi u) (Rmin (xhi s) (xhi t))). pose proof (Rmin_r (xhi u) (Rmin (xhi s) (xhi t))). pose proof (Rmin_l (xhi s) (xhi t)). pose proof (Rmin_r (xhi s) (xhi t)).
    split; [|lra]. apply Rmin_glb_lt; [lra|]. apply Rmin_glb_lt; lra. }
  assert (C1 : color u <> color t) by (apply (other_colour u t (xlo t) y); try assumption; lra).
  assert (C2 : color u <> color s) by (apply (other_colour u s (xlo t) y); try assumption; lra).
  destruct (color u), (color t), (color s); congruence.
Qed.
Lemma tested_both : (forall x, (exists e, In (eseg e) ss /\ good_event e /\ ex e = x) -> miss ss x) ->
  forall e f, edge_of a false e -> edge_of b false f -> meet e f ->
    xlo (seg_of false e) < xhi (seg_of true f) -> xlo (seg_of true f) < xhi (seg_of false e) -> False.
Proof.
  intros MI e f E F M L1 L2. assert (Ie : In (seg_of false e) ss) by (apply in_ss; left; eauto). assert (If : In (seg_of true f) ss) by (apply in_ss; right; eauto).
  pose proof (plain_nv false e (steady_plain a e Sa E)) as Ne. pose proof (plain_nv true f (steady_plain b f Sb F)) as Nf.
  destruct M as (p & M1 & M2).
  destruct (Rle_lt_dec (xlo (seg_of false e)) (xlo (seg_of true f))) as [C|C].
  - assert (T : intersects2 (seg_of false e) (seg_of true f) = false) by (apply tested; try assumption; cbn; discriminate).
    rewrite pair_complete in T; [discriminate|assumption|assumption|cbn; discriminate|]. cbn [seg_of p0 p1]. rewrite <- !surjective_pairing. exists p. auto.
  - assert (T : intersects2 (seg_of true f) (seg_of false e) = false) by (apply tested; try assumption; [cbn; discriminate|lra]).
    rewrite pair_complete in T; [discriminate|assumption|assumption|cbn; discriminate|]. cbn [seg_of p0 p1]. rewrite <- !surjective_pairing. exists p. auto.
Qed.
(** The edge that begins, or ends, in a vertex. *)
Lemma next_edge : forall l p q, steady l -> In p l -> In q l -> fst p < fst q -> exists e c, edge_of l false e /\ xlo (seg_of c e) = fst p /\ (p = fst e \/ p = snd e).
Proof.
  intros l p q (M & _) Ip Iq L. apply In_nth_error in Ip, Iq. destruct Ip as (i & Pi), Iq as (j & Qj). destruct M as [M|M].
  - assert (IJ : (i < j)%nat). { destruct (Nat.lt_ge_cases i j) as [H|H]; [exact H|]. destruct (Nat.eq_dec i j) as [-> |N]; [rewrite Pi in Qj; injection Qj as ->; lra|]. specialize (M j i q p ltac:(lia) Qj Pi). lra. }
    destruct (nth_error l (S i)) as [r|] eqn:Ri; [|apply nth_error_None in Ri; assert (j < length l)%nat by (apply nth_error_Some; congruence); lia].
    exists (p, r), true. split; [exists i; left; auto|]. split; [|left; reflexivity]. specialize (M i (S i) p r ltac:(lia) Pi Ri). unfold xlo, fminr. cbn [seg_of p0 p1 fst snd]. destruct (Rle_dec _ _); lra.
  - assert (IJ : (j < i)%nat). { destruct (Nat.lt_ge_cases j i) as [H|H]; [exact H|]. destruct (Nat.eq_dec i j) as [-> |N]; [rewrite Pi in Qj; injection Qj as ->; lra|]. specialize (M i j p q ltac:(lia) Pi Qj). lra. }
    destruct i as [|i]; [lia|]. destruct (nth_error l i) as [r|] eqn:Ri; [|apply nth_error_None in Ri; assert (S i < length l)%nat by (apply nth_error_Some; congruence); lia].
    exists (r, p), true. split; [exists i; left; auto|]. split; [|right; reflexivity]. specialize (M i (S i) r p ltac:(lia) Ri Pi). unfold xlo, fminr. cbn [seg_of p0 p1 fst snd]. destruct (Rle_dec _ _); lra.
Qed.
Lemma prev_edge : forall l p q, steady l -> In p l -> In q l -> fst q < fst p -> exists e c, edge_of l false e /\ xhi (seg_of c e) = fst p /\ (p = fst e \/ p = snd e).
Proof.
  intros l p q (M & _) Ip Iq L. apply In_nth_error in Ip, Iq. destruct Ip as (i & Pi), Iq as (j & Qj). destruct M as [M|M].
  - assert (IJ : (j < i)%nat). { destruct (Nat.lt_ge_cases j i) as [H|H]; [exact H|]. destruct (Nat.eq_dec i j) as [-> |N]; [rewrite Pi in Qj; injection Qj as ->; lra|]. specialize (M i j p q ltac:(lia) Pi Qj). lra. }
    destruct i as [|i]; [lia|]. destruct (nth_error l i) as [r|] eqn:Ri; [|apply nth_error_None in Ri; assert (S i < length l)%nat by (apply nth_error_Some; congruence); lia].
    exists (r, p), true. split; [exists i; left; auto|]. split; [|right; reflexivity]. specialize (M i (S i) r p ltac:(lia) Ri Pi). unfold xhi, fmaxr. cbn [seg_of p0 p1 fst snd]. destruct (Rle_dec _ _); lra.
  - assert (IJ : (i < j)%nat). { destruct (Nat.lt_ge_cases i j) as [H|H]; [exact H|]. destruct (Nat.eq_dec i j) as [-> |N]; [rewrite Pi in Qj; injection Qj as ->; lra|]. specialize (M j i q p ltac:(lia) Qj Pi). lra. }
    destruct (nth_error l (S i)) as [r|] eqn:Ri; [|apply nth_error_None in Ri; assert (j < length l)%nat by (apply nth_error_Some; congruence); lia].
    exists (p, r), true. split; [exists i; left; auto|]. split; [|left; reflexivity]. specialize (M i (S i) p r ltac:(lia) Pi Ri). unfold xhi, fmaxr. cbn [seg_of p0 p1 fst snd]. destruct (Rle_dec _ _); lra.
Qed.
(** A common position is found, or the lines only touch end to end. *)
Lemma end_vertex : forall c e x, plain e -> xhi (seg_of c e) = x \/ xlo (seg_of c e) = x -> exists p, (p = fst e \/ p = snd e) /\ fst p = x.
Proof.
  intros c e x Pe. unfold xhi, xlo, fmaxr, fminr. cbn [seg_of p0 p1]. destruct (Rle_dec _ _); intros [H|H]; [exists (snd e)|exists (fst e)|exists (fst e)|exists (snd e)]; auto.
Qed.
Lemma vertex_on : forall e p, plain e -> p = fst e \/ p = snd e -> on_edge e (pos (fst p) (snd p)).
Proof.
  intros e p (A & B & _) H. unfold on_edge. destruct (arc_ends (pos (fst (fst e)) (snd (fst e))) (pos (fst (snd e)) (snd (snd e)))) as [E1 E2]; [apply upos_unit|apply upos_unit|].
  destruct H as [-> | ->]; assumption.
Qed.
Lemma common_found : (forall x, (exists e, In (eseg e) ss /\ good_event e /\ ex e = x) -> miss ss x) -> ~ end_to_end a b -> ~ end_to_end b a ->
  forall e f, edge_of a false e -> edge_of b false f -> meet e f -> False.
Proof.
  intros MI N1 N2 e f E F M.
  pose proof (steady_plain a e Sa E) as Pe. pose proof (steady_plain b f Sb F) as Pf.
  pose proof (nv_lohi _ (plain_nv false e Pe)) as LE. pose proof (nv_lohi _ (plain_nv true f Pf)) as LF.
  destruct M as (p & Oe & Of). destruct (plain_pos e p Pe Oe) as (x & y & X & Y & EP & RE). destruct (plain_pos f p Pf Of) as (x' & y' & X' & Y' & EP' & RF).
  assert (YY : y = y') by (apply (pos_lat x y x' y'); congruence). subst y'.
  assert (XX : x = x').
  { rewrite EP in EP'. unfold pos, upos in EP'. injection EP' as P1 P2. pose proof (cos_rad_pos _ Y) as CY. apply (same_lon x x' (cos (rad y))); lra. }
  subst x'. clear EP'. subst p. apply (lohi_range false) in RE. apply (lohi_range true) in RF.
  (* a vertex at an end *)
  assert (VX : forall g c, plain g -> on_edge g (pos x y) -> xhi (seg_of c g) = x \/ xlo (seg_of c g) = x -> exists v, (v = fst g \/ v = snd g) /\ v = (x, y)).
  { intros g c Pg Og H. destruct (end_vertex c g x Pg H) as (v & V & VX). exists v. split; [exact V|]. pose proof (vertex_on g v Pg V) as O. rewrite VX in O.
    assert (VI : inner v) by (destruct Pg as (A & B & _); destruct V as [-> | ->]; assumption). destruct VI as [_ VY].
    assert (snd v = y) by (apply (one_height g x (snd v) y); assumption). destruct v. cbn [fst snd] in *. congruence. }
  assert (INN : forall l g v, edge_of l false g -> v = fst g \/ v = snd g -> In v l) by (intros l g v G [-> | ->]; apply (edge_in l false g G)).
  assert (MK : forall g h, plain g -> plain h -> ((x, y) = fst g \/ (x, y) = snd g) -> ((x, y) = fst h \/ (x, y) = snd h) -> meet g h).
  { intros g h Pg Ph Vg Vh. exists (pos x y). split; [apply (vertex_on g (x, y) Pg Vg)|apply (vertex_on h (x, y) Ph Vh)]. }
  destruct (Rlt_le_dec (xlo (seg_of false e)) (xhi (seg_of true f))) as [L1|L1]; destruct (Rlt_le_dec (xlo (seg_of true f)) (xhi (seg_of false e))) as [L2|L2].
  - apply (tested_both MI e f E F); try assumption. exists (pos x y). auto.
  - (* e ends where f begins *)
    destruct (VX e false Pe Oe) as (v & Ve & ->); [left; lra|]. destruct (VX f true Pf Of) as (v & Vf & ->); [right; lra|].
    pose proof (INN a e _ E Ve) as Ia. pose proof (INN b f _ F Vf) as Ib.
    assert (HA : forall q, In q a -> fst q <= x).
    { intros q Iq. destruct (Rle_lt_dec (fst q) x) as [H|H]; [exact H|exfalso]. destruct (next_edge a (x, y) q Sa Ia Iq H) as (g & c & G & GL & GV).
      pose proof (steady_plain a g Sa G) as Pg. assert (CL : xlo (seg_of false g) = x) by (unfold xlo in *; cbn [seg_of p0 p1 fst] in *; exact GL). pose proof (nv_lohi _ (plain_nv false g Pg)).
      apply (tested_both MI g f G F); [apply MK; assumption|lra|lra]. }
    assert (HB : forall q, In q b -> x <= fst q).
    { intros q Iq. destruct (Rle_lt_dec x (fst q)) as [H|H]; [exact H|exfalso]. destruct (prev_edge b (x, y) q Sb Ib Iq H) as (g & c & G & GL & GV).
      pose proof (steady_plain b g Sb G) as Pg. assert (CL : xhi (seg_of true g) = x) by (unfold xhi in *; cbn [seg_of p0 p1 fst] in *; exact GL). pose proof (nv_lohi _ (plain_nv true g Pg)).
      apply (tested_both MI e g E G); [apply MK; assumption|lra|lra]. }
    apply N1. exists (x, y). auto.
  - destruct (VX e false Pe Oe) as (v & Ve & ->); [right; lra|]. destruct (VX f true Pf Of) as (v & Vf & ->); [left; lra|].
    pose proof (INN a e _ E Ve) as Ia. pose proof (INN b f _ F Vf) as Ib.
    assert (HB : forall q, In q b -> fst q <= x).
    { intros q Iq. destruct (Rle_lt_dec (fst q) x) as [H|H]; [exact H|exfalso]. destruct (next_edge b (x, y) q Sb Ib Iq H) as (g & c & G & GL & GV).
      pose proof (steady_plain b g Sb G) as Pg. assert (CL : xlo (seg_of true g) = x) by (unfold xlo in *; cbn [seg_of p0 p1 fst] in *; exact GL). pose proof (nv_lohi _ (plain_nv true g Pg)).
      apply (tested_both MI e g E G); [apply MK; assumption|lra|lra]. }
    assert (HA : forall q, In q a -> x <= fst q).
    { intros q Iq. destruct (Rle_lt_dec x (fst q)) as [H|H]; [exact H|exfalso]. destruct (prev_edge a (x, y) q Sa Ia Iq H) as (g & c & G & GL & GV).
      pose proof (steady_plain a g Sa G) as Pg. assert (CL : xhi (seg_of false g) = x) by (unfold xhi in *; cbn [seg_of p0 p1 fst] in *; exact GL). pose proof (nv_lohi _ (plain_nv false g Pg)).
      apply (tested_both MI g f G F); [apply MK; assumption|lra|lra]. }
    apply N2. exists (x, y). auto.
  - lra.
Qed.
Hypothesis Oa : forall e, edge_of a false e -> one_side e.
Hypothesis Ob : forall e, edge_of b false e -> one_side e.
(** Whatever the heights: common positions are found. *)
Lemma steady_complete : forall height, ~ end_to_end a b -> ~ end_to_end b a -> (exists e f, edge_of a false e /\ edge_of b false f /\ meet e f) ->
  forall fuel, (length a + length b + 1 < fuel)%nat -> geog_intersects height fuel a false b false = Ret true.
Proof.
  intros height N1 N2 HM fuel F.
  rewrite geog_boxes; [|exact (proj1 (proj2 Sa))|exact (proj1 (proj2 Sb))| | |exact HM].
  2: { intros e E. split; [left; apply (steady_plain a); assumption|apply Oa, E]. } 2: { intros e E. split; [left; apply (steady_plain b); assumption|apply Ob, E]. }
  destruct (intersects_sph_sweep height a false b false (steady_norepeat a Sa) (steady_norepeat b Sb)) as (w & S & _ & MI). rewrite (S fuel F). f_equal.
  destruct w; [reflexivity|exfalso]. destruct HM as (e & f & E & G & M). apply (common_found (MI eq_refl) N1 N2 e f E G M).
Qed.
(** With the heights as computed, nothing else is. *)
Lemma steady_sound : forall fuel, (length a + length b + 1 < fuel)%nat -> geog_intersects exact_height fuel a false b false = Ret true ->
  exists e f, edge_of a false e /\ edge_of b false f /\ meet e f.
Proof.
  intros fuel F H. destruct (intersects_sph_sweep exact_height a false b false (steady_norepeat a Sa) (steady_norepeat b Sb)) as (w & S & T & _).
  assert (H' : intersects_sph exact_height fuel a false b false = Ret true).
  { unfold geog_intersects in H. destruct (geog_bbox a false) as [ba|]; [|exact H]. destruct (geog_bbox b false) as [bb|]; [|exact H]. destruct (boxes_overlap ba bb); [exact H|discriminate]. }
  rewrite (S fuel F) in H'. injection H' as ->. destruct (T eq_refl) as (x & HT). clear T S H. fold ss in HT.
  destruct HT as [(q' & s & t & ND & IQ & Is & It & NE & XS & H)|[(evs & q & s & r & ND & IQ & Is & IA & BE & XS & XR & H)|(q' & s & _ & Is & NV & _)]].
  - apply IQ in Is, It. destruct Is as (Is & Ns & Ls), It as (It & Nt & Lt). apply (pair_sound t s It Is); [|exact H].
    set (y := Rmin (xhi s) (xhi t)). assert (x < y /\ y <= xhi s /\ y <= xhi t) as (Y1 & Y2 & Y3).
    { unfold y. pose proof (Rmin_l (xhi s) (xhi t)). pose proof (Rmin_r (xhi s) (xhi t)). split; [apply Rmin_glb_lt; lra|lra]. }
    apply (other_colour t s x y); try assumption; try lra. intros ->. apply NE. reflexivity.
  - assert (Ir : In r q) by (rewrite enter_front in ND, BE; exact (before_old _ _ s r ND Is BE)).
    apply IQ in Is, Ir. destruct Is as (Is & Ns & Ls), Ir as (Ir & Nr & Lr). apply (pair_sound r s Ir Is); [|exact H].
    set (y := Rmax (xlo s) (xlo r)). assert (y < x /\ xlo s <= y /\ xlo r <= y) as (Y1 & Y2 & Y3).
    { unfold y. pose proof (Rmax_l (xlo s) (xlo r)). pose proof (Rmax_r (xlo s) (xlo r)). split; [apply Rmax_lub_lt; lra|lra]. }
    apply (other_colour r s y x); try assumption; try lra. intros ->. contradiction.
  - exfalso. apply NV. apply in_ss in Is. destruct Is as [(e & E & ->)|(e & E & ->)]; apply plain_nv; [apply (steady_plain a)|apply (steady_plain b)]; assumption.
Qed.
Lemma steady_exact : ~ end_to_end a b -> ~ end_to_end b a ->
  exists w, (forall fuel, (length a + length b + 1 < fuel)%nat -> geog_intersects exact_height fuel a false b false = Ret w) /\
    (w = true <-> exists e f, edge_of a false e /\ edge_of b false f /\ meet e f).
Proof.
  intros N1 N2. destruct (geog_answers exact_height a false b false (steady_norepeat a Sa) (steady_norepeat b Sb)) as (w & SW). exists w. split; [exact SW|].
  set (n := S (length a + length b + 1)). assert (N : (length a + length b + 1 < n)%nat) by (unfold n; lia). split.
  - intros ->. apply (steady_sound n N), SW, N.
  - intros HM. pose proof (steady_complete exact_height N1 N2 HM n N) as H. rewrite (SW n N) in H. injection H as ->. reflexivity.
Qed.
End Steady.
