(** The sweep of [intersects] finds every meeting of geometries in general position. *)
From Coq Require Import List ZArith QArith Qabs Lqa Lia Bool Arith Sorted.
From Verif Require Import Geom_Model Geom_Spec Geom_Proofs Inter_Model Inter_Spec Inter_Proofs Inter_Sweep Inter_Sweep2.
Import ListNotations.
Open Scope Q_scope.

Definition slope (s : seg) : Q := (sy1 s - sy0 s) / (sx1 s - sx0 s).
Lemma height_step : forall s x x', height s x' == height s x + slope s * (x' - x).
Proof. intros. unfold height, slope. ring. Qed.
Lemma height_ext : forall s x x', x == x' -> height s x == height s x'.
Proof. intros s x x' H. unfold height. rewrite H. reflexivity. Qed.
Lemma slope_height_spec : forall s x, snd (slope_height s x) == height s x /\ fst (slope_height s x) == slope s.
Proof.
  intros s x. unfold slope_height, height, slope. destruct (Qeq_bool (sy1 s) (sy0 s)) eqn:E; cbn [fst snd]; [|split; ring].
  apply Qeqb_t in E. rewrite E. unfold Qdiv. split; ring.
Qed.
Lemma seq_height : forall s t x, seg_eqb s t = true -> height s x == height t x.
Proof. intros s t x H. apply seg_eqb_iff in H. destruct H as (A & B & C & D & _). unfold height. rewrite A, B, C, D. reflexivity. Qed.
Lemma seq_vertical : forall s t, seg_eqb s t = true -> vertical s -> vertical t.
Proof. intros s t H V. apply seg_eqb_iff in H. destruct H as (A & B & C & D & _). unfold vertical in *. rewrite <- A, <- C. exact V. Qed.
Lemma seq_color : forall s t, seg_eqb s t = true -> color s = color t.
Proof. intros s t H. apply seg_eqb_iff in H. apply H. Qed.

(** Order of the sweep line just to the right of [x]. *)
Definition lt_at (x : Q) (s t : seg) : Prop := height s x < height t x \/ (height s x == height t x /\ slope s < slope t).
Definition Zx (x : Q) (s t : seg) : Prop := height s x < height t x \/ (height s x == height t x /\ xhi s == x).
Lemma Zx_trans : forall x, Relations_1.Transitive (Zx x).
Proof. intros x s t u [A|[A A']] [B|[B B']]; unfold Zx; [left; lra|left; lra|left; lra|right; split; [lra|exact A']]. Qed.
Definition Vx (x : Q) (s t : seg) : Prop := height s x <= height t x /\ (~ xhi s == x -> ~ xhi t == x -> lt_at x s t).
Definition adj_ok (q : list seg) : Prop := forall l1 s t l2, q = l1 ++ s :: t :: l2 -> intersects2 s t = false.

Lemma end_hi : forall s x, ~ vertical s -> x == xhi s -> end_of (eseg_of s) (x, height s x).
Proof.
  intros s x V E. unfold vertical in V. assert (D : ~ sx1 s - sx0 s == 0) by lra. unfold xhi in E.
  unfold end_of, same, eseg_of, height. cbn [fst snd].
  destruct (fmax_spec (sx0 s) (sx1 s)) as [[A _]|[A _]]; rewrite A in E; [right|left]; rewrite E; (split; [reflexivity|]); [field; exact D|ring].
Qed.
Lemma end_lo : forall s x, ~ vertical s -> x == xlo s -> end_of (eseg_of s) (x, height s x).
Proof.
  intros s x V E. unfold vertical in V. assert (D : ~ sx1 s - sx0 s == 0) by lra. unfold xlo in E.
  unfold end_of, same, eseg_of, height. cbn [fst snd].
  destruct (fmin_spec (sx0 s) (sx1 s)) as [[A _]|[A _]]; rewrite A in E; [left|right]; rewrite E; (split; [reflexivity|]); [ring|field; exact D].
Qed.
Lemma end_x : forall s x y, end_of (eseg_of s) (x, y) -> x == xlo s \/ x == xhi s.
Proof.
  intros s x y [[A _]|[A _]]; cbn [fst snd eseg_of] in A; unfold xlo, xhi;
  destruct (fmin_spec (sx0 s) (sx1 s)) as [[C C']|[C C']]; destruct (fmax_spec (sx0 s) (sx1 s)) as [[D D']|[D D']]; rewrite C, D;
  first [left; lra|right; lra].
Qed.
Lemma end_same : forall e p q, same p q -> end_of e p -> end_of e q.
Proof. intros e p q S [H|H]; [left|right]; (eapply same_trans; [apply same_sym, S|exact H]). Qed.
Lemma on_same : forall e p q, same p q -> on_seg e p -> on_seg e q.
Proof. intros e p q S (t & T & H). exists t. split; [exact T|]. eapply same_trans; [apply same_sym, S|exact H]. Qed.
Lemma meet_at : forall s t x, ~ vertical s -> ~ vertical t -> spans s x -> spans t x -> height s x == height t x ->
  on_seg (eseg_of s) (x, height s x) /\ on_seg (eseg_of t) (x, height s x).
Proof.
  intros s t x Vs Vt Ss St E. split; [apply height_on; assumption|].
  apply on_same with (x, height t x); [split; [reflexivity|symmetry; exact E]|]. apply height_on; assumption.
Qed.
Lemma on_height : forall s x y, ~ vertical s -> on_seg (eseg_of s) (x, y) -> spans s x /\ y == height s x.
Proof.
  intros s x y V (t & T & A & B). cbn [fst snd along eseg_of] in A, B. unfold vertical in V. split.
  - unfold spans. destruct (Qlt_le_dec (sx0 s) (sx1 s)); [left|right]; rewrite A; nra.
  - unfold height. rewrite A, B. field. lra.
Qed.

Section General.
Variable ss : list seg.
Hypothesis P : forall s t p, In s ss -> In t ss -> color s <> color t -> on_seg (eseg_of s) p -> on_seg (eseg_of t) p ->
  ~ end_of (eseg_of s) p /\ ~ end_of (eseg_of t) p.
Hypothesis S2 : forall s t p, In s ss -> In t ss -> color s = color t -> seg_eqb s t = false -> on_seg (eseg_of s) p -> on_seg (eseg_of t) p ->
  end_of (eseg_of s) p /\ end_of (eseg_of t) p.
Hypothesis S3 : forall s t u p, In s ss -> In t ss -> In u ss -> color s = color t -> color t = color u ->
  seg_eqb s t = false -> seg_eqb t u = false -> seg_eqb s u = false ->
  end_of (eseg_of s) p -> end_of (eseg_of t) p -> end_of (eseg_of u) p -> False.

Lemma parallel_slope : forall s t, ~ vertical s -> ~ vertical t -> parallel (eseg_of s) (eseg_of t) -> slope s == slope t.
Proof.
  unfold parallel, direction, eseg_of, vertical, slope. cbn [fst snd]. intros s t Vs Vt H.
  set (a := sx1 s - sx0 s) in *. set (b := sy1 s - sy0 s) in *. set (c := sx1 t - sx0 t) in *. set (d := sy1 t - sy0 t) in *.
  assert (~ a == 0) by (unfold a; lra). assert (~ c == 0) by (unfold c; lra). clearbody a b c d.
  setoid_replace (d / c) with (a * d / (a * c)) by (field; split; assumption). rewrite H. field. split; assumption.
Qed.
Lemma cross_detect : forall s t x, In s ss -> In t ss -> ~ vertical s -> ~ vertical t -> color s <> color t -> spans s x -> spans t x ->
  height s x == height t x -> intersects2 s t = true.
Proof.
  intros s t x Is It Vs Vt C Ss St E. destruct (meet_at s t x Vs Vt Ss St E) as [A B].
  destruct (P s t _ Is It C A B) as [NA NB].
  assert (on' : forall e p, on_seg e p -> ~ end_of e p -> on_seg' e p).
  { intros e p (k & K & H) N. exists k. split; [|exact H]. destruct (Qeq_dec k 0) as [Z|Z]; [|lra]. exfalso. apply N. left.
    eapply same_trans; [exact H|]. unfold along, same. cbn [fst snd]. rewrite Z. split; ring. }
  assert (NP : ~ parallel (eseg_of s) (eseg_of t)).
  { intros K. apply parallel_slope in K; auto. apply spans_iff in Ss, St.
    assert (HE : forall z, height s z == height t z) by (intros z; rewrite (height_step s x z), (height_step t x z), E, K; reflexivity).
    assert (H : exists z, spans s z /\ spans t z /\ (z == xlo s \/ z == xlo t)).
    { destruct (Qlt_le_dec (xlo s) (xlo t)) as [L|L]; [exists (xlo t)|exists (xlo s)]; rewrite !spans_iff;
      assert (W := good_lt s Vs); assert (W' := good_lt t Vt); (split; [lra|]); (split; [lra|]); [right|left]; reflexivity. }
    destruct H as (z & Sz & Tz & Ez). destruct (meet_at s t z Vs Vt Sz Tz (HE z)) as [A' B'].
    destruct (P s t _ Is It C A' B') as [NA' NB']. destruct Ez as [Ez|Ez]; [apply NA', end_lo; assumption|].
    apply NB'. apply end_same with (z, height t z); [split; [reflexivity|symmetry; apply HE]|]. apply end_lo; assumption. }
  unfold intersects2. destruct (Bool.eqb (color s) (color t)) eqn:EC; [apply eqb_prop in EC; contradiction|].
  destruct (iscollinear _ _ _ _ _ _ _ _); [reflexivity|]. rewrite intersection_interx.
  destruct (interx_complete _ _ _ NP (on' _ _ A NA) (on' _ _ B NB)) as (q & H & _). rewrite H. reflexivity.
Qed.

Lemma adj_Z : forall s t x0 x, In s ss -> In t ss -> ~ vertical s -> ~ vertical t -> seg_eqb s t = false ->
  xlo s <= x0 -> xlo t <= x0 -> x <= xhi s -> x <= xhi t -> lt_at x0 s t -> intersects2 s t = false -> x0 < x -> Zx x s t.
Proof.
  intros s t x0 x Is It Vs Vt N Ls Lt Hs Ht O NI X.
  destruct (Qlt_le_dec (height s x) (height t x)) as [L|L]; [left; exact L|]. right.
  assert (Es := height_step s x0 x). assert (Et := height_step t x0 x).
  set (k := slope t - slope s). set (D := height t x0 - height s x0).
  assert (LD : D + k * (x - x0) <= 0).
  { unfold D, k. setoid_replace (height t x0 - height s x0 + (slope t - slope s) * (x - x0)) with (height t x - height s x) by (rewrite Es, Et; ring). lra. }
  assert (D0 : 0 < D). { destruct O as [O|[O O']]; [unfold D; lra|]. exfalso. assert (D == 0) by (unfold D; lra). assert (0 < k) by (unfold k; lra). nra. }
  assert (K0 : k < 0) by nra.
  set (x1 := x0 + D / (- k)).
  assert (X0 : x0 < x1). { unfold x1. assert (0 < D / - k) by (apply Qlt_shift_div_l; lra). lra. }
  assert (X1 : x1 <= x). { unfold x1. assert (D / - k <= x - x0) by (apply Qle_shift_div_r; lra). lra. }
  assert (E1 : height s x1 == height t x1).
  { rewrite (height_step s x0 x1), (height_step t x0 x1).
    assert (EE : height t x0 + slope t * (x1 - x0) - (height s x0 + slope s * (x1 - x0)) == 0).
    { transitivity (D + k * (x1 - x0)); [unfold D, k; ring|]. unfold x1. field. lra. } lra. }
  assert (Ss : spans s x1) by (apply spans_iff; lra). assert (St : spans t x1) by (apply spans_iff; lra).
  destruct (bool_dec (color s) (color t)) as [C|C]; [|rewrite (cross_detect s t x1) in NI by assumption; discriminate].
  destruct (meet_at s t x1 Vs Vt Ss St E1) as [A B]. destruct (S2 s t _ Is It C N A B) as [F _]. apply end_x in F.
  assert (x1 == xhi s) by (destruct F as [F|F]; [lra|exact F]). assert (x == x1) by lra. split; [|lra].
  rewrite (height_ext s x x1), (height_ext t x x1) by assumption. exact E1.
Qed.

Definition distinct (q : list seg) : Prop := forall l1 s l2 t l3, q = l1 ++ s :: l2 ++ t :: l3 -> seg_eqb s t = false.
Lemma simple_distinct : forall q, simple q -> distinct q.
Proof.
  intros q H l1 s l2 t l3 E. specialize (H t). rewrite E in H. rewrite cnt_app in H. cbn [cnt] in H. rewrite cnt_app in H. cbn [cnt] in H.
  rewrite seg_eqb_refl in H. destruct (seg_eqb s t); [lia|reflexivity].
Qed.
Lemma simple_tl : forall s q, simple (s :: q) -> simple q.
Proof. intros s q H u. specialize (H u). cbn [cnt] in H. lia. Qed.
Lemma simple_hd : forall s q t, simple (s :: q) -> In t q -> seg_eqb s t = false.
Proof. intros s q t H I. specialize (H t). cbn [cnt] in H. apply cnt_in in I. destruct (seg_eqb s t); [lia|reflexivity]. Qed.

Lemma Z_sorted : forall x0 x q, simple q -> (forall t, In t q -> In t ss /\ ~ vertical t /\ xlo t <= x0 /\ x <= xhi t) ->
  StronglySorted (lt_at x0) q -> adj_ok q -> x0 < x -> StronglySorted (Zx x) q.
Proof.
  intros x0 x q. intros SQ HQ O A X. apply Sorted_StronglySorted; [apply Zx_trans|]. revert SQ HQ O A.
  induction q as [|s q IH]; intros SQ HQ O A; constructor.
  - inversion O; subst. apply IH; auto.
    + eapply simple_tl, SQ.
    + intros t H. apply HQ. right. exact H.
    + intros l1 u v l2 E. apply (A (s :: l1) u v l2). rewrite E. reflexivity.
  - destruct q as [|t q]; constructor. inversion O as [|? ? O1 O2]; subst. inversion O2; subst.
    destruct (HQ s (or_introl eq_refl)) as (Is & Vs & Ls & Hs). destruct (HQ t (or_intror (or_introl eq_refl))) as (It & Vt & Lt & Ht).
    assert (NA := A [] s t q eq_refl). assert (NE := simple_hd s (t :: q) t SQ (or_introl eq_refl)).
    apply (adj_Z s t x0 x); assumption.
Qed.
Lemma Zx_Vx : forall x s t, Zx x s t -> Vx x s t.
Proof. intros x s t [H|[H H']]; (split; [lra|]); intros N _; [left; exact H|exfalso; apply N; exact H']. Qed.
Lemma SS_impl : forall {A} (R R' : A -> A -> Prop) l, (forall a b, In a l -> In b l -> R a b -> R' a b) -> StronglySorted R l -> StronglySorted R' l.
Proof.
  intros A R R'. induction l as [|a l IH]; intros H S; constructor; inversion S as [|? ? S1 S2']; subst.
  - apply IH; auto. intros; apply H; auto; right; assumption.
  - rewrite Forall_forall in *. intros b I. apply H; [left; reflexivity|right; exact I|auto].
Qed.
Lemma SS_filter : forall {A} (R : A -> A -> Prop) f l, StronglySorted R l -> StronglySorted R (filter f l).
Proof.
  intros A R f. induction l as [|a l IH]; intros S; [constructor|]. inversion S as [|? ? S1 S2']; subst. cbn [filter].
  destruct (f a); [|apply IH, S1]. constructor; [apply IH, S1|]. rewrite Forall_forall in *. intros b I. apply filter_In in I. apply S2', I.
Qed.

Lemma insert_V : forall x s q, In s ss -> ~ vertical s -> xlo s == x -> simple (s :: q) ->
  (forall t, In t q -> In t ss /\ ~ vertical t /\ spans t x) ->
  StronglySorted (Vx x) q -> StronglySorted (Vx x) (sweep_insert q s x).
Proof.
  intros x s q Is Vs Xs. assert (Ws := good_lt s Vs). assert (Ss : spans s x) by (apply spans_iff; lra).
  induction q as [|t q IH]; intros SQ HQ O; cbn [sweep_insert]; [repeat constructor|].
  destruct (slope_height s x) as [m y] eqn:E1. destruct (slope_height t x) as [m' y'] eqn:E2.
  destruct (slope_height_spec s x) as [Y M]. destruct (slope_height_spec t x) as [Y' M']. rewrite E1 in Y, M. rewrite E2 in Y', M'. cbn [fst snd] in *.
  inversion O as [|? ? O1 O2]; subst. rewrite Forall_forall in O2.
  assert (SQ' : simple (s :: q)) by (intros u; specialize (SQ u); cbn [cnt] in *; lia).
  assert (SQ'' : simple (t :: q)) by (intros u; specialize (SQ u); cbn [cnt] in *; lia).
  assert (HQ' : forall u, In u q -> In u ss /\ ~ vertical u /\ spans u x) by (intros; apply HQ; right; assumption).
  destruct (ltq y' y || (Qeq_bool y' y && ltq m' m)) eqn:C.
  - constructor; [apply IH; assumption|]. apply Forall_forall. intros u I. apply insert_in in I. destruct I as [-> |I]; [|auto].
    apply orb_prop in C. destruct C as [C|C].
    + apply ltq_t in C. split; [lra|]. intros _ _. left. lra.
    + apply andb_prop in C. destruct C as [C1 C2]. apply Qeqb_t in C1. apply ltq_t in C2. split; [lra|]. intros _ _. right. split; lra.
  - constructor; [exact O|]. apply orb_false_elim in C. destruct C as [C1 C2]. apply ltq_f in C1.
    apply Forall_forall. intros u I.
    assert (Hu : height t x <= height u x) by (destruct I as [<- |I]; [apply Qle_refl|apply O2, I]).
    split; [lra|]. intros _ NE. destruct (Qlt_le_dec (height s x) (height u x)) as [L|L]; [left; exact L|].
    assert (Eu : height s x == height u x) by lra. assert (Et : height s x == height t x) by lra.
    destruct (HQ u I) as (Iu & Vu & Su). destruct (HQ t (or_introl eq_refl)) as (It & Vt & St).
    destruct (meet_at s u x Vs Vu Ss Su Eu) as [A B]. destruct (meet_at s t x Vs Vt Ss St Et) as [_ B'].
    assert (F : end_of (eseg_of s) (x, height s x)) by (apply end_lo; [assumption|symmetry; exact Xs]).
    assert (Cu : color s = color u) by (destruct (bool_dec (color s) (color u)) as [X|X]; [exact X|]; exfalso; exact (proj1 (P s u _ Is Iu X A B) F)).
    assert (Ct : color s = color t) by (destruct (bool_dec (color s) (color t)) as [X|X]; [exact X|]; exfalso; exact (proj1 (P s t _ Is It X A B') F)).
    assert (Nt : seg_eqb s t = false) by (apply (simple_hd s (t :: q)); [exact SQ|left; reflexivity]).
    assert (Nu : seg_eqb s u = false) by (apply (simple_hd s (t :: q)); [exact SQ|exact I]).
    destruct (S2 s u _ Is Iu Cu Nu A B) as [_ Fu]. destruct (S2 s t _ Is It Ct Nt A B') as [_ Ft].
    destruct I as [<- |I].
    + right. split; [exact Eu|].
      assert (Q1 : Qeq_bool y' y = true) by (apply Qeq_bool_iff; lra). rewrite Q1 in C2. cbn [andb] in C2. apply ltq_f in C2.
      destruct (Qlt_le_dec (slope s) (slope t)) as [LS|LS]; [exact LS|]. exfalso.
      assert (ES : slope s == slope t) by lra. apply spans_iff in St.
      assert (HI : x < xhi t). { destruct St as [_ St]. apply Qle_lteq in St. destruct St as [St|St]; [exact St|]. exfalso. apply NE. symmetry. exact St. }
      assert (Z : exists z, x < z /\ z < xhi s /\ z < xhi t).
      { destruct (Qlt_le_dec (xhi s) (xhi t)); [exists ((x + xhi s) / 2)|exists ((x + xhi t) / 2)]; (split; [apply Qlt_shift_div_l|split; apply Qlt_shift_div_r]); lra. }
      destruct Z as (z & Z1 & Z2 & Z3).
      assert (Sz : spans s z) by (apply spans_iff; lra). assert (Tz : spans t z) by (apply spans_iff; lra).
      assert (Ez : height s z == height t z) by (rewrite (height_step s x z), (height_step t x z), Et, ES; reflexivity).
      destruct (meet_at s t z Vs Vt Sz Tz Ez) as [A2 B2]. destruct (S2 s t _ Is It Ct Nt A2 B2) as [G _]. apply end_x in G. lra.
    + exfalso. apply (S3 s t u (x, height s x)); auto; [congruence|]. apply (simple_hd t q); assumption.
Qed.
Lemma enter_V : forall x evs q,
  (forall e, In e evs -> good_event e /\ ex e == x /\ In (eseg e) ss) -> (forall u, (cnt u q + nev (is_left u) evs <= 1)%nat) ->
  (forall t, In t q -> In t ss /\ ~ vertical t /\ spans t x) -> StronglySorted (Vx x) q -> StronglySorted (Vx x) (enter evs q).
Proof.
  intros x. induction evs as [|e evs IH]; intros q HE HC HQ O; [exact O|].
  unfold enter. cbn [fold_left]. fold (enter evs (if of_kind Left e then sweep_insert q (eseg e) (ex e) else q)).
  assert (HE' : forall d, In d evs -> good_event d /\ ex d == x /\ In (eseg d) ss) by (intros; apply HE; right; assumption).
  destruct (of_kind Left e) eqn:K.
  - assert (K' := K). apply of_kind_iff in K. destruct (HE e (or_introl eq_refl)) as (G & X & I). unfold good_event in G. rewrite K in G. destruct G as [V XL].
    assert (INS : forall q', sweep_insert q' (eseg e) (ex e) = sweep_insert q' (eseg e) x \/ True) by auto. clear INS.
    apply IH.
    + exact HE'.
    + intros u. rewrite cnt_insert. specialize (HC u). cbn [nev] in HC. unfold is_left at 1 in HC. rewrite K' in HC. cbn [andb] in HC. lia.
    + intros t H. apply insert_in in H. destruct H as [-> |H]; [|auto]. split; [exact I|]. split; [exact V|]. apply spans_iff. assert (W := good_lt _ V). lra.
    + assert (W := good_lt _ V).
      assert (O' : StronglySorted (Vx (ex e)) q). { eapply SS_impl; [|exact O]. intros a b _ _ [H1 H2]. split.
        - rewrite (height_ext a _ x), (height_ext b _ x) by exact X. exact H1.
        - intros N1 N2. assert (L : lt_at x a b) by (apply H2; rewrite <- X; assumption). unfold lt_at in *.
          rewrite (height_ext a _ x), (height_ext b _ x) by exact X. exact L. }
      eapply SS_impl; [|apply (insert_V (ex e)); [exact I|exact V|symmetry; exact XL| | |exact O']].
      * intros a b _ _ [H1 H2]. split.
        -- rewrite (height_ext a _ (ex e)), (height_ext b _ (ex e)) by (symmetry; exact X). exact H1.
        -- intros N1 N2. assert (L : lt_at (ex e) a b) by (apply H2; rewrite X; assumption). unfold lt_at in *.
           rewrite (height_ext a x (ex e)), (height_ext b x (ex e)) by (symmetry; exact X). exact L.
      * intros u. specialize (HC u). cbn [nev] in HC. unfold is_left at 1 in HC. rewrite K' in HC. cbn [andb] in HC. cbn [cnt]. lia.
      * intros t H. destruct (HQ t H) as (A & B & C). repeat split; auto. apply spans_iff. apply spans_iff in C. rewrite X. exact C.
  - apply IH; auto. intros u. specialize (HC u). cbn [nev] in HC. lia.
Qed.
End General.

(* ---- removal *)
Definition keep (todo : list seg) (u : seg) : bool := negb (existsb (seg_eqb u) todo).
Lemma filter_id : forall {A} f (l : list A), (forall a, In a l -> f a = true) -> filter f l = l.
Proof. induction l as [|a l IH]; intros H; [reflexivity|]. cbn [filter]. rewrite (H a (or_introl eq_refl)), IH; auto. intros; apply H; right; assumption. Qed.
Lemma cnt0_neq : forall s q t, cnt s q = 0%nat -> In t q -> seg_eqb t s = false.
Proof.
  induction q as [|u q IH]; intros t H I; [destruct I|]. cbn [cnt] in H. destruct I as [-> |I]; [destruct (seg_eqb t s); [lia|reflexivity]|]. apply IH; [lia|exact I].
Qed.
Lemma remove_filter : forall q s q', simple q -> remove q s = Some q' -> q' = filter (fun u => negb (seg_eqb u s)) q.
Proof.
  intros q s q' SQ H. unfold remove in H. destruct (index q s) as [i|] eqn:E; [|discriminate].
  assert (H' : q' = firstn i q ++ skipn (S i) q) by congruence. clear H. subst q'.
  destruct (index_nth q s i E) as (t & N & T & Z). assert (D := split_nth q i t N).
  rewrite D at 3. rewrite filter_app. cbn [filter]. rewrite T. cbn [negb].
  assert (C := SQ s). rewrite D, cnt_app in C. cbn [cnt] in C. rewrite T, Z in C.
  f_equal; symmetry; apply filter_id; intros u I; apply negb_true_iff.
  - eapply cnt0_neq; [exact Z|exact I].
  - eapply cnt0_neq; [|exact I]. lia.
Qed.
Lemma filter_filter : forall {A} f g (l : list A), filter f (filter g l) = filter (fun a => g a && f a) l.
Proof. induction l as [|a l IH]; [reflexivity|]. cbn [filter]. destruct (g a) eqn:G; cbn [filter andb]; [destruct (f a); rewrite IH; reflexivity|exact IH]. Qed.
Lemma simple_filter : forall f q, simple q -> simple (filter f q).
Proof.
  intros f q H u. specialize (H u). enough (cnt u (filter f q) <= cnt u q)%nat by lia. clear. induction q as [|t q IH]; [reflexivity|].
  cbn [filter]. destruct (f t); cbn [cnt]; lia.
Qed.
Lemma end_filter : forall fuel ending todo q q' nb, simple q -> end_segments fuel ending todo q = Ret (q', nb) -> q' = filter (keep todo) q.
Proof.
  intros fuel ending. induction todo as [|s todo IH]; intros q q' nb SQ H; cbn [end_segments] in H.
  - injection H as <- _. symmetry. apply filter_id. reflexivity.
  - destruct (skip_ending fuel (leftof q) ending (Some s)); cbn [obind] in H; try discriminate.
    destruct (skip_ending fuel (rightof q) ending (Some s)); cbn [obind] in H; try discriminate.
    destruct (remove q s) as [q1|] eqn:R; [|discriminate].
    destruct (end_segments fuel ending todo q1) as [[q2 nb2]| |] eqn:E2; cbn [obind fst snd] in H; try discriminate.
    assert (E : q' = q2) by congruence. subst q2. apply remove_filter in R; [|exact SQ]. subst q1. apply IH in E2; [|apply simple_filter, SQ].
    rewrite E2, filter_filter. apply filter_ext. intros u. unfold keep. cbn [existsb]. rewrite negb_orb. reflexivity.
Qed.
Lemma index_mid : forall q1 t q2, simple (q1 ++ t :: q2) -> index (q1 ++ t :: q2) t = Some (length q1).
Proof. intros. apply index_exact; [assumption|]. rewrite nth_error_app2 by lia. rewrite Nat.sub_diag. reflexivity. Qed.
Lemma index_seq : forall q s t, seg_eqb s t = true -> index q s = index q t.
Proof.
  induction q as [|u q IH]; intros s t H; [reflexivity|]. cbn [index]. rewrite (IH s t H).
  rewrite (seg_eqb_sym u s), (seg_eqb_sym u t), (seg_eqb_trans _ _ u H). reflexivity.
Qed.
Lemma skip_left : forall fuel ending m q l2 w l1 s, q = l1 ++ s :: m ++ w :: l2 -> simple q -> existsb (seg_eqb s) ending = false ->
  (forall u, In u m -> existsb (seg_eqb u) ending = true) -> existsb (seg_eqb w) ending = true ->
  skip_ending fuel (leftof q) ending (Some w) = Ret (Some s) \/ skip_ending fuel (leftof q) ending (Some w) = Loop.
Proof.
  intros fuel ending m q l2. revert fuel l2. induction m as [|v m IH] using rev_ind; intros fuel l2 w l1 s E SQ Hs Hm Hw.
  - destruct fuel as [|fuel]; [right; reflexivity|]. cbn [skip_ending]. rewrite Hw. unfold leftof.
    assert (IX : index q w = Some (S (length l1))).
    { rewrite E in *. replace (l1 ++ s :: [] ++ w :: l2) with ((l1 ++ [s]) ++ w :: l2) in * by (rewrite <- app_assoc; reflexivity). rewrite index_mid by assumption. rewrite app_length. cbn. f_equal. lia. }
    rewrite IX. replace (nth_error q (length l1)) with (Some s) by (rewrite E, nth_error_app2, Nat.sub_diag by lia; reflexivity).
    destruct fuel as [|fuel]; [right; reflexivity|]. cbn [skip_ending]. rewrite Hs. left. reflexivity.
  - destruct fuel as [|fuel]; [right; reflexivity|]. cbn [skip_ending]. rewrite Hw. unfold leftof at 1 3.
    assert (IX : index q w = Some (S (length (l1 ++ s :: m)))).
    { rewrite E in *. replace (l1 ++ s :: (m ++ [v]) ++ w :: l2) with ((l1 ++ s :: m ++ [v]) ++ w :: l2) in * by (rewrite <- !app_assoc; cbn [app]; rewrite <- !app_assoc; reflexivity).
      rewrite index_mid by assumption. rewrite !app_length. cbn [length]. rewrite app_length. cbn [length]. f_equal. lia. }
    rewrite IX.
    assert (E' : q = (l1 ++ s :: m) ++ v :: w :: l2) by (rewrite E; repeat rewrite <- app_assoc; cbn [app]; repeat rewrite <- app_assoc; reflexivity).
    replace (nth_error q (length (l1 ++ s :: m))) with (Some v) by (rewrite E', nth_error_app2, Nat.sub_diag by lia; reflexivity).
    apply (IH fuel (w :: l2) v l1 s).
    + rewrite E', <- app_assoc. reflexivity.
    + exact SQ.
    + exact Hs.
    + intros u I. apply Hm, in_or_app. left. exact I.
    + apply Hm, in_or_app. right. left. reflexivity.
Qed.
Lemma skip_right : forall fuel ending m q l1 w t l2, q = l1 ++ w :: m ++ t :: l2 -> simple q -> existsb (seg_eqb t) ending = false ->
  (forall u, In u m -> existsb (seg_eqb u) ending = true) -> existsb (seg_eqb w) ending = true ->
  skip_ending fuel (rightof q) ending (Some w) = Ret (Some t) \/ skip_ending fuel (rightof q) ending (Some w) = Loop.
Proof.
  intros fuel ending m q l1. revert fuel l1. induction m as [|v m IH]; intros fuel l1 w t l2 E SQ Ht Hm Hw.
  - destruct fuel as [|fuel]; [right; reflexivity|]. cbn [skip_ending]. rewrite Hw. unfold rightof.
    assert (IX : index q w = Some (length l1)) by (rewrite E in *; apply index_mid; assumption). rewrite IX.
    replace (nth_error q (S (length l1))) with (Some t) by (rewrite E, nth_error_app2 by lia; replace (S (length l1) - length l1)%nat with 1%nat by lia; reflexivity).
    destruct fuel as [|fuel]; [right; reflexivity|]. cbn [skip_ending]. rewrite Ht. left. reflexivity.
  - destruct fuel as [|fuel]; [right; reflexivity|]. cbn [skip_ending]. rewrite Hw. unfold rightof at 1 3.
    assert (IX : index q w = Some (length l1)) by (rewrite E in *; apply index_mid; assumption). rewrite IX.
    replace (nth_error q (S (length l1))) with (Some v) by (rewrite E, nth_error_app2 by lia; replace (S (length l1) - length l1)%nat with 1%nat by lia; reflexivity).
    apply (IH fuel (l1 ++ [w]) v t l2).
    + rewrite E, <- app_assoc. reflexivity.
    + exact SQ.
    + exact Ht.
    + intros u I. apply Hm. right. exact I.
    + apply Hm. left. reflexivity.
Qed.
Lemma skip_seq : forall fuel next ending s t, seg_eqb s t = true -> next s = next t -> existsb (seg_eqb s) ending = true ->
  skip_ending fuel next ending (Some s) = skip_ending fuel next ending (Some t).
Proof.
  intros fuel next ending s t H N E. destruct fuel as [|fuel]; [reflexivity|]. cbn [skip_ending]. rewrite N.
  assert (E' : existsb (seg_eqb t) ending = true).
  { apply existsb_exists in E. destruct E as (u & I & U). apply existsb_exists. exists u. split; [exact I|]. rewrite (seg_eqb_trans s t u H). exact U. }
  rewrite E, E'. reflexivity.
Qed.
Lemma existsb_seq : forall s t l, seg_eqb s t = true -> existsb (seg_eqb s) l = existsb (seg_eqb t) l.
Proof. intros s t l H. induction l as [|u l IH]; [reflexivity|]. cbn [existsb]. rewrite IH, (seg_eqb_trans s t u H). reflexivity. Qed.
Lemma end_nb : forall fuel ending todo q q' nb l1 s mid t l2, simple q -> end_segments fuel ending todo q = Ret (q', nb) ->
  (forall u, In u todo -> In u ending) -> q = l1 ++ s :: mid ++ t :: l2 ->
  existsb (seg_eqb s) ending = false -> existsb (seg_eqb t) ending = false ->
  (forall u, In u mid -> existsb (seg_eqb u) ending = true) ->
  (exists w, In w mid /\ existsb (seg_eqb w) todo = true) -> In (Some s, Some t) nb.
Proof.
  intros fuel ending. induction todo as [|s0 todo IH]; intros q q' nb l1 s mid t l2 SQ H TE E Hs Ht Hm (w & Iw & Ew).
  - discriminate.
  - cbn [end_segments] in H.
    destruct (skip_ending fuel (leftof q) ending (Some s0)) as [l| |] eqn:EL; cbn [obind] in H; try discriminate.
    destruct (skip_ending fuel (rightof q) ending (Some s0)) as [r| |] eqn:ER; cbn [obind] in H; try discriminate.
    destruct (remove q s0) as [q1|] eqn:R; [|discriminate].
    destruct (end_segments fuel ending todo q1) as [[q2 nb2]| |] eqn:E2; cbn [obind fst snd] in H; try discriminate.
    assert (EN : nb = (l, r) :: nb2) by congruence. subst nb. clear H.
    assert (IS0 : existsb (seg_eqb s0) ending = true) by (apply existsb_exists; exists s0; split; [apply TE; left; reflexivity|apply seg_eqb_refl]).
    destruct (cnt s0 mid) as [|n] eqn:CM.
    + right. apply (IH q1 q2 nb2 (filter (fun u => negb (seg_eqb u s0)) l1) s mid t (filter (fun u => negb (seg_eqb u s0)) l2)); auto.
      * apply remove_filter in R; [|exact SQ]. rewrite R. apply simple_filter, SQ.
      * intros; apply TE; right; assumption.
      * apply remove_filter in R; [|exact SQ]. rewrite R, E, !filter_app. cbn [filter]. rewrite filter_app. cbn [filter].
        assert (Ns : seg_eqb s s0 = false). { destruct (seg_eqb s s0) eqn:X; [|reflexivity]. rewrite (existsb_seq _ _ ending X) in Hs. congruence. }
        assert (Nt : seg_eqb t s0 = false). { destruct (seg_eqb t s0) eqn:X; [|reflexivity]. rewrite (existsb_seq _ _ ending X) in Ht. congruence. }
        rewrite Ns, Nt. cbn [negb]. f_equal. f_equal. f_equal. apply filter_id. intros u I. apply negb_true_iff. eapply cnt0_neq; eassumption.
      * exists w. split; [exact Iw|]. cbn [existsb] in Ew. rewrite (cnt0_neq _ _ _ CM Iw) in Ew. exact Ew.
    + left. destruct (cnt_pos s0 mid) as (v & Iv & Ev); [lia|]. apply in_split in Iv. destruct Iv as (m1 & m2 & Em).
      assert (Hv : existsb (seg_eqb v) ending = true) by (apply Hm; rewrite Em; apply in_or_app; right; left; reflexivity).
      assert (L1 : skip_ending fuel (leftof q) ending (Some v) = skip_ending fuel (leftof q) ending (Some s0)) by (apply skip_seq; [exact Ev|unfold leftof; rewrite (index_seq q v s0 Ev); reflexivity|exact Hv]).
      assert (R1 : skip_ending fuel (rightof q) ending (Some v) = skip_ending fuel (rightof q) ending (Some s0)) by (apply skip_seq; [exact Ev|unfold rightof; rewrite (index_seq q v s0 Ev); reflexivity|exact Hv]).
      destruct (skip_left fuel ending m1 q (m2 ++ t :: l2) v l1 s) as [X|X]; try rewrite X in L1; auto; try congruence.
      { rewrite E, Em, <- app_assoc. reflexivity. }
      { intros u I. apply Hm. rewrite Em. apply in_or_app. left. exact I. }
      destruct (skip_right fuel ending m2 q (l1 ++ s :: m1) v t l2) as [Y|Y]; try rewrite Y in R1; auto; try congruence.
      { rewrite E, Em. repeat rewrite <- app_assoc. cbn [app]. repeat rewrite <- app_assoc. reflexivity. }
      { intros u I. apply Hm. rewrite Em. apply in_or_app. right. right. exact I. }
Qed.
Lemma filter_adj : forall {A} f (q : list A) p1 s t p2, filter f q = p1 ++ s :: t :: p2 ->
  exists l1 mid l2, q = l1 ++ s :: mid ++ t :: l2 /\ forall u, In u mid -> f u = false.
Proof.
  intros A f. assert (G : forall (q : list A) t p2, filter f q = t :: p2 -> exists mid l2, q = mid ++ t :: l2 /\ (forall u, In u mid -> f u = false) /\ filter f l2 = p2).
  { induction q as [|a q IH]; intros t p2 H; [discriminate|]. cbn [filter] in H. destruct (f a) eqn:F.
    - injection H as -> <-. exists [], q. repeat split; auto. intros u [].
    - destruct (IH t p2 H) as (mid & l2 & E & M & N). exists (a :: mid), l2. subst q. repeat split; auto. intros u [<- |I]; auto. }
  induction q as [|a q IH]; intros p1 s t p2 H; [destruct p1; discriminate|].
  destruct p1 as [|b p1].
  - destruct (G (a :: q) s (t :: p2) H) as (mid & l2 & E & M & N). destruct (G l2 t p2 N) as (mid' & l3 & E' & M' & _).
    exists mid, mid', l3. split; [rewrite E, E'; reflexivity|exact M'].
  - cbn [filter] in H. destruct (f a) eqn:F.
    + cbn [app] in H. injection H as -> H. destruct (IH p1 s t p2 H) as (l1 & mid & l2 & E & M). exists (b :: l1), mid, l2. split; [rewrite E; reflexivity|exact M].
    + destruct (IH (b :: p1) s t p2 H) as (l1 & mid & l2 & E & M). exists (a :: l1), mid, l2. split; [rewrite E; reflexivity|exact M].
Qed.

(* ---- what a negative check means *)
Lemma check_false : forall q evs nb, check q evs nb = Ret false -> length nb = nev (of_kind Right) evs ->
  (forall e, In e evs -> ekind e = Left -> exists l r, leftof q (eseg e) = Some l /\ rightof q (eseg e) = Some r /\
     (forall t, l = Some t -> intersects2 t (eseg e) = false) /\ (forall t, r = Some t -> intersects2 (eseg e) t = false)) /\
  (forall l r, In (Some l, Some r) nb -> intersects2 l r = false) /\
  (forall e, In e evs -> ekind e = Bottom -> crosses_vertical q (eseg e) = false).
Proof.
  intros q. induction evs as [|e evs IH]; intros nb H L.
  - destruct nb; [|discriminate]. repeat split; intros; contradiction.
  - cbn [check] in H. cbn [nev] in L. unfold of_kind in L at 1. destruct (ekind e) eqn:K.
    + destruct (leftof q (eseg e)) as [l|] eqn:El; [|discriminate]. destruct (rightof q (eseg e)) as [r|] eqn:Er; [|discriminate].
      destruct (match l with Some t => intersects2 t (eseg e) | None => false end) eqn:E1; [discriminate|].
      destruct (match r with Some t => intersects2 (eseg e) t | None => false end) eqn:E2; [discriminate|].
      destruct (IH nb H L) as (A & B & C). split; [|split; [exact B|]].
      * intros d [<- |I] KD; [|auto]. exists l, r. repeat split; auto; intros t ->; assumption.
      * intros d [<- |I] KD; [congruence|auto].
    + destruct nb as [|[l r] nb]; [discriminate|]. cbn [length] in L. injection L as L.
      assert (H' : check q evs nb = Ret false /\ (forall l' r', (Some l', Some r') = (l, r) -> intersects2 l' r' = false)).
      { destruct l as [l|]; [destruct r as [r|]|]; try (split; [exact H|intros; discriminate]).
        destruct (intersects2 l r) eqn:E; [discriminate|]. split; [exact H|]. intros l' r' X. injection X as -> ->. exact E. }
      destruct H' as [H1 H2]. destruct (IH nb H1 L) as (A & B & C). split; [|split].
      * intros d [<- |I] KD; [congruence|auto].
      * intros l' r' [I|I]; [apply H2; congruence|apply B; exact I].
      * intros d [<- |I] KD; [congruence|auto].
    + destruct (crosses_vertical q (eseg e)) eqn:E; [discriminate|]. destruct (IH nb H L) as (A & B & C). split; [|split; [exact B|]].
      * intros d [<- |I] KD; [congruence|auto].
      * intros d [<- |I] KD; [exact E|auto].
    + destruct (IH nb H L) as (A & B & C). split; [|split; [exact B|]].
      * intros d [<- |I] KD; [congruence|auto].
      * intros d [<- |I] KD; [congruence|auto].
Qed.
Lemma insert_split : forall q s x, exists l1 l2, q = l1 ++ l2 /\ sweep_insert q s x = l1 ++ s :: l2.
Proof.
  induction q as [|t q IH]; intros s x; cbn [sweep_insert]; [exists [], []; auto|].
  destruct (slope_height s x). destruct (slope_height t x). destruct (_ || _); [|exists [], (t :: q); auto].
  destruct (IH s x) as (l1 & l2 & E & F). exists (t :: l1), l2. rewrite F. rewrite E at 1. auto.
Qed.
Lemma adj_remove_mid : forall {A} (l1 : list A) u l2 p1 s t p2, l1 ++ u :: l2 = p1 ++ s :: t :: p2 -> s <> u -> t <> u ->
  exists r1 r2, l1 ++ l2 = r1 ++ s :: t :: r2.
Proof.
  induction l1 as [|a l1 IH]; intros u l2 p1 s t p2 E Ns Nt.
  - destruct p1 as [|b p1]; [cbn in E; congruence|]. cbn [app] in *. injection E as -> ->. exists p1, p2. reflexivity.
  - destruct p1 as [|b p1]; cbn [app] in *.
    + injection E as -> E. destruct l1 as [|c l1]; cbn [app] in *; [congruence|]. injection E as -> <-. exists [], (l1 ++ l2). reflexivity.
    + injection E as -> E. destruct (IH u l2 p1 s t p2 E Ns Nt) as (r1 & r2 & X). exists (b :: r1), r2. rewrite X. reflexivity.
Qed.
Lemma enter_adj : forall evs q p1 s t p2, enter evs q = p1 ++ s :: t :: p2 ->
  (forall e, In e evs -> ekind e = Left -> eseg e <> s /\ eseg e <> t) -> exists r1 r2, q = r1 ++ s :: t :: r2.
Proof.
  induction evs as [|e evs IH]; intros q p1 s t p2 H N; [cbn in H; eauto|].
  unfold enter in H. cbn [fold_left] in H. fold (enter evs (if of_kind Left e then sweep_insert q (eseg e) (ex e) else q)) in H.
  apply IH in H; [|intros; apply N; [right|]; assumption]. destruct H as (r1 & r2 & H). destruct (of_kind Left e) eqn:K; [|eauto].
  apply of_kind_iff in K. destruct (N e (or_introl eq_refl) K) as [N1 N2].
  destruct (insert_split q (eseg e) (ex e)) as (l1 & l2 & E & F). rewrite F in H. apply adj_remove_mid in H; try congruence. rewrite E. exact H.
Qed.
Lemma rightof_mid : forall q1 s t q2, simple (q1 ++ s :: t :: q2) -> rightof (q1 ++ s :: t :: q2) s = Some (Some t).
Proof.
  intros. unfold rightof. rewrite index_mid by assumption. rewrite nth_error_app2 by lia. replace (S (length q1) - length q1)%nat with 1%nat by lia. reflexivity.
Qed.
Lemma leftof_mid : forall q1 s t q2, simple (q1 ++ s :: t :: q2) -> leftof (q1 ++ s :: t :: q2) t = Some (Some s).
Proof.
  intros q1 s t q2 H. unfold leftof. replace (q1 ++ s :: t :: q2) with ((q1 ++ [s]) ++ t :: q2) in * by (rewrite <- app_assoc; reflexivity).
  rewrite index_mid by assumption. rewrite app_length. cbn [length]. rewrite Nat.add_1_r. rewrite <- app_assoc.
  rewrite nth_error_app2 by lia. rewrite Nat.sub_diag. reflexivity.
Qed.
