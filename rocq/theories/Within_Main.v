(** Proofs: members of a multipart geometry within or touching a line or polygon. *)
From Coq Require Import String List ZArith QArith Qfield Lqa Bool Arith Lia.
From Verif Require Import Table_Model Table_Spec Multi_Model Multi_Spec Multi_Proofs Multi_MoreProofs RTree_Model RTree_Spec RTree_Unsplit
  Geom_Model Geom_Spec Geom_Proofs Inter_Model Inter_Spec Inter_Proofs Inter_Complete2 Contains_Model Contains_Spec Contains_Proofs
  Contains_Winding Within_Winding Within_Spec Within_Proofs Within_Cross Within_Model.
Import ListNotations.
Local Open Scope list_scope.
Open Scope Q_scope.

(* ---- boxes *)
Lemma box_of_tight : forall l, l <> [] -> exists b, box_of l = Done b /\ tight_box (xmin b) (ymin b) (xmax b) (ymax b) l.
Proof.
  intros l H. destruct (bbox_c_tight l H) as (x0 & y0 & x1 & y1 & E & T). exists (mkB x0 y0 x1 y1). unfold box_of. rewrite E. split; [reflexivity|exact T].
Qed.
Lemma boxes_ok : forall ls, (forall l, In l ls -> l <> []) -> exists bs, boxes_of ls = Done bs /\ length bs = length ls /\
  forall i b, nth_error bs i = Some b <-> exists l, nth_error ls i = Some l /\ box_of l = Done b.
Proof.
  induction ls as [|l ls IH]; intros H.
  - exists []. split; [reflexivity|]. split; [reflexivity|]. intros i b. split; [destruct i; discriminate|intros (l & E & _); destruct i; discriminate].
  - destruct IH as (bs & E & L & N); [intros x X; apply H; right; exact X|].
    destruct (box_of_tight l (H l (or_introl eq_refl))) as (b & Eb & _).
    exists (b :: bs). cbn [boxes_of]. rewrite Eb. cbn [next]. rewrite E. cbn [next]. split; [reflexivity|]. split; [cbn [length]; lia|].
    intros [|i] b'; cbn [nth_error]; [|apply N]. split.
    + intros X. injection X as <-. exists l. split; [reflexivity|exact Eb].
    + intros (l' & X & Y). injection X as <-. rewrite Eb in Y. injection Y as <-. reflexivity.
Qed.
Lemma area_box : forall l b, has_area l -> tight_box (xmin b) (ymin b) (xmax b) (ymax b) l -> xmin b < xmax b /\ ymin b < ymax b.
Proof.
  intros l b [(u & v & Iu & Iv & X) (u' & v' & Iu' & Iv' & Y)] (T & _).
  destruct (T u Iu) as [[A1 A2] [A3 A4]]. destruct (T v Iv) as [[B1 B2] [B3 B4]]. destruct (T u' Iu') as [[C1 C2] [C3 C4]]. destruct (T v' Iv') as [[D1 D2] [D3 D4]].
  split; lra.
Qed.
Lemma mid_lt : forall a b, a < b -> a < (a + b) * (1 # 2) /\ (a + b) * (1 # 2) < b.
Proof. intros. split; lra. Qed.
Lemma inner : forall q b, xmin q < xmax b -> xmin b < xmax q -> ymin q < ymax b -> ymin b < ymax q ->
  xmin q < xmax q -> xmin b < xmax b -> ymin q < ymax q -> ymin b < ymax b -> interiors_meet q b.
Proof.
  intros q b A1 A2 A3 A4 A5 A6 A7 A8. unfold interiors_meet, inside.
  assert (K : forall a b c d : Q, a < b -> c < d -> a < d -> c < b -> exists x, a < x /\ x < b /\ c < x /\ x < d).
  { intros a b' c d H1 H2 H3 H4. destruct (Qlt_le_dec a c) as [L1|L1]; destruct (Qlt_le_dec b' d) as [L2|L2];
      [exists ((c + b') * (1 # 2))|exists ((c + d) * (1 # 2))|exists ((a + b') * (1 # 2))|exists ((a + d) * (1 # 2))]; repeat split; lra. }
  destruct (K _ _ _ _ A5 A6 A1 A2) as (x & X). destruct (K _ _ _ _ A7 A8 A3 A4) as (y & Y). exists x, y. tauto.
Qed.

(* ---- candidates *)
Section Multi.
Variables P val : Type.
Variable vnone : val.
Variable outer : P -> list (Q * Q).
Variables GP GD GC : Type.
Variables fs fi : nat.
Notation multi := (multi P val).
Notation geom := (geom GP GD GC).
Notation xy g := (xys (gverts GP GD GC g)).

Definition near (m : multi) (g : geom) (i : nat) : Prop :=
  exists p b q, nth_error (parts m) i = Some p /\ box_of (outer p) = Done b /\ box_of (xy g) = Done q /\ interiors_meet q b.
Lemma is_box_near : forall (m : multi) (g : geom) bs q, boxes_of (map outer (parts m)) = Done bs -> box_of (xy g) = Done q ->
  (forall i b, nth_error bs i = Some b <-> exists l, nth_error (map outer (parts m)) i = Some l /\ box_of l = Done b) ->
  forall i, near m g i <-> exists b, is_box bs (Z.of_nat i) b /\ interiors_meet q b.
Proof.
  intros m g bs q E Eq N i. split.
  - intros (p & b & q' & Hp & Hb & Hq & I). exists b. rewrite Eq in Hq. injection Hq as <-. split; [|exact I].
    split; [lia|]. rewrite Nat2Z.id. apply N. exists (outer p). split; [apply map_nth_error, Hp|exact Hb].
  - intros (b & [_ Hb] & I). rewrite Nat2Z.id in Hb. apply N in Hb. destruct Hb as (l & Hl & Hb).
    rewrite nth_error_map in Hl. destruct (nth_error (parts m) i) as [p|] eqn:Ep; [|discriminate]. injection Hl as <-.
    exists p, b, q. repeat split; assumption.
Qed.
Lemma in_map_nat : forall r bs, (forall i, In i r -> exists b, is_box bs i b) -> forall n, In n (map Z.to_nat r) <-> In (Z.of_nat n) r.
Proof.
  intros r bs H n. rewrite in_map_iff. split.
  - intros (z & <- & I). destruct (H z I) as (b & [Z0 _]). rewrite Z2Nat.id by lia. exact I.
  - intros I. exists (Z.of_nat n). split; [apply Nat2Z.id|exact I].
Qed.
Lemma candidates_exact : forall (m : multi) (g : geom), (length (parts m) <= 50)%nat -> (0 < fs)%nat ->
  (forall p, In p (parts m) -> outer p <> []) -> xy g <> [] ->
  exists c, candidates P val outer GP GD GC fs m g = Done c /\ NoDup c /\ forall i, In i c <-> near m g i.
Proof.
  intros m g L F NE NG. destruct (boxes_ok (map outer (parts m))) as (bs & E & Lb & N).
  { intros l X. apply in_map_iff in X. destruct X as (p & <- & X). apply NE, X. }
  destruct (box_of_tight (xy g) NG) as (q & Eq & _). rewrite map_length in Lb.
  destruct (complete_unsplit 50 bs q (S (length bs)) fs ltac:(lia) ltac:(lia) ltac:(lia) F) as (t & Et & _ & (ro & Er & ND & H)).
  exists (map Z.to_nat ro). unfold candidates. rewrite E. cbn [next]. rewrite Eq. cbn [next]. rewrite Et. cbn [of_tree next]. rewrite Er. cbn [of_tree next].
  assert (HB : forall i, In i ro -> exists b, is_box bs i b) by (intros i I; apply H in I; destruct I as (b & B & _); exists b; exact B).
  split; [reflexivity|]. split.
  - clear - ND HB. induction ro as [|z ro IH]; [constructor|]. inversion ND as [|? ? NI ND']; subst. cbn [map]. constructor.
    + intros X. apply (in_map_nat ro bs) in X; [|intros i I; apply HB; right; exact I].
      destruct (HB z (or_introl eq_refl)) as (b & [Z0 _]). rewrite Z2Nat.id in X by lia. contradiction.
    + apply IH; [exact ND'|]. intros i I. apply HB. right. exact I.
  - intros i. rewrite (in_map_nat ro bs HB), H. symmetry. apply (is_box_near m g bs q E Eq N).
Qed.
Lemma candidates_sound : forall (m : multi) (g : geom), (51 ^ length (parts m) <= fs)%nat ->
  (forall p, In p (parts m) -> outer p <> []) -> xy g <> [] ->
  exists c, candidates P val outer GP GD GC fs m g = Done c /\ forall i, In i c -> near m g i.
Proof.
  intros m g F NE NG. destruct (boxes_ok (map outer (parts m))) as (bs & E & Lb & N).
  { intros l X. apply in_map_iff in X. destruct X as (p & <- & X). apply NE, X. }
  destruct (box_of_tight (xy g) NG) as (q & Eq & _). rewrite map_length in Lb. rewrite <- Lb in F.
  destruct (sound 50 bs q (-1) (S (length bs)) fs ltac:(lia) ltac:(lia) F) as (t & Et & _ & (ro & Er & H)).
  exists (map Z.to_nat ro). unfold candidates. rewrite E. cbn [next]. rewrite Eq. cbn [next]. rewrite Et. cbn [of_tree next]. rewrite Er. cbn [of_tree next].
  assert (HB : forall i, In i ro -> exists b, is_box bs i b) by (intros i I; apply H in I; destruct I as (b & B & _); exists b; exact B).
  split; [reflexivity|]. intros i I. apply (in_map_nat ro bs HB) in I. apply (is_box_near m g bs q E Eq N), H, I.
Qed.

(* ---- the loop *)
Lemma results_ok : forall (m : multi) test, one_record_each m -> forall c,
  (forall i, In i c -> exists p b, nth_error (parts m) i = Some p /\ test p = Done b) ->
  exists ids ms, results P val m test c = Done ms /\ Table_Model.mapM (getitem m) ids = Table_Model.Ok ms /\ (NoDup c -> NoDup ids) /\
  (forall i, In i ids <-> In i c /\ exists p, nth_error (parts m) i = Some p /\ test p = Done true).
Proof.
  intros m test W. induction c as [|i c IH]; intros H.
  - exists [], []. split; [reflexivity|]. split; [reflexivity|]. split; [intros; constructor|]. intros i. split; [intros []|intros [[] _]].
  - destruct IH as (ids & ms & E & M & N & I0); [intros j J; apply H; right; exact J|].
    destruct (H i (or_introl eq_refl)) as (p & b & Ep & Et). destruct (getitem_ok P val vnone m i p W Ep) as (q & Eq & Pq & _).
    cbn [results]. rewrite Eq. cbn [of_table next]. rewrite Pq, Et. cbn [next]. rewrite E. cbn [next]. destruct b.
    + exists (i :: ids), (q :: ms). split; [reflexivity|]. split; [cbn [Table_Model.mapM]; rewrite Eq; cbn [Table_Model.bind]; rewrite M; reflexivity|]. split.
      * intros ND. inversion ND as [|? ? NI ND']; subst. constructor; [|apply N, ND']. intros X. apply I0 in X. apply NI, X.
      * intros j. cbn [In]. rewrite I0. split.
        -- intros [->|[J K]]; [split; [left; reflexivity|exists p; split; assumption]|split; [right; exact J|exact K]].
        -- intros [[J|J] K]; [left; exact J|right; split; assumption].
    + exists ids, ms. split; [reflexivity|]. split; [exact M|]. split; [intros ND; inversion ND; subst; apply N; assumption|].
      intros j. rewrite I0. split; [intros [J K]; split; [right; exact J|exact K]|].
      intros [[J|J] (p' & Ep' & K)]; [subst j; congruence|split; [exact J|exists p'; split; assumption]].
Qed.
Lemma selected : forall (m : multi) ord ids ms, one_record_each m -> (forall i, In i ids -> exists p, nth_error (parts m) i = Some p) ->
  Table_Model.mapM (getitem m) ids = Table_Model.Ok ms ->
  fields (tbl m) ++ map fst (props m) <> [] -> set_order ord (fields (tbl m) ++ map fst (props m)) ->
  exists r, of_table (of_members ord [] ms Absent []) = Done r /\ restricted m r ids.
Proof.
  intros m ord ids ms W I M NE SO.
  destruct (select_ok P val vnone ord m ids W) as (r & E & R & _); [intros i J; destruct (I i J) as (p & Ep); apply nth_error_Some; congruence|exact NE|exact SO|].
  exists r. split; [|exact R]. unfold select in E. rewrite M in E. cbn [Table_Model.bind] in E. rewrite E. reflexivity.
Qed.

(* ---- the tests *)
Lemma area_edge : forall l, has_area l -> exists v w l', l = v :: w :: l'.
Proof.
  intros l [(u & v & Iu & Iv & X) _]. destruct l as [|a [|b l]]; [destruct Iu| |exists a, b, l; reflexivity].
  exfalso. destruct Iu as [<-|[]]. destruct Iv as [<-|[]]. lra.
Qed.
Lemma first_point : forall v w l ring, point_of (v :: w :: l) ring v.
Proof. intros v w l ring. exists (v, w). split; [exists 0%nat; left; split; reflexivity|apply first_on]. Qed.
Lemma shared : forall (g : geom) l ring, (exists e f, edge_of (xy g) (gring GP GD GC g) e /\ edge_of l ring f /\ meet e f) <-> crosses GP GD GC l ring g.
Proof.
  intros g l ring. split.
  - intros (e & f & He & Hf & z & Oe & Of). exists z. split; [exists f|exists e]; split; assumption.
  - intros (z & (f & Hf & Of) & (e & He & Oe)). exists e, f. split; [exact He|]. split; [exact Hf|]. exists z. split; assumption.
Qed.
Lemma meets_exact : forall (g : geom) p, general GP GD GC g (outer p) false -> (2 * (length (xy g) + length (outer p)) + 1 < fi)%nat ->
  exists w, meets P outer GP GD GC fi g p = Done w /\ (w = true <-> crosses GP GD GC (outer p) false g).
Proof.
  intros g p (S1 & S2 & Pr) F. destruct (geom_exact _ _ _ _ S1 S2 Pr) as (w & E & X). exists w. split.
  - unfold meets. rewrite (E fi F). reflexivity.
  - rewrite X. apply shared.
Qed.

Section Poly.
Variable g : geom.
Hypothesis Kg : gkind GP GD GC g = KPolygon.
Hypothesis Rg : gring GP GD GC g = true.
Hypothesis Sg : gsubs GP GD GC g = [].
Lemma rings_g : rings GP GD GC g.
Proof using Rg Sg. clear Kg. destruct g as [k v r s pr d c]. cbn in Rg, Sg. subst. cbn. split; [reflexivity|exact Logic.I]. Qed.
Lemma off_g : forall z, off_edges GP GD GC z g <-> ~ outline GP GD GC g z.
Proof using Rg Sg.
  clear Kg. intros z. destruct g as [k v r s pr d c]. cbn in Rg, Sg. subst. cbn [off_edges]. unfold outline, point_of. cbn [gverts gring]. split.
  - intros [O _] (e & He & Oe). exact (O e He Oe).
  - intros N. split; [|exact Logic.I]. intros e He Oe. apply N. exists e. split; assumption.
Qed.
Lemma first_off : forall l v, general GP GD GC g l false -> has_area l -> nth_error l 0 = Some v -> off_edges GP GD GC v g.
Proof.
  intros l v (_ & _ & Pr) A V. destruct (area_edge l A) as (a & b & l' & ->). cbn in V. injection V as ->.
  apply off_g. intros (e & He & Oe). destruct (Pr e (v, b) v He) as [_ N].
  - exists 0%nat. left. split; reflexivity.
  - exact Oe.
  - apply first_on.
  - apply N. left. cbn [fst]. split; reflexivity.
Qed.
Lemma first_exact : forall p, general GP GD GC g (outer p) false -> has_area (outer p) ->
  exists v b, nth_error (outer p) 0 = Some v /\ has_first P outer GP GD GC g p = Done b /\ (b = true <-> interior GP GD GC g v).
Proof.
  intros p G A. destruct (area_edge _ A) as (v & w & l & E). assert (V : nth_error (outer p) 0 = Some v) by (rewrite E; reflexivity).
  pose proof (first_off _ v G A V) as O. destruct (contains_spec GP GD GC g v rings_g O) as (b & B & X). exists v, b. split; [exact V|]. split.
  - unfold has_first. rewrite E, B. reflexivity.
  - rewrite X. unfold interior. tauto.
Qed.
Lemma not_crossing : forall l, ~ crosses GP GD GC l false g -> forall z, point_of l false z -> off_edges GP GD GC z g.
Proof. intros l N z Hz. apply off_g. intros O. apply N. exists z. split; assumption. Qed.
Lemma within_exact : forall p, general GP GD GC g (outer p) false -> has_area (outer p) -> (2 * (length (xy g) + length (outer p)) + 1 < fi)%nat ->
  exists b, test_within P outer GP GD GC fi g p = Done b /\ (b = true <-> lies_within GP GD GC (outer p) false g).
Proof.
  intros p G A F. destruct (first_exact p G A) as (v & b & V & Eb & X). destruct (meets_exact g p G F) as (w & Ew & Y).
  assert (Pv : point_of (outer p) false v) by (destruct (area_edge _ A) as (a & c & l & E); rewrite E in *; cbn in V; injection V as ->; apply first_point).
  unfold test_within. rewrite Eb. cbn [next]. destruct b.
  - rewrite Ew. cbn [next]. exists (negb w). split; [reflexivity|]. destruct w; cbn [negb].
    + split; [discriminate|]. intros L. exfalso. destruct (proj1 Y eq_refl) as (z & Hz & O). apply L in Hz. destruct Hz as [Hz _]. apply off_g in Hz. contradiction.
    + split; [|reflexivity]. intros _ z Hz. assert (NC : ~ crosses GP GD GC (outer p) false g) by (intros K; apply Y in K; discriminate).
      pose proof (not_crossing _ NC) as Off. split; [apply Off, Hz|].
      apply (region_path GP GD GC g (outer p) false v z rings_g Off Pv Hz). apply (proj1 X eq_refl).
  - exists false. split; [reflexivity|]. split; [discriminate|]. intros L. apply X. apply L, Pv.
Qed.
Lemma touching_exact : forall p, general GP GD GC g (outer p) false -> has_area (outer p) -> (2 * (length (xy g) + length (outer p)) + 1 < fi)%nat ->
  exists b, test_touching P outer GP GD GC fi g p = Done b /\ (b = true <-> touches GP GD GC (outer p) false g).
Proof.
  intros p G A F. destruct (first_exact p G A) as (v & b & V & Eb & X). destruct (meets_exact g p G F) as (w & Ew & Y).
  assert (Pv : point_of (outer p) false v) by (destruct (area_edge _ A) as (a & c & l & E); rewrite E in *; cbn in V; injection V as ->; apply first_point).
  unfold test_touching. rewrite Kg, Eb. cbn [next]. destruct b.
  - exists true. split; [reflexivity|]. split; [|reflexivity]. intros _. exists v. split; [exact Pv|left; apply X; reflexivity].
  - exists w. split; [exact Ew|]. rewrite Y. split.
    + intros (z & Hz & O). exists z. split; [exact Hz|right; exact O].
    + intros (z & Hz & [I|O]); [|exists z; split; assumption]. destruct w; [apply Y; reflexivity|]. exfalso.
      assert (NC : ~ crosses GP GD GC (outer p) false g) by (intros K; apply Y in K; discriminate).
      pose proof (not_crossing _ NC) as Off. assert (false = true); [|discriminate]. apply X. split; [apply Off, Pv|].
      apply (region_path GP GD GC g (outer p) false z v rings_g Off Hz Pv), I.
Qed.

(* ---- members within or touching have boxes that overlap *)
Lemma in_box_g : forall q z, tight_box (xmin q) (ymin q) (xmax q) (ymax q) (xy g) -> interior GP GD GC g z ->
  xmin q <= fst z < xmax q /\ ymin q <= snd z < ymax q.
Proof.
  intros q z T [O I]. apply (contains_bbox GP GD GC g z _ _ _ _ T). apply (contains_region GP GD GC g z rings_g O), I.
Qed.
End Poly.
Lemma vertex_point : forall l v, has_area l -> In v l -> point_of l false v.
Proof.
  intros l v A I. destruct (area_edge l A) as (a & b & l' & ->). apply In_nth_error in I. destruct I as (i & E). destruct i as [|i].
  - cbn in E. injection E as <-. apply first_point.
  - destruct (nth_error (a :: b :: l') i) as [u|] eqn:U.
    + exists (u, v). split; [exists i; left; split; assumption|apply second_on].
    + exfalso. apply nth_error_None in U. assert (S i < length (a :: b :: l'))%nat by (apply nth_error_Some; congruence). lia.
Qed.
Lemma within_near : forall (m : multi) (g : geom) i p, gring GP GD GC g = true -> gsubs GP GD GC g = [] -> has_area (xy g) ->
  nth_error (parts m) i = Some p -> has_area (outer p) ->
  lies_within GP GD GC (outer p) false g -> near m g i.
Proof.
  intros m g i p Rg Sg Ag Ep A L.
  assert (NE : outer p <> []) by (destruct (area_edge _ A) as (a & b & l & ->); discriminate).
  assert (NG : xy g <> []) by (destruct (area_edge _ Ag) as (a & b & l & ->); discriminate).
  destruct (box_of_tight _ NE) as (b & Eb & Tb). destruct (box_of_tight _ NG) as (q & Eq & Tq).
  exists p, b, q. split; [exact Ep|]. split; [exact Eb|]. split; [exact Eq|].
  destruct (area_box _ b A Tb) as [W1 W2]. destruct (area_box _ q Ag Tq) as [W3 W4].
  destruct Tb as (_ & (v1 & I1 & X1) & (v2 & I2 & X2) & (v3 & I3 & X3) & (v4 & I4 & X4)).
  pose proof (in_box_g g Rg Sg q v1 Tq (L v1 (vertex_point _ v1 A I1))) as B1. pose proof (in_box_g g Rg Sg q v2 Tq (L v2 (vertex_point _ v2 A I2))) as B2.
  pose proof (in_box_g g Rg Sg q v3 Tq (L v3 (vertex_point _ v3 A I3))) as B3. pose proof (in_box_g g Rg Sg q v4 Tq (L v4 (vertex_point _ v4 A I4))) as B4.
  apply inner; try assumption; lra.
Qed.
Lemma edge_in : forall l ring e, edge_of l ring e -> In (fst e) l /\ In (snd e) l.
Proof.
  intros l ring e (i & [[A B]|(_ & _ & A & B)]); split; eapply nth_error_In; eassumption.
Qed.
(** Two segments that meet only inside both reach over each other. *)
Lemma inside_flat : forall a b c t, 0 < t < 1 -> c == a + t * (b - a) -> (a <= c /\ b <= c) \/ (c <= a /\ c <= b) -> a == c /\ b == c.
Proof.
  intros a b c t [H1 H2] E K.
  assert (X : (1 - t) * (a - c) + t * (b - c) == 0) by (rewrite E; ring).
  destruct K as [[A B]|[A B]].
  - assert (Y1 : 0 <= (1 - t) * (c - a)) by (apply Qmult_le_0_compat; lra). assert (Y2 : 0 <= t * (c - b)) by (apply Qmult_le_0_compat; lra).
    assert (Z1 : (1 - t) * (c - a) == 0) by lra. assert (Z2 : t * (c - b) == 0) by lra.
    apply Qmult_integral in Z1. apply Qmult_integral in Z2. split; [destruct Z1|destruct Z2]; lra.
  - assert (Y1 : 0 <= (1 - t) * (a - c)) by (apply Qmult_le_0_compat; lra). assert (Y2 : 0 <= t * (b - c)) by (apply Qmult_le_0_compat; lra).
    assert (Z1 : (1 - t) * (a - c) == 0) by lra. assert (Z2 : t * (b - c) == 0) by lra.
    apply Qmult_integral in Z1. apply Qmult_integral in Z2. split; [destruct Z1|destruct Z2]; lra.
Qed.
Lemma inside_seg : forall e z, on_seg e z -> ~ end_of e z -> exists t, 0 < t < 1 /\ same z (along (fst e) (snd e) t).
Proof.
  intros e z (t & Ht & S1 & S2) N. exists t. split; [|split; assumption]. unfold along in *. cbn [fst snd] in *. split.
  - destruct (Qlt_le_dec 0 t) as [L|L]; [exact L|]. exfalso. apply N. left. assert (E : t == 0) by lra. split; [rewrite S1|rewrite S2]; rewrite E; ring.
  - destruct (Qlt_le_dec t 1) as [L|L]; [exact L|]. exfalso. apply N. right. assert (E : t == 1) by lra. split; [rewrite S1|rewrite S2]; rewrite E; ring.
Qed.
Definition only_inside (e f : pt * pt) : Prop := forall w, on_seg e w -> on_seg f w -> ~ end_of e w /\ ~ end_of f w.
Lemma reach_y : forall e f z, on_seg e z -> on_seg f z -> only_inside e f ->
  forall y, snd (fst e) <= y -> snd (snd e) <= y -> y <= snd (fst f) -> y <= snd (snd f) -> False.
Proof.
  intros [p q] [u v] z Oe Of H y A B C D. cbn [fst snd] in *. destruct (H z Oe Of) as [N1 N2].
  destruct (inside_seg _ z Oe N1) as (t & Ht & _ & Y1). destruct (inside_seg _ z Of N2) as (s & Hs & _ & Y2).
  unfold along in Y1, Y2. cbn [fst snd] in Y1, Y2.
  assert (L1 : snd z <= y). { assert (0 <= t * (y - snd q)) by (apply Qmult_le_0_compat; lra). assert (0 <= (1 - t) * (y - snd p)) by (apply Qmult_le_0_compat; lra). lra. }
  assert (L2 : y <= snd z). { assert (0 <= s * (snd v - y)) by (apply Qmult_le_0_compat; lra). assert (0 <= (1 - s) * (snd u - y)) by (apply Qmult_le_0_compat; lra). lra. }
  destruct (inside_flat (snd p) (snd q) (snd z) t Ht Y1 ltac:(left; split; lra)) as [F1 F2].
  destruct (inside_flat (snd u) (snd v) (snd z) s Hs Y2 ltac:(right; split; lra)) as [F3 F4].
  apply (not_level p q u v); [lra| |lra]. destruct Of as (r & Hr & Sm). exists r. split; [exact Hr|]. split.
  - destruct Oe as (k & Hk & Sk). exists k. split; [exact Hk|]. destruct Sm as [M1 M2], Sk as [K1 K2]. cbn [fst snd] in *. split; lra.
  - intros w W1 W2. exact (H w W2 W1).
Qed.
(** The two axes exchanged. *)
Definition sw (z : pt) : pt := (snd z, fst z).
Definition sw2 (e : pt * pt) : pt * pt := (sw (fst e), sw (snd e)).
Lemma sw_same : forall z w, same (sw z) (sw w) <-> same z w.
Proof. intros z w. unfold same, sw. cbn [fst snd]. tauto. Qed.
Lemma sw_on : forall e z, on_seg (sw2 e) (sw z) <-> on_seg e z.
Proof.
  intros e z. unfold on_seg. split; intros (t & Ht & Sm); exists t; (split; [exact Ht|]); destruct Sm as [M1 M2]; split; [exact M2|exact M1|exact M2|exact M1].
Qed.
Lemma sw_end : forall e z, end_of (sw2 e) (sw z) <-> end_of e z.
Proof. intros e z. unfold end_of, sw2. cbn [fst snd]. rewrite !sw_same. tauto. Qed.
Lemma reach_x : forall e f z, on_seg e z -> on_seg f z -> only_inside e f ->
  forall x, fst (fst e) <= x -> fst (snd e) <= x -> x <= fst (fst f) -> x <= fst (snd f) -> False.
Proof.
  intros e f z Oe Of H x A B C D. apply (reach_y (sw2 e) (sw2 f) (sw z)) with (y := x); try assumption; [apply sw_on, Oe|apply sw_on, Of|].
  intros w. assert (Ew : w = sw (sw w)) by (destruct w; reflexivity). rewrite Ew. rewrite !sw_on, !sw_end. apply H.
Qed.
Lemma crosses_near : forall (m : multi) (g : geom) i p, general GP GD GC g (outer p) false -> has_area (xy g) ->
  nth_error (parts m) i = Some p -> has_area (outer p) ->
  crosses GP GD GC (outer p) false g -> near m g i.
Proof.
  intros m g i p (_ & _ & Pr) Ag Ep A (z & (f & Hf & Of) & (e & He & Oe)).
  assert (NE : outer p <> []) by (destruct (area_edge _ A) as (a & b & l & ->); discriminate).
  assert (NG : xy g <> []) by (destruct (area_edge _ Ag) as (a & b & l & ->); discriminate).
  destruct (box_of_tight _ NE) as (b & Eb & Tb). destruct (box_of_tight _ NG) as (q & Eq & Tq).
  exists p, b, q. split; [exact Ep|]. split; [exact Eb|]. split; [exact Eq|].
  destruct (area_box _ b A Tb) as [W1 W2]. destruct (area_box _ q Ag Tq) as [W3 W4].
  assert (OI : only_inside e f) by (intros w W V; exact (Pr e f w He Hf W V)).
  assert (OI' : only_inside f e) by (intros w W V; destruct (OI w V W); split; assumption).
  destruct (edge_in _ _ e He) as [E1 E2]. destruct (edge_in _ _ f Hf) as [F1 F2].
  destruct Tb as (Tb & _). destruct Tq as (Tq & _).
  destruct (Tq _ E1) as [[A1 A2] [A3 A4]]. destruct (Tq _ E2) as [[B1 B2] [B3 B4]]. destruct (Tb _ F1) as [[C1 C2] [C3 C4]]. destruct (Tb _ F2) as [[D1 D2] [D3 D4]].
  apply inner; try assumption.
  - destruct (Qlt_le_dec (xmin q) (xmax b)) as [L|L]; [exact L|]. exfalso. apply (reach_x f e z Of Oe OI' (xmin q)); lra.
  - destruct (Qlt_le_dec (xmin b) (xmax q)) as [L|L]; [exact L|]. exfalso. apply (reach_x e f z Oe Of OI (xmin b)); lra.
  - destruct (Qlt_le_dec (ymin q) (ymax b)) as [L|L]; [exact L|]. exfalso. apply (reach_y f e z Of Oe OI' (ymin q)); lra.
  - destruct (Qlt_le_dec (ymin b) (ymax q)) as [L|L]; [exact L|]. exfalso. apply (reach_y e f z Oe Of OI (ymin b)); lra.
Qed.
Lemma touches_near : forall (m : multi) (g : geom) i p, gring GP GD GC g = true -> gsubs GP GD GC g = [] ->
  general GP GD GC g (outer p) false -> (2 * (length (xy g) + length (outer p)) + 1 < fi)%nat -> has_area (xy g) ->
  nth_error (parts m) i = Some p -> has_area (outer p) -> touches GP GD GC (outer p) false g -> near m g i.
Proof.
  intros m g i p Rg Sg G F Ag Ep A (z & Hz & Z).
  destruct (meets_exact g p G F) as (w & _ & Y). destruct w; [apply (crosses_near m g i p G Ag Ep A), Y; reflexivity|].
  assert (NC : ~ crosses GP GD GC (outer p) false g) by (intros K; apply Y in K; discriminate).
  pose proof (not_crossing g Rg Sg _ NC) as Off. destruct Z as [I|O]; [|exfalso; apply NC; exists z; split; assumption].
  apply (within_near m g i p Rg Sg Ag Ep A). intros w Hw. split; [apply Off, Hw|].
  apply (region_path GP GD GC g (outer p) false z w (rings_g g Rg Sg) Off Hz Hw), I.
Qed.

(* ---- the calls *)
(** The members meet the conditions. *)
Definition usable (m : multi) (g : geom) : Prop :=
  has_area (xy g) /\ forall p, In p (parts m) ->
  general GP GD GC g (outer p) false /\ has_area (outer p) /\ (2 * (length (xy g) + length (outer p)) + 1 < fi)%nat.
Definition with_fields (m : multi) (ord : list string) : Prop :=
  fields (tbl m) ++ map fst (props m) <> [] /\ set_order ord (fields (tbl m) ++ map fst (props m)).
Lemma nonempty : forall (m : multi) (g : geom), usable m g -> (forall p, In p (parts m) -> outer p <> []) /\ xy g <> [].
Proof.
  intros m g [Ag H]. split; [|destruct (area_edge _ Ag) as (a & b & l & ->); discriminate].
  intros p I. destruct (H p I) as (_ & A & _). destruct (area_edge _ A) as (a & b & l & ->); discriminate.
Qed.
Lemma loop_ok : forall (m : multi) (g : geom) ord test (Good : P -> Prop) c, one_record_each m -> with_fields m ord -> usable m g ->
  (forall i, In i c -> near m g i) ->
  (forall p, In p (parts m) -> exists b, test p = Done b /\ (b = true <-> Good p)) ->
  exists ids r, next (results P val m test c) (fun ms => of_table (of_members ord [] ms Absent [])) = Done r /\ restricted m r ids /\
  (NoDup c -> NoDup ids) /\ forall i, In i ids <-> In i c /\ exists p, nth_error (parts m) i = Some p /\ Good p.
Proof.
  intros m g ord test Good c W [NE SO] U Hc T.
  destruct (results_ok m test W c) as (ids & ms & E & M & ND & X).
  { intros i I. destruct (Hc i I) as (p & b & q & Ep & _). destruct (T p (nth_error_In _ _ Ep)) as (t & Et & _). exists p, t. split; assumption. }
  destruct (selected m ord ids ms W) as (r & Er & R); [|exact M|exact NE|exact SO|].
  { intros i I. apply X in I. destruct I as (_ & p & Ep & _). exists p. exact Ep. }
  exists ids, r. rewrite E. cbn [next]. split; [exact Er|]. split; [exact R|]. split; [exact ND|].
  intros i. rewrite X. split; intros (I & p & Ep & K); (split; [exact I|]); exists p; (split; [exact Ep|]); destruct (T p (nth_error_In _ _ Ep)) as (t & Et & Y).
  - apply Y. congruence.
  - apply Y in K. congruence.
Qed.
Lemma within_ok : forall (m : multi) (g : geom) ord, gkind GP GD GC g = KPolygon -> gring GP GD GC g = true -> gsubs GP GD GC g = [] ->
  one_record_each m -> with_fields m ord -> usable m g -> (length (parts m) <= 50)%nat -> (0 < fs)%nat ->
  exists ids r, within P val outer GP GD GC fs fi ord m g = Done r /\ restricted m r ids /\ NoDup ids /\
  forall i, In i ids <-> exists p, nth_error (parts m) i = Some p /\ lies_within GP GD GC (outer p) false g.
Proof.
  intros m g ord K R Sg W WF U L F. destruct (nonempty m g U) as [N1 N2].
  destruct (candidates_exact m g L F N1 N2) as (c & Ec & ND & Hc).
  destruct (loop_ok m g ord (test_within P outer GP GD GC fi g) (fun p => lies_within GP GD GC (outer p) false g) c W WF U) as (ids & r & E & Rr & N & X).
  { intros i I. apply Hc, I. }
  { intros p I. destruct (proj2 U p I) as (G & A & Fi). apply within_exact; assumption. }
  exists ids, r. unfold within. rewrite K, Ec. cbn [next]. split; [exact E|]. split; [exact Rr|]. split; [apply N, ND|].
  intros i. rewrite X, Hc. split; [intros (_ & Y); exact Y|]. intros (p & Ep & Lw). split; [|exists p; split; assumption].
  destruct U as [Ag U]. destruct (U p (nth_error_In _ _ Ep)) as (G & A & Fi). apply (within_near m g i p R Sg Ag Ep A Lw).
Qed.
Lemma touching_ok : forall (m : multi) (g : geom) ord, gkind GP GD GC g = KPolygon -> gring GP GD GC g = true -> gsubs GP GD GC g = [] ->
  one_record_each m -> with_fields m ord -> usable m g -> (length (parts m) <= 50)%nat -> (0 < fs)%nat ->
  exists ids r, touching P val outer GP GD GC fs fi ord m g = Done r /\ restricted m r ids /\ NoDup ids /\
  forall i, In i ids <-> exists p, nth_error (parts m) i = Some p /\ touches GP GD GC (outer p) false g.
Proof.
  intros m g ord K R Sg W WF U L F. destruct (nonempty m g U) as [N1 N2].
  destruct (candidates_exact m g L F N1 N2) as (c & Ec & ND & Hc).
  destruct (loop_ok m g ord (test_touching P outer GP GD GC fi g) (fun p => touches GP GD GC (outer p) false g) c W WF U) as (ids & r & E & Rr & N & X).
  { intros i I. apply Hc, I. }
  { intros p I. destruct (proj2 U p I) as (G & A & Fi). apply touching_exact; assumption. }
  exists ids, r. unfold touching. rewrite Ec. cbn [next]. rewrite K. split; [exact E|]. split; [exact Rr|]. split; [apply N, ND|].
  intros i. rewrite X, Hc. split; [intros (_ & Y); exact Y|]. intros (p & Ep & Lw). split; [|exists p; split; assumption].
  destruct U as [Ag U]. destruct (U p (nth_error_In _ _ Ep)) as (G & A & Fi). apply (touches_near m g i p R Sg G Fi Ag Ep A Lw).
Qed.
Lemma touching_line_ok : forall (m : multi) (g : geom) ord, gkind GP GD GC g = KLine ->
  one_record_each m -> with_fields m ord -> usable m g -> (length (parts m) <= 50)%nat -> (0 < fs)%nat ->
  exists ids r, touching P val outer GP GD GC fs fi ord m g = Done r /\ restricted m r ids /\ NoDup ids /\
  forall i, In i ids <-> exists p, nth_error (parts m) i = Some p /\ crosses GP GD GC (outer p) false g.
Proof.
  intros m g ord K W WF U L F. destruct (nonempty m g U) as [N1 N2].
  destruct (candidates_exact m g L F N1 N2) as (c & Ec & ND & Hc).
  destruct (loop_ok m g ord (test_touching P outer GP GD GC fi g) (fun p => crosses GP GD GC (outer p) false g) c W WF U) as (ids & r & E & Rr & N & X).
  { intros i I. apply Hc, I. }
  { intros p I. destruct (proj2 U p I) as (G & A & Fi). unfold test_touching. rewrite K. apply meets_exact; assumption. }
  exists ids, r. unfold touching. rewrite Ec. cbn [next]. rewrite K. split; [exact E|]. split; [exact Rr|]. split; [apply N, ND|].
  intros i. rewrite X, Hc. split; [intros (_ & Y); exact Y|]. intros (p & Ep & Lw). split; [|exists p; split; assumption].
  destruct U as [Ag U]. destruct (U p (nth_error_In _ _ Ep)) as (G & A & Fi). apply (crosses_near m g i p G Ag Ep A Lw).
Qed.
(** However many members there are, those found are right. *)
Lemma within_sound : forall (m : multi) (g : geom) ord, gkind GP GD GC g = KPolygon -> gring GP GD GC g = true -> gsubs GP GD GC g = [] ->
  one_record_each m -> with_fields m ord -> usable m g -> (51 ^ length (parts m) <= fs)%nat ->
  exists ids r, within P val outer GP GD GC fs fi ord m g = Done r /\ restricted m r ids /\
  forall i, In i ids -> exists p, nth_error (parts m) i = Some p /\ lies_within GP GD GC (outer p) false g.
Proof.
  intros m g ord K R Sg W WF U F. destruct (nonempty m g U) as [N1 N2].
  destruct (candidates_sound m g F N1 N2) as (c & Ec & Hc).
  destruct (loop_ok m g ord (test_within P outer GP GD GC fi g) (fun p => lies_within GP GD GC (outer p) false g) c W WF U Hc) as (ids & r & E & Rr & N & X).
  { intros p I. destruct (proj2 U p I) as (G & A & Fi). apply within_exact; assumption. }
  exists ids, r. unfold within. rewrite K, Ec. cbn [next]. split; [exact E|]. split; [exact Rr|]. intros i I. apply X in I. apply I.
Qed.
Lemma touching_sound : forall (m : multi) (g : geom) ord, gkind GP GD GC g = KPolygon -> gring GP GD GC g = true -> gsubs GP GD GC g = [] ->
  one_record_each m -> with_fields m ord -> usable m g -> (51 ^ length (parts m) <= fs)%nat ->
  exists ids r, touching P val outer GP GD GC fs fi ord m g = Done r /\ restricted m r ids /\
  forall i, In i ids -> exists p, nth_error (parts m) i = Some p /\ touches GP GD GC (outer p) false g.
Proof.
  intros m g ord K R Sg W WF U F. destruct (nonempty m g U) as [N1 N2].
  destruct (candidates_sound m g F N1 N2) as (c & Ec & Hc).
  destruct (loop_ok m g ord (test_touching P outer GP GD GC fi g) (fun p => touches GP GD GC (outer p) false g) c W WF U Hc) as (ids & r & E & Rr & N & X).
  { intros p I. destruct (proj2 U p I) as (G & A & Fi). apply touching_exact; assumption. }
  exists ids, r. unfold touching. rewrite Ec. cbn [next]. rewrite K. split; [exact E|]. split; [exact Rr|]. intros i I. apply X in I. apply I.
Qed.
Lemma wrong_kind : forall (m : multi) (g : geom) ord,
  (gkind GP GD GC g <> KPolygon -> within P val outer GP GD GC fs fi ord m g = TypeErr) /\
  (gkind GP GD GC g = KMultipoint -> (length (parts m) <= 50)%nat -> (0 < fs)%nat -> (forall p, In p (parts m) -> outer p <> []) -> xy g <> [] ->
   touching P val outer GP GD GC fs fi ord m g = TypeErr).
Proof.
  intros m g ord. split.
  - intros N. unfold within. destruct (gkind GP GD GC g); [reflexivity|congruence|reflexivity].
  - intros K L F N1 N2. destruct (candidates_exact m g L F N1 N2) as (c & Ec & _). unfold touching. rewrite Ec. cbn [next]. rewrite K. reflexivity.
Qed.
End Multi.
