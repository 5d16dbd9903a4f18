(** Proofs about slices of geometries. *)
From Coq Require Import String List ZArith Bool Arith SpecFloat Lia Zify.
From Verif Require Import Table_Model Table_Spec Multi_Model Multi_Spec Multi_Proofs Same_Model Same_Spec.
From Verif Require Band_Model Band_IndexModel Band_IndexSpec Band_IndexProofs.
Import ListNotations.
Local Open Scope list_scope.
Import Band_IndexModel Band_IndexSpec.

Lemma indices_some n a b c ids : selects (Z.of_nat n) (KSlice a b c) false ids ->
  exists s e st, indices n a b c = Some (s, e, st) /\ ids = py_range s e st /\
    slice_indices (Z.of_nat n) a b c = Band_Model.Ok (s, e, st) /\ (forall i, In i ids -> 0 <= i < Z.of_nat n)%Z.
Proof.
  intros H. assert (R := fun z => Band_IndexProofs.selects_range _ _ _ _ z (Nat2Z.is_nonneg n) H).
  inversion H as [| |? ? ? s e st E]; subst. exists s, e, st. unfold indices. rewrite E. auto.
Qed.
Lemma vslice_taken {A} (v : list A) s e st : (forall i, In i (py_range s e st) -> 0 <= i < Z.of_nat (List.length v))%Z ->
  taken v (vslice v s e st) (py_range s e st).
Proof.
  unfold vslice, taken. generalize (py_range s e st) as l. induction l as [|i l IH]; intros H.
  - split; [reflexivity|]. intros [|j] i E; discriminate.
  - cbn [flat_map]. destruct (H i (or_introl eq_refl)) as (H0&H1).
    destruct (nth_error v (Z.to_nat i)) as [x|] eqn:E.
    2:{ apply nth_error_None in E. lia. }
    destruct IH as (L&K); [intros k I; apply H; now right|]. split; [cbn; now rewrite L|].
    intros [|j] k Ek; cbn [nth_error app] in *; [|now apply K].
    injection Ek as <-. repeat split; [assumption|now rewrite E|discriminate].
Qed.
Lemma py_range_len s e st : List.length (py_range s e st) = Z.to_nat (range_len s e st).
Proof. unfold py_range, Band_Model.zrange. rewrite !map_length, seq_length. now rewrite Z.sub_0_r. Qed.

Local Open Scope nat_scope.
Section Values.
Variable val : Type.
Notation geom := (geom val).

Lemma line_slice (g : geom) a b c ids : selects (Z.of_nat (List.length (gverts g))) (KSlice a b c) false ids ->
  exists r, base_getitem g (Slice a b c) = AGeom r /\ gkind r = gkind g /\ taken (gverts g) (gverts r) ids /\
    gprops r = gprops g /\ gcrs r = gcrs g.
Proof.
  intros H. destruct (indices_some _ _ _ _ _ H) as (s&e&st&E&->&_&R). cbn [base_getitem]. rewrite E.
  eexists. split; [reflexivity|]. cbn [gkind gverts gprops gcrs]. split; [reflexivity|]. split; [now apply vslice_taken|]. split; reflexivity.
Qed.
Lemma full_range n s e st : (2 <= n)%Z -> st <> 0%Z -> ((0 < st)%Z -> (0 <= s <= n /\ 0 <= e <= n)%Z) ->
  ((st < 0)%Z -> (-1 <= s <= n - 1 /\ -1 <= e <= n - 1)%Z) ->
  ((n =? (e - s) / st)%Z = true <-> range_len s e st = n).
Proof.
  intros Hn Hs P N. unfold range_len, Band_Model.zceil. rewrite Z.eqb_eq. destruct (0 <? st)%Z eqn:E.
  - specialize (P ltac:(lia)). assert (D := Z.div_mod (e - s) st ltac:(lia)). assert (M := Z.mod_pos_bound (e - s) st ltac:(lia)).
    assert (D' := Z.div_mod (- (e - s)) st ltac:(lia)). assert (M' := Z.mod_pos_bound (- (e - s)) st ltac:(lia)).
    split; intros H; nia.
  - specialize (N ltac:(lia)). assert (D := Z.div_mod (e - s) st ltac:(lia)). assert (M := Z.mod_neg_bound (e - s) st ltac:(lia)).
    assert (D' := Z.div_mod (- (s - e)) (- st) ltac:(lia)). assert (M' := Z.mod_pos_bound (- (s - e)) (- st) ltac:(lia)).
    split; intros H; nia.
Qed.
Lemma polygon_slice (g : geom) a b c ids : gkind g = Polygon -> 2 <= List.length (gverts g) ->
  selects (Z.of_nat (List.length (gverts g))) (KSlice a b c) false ids ->
  exists r, polygon_getitem g (Slice a b c) = AGeom r /\ taken (gverts g) (gverts r) ids /\
    gprops r = gprops g /\ gcrs r = gcrs g /\
    (List.length ids = List.length (gverts g) -> gkind r = Polygon) /\
    (List.length ids <> List.length (gverts g) -> gkind r = Line).
Proof.
  intros K N H. destruct (indices_some _ _ _ _ _ H) as (s&e&st&E&->&E'&R). cbn [polygon_getitem]. rewrite E.
  destruct (Band_IndexProofs.slice_indices_spec _ _ _ _ _ _ _ (Nat2Z.is_nonneg _) E') as (S0&Sp&Sn).
  assert (F := full_range (Z.of_nat (List.length (gverts g))) s e st ltac:(lia) S0 Sp Sn). rewrite py_range_len.
  destruct (Z.of_nat (List.length (gverts g)) =? (e - s) / st)%Z eqn:B; cbn [negb].
  - destruct (line_slice g a b c _ H) as (r&Er&Kr&T&Pr&Cr). exists r. split; [exact Er|]. split; [exact T|]. split; [exact Pr|]. split; [exact Cr|].
    destruct F as (F&_). specialize (F eq_refl). split; [congruence|]. intros X. exfalso. apply X. lia.
  - eexists. split; [reflexivity|]. cbn. split; [now apply vslice_taken|]. split; [reflexivity|]. split; [reflexivity|].
    split; [|reflexivity]. intros X. exfalso. destruct F as (_&F). discriminate F.
    unfold range_len in *. destruct (0 <? st)%Z; lia.
Qed.
Lemma zero_step (g : geom) a b : base_getitem g (Slice a b (Some 0%Z)) = Raise ValueError /\ polygon_getitem g (Slice a b (Some 0%Z)) = Raise ValueError.
Proof. split; reflexivity. Qed.
Lemma each_point (g : geom) : List.length (points g) = List.length (gverts g) /\
  forall i v, nth_error (gverts g) i = Some v -> nth_error (points g) i = Some (APoint (mkPoint v (gprops g) (gcrs g))) /\
    base_getitem g (Int i) = APoint (mkPoint v (gprops g) (gcrs g)) /\ polygon_getitem g (Int i) = APoint (mkPoint v (gprops g) (gcrs g)).
Proof.
  unfold points. split; [now rewrite map_length, seq_length|]. intros i v E.
  assert (B : base_getitem g (Int i) = APoint (mkPoint v (gprops g) (gcrs g))) by (cbn; now rewrite E).
  split; [|split; exact B]. assert (L : i < List.length (gverts g)) by (apply nth_error_Some; congruence).
  rewrite (map_nth_error (fun i => base_getitem g (Int i)) i (seq 0 (List.length (gverts g))) (d := i)); [now rewrite B|].
  rewrite (nth_error_nth' _ 0) by (now rewrite seq_length). now rewrite seq_nth.
Qed.
Lemma multi_slice (vnone : val) (m : multi vertex val) a b c ids : one_record_each m ->
  selects (Z.of_nat (List.length (parts m))) (KSlice a b c) false ids ->
  exists r, multipoint_slice m a b c = Ok r /\ restricted m r (map Z.to_nat ids) /\
    fields (tbl r) = fields (tbl m) /\ Multi_Model.props r = Multi_Model.props m.
Proof.
  intros W H. destruct (indices_some _ _ _ _ _ H) as (s&e&st&E&->&_&R). unfold multipoint_slice.
  assert (L := proj1 W). rewrite L, E. apply (slice_ok _ _ vnone m _ W).
  intros i I. apply in_map_iff in I as (z&<-&I). specialize (R z I). lia.
Qed.
End Values.
