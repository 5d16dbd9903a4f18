(** What the assignments to a geometry do to the geometry itself. *)
From Coq Require Import String.
From Coq Require Import List Arith Bool Lia.
From Verif Require Import Share_Model Share_Spec Share_Proofs.
Import ListNotations.
Open Scope nat_scope.

Lemma lset_parts {A} (l : list A) : forall k x, k < length l -> lset l k x = firstn k l ++ x :: skipn (S k) l.
Proof. induction l as [| y l IH]; intros [| k] x H; cbn in *; try lia; [reflexivity |]. f_equal. apply IH. lia. Qed.
Lemma ldel_parts {A} (l : list A) : forall k, k < length l -> ldel l k = firstn k l ++ skipn (S k) l.
Proof. induction l as [| y l IH]; intros [| k] H; cbn in *; try lia; [reflexivity |]. f_equal. apply IH. lia. Qed.
Lemma find_none_in (fs : list string) f : ~ In f fs -> forall n,
  find (fun p => (fst p =? f)%string) (combine fs (seq n (length fs))) = None.
Proof.
  induction fs as [| x fs IH]; intros H n; [reflexivity |]. cbn. destruct (String.eqb_spec x f) as [E | E]; [destruct H; left; exact E |].
  apply IH. intros K. apply H. right; exact K.
Qed.

Section Own.
Variables (V : Type) (none : V) (C : Type) (order : list string -> list string).
Notation state := (state V C).
Notation op := (op V C).
Notation step := (step none order).

Lemma family_step (os : list op) o i j : receiver o = Some i ->
  let s := run none order start os in
  nth i (table_families none order os) 0 = nth j (table_families none order os) 0 ->
  i < length (geoms s) -> j < length (geoms s) ->
  data_at (fst (step s o)) j = data_at (fst (step s o)) i.
Proof.
  intros R s E Hi Hj. destruct (prims_dat _ _ _ _ _ (update_prims V none C order s o i R)) as [L _].
  destruct (in_common V none C order (os ++ [o]) i j) as [_ H].
  - rewrite run_snoc. fold s. lia.
  - rewrite run_snoc. fold s. lia.
  - rewrite run_snoc in H. fold s in H. symmetry. apply H.
    unfold table_families. rewrite families_app. cbn [families]. fold s.
    replace (length (geoms s) <? length (geoms (fst (step s o)))) with false by (symmetry; apply Nat.ltb_ge; lia). exact E.
Qed.

Lemma data_shape (os : list op) i fs rs : let s := run none order start os in
  data_at s i = Some (Some (fs, rs)) ->
  exists g t, nth_error (geoms s) i = Some g /\ dat g = Some t /\ t < length (tables s) /\
    nth t (tables s) ([], 0) = (fs, snd (nth t (tables s) ([], 0))) /\ snd (nth t (tables s) ([], 0)) < length (rows s) /\
    nth (snd (nth t (tables s) ([], 0))) (rows s) [] = rs.
Proof.
  intros s H. destruct (reach_inv V none C order os) as [VF VG VFb VGb VR Vr Vp Vd Vc]. fold s in VR, Vr.
  unfold data_at in H. destruct (nth_error (geoms s) i) as [g |] eqn:Eg; [| discriminate]. cbn in H. injection H as H.
  unfold data_of in H. destruct (dat g) as [t |] eqn:Et; [| discriminate]. cbn in H. injection H as H.
  destruct (VR i g Eg) as (_ & B & _). specialize (B t Et).
  exists g, t. unfold table_of in H. destruct (nth t (tables s) ([], 0)) as [f a] eqn:En. injection H as <- <-.
  repeat split; auto. specialize (Vr t B). rewrite En in Vr. exact Vr.
Qed.

Lemma rows_own (os : list op) i j fs rs : let s := run none order start os in
  nth i (table_families none order os) 0 = nth j (table_families none order os) 0 ->
  j < length (geoms s) -> data_at s i = Some (Some (fs, rs)) ->
  (forall k r, snd (step s (SetRow i k r)) = (k <? length rs) /\
     (k < length rs -> data_at (fst (step s (SetRow i k r))) j = Some (Some (fs, firstn k rs ++ r :: skipn (S k) rs)))) /\
  (forall k, snd (step s (DelRow i k)) = (k <? length rs) /\
     (k < length rs -> data_at (fst (step s (DelRow i k))) j = Some (Some (fs, firstn k rs ++ skipn (S k) rs)))) /\
  (forall f vs, rs <> [] -> ~ In f fs -> snd (step s (SetField i f vs)) = (length vs =? length rs) /\
     (length vs = length rs ->
      data_at (fst (step s (SetField i f vs))) j =
      Some (Some (fs ++ [f], map (fun rv => fst rv ++ [snd rv]) (combine rs vs))))).
Proof.
  intros s E Hj D. pose proof (data_shape os i fs rs D) as (g & t & Eg & Et & Lt & Ef & La & Er). fold s in Eg, Lt, Ef, La, Er.
  pose proof (error_lt _ _ _ Eg) as Hi. unfold s in *.
  split; [| split].
  - intros k r. split.
    + unfold Share_Model.step. cbn [planned]. rewrite Eg. unfold set_row. rewrite Et, Er. destruct (k <? length rs); reflexivity.
    + intros K. rewrite (family_step os (SetRow i k r) i j eq_refl E Hi Hj).
      unfold Share_Model.step. cbn [planned]. rewrite Eg. unfold set_row. rewrite Et, Er.
      destruct (Nat.ltb_spec k (length rs)); [| lia]. cbn [fst]. unfold data_at, put_rows. cbn [geoms]. rewrite Eg.
      cbn [option_map]. unfold data_of. rewrite Et. cbn [option_map]. unfold table_of. cbn [tables rows]. rewrite Ef.
      rewrite lset_same by (cbn; exact La). rewrite lset_parts by assumption. reflexivity.
  - intros k. split.
    + unfold Share_Model.step. cbn [planned]. rewrite Eg, Et. cbn zeta. rewrite Er. destruct (k <? length rs); reflexivity.
    + intros K. rewrite (family_step os (DelRow i k) i j eq_refl E Hi Hj).
      unfold Share_Model.step. cbn [planned]. rewrite Eg, Et. cbn zeta. rewrite Er.
      destruct (Nat.ltb_spec k (length rs)); [| lia]. cbn [fst]. unfold data_at, put_rows. cbn [geoms]. rewrite Eg.
      cbn [option_map]. unfold data_of. rewrite Et. cbn [option_map]. unfold table_of. cbn [tables rows]. rewrite Ef.
      rewrite lset_same by (cbn; exact La). rewrite ldel_parts by assumption. reflexivity.
  - intros f vs Hn Hf.
    assert (S1 : setfield (table_of (run none order start os) t) f vs =
                 if length vs =? length rs then Some (fs ++ [f], map (fun rv => fst rv ++ [snd rv]) (combine rs vs)) else None).
    { unfold table_of. rewrite Ef. cbn [fst snd]. rewrite Er. unfold setfield. destruct rs as [| r0 rs0]; [destruct (Hn eq_refl) |].
      destruct (length vs =? length (r0 :: rs0)); [| reflexivity]. cbn [negb]. rewrite find_none_in by assumption. reflexivity. }
    split.
    + unfold Share_Model.step. cbn [planned]. rewrite Eg, Et, S1. destruct (length vs =? length rs); reflexivity.
    + intros L. rewrite (family_step os (SetField i f vs) i j eq_refl E Hi Hj).
      unfold Share_Model.step. cbn [planned]. rewrite Eg, Et, S1. rewrite L, Nat.eqb_refl. cbn [fst].
      unfold data_at, put_table. cbn [geoms]. rewrite Eg. cbn [option_map]. unfold data_of. rewrite Et. cbn [option_map].
      unfold table_of. cbn [tables rows]. rewrite lset_same by assumption. rewrite app_nth2, Nat.sub_diag by lia. reflexivity.
Qed.

Lemma set_row_coords (s : state) g k r j : coords_at (fst (set_row s g k r)) j = coords_at s j.
Proof.
  unfold set_row. destruct (dat g); [| reflexivity]. cbn zeta. destruct (_ <? _); reflexivity.
Qed.
Lemma coords_shape (os : list op) i cs : let s := run none order start os in
  coords_at s i = Some [cs] ->
  exists g a, nth_error (geoms s) i = Some g /\ prt g = [a] /\ a < length (coords s) /\ nth a (coords s) [] = cs.
Proof.
  intros s H. destruct (reach_inv V none C order os) as [VF VG VFb VGb VR Vr Vp Vd Vc]. fold s in VR.
  unfold coords_at in H. destruct (nth_error (geoms s) i) as [g |] eqn:Eg; [| discriminate]. cbn in H. injection H as H.
  destruct (VR i g Eg) as (_ & _ & B). unfold coords_of in H. destruct (prt g) as [| a [| b l]] eqn:Ep; try discriminate.
  cbn in H. injection H as H. exists g, a. repeat split; auto. apply B. left; reflexivity.
Qed.
Lemma vertices_own (os : list op) i cs : let s := run none order start os in
  coords_at s i = Some [cs] ->
  (kind_at s i = Some Multipoint ->
   (forall k j c, kind_at s j = Some Point -> coords_at s j = Some [[c]] -> k < length cs ->
      coords_at (fst (step s (SetItem i k j))) i = Some [firstn k cs ++ c :: skipn (S k) cs]) /\
   (forall k c, k < length cs ->
      coords_at (fst (step s (SetCoord i k c))) i = Some [firstn k cs ++ c :: skipn (S k) cs])) /\
  (kind_at s i = Some Line -> forall j cs', kind_at s j = Some Line -> coords_at s j = Some [cs'] ->
      snd (step s (ExtendLine i j)) = true /\
      coords_at (fst (step s (ExtendLine i j))) i = Some [cs ++ cs']).
Proof.
  intros s D. pose proof (coords_shape os i cs D) as (g & a & Eg & Ep & La & Ea). fold s in Eg, La, Ea.
  pose proof (error_lt _ _ _ Eg) as Hi. unfold s in *.
  split; [intros K; split |].
  - intros k j c Kj Dj L. pose proof (coords_shape os j [c] Dj) as (h & b & Eh & Hp & Lb & Eb).
    unfold kind_at in K, Kj. rewrite Eg in K. rewrite Eh in Kj. cbn in K, Kj. injection K as K. injection Kj as Kj.
    unfold Share_Model.step. cbn [planned]. rewrite Eg, Eh, K, Kj, Ep. unfold coords_of at 1. rewrite Hp. cbn [map concat]. rewrite Eb. cbn [app].
    rewrite Ea. destruct (Nat.ltb_spec k (length cs)); [| lia]. rewrite set_row_coords.
    unfold coords_at, put_coords. cbn [geoms]. rewrite Eg. cbn [option_map]. unfold coords_of. rewrite Ep. cbn [map coords].
    rewrite lset_same by assumption. rewrite lset_parts by assumption. reflexivity.
  - intros k c L. unfold kind_at in K. rewrite Eg in K. cbn in K. injection K as K.
    unfold Share_Model.step. cbn [planned]. rewrite Eg, K, Ep. rewrite Ea. destruct (Nat.ltb_spec k (length cs)); [| lia].
    cbn zeta. rewrite set_row_coords. unfold coords_at, new_coords. cbn [geoms]. rewrite lset_error_same by assumption.
    cbn [option_map]. unfold coords_of. cbn [prt map coords]. rewrite app_nth2, Nat.sub_diag by lia. cbn [nth].
    rewrite lset_parts by assumption. reflexivity.
  - intros K j cs' Kj Dj. pose proof (coords_shape os j cs' Dj) as (h & b & Eh & Hp & Lb & Eb).
    unfold kind_at in K, Kj. rewrite Eg in K. rewrite Eh in Kj. cbn in K, Kj. injection K as K. injection Kj as Kj.
    unfold Share_Model.step. cbn [planned]. rewrite Eg, Eh, K, Kj. split; [reflexivity |]. cbn [fst].
    unfold coords_at, new_coords. cbn [geoms]. rewrite lset_error_same by assumption. cbn [option_map]. unfold coords_of at 1. cbn [prt map coords].
    rewrite app_nth2, Nat.sub_diag by lia. cbn [nth]. unfold coords_of. rewrite Ep, Hp. cbn [map concat]. rewrite Ea, Eb, !app_nil_r. reflexivity.
Qed.
End Own.
