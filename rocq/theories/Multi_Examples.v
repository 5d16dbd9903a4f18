(** Witnesses for the theorems about multipart geometries. *)
From Coq Require Import String List Bool Arith Lia QArith Reals Lra.
From Verif Require Import Table_Model Table_Spec Multi_Model Multi_Spec Multi_Proofs Multi_MoreProofs
  QuadTree_Model QuadTree_Spec Geom_Model Geom_Spec Contains_Model Contains_Spec Contains_Winding
  Sphere_Model Sphere_Proofs Multi_SelModel Multi_SelSpec Multi_SelProofs.
Import Multi_Model Multi_Spec.
Import ListNotations.
Local Open Scope string_scope.
Local Open Scope list_scope.
Local Notation OK := Table_Model.Ok.

(* ---- records *)
Definition two : multi nat nat := mkMulti [10; 20]%nat (mkT ["a"; "b"] [[1; 2]; [3; 4]]%nat) [("c", 9%nat)] [].
Lemma two_ok : one_record_each two.
Proof. split; [reflexivity|]. split; [repeat constructor|]. split; [|reflexivity]. repeat constructor; cbn; intuition discriminate. Qed.
Definition swapped : list string := ["b"; "a"].
Lemma swapped_order : set_order swapped (fields (tbl two)).
Proof. split; [repeat constructor; cbn; intuition discriminate|]. cbn. tauto. Qed.
Lemma subset_swaps : exists r p q, subset swapped two [1%nat] = OK r /\ getitem two 1 = OK p /\ getitem r 0 = OK q /\
  mpart p = mpart q /\ dict_get (mprops p) "a" = Some 3%nat /\ dict_get (mprops q) "a" = Some 4%nat.
Proof. do 3 eexists. repeat (split; [reflexivity|]). reflexivity. Qed.
Definition pts : list (member nat nat) := [mkM 10 [("a", 1); ("b", 2)]; mkM 20 [("c", 5); ("a", 3)]]%nat.
Lemma pts_common : forall k, In k ["a"] <-> common pts k.
Proof.
  intros k. unfold common, pts. split.
  - intros [<-|[]] p [<-|[<-|[]]]; cbn; tauto.
  - intros H. assert (A := H _ (or_introl eq_refl)). assert (B := H _ (or_intror (or_introl eq_refl))). cbn in A, B.
    destruct A as [<-|[<-|[]]]; [now left|]. destruct B as [B|[B|[]]]; discriminate.
Qed.
Lemma points_lose : exists m q, of_members ["a"] [] pts Absent [] = OK m /\ getitem m 0 = OK q /\ dict_get (mprops q) "a" = Some 1%nat /\ dict_get (mprops q) "b" = None.
Proof. do 2 eexists. repeat (split; [reflexivity|]). reflexivity. Qed.
Definition bare : list (member nat nat) := [mkM 10 []; mkM 20 [("c", 5%nat)]]%nat.
Lemma bare_common : forall k, In k [] <-> common bare k.
Proof. intros k. split; [intros []|]. intros H. exact (H _ (or_introl eq_refl)). Qed.
Lemma bare_unreadable : exists m, of_members [] [] bare Absent [] = OK m /\ List.length (parts m) = 2%nat /\ iterate m = OK [] /\ getitem m 0 = Table_Model.Err Table_Model.IndexError.
Proof. eexists. repeat (split; [reflexivity|]). reflexivity. Qed.
Lemma table_other_length : exists (t : table nat) m, of_parts [10; 20; 30]%nat (DTable t) [] = OK m /\ tlen (tbl m) <> List.length (parts m) /\
  getitem m 1 = Table_Model.Err Table_Model.IndexError /\ iterate m = OK [mkM 10%nat [("a", 1%nat)]].
Proof. exists (mkT ["a"] [[1%nat]]). eexists. split; [reflexivity|]. split; [discriminate|]. split; reflexivity. Qed.
Definition hidden : multi nat nat := mkMulti [10%nat] (mkT ["a"] [[1%nat]]) [("a", 7%nat)] [].
Lemma field_hidden : one_record_each hidden /\ exists q, getitem hidden 0 = OK q /\ getfield (tbl hidden) "a" = OK [1%nat] /\ dict_get (mprops q) "a" = Some 7%nat.
Proof.
  split; [split; [reflexivity|split; [repeat constructor|split; [repeat constructor; intros []|reflexivity]]]|].
  eexists. repeat (split; [reflexivity|]). reflexivity.
Qed.
Lemma set_point_swaps : exists r q, set_point 0%nat swapped two 0 (mkM 30%nat [("a", 5%nat); ("b", 6%nat)]) = (r, None) /\ getitem r 0 = OK q /\
  dict_get (mprops q) "a" = Some 6%nat.
Proof. do 2 eexists. repeat (split; [reflexivity|]). reflexivity. Qed.
Lemma set_vertex_kept : exists r, set_vertex two 0 None = (r, None) /\ parts r = parts two /\ getitem r 0 = Table_Model.Err Table_Model.TypeError /\
  iterate r = Table_Model.Err Table_Model.TypeError.
Proof. eexists. repeat (split; [reflexivity|]). reflexivity. Qed.
Lemma merge_loses : exists r p q, merge_items 0%nat ["a"; "b"] [IMulti two; IPoint (mkM 30%nat [("b", 6%nat); ("a", 5%nat)])] = OK r /\
  getitem two 0 = OK p /\ getitem r 0 = OK q /\ mpart p = mpart q /\ dict_get (mprops p) "c" = Some 9%nat /\ dict_get (mprops q) "c" = None.
Proof. do 3 eexists. repeat (split; [reflexivity|]). reflexivity. Qed.
Definition plain : multi nat nat := mkMulti [10; 20]%nat (table_sized [] 2) [] [].
Lemma plain_ok : one_record_each plain.
Proof. exact (one_sized nat nat [10; 20]%nat []). Qed.

(* ---- selection *)
Definition qbox : QuadTree_Model.bbox Q := mkBbox 0%Q 0%Q 2%Q 2%Q.
Definition qtwo : multi (Q * Q) nat := mkMulti [(1, 1); (5, 5)]%Q (mkT ["a"; "b"] [[1; 2]; [3; 4]]%nat) [] [].
Lemma qtwo_ok : one_record_each qtwo.
Proof. split; [reflexivity|]. split; [repeat constructor|]. split; [|reflexivity]. repeat constructor; cbn; intuition discriminate. Qed.
Lemma qtwo_index : exists qt, index_over Qltb Qeq_bool Qmid (fun p => p) (parts qtwo) qt.
Proof.
  eexists. exists 5%nat, (mkBbox 1 1 5 5)%Q. split; [|vm_compute; reflexivity].
  intros x y [[= <- <-]|[[= <- <-]|[]]]; repeat split.
Qed.
Lemma qtwo_found : exists qt r, index_over Qltb Qeq_bool Qmid (fun p => p) (parts qtwo) qt /\
  mp_within_bbox _ _ _ Qltb (fun p => p) (fields (tbl qtwo)) qtwo (Some qt) qbox = OK r /\ parts r = [(1, 1)]%Q /\ rows (tbl r) = [[1; 2]]%nat.
Proof.
  eexists. eexists. split.
  - exists 5%nat, (mkBbox 1 1 5 5)%Q. split; [|vm_compute; reflexivity].
    intros x y [[= <- <-]|[[= <- <-]|[]]]; repeat split.
  - split; [vm_compute; reflexivity|]. split; reflexivity.
Qed.
Lemma rows_swapped : exists r p q, mp_within_bbox _ _ _ Qltb (fun p => p) swapped qtwo None qbox = OK r /\
  getitem qtwo 0 = OK p /\ getitem r 0 = OK q /\ mpart p = mpart q /\ dict_get (mprops p) "a" = Some 1%nat /\ dict_get (mprops q) "a" = Some 2%nat.
Proof. do 3 eexists. split; [vm_compute; reflexivity|]. repeat (split; [reflexivity|]). reflexivity. Qed.
Lemma qtwo_swapped : set_order swapped (fields (tbl qtwo)).
Proof. exact swapped_order. Qed.
Lemma stale_index : exists qt m r, index_over Qltb Qeq_bool Qmid (fun p => p) (parts qtwo) qt /\
  set_point 0%nat (fields (tbl qtwo)) qtwo 0 (mkM (9, 9)%Q [("a", 5%nat); ("b", 6%nat)]) = (m, None) /\
  mp_within_bbox _ _ _ Qltb (fun p => p) (fields (tbl m)) m (Some qt) qbox = OK r /\ parts r = [(9, 9)]%Q.
Proof.
  do 3 eexists. split.
  - exists 5%nat, (mkBbox 1 1 5 5)%Q. split; [|vm_compute; reflexivity].
    intros x y [[= <- <-]|[[= <- <-]|[]]]; repeat split.
  - split; [reflexivity|]. split; [vm_compute; reflexivity|]. reflexivity.
Qed.
Definition qedge : multi (Q * Q) nat := mkMulti [(0, 2)]%Q (mkT ["a"] [[1%nat]]) [] [].
Lemma edge_missed : one_record_each qedge /\ rings unit unit unit (square 0 4 []) /\ exists qt r s,
  index_over Qltb Qeq_bool Qmid (fun p => p) (parts qedge) qt /\
  mp_within_polygon (fun p => p) ["a"] qedge (Some qt) (square 0 4 []) = OK r /\ parts r = [] /\
  mp_within_polygon (fun p => p) ["a"] qedge None (square 0 4 []) = OK s /\ parts s = [(0, 2)]%Q.
Proof.
  split; [split; [reflexivity|split; [repeat constructor|split; [repeat constructor; intros []|reflexivity]]]|].
  split; [cbn; auto|]. do 3 eexists. split.
  - exists 5%nat, (mkBbox 0 2 0 2)%Q. split; [|vm_compute; reflexivity]. intros x y [[= <- <-]|[]]; repeat split.
  - split; [vm_compute; reflexivity|]. split; [reflexivity|]. split; [vm_compute; reflexivity|]. reflexivity.
Qed.

(* ---- across the date line *)
Local Open Scope R_scope.
Definition across : multi (R * R) nat := mkMulti [(- 180 + 1 / 100000, 0)] (mkT ["a"] [[1%nat]]) [] [].
Definition here : R * R := (180 - 1 / 100000, 0).
Lemma across_ok : one_record_each across.
Proof. split; [reflexivity|]. split; [repeat constructor|]. split; [|reflexivity]. repeat constructor. intros []. Qed.
Lemma across_distance : earth_distance here (- 180 + 1 / 100000, 0) < 3.
Proof.
  unfold earth_distance, here, sphere_distance. cbn [fst snd]. unfold radians.
  replace ((180 - 1 / 100000) / 180 * PI - (- 180 + 1 / 100000) / 180 * PI) with (2 * PI - 2 * (1 / 100000 / 180 * PI)) by field.
  assert (P1 := PI_RGT_0). assert (P4 := PI_4). set (t := 2 * (1 / 100000 / 180 * PI)).
  assert (T : 0 < t < 45 / 100000000) by (unfold t; lra).
  assert (P3 : 1 < PI) by (assert (H := PI2_1); lra).
  rewrite (Rabs_pos_eq (2 * PI - t)) by lra.
  replace (rlt (1 / 100) (2 * PI - t)) with true by (symmetry; apply rlt_iff; lra). cbn [orb].
  replace (0 / 180 * PI) with 0 by field. rewrite sin_0, cos_0. replace (0 * 0 + 1 * 1 * cos (2 * PI - t)) with (cos (2 * PI - t)) by ring.
  replace (cos (2 * PI - t)) with (cos t).
  2:{ rewrite cos_minus, cos_2PI, sin_2PI. ring. }
  rewrite acos_cos by lra. lra.
Qed.
Lemma across_index : exists qt, index_over rlt req (fun a b => (a + b) / 2) (fun p => p) (parts across) qt.
Proof.
  eexists. exists 5%nat, (mkBbox (- 180 + 1 / 100000) 0 (- 180 + 1 / 100000) 0). split.
  - intros x y [[= <- <-]|[]]. cbn [xmin xmax ymin ymax]. rewrite !rlt_niff. lra.
  - unfold build. cbn. reflexivity.
Qed.
Lemma across_missed qt : index_over rlt req (fun a b => (a + b) / 2) (fun p => p) (parts across) qt ->
  (exists r, mp_within_radius (fun p => p) earth_distance ["a"] across (Some qt) here 3 = OK r /\ parts r = []) /\
  exists s, mp_within_radius (fun p => p) earth_distance ["a"] across None here 3 = OK s /\ parts s = [(- 180 + 1 / 100000, 0)].
Proof.
  intros HI. split.
  - unfold mp_within_radius. cbn [option_map within_test].
    destruct (index_search (R * R) R rlt req _ R_laws (fun p => p) (parts across) qt
       (mkBbox (fst here - 3) (snd here - 3) (fst here + 3) (snd here + 3)) HI) as (_&A).
    destruct (search_within rlt qt _) as [|i l].
    + eexists. split; reflexivity.
    + exfalso. destruct (proj1 (A i) (or_introl eq_refl)) as (p&E&B). destruct i as [|i]; [|destruct i; discriminate].
      injection E as <-. destruct B as (B&_). cbn [xmin fst here] in B. apply rlt_iff in B. lra.
  - unfold mp_within_radius. cbn [option_map within_test]. unfold enumerate.
    replace (iterate across) with (OK [mkM (- 180 + 1 / 100000, 0) [("a", 1%nat)]]) by reflexivity.
    cbn [Table_Model.bind passing mpart]. replace (rlt (earth_distance here (- 180 + 1 / 100000, 0)) 3) with true.
    + eexists. split; reflexivity.
    + symmetry. apply rlt_iff. apply across_distance.
Qed.
