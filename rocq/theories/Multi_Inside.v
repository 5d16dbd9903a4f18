(** Selection of points by a polygon, for points off its edges. *)
From Coq Require Import String List Bool Arith Lia QArith.
From Verif Require Import Table_Model Table_Spec Multi_Model Multi_Spec Multi_Proofs Multi_MoreProofs
  QuadTree_Model QuadTree_Spec QuadTree_Proofs QuadTree_Termination Geom_Model Geom_Spec Geom_Proofs Contains_Model Contains_Spec Contains_Proofs Contains_Winding
  Contains_Inside Multi_SelModel Multi_SelSpec Multi_SelProofs.
Import Multi_Spec.
Import ListNotations.
Local Open Scope list_scope.

Lemma polygon_region (P val A B C : Type) (vnone : val) (xy : P -> Q * Q) (m : multi P val) qt (g : geom A B C) :
  one_record_each m -> rings A B C g -> xys (gverts A B C g) <> [] ->
  (forall t, qt = Some t -> index_over Qltb Qeq_bool Qmid xy (parts m) t) ->
  (forall p, In p (parts m) -> off_edges A B C (xy p) g) ->
  exists s ids, mp_within_polygon xy (fields (tbl m)) m qt g = Table_Model.Ok s /\
    positions (fun p => region A B C (xy p) g) (parts m) ids /\
    restricted m s ids /\ fields (tbl s) = fields (tbl m) /\ props s = props m.
Proof.
  intros W HR NE HI HO. unfold mp_within_polygon.
  destruct (bbox_c_tight _ NE) as (a0&b0&a1&b1&E&T'). unfold Geom_Model.bbox. rewrite E.
  set (b := fun p => match contains A B C g (xy p) with Geom_Model.Ok b => b | Geom_Model.Err _ => false end).
  assert (RA : forall p, contains A B C g (xy p) = Geom_Model.Ok (b p)).
  { intros p. unfold b. destruct (Contains_Proofs.rings_always A B C g HR (xy p)) as (x&->). reflexivity. }
  destruct (test_select P val Q vnone Qltb Qeq_bool Qmid Q_laws xy m qt (mkBbox a0 b0 a1 b1)
    (fun p => match contains A B C g (xy p) with Geom_Model.Ok b => Table_Model.Ok b | Geom_Model.Err _ => Table_Model.Err Table_Model.TypeError end) b W HI) as (s&ids&Es&(S&Ai)&H).
  - intros p _. now rewrite RA.
  - intros N p I Bp.
    assert (CB := contains_inside A B C g (xy p) a0 b0 a1 b1 (HO p I) T'). rewrite RA, Bp in CB. destruct (CB eq_refl) as ((C1&C2)&(C3&C4)).
    unfold in_box. cbn [xmin xmax ymin ymax]. unfold Qltb. rewrite !negb_true_iff.
    assert (QL : forall u v, (u < v)%Q -> Qle_bool v u = false).
    { intros u v L. apply not_true_iff_false. rewrite Qle_bool_iff. now apply Qlt_not_le. }
    repeat split; apply QL; auto.
  - exists s, ids. split; [exact Es|]. split; [|exact H]. split; [exact S|]. intros i. rewrite Ai.
    split; intros (p&Ep&Bp); exists p; (split; [exact Ep|]);
      destruct (contains_spec A B C g (xy p) HR (HO p (nth_error_In _ _ Ep))) as (c&Ec&Hc); rewrite RA in Ec; injection Ec as <-;
      apply Hc, Bp.
Qed.
