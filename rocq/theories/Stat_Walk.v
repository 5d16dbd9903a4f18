(** The default spacing of profiles on grids with a negative resolution. *)
From Coq Require Import List Reals Lra QArith Qreals Lqa.
From Verif Require Import GeomR_Model GeomR_Spec GeomR_Proofs GeomR_Points.
From Verif Require Grid_Model Stat_Model Stat_Proofs.
Import ListNotations.
Local Open Scope R_scope.

Lemma points_neg : forall fuel dx len s1 az pos c out, dx < 0 -> pos < len -> points_seg fuel dx len s1 az pos c 0 out = None.
Proof.
  induction fuel as [|fuel IH]; intros dx len s1 az pos c out D L; [reflexivity|].
  cbn [points_seg]. destruct (Rlt_dec pos len); [|contradiction].
  destruct (Rle_dec dx (distance c s1)) as [_|N].
  - destruct az; [|reflexivity]. apply IH; [exact D|]. Lra.lra.
  - exfalso. apply N. apply Rle_trans with 0; [Lra.lra|]. rewrite distance_spec. destruct (rz c), (rz s1); apply sqrt_pos.
Qed.
Theorem to_points_neg : forall T fuel a b l, rz a = None -> rz b = None -> hp a <> hp b ->
  (Grid_Model.dx T < 0 \/ Grid_Model.dy T < 0)%Q ->
  to_points fuel (a :: b :: l) (Q2R (Stat_Model.default_resolution T)) = None.
Proof.
  intros T fuel a b l A B N D.
  assert (Dr : Q2R (Stat_Model.default_resolution T) < 0).
  { replace 0 with (Q2R 0) by apply RMicromega.Q2R_0. apply Qlt_Rlt.
    destruct (Stat_Proofs.default_resolution_ok T) as (_ & U & V). destruct D; Lqa.lra. }
  unfold to_points. cbn [tl combine points_segs fst snd]. rewrite points_neg; [reflexivity|exact Dr|].
  rewrite distance_planar by auto. destruct (edist_nonneg (hp a) (hp b)); [assumption|]. exfalso. apply N, edist_0. auto.
Qed.
