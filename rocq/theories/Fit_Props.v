(** Properties of the affine map fitted to control points (C99). *)
From Coq Require Import List QArith Bool Lqa.
From Verif Require Geom_Model.
From Verif Require Import Geom_Spec Proj_Model Proj_Spec Proj_Props Fit_Model Fit_Spec Fit_Proofs Fit_Exists Fit_Final.
Import ListNotations.
Local Open Scope Q_scope.

(** C99.  The matrix that [affine_matrix] returns for two multipoints of as many points is
    that of an affine map from the first to the second - its points being given in the system
    of the first - and no affine map has a smaller sum of squared distances.  The solver is
    asked for one least squares solution; the next theorem says that there is one. *)
Theorem C99_best_partial :
  forall {C W} (place : C -> Q * Q -> W) is_same eqb transform, faithful place is_same eqb transform ->
  forall la ca b cb, reachable is_same transform cb (Some ca) -> length la = length b ->
  exists lb, length lb = length la /\ map (place ca) lb = map (place cb) b /\
  forall lstsq, answers lstsq (design la) (ravel (Geom_Model.V2 lb)) ->
  exists a0 a1 a2 a3 a4 a5,
    affine_matrix C is_same transform lstsq (Geom_Model.V2 la, ca) (Geom_Model.V2 b, cb) = Ok (Geom_Model.M23 a0 a1 a2 a3 a4 a5) /\
    best (a0, a1, a2, a3, a4, a5) la lb.
Proof. intros C W place is_same eqb transform. exact (fit_best place is_same eqb transform). Qed.
Print Assumptions C99_best_partial.

(** There is always a best map, and so an answer of the solver. *)
Theorem C99_exists : forall la lb : list (Q * Q), length la = length lb ->
  (exists m, best m la lb) /\ exists lstsq, answers lstsq (design la) (ravel (Geom_Model.V2 lb)).
Proof. intros la lb L. exact (conj (best_exists la lb L) (answered la lb L)). Qed.
Print Assumptions C99_exists.

(** If some affine map takes the first points to the second, every best map does. *)
Theorem C99_exact : forall m m0 la lb, best m la lb -> Forall2 (fun p q => same (image m0 p) q) la lb ->
  Forall2 (fun p q => same (image m p) q) la lb.
Proof. exact exact_image. Qed.
Print Assumptions C99_exact.

(** If three of the first points are not on a line there is only one best map, and an affine
    map is recovered from what it does to them. *)
Theorem C99_unique : forall m m' la lb, length la = length lb -> spread la -> best m la lb -> best m' la lb -> same6 m m'.
Proof. exact unique. Qed.
Print Assumptions C99_unique.
Theorem C99_recovered : forall m m0 la lb, spread la -> best m la lb -> Forall2 (fun p q => same (image m0 p) q) la lb -> same6 m m0.
Proof. exact recovered. Qed.
Print Assumptions C99_recovered.

(** Multipoints of different length raise GeometryError. *)
Theorem C99_lengths : forall C is_same transform lstsq (a b : verts * C),
  Geom_Model.nverts (fst a) <> Geom_Model.nverts (fst b) -> affine_matrix C is_same transform lstsq a b = Raise GeometryError.
Proof.
  intros C is_same transform lstsq a b N. unfold affine_matrix. apply Nat.eqb_neq in N. rewrite N. reflexivity.
Qed.
Print Assumptions C99_lengths.

Definition corners : list (Q * Q) := [(0, 0); (1, 0); (0, 1); (1, 1)].
(** A square whose fourth corner is off: no affine map fits, and the best one is known. *)
Definition off : list (Q * Q) := [(0, 0); (2, 0); (0, 2); (6, 2)].
Example C99_nonvacuous :
  spread corners /\ best (4, 2, -1, 0, 2, 0) corners off /\ 0 < misfit (4, 2, -1, 0, 2, 0) corners off /\
  affine_matrix sys sys_eqb sys_transform (fun _ _ => Some [4; 2; -1; 0; 2; 0]) (Geom_Model.V2 corners, XY) (Geom_Model.V2 off, XY)
    = Ok (Geom_Model.M23 4 2 (-1) 0 2 0) /\
  Forall2 (fun p q => same (image (2, 1, 3, -1, 0, 5) p) q) corners [(3, 5); (5, 4); (4, 5); (6, 4)].
Proof.
  split; [|split; [|split; [|split]]].
  - exists (0, 0), (1, 0), (0, 1). split; [left; reflexivity|]. split; [right; left; reflexivity|]. split; [right; right; left; reflexivity|].
    vm_compute. discriminate.
  - apply slope_best; [reflexivity|]. intros [[[[[a b] c] d] e] f]. unfold corners, off. cbn [slope image]. unfold affine. cbn [fst snd]. ring.
  - vm_compute. reflexivity.
  - reflexivity.
  - repeat constructor; vm_compute; reflexivity.
Qed.

(** Finding: control points with a third coordinate are refused: ValueError if the first
    multipoint has it; if only the second has it, the solver is given a vector that does not
    match its matrix (or, in another system, C98: AttributeError). *)
Theorem C99_rank_refuted :
  (forall C is_same transform lstsq p l ca b v, Geom_Model.nverts (fst b) = S (length l) ->
     vertices C is_same transform (fst b) (snd b) (Some ca) false = Ok v ->
     affine_matrix C is_same transform lstsq (Geom_Model.V3 (p :: l), ca) b = Raise ValueError) /\
  length (ravel (Geom_Model.V3 [(1, 2, 3); (4, 5, 6)])) <> length (design [(1, 2); (4, 5)]).
Proof.
  split; [|vm_compute; discriminate]. intros C is_same transform lstsq p l ca b v L E. unfold affine_matrix. cbn [fst snd].
  rewrite L. unfold Geom_Model.nverts. cbn [Geom_Model.xys map length]. rewrite map_length, Nat.eqb_refl. cbn [negb]. rewrite E. reflexivity.
Qed.
Print Assumptions C99_rank_refuted.

(** Finding: with control points on a line the matrix is not determined, and is returned
    without warning although infinitely many maps fit as well: here two with different images. *)
Theorem C99_collinear_refuted :
  let la := [(0, 0); (1, 0); (2, 0)] in let lb := [(0, 0); (1, 0); (2, 0)] in
  best (1, 0, 0, 0, 1, 0) la lb /\ best (1, 0, 0, 0, 0, 0) la lb /\ ~ same6 (1, 0, 0, 0, 1, 0) (1, 0, 0, 0, 0, 0).
Proof.
  cbn zeta. split; [|split].
  - intros m. apply Qle_trans with 0; [vm_compute; discriminate | apply misfit_nonneg].
  - intros m. apply Qle_trans with 0; [vm_compute; discriminate | apply misfit_nonneg].
  - intros [_ [_ [_ [_ [H _]]]]]. discriminate H.
Qed.
Print Assumptions C99_collinear_refuted.
