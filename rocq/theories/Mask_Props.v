(** Theorems on masking grids by polygons (C80). *)
From Coq Require Import List ZArith QArith Qabs Bool Lqa Lia.
From Verif Require Import Geom_Model Geom_Spec Inter_Spec Contains_Spec.
From Verif Require Import Band_Model Grid_Model Grid_Spec Mask_Model Mask_Spec Mask_Main.
Import ListNotations.
Open Scope Z_scope.

(** C80, for any polygons and any georeference: either way of calling raises the same error,
    or every cell keeps its values in all bands or gets the nodata value in all bands, the
    same cells in place and in a copy; size, georeference and nodata value stay. *)
Theorem C80_values : forall P D C V (junk : Z -> Z -> V) v0 (g : grid V) T H W nb F nodata (s : shape P D C),
  grid_is g T H W nb F nodata ->
  (exists e, forall inplace, mask_by_poly junk v0 g s inplace = MaskErr e) \/
  (exists kept : Z -> Z -> bool, forall inplace, exists g' F', mask_by_poly junk v0 g s inplace = Done g' /\
     grid_is g' T H W nb F' nodata /\
     forall k i j, 0 <= k < nb -> 0 <= i < H -> 0 <= j < W -> F' k i j = if kept i j then F k i j else nodata).
Proof. exact values_main. Qed.
Print Assumptions C80_values.

(** C80, the part that holds of square cells and outlines of fewer than 256 vertices: a cell
    that has no outline within a cell's width and height of its centre is kept if and only if
    one of the outlines winds round its centre.  (Missing: cells near an outline; other
    cells; sub-polygons.) *)
Theorem C80_clear_partial : forall P D C V (junk : Z -> Z -> V) v0 (g : grid V) T H W nb F nodata (s : shape P D C),
  grid_is g T H W nb F nodata -> square_cells T ->
  (forall p, part_of p s -> outline p <> [] /\ (length (outline p) < 256)%nat) ->
  exists kept, masks junk v0 g s T H W nb F nodata kept /\
    forall i j, 0 <= i < H -> 0 <= j < W -> (forall p, part_of p s -> clear_of T i j (outline p)) ->
      (kept i j = true <-> exists p, part_of p s /\ enclosed (centre T i j) (outline p)).
Proof. exact clear_main. Qed.
Print Assumptions C80_clear_partial.

(** C80, the part that holds of cells with positive width and height that are not skewed, and
    outlines of fewer than 256 vertices with all edges horizontal or vertical: a cell whose
    centre is on no outline is kept if and only if one of the outlines winds round its
    centre. *)
Theorem C80_rectilinear_partial : forall P D C V (junk : Z -> Z -> V) v0 (g : grid V) T H W nb F nodata (s : shape P D C),
  grid_is g T H W nb F nodata -> upright_cells T ->
  (forall p, part_of p s -> outline p <> [] /\ (length (outline p) < 256)%nat /\ rectilinear (outline p)) ->
  exists kept, masks junk v0 g s T H W nb F nodata kept /\
    forall i j, 0 <= i < H -> 0 <= j < W -> (forall p, part_of p s -> off (centre T i j) (outline p)) ->
      (kept i j = true <-> exists p, part_of p s /\ enclosed (centre T i j) (outline p)).
Proof. exact rect_main. Qed.
Print Assumptions C80_rectilinear_partial.

Definition ident : transform := mkT 0 0 1 1 0 0.
Definition tri_out : list (Q * Q) := [(1, 1); (9, 1); (5, 9)]%Q.
Definition box_out : list (Q * Q) := [(21 # 10, 21 # 10); (21 # 10, 57 # 10); (67 # 10, 57 # 10); (67 # 10, 21 # 10)]%Q.
(** The hypotheses hold of a list of a triangle and a multipolygon of a box; the cell in row 4
    and column 4 is clear of the triangle and inside. *)
Example C80_clear_partial_ex : square_cells ident /\
  (forall p, part_of p (Shapes [Poly (upoly tri_out []); MultiPoly [upoly box_out []]]) ->
     outline p <> [] /\ (length (outline p) < 256)%nat) /\
  enclosed (centre ident 3 4) tri_out /\
  (forall P D C (p : geom P D C), part_of p Other -> False).
Proof.
  split; [repeat split; reflexivity|]. split.
  { intros p H. inversion H as [| |l s I Ps]; subst. destruct I as [<-|[<-|[]]]; inversion Ps as [|l' I'|]; subst.
    - split; [discriminate|cbn; lia].
    - destruct I' as [<-|[]]. split; [discriminate|cbn; lia]. }
  split; [apply is_enclosed; vm_compute; reflexivity|]. intros P D C p H. inversion H.
Qed.
Example C80_clear_partial_ex2 : clear_of ident 3 4 tri_out /\ clear_of ident 8 1 tri_out /\ enclosed (centre ident 3 4) tri_out /\ ~ enclosed (centre ident 8 1) tri_out.
Proof.
  assert (Cl : forall i j x y, (fst (centre ident i j) == x /\ snd (centre ident i j) == y)%Q ->
     (x == 9 # 2 /\ y == 7 # 2)%Q \/ (x == 3 # 2 /\ y == 17 # 2)%Q -> clear_of ident i j tri_out).
  { intros i j x y [Ex Ey] H [a b] q Ee (t & Ht & Sx & Sy) [X Y]. apply Qabs_Qle_condition in X. apply Qabs_Qle_condition in Y.
    rewrite Ex in X. rewrite Ey in Y. apply Inter_Proofs.edges_spec in Ee. change (dx ident) with 1%Q in X. change (dy ident) with 1%Q in Y.
    cbn in Ee. destruct Ee as [Ee|[Ee|[Ee|[]]]]; injection Ee as <- <-; unfold along in Sx, Sy; cbn [fst snd] in Sx, Sy; destruct H as [[A B]|[A B]]; lra. }
  split; [apply (Cl 3 4 (9 # 2)%Q (7 # 2)%Q); [split; reflexivity|left; split; reflexivity]|].
  split; [apply (Cl 8 1 (3 # 2)%Q (17 # 2)%Q); [split; reflexivity|right; split; reflexivity]|]. split; [apply is_enclosed; vm_compute; reflexivity|apply not_enclosed; vm_compute; reflexivity].
Qed.
Example C80_rectilinear_partial_ex : upright_cells (mkT 0 0 (1 # 2) 2 0 0) /\ rectilinear box_out /\
  off (centre (mkT 0 0 (1 # 2) 2 0 0) 1 8) box_out /\ enclosed (centre (mkT 0 0 (1 # 2) 2 0 0) 1 8) box_out.
Proof.
  split; [repeat split; reflexivity|]. split.
  { intros e Ee. apply Inter_Proofs.edges_spec in Ee. cbn in Ee. repeat (destruct Ee as [<- | Ee]; [cbn [fst snd]; first [left; reflexivity|right; reflexivity]|]). contradiction. }
  split; [apply Contains_Winding.off_check; vm_compute; reflexivity|apply is_enclosed; vm_compute; reflexivity].
Qed.

(** C80 refuted for cells that are not square: with cells 4 wide and 2 high, the cell in row
    15 and column 12 is kept though it is clear of the triangle and outside. *)
Definition wide : transform := mkT 0 0 4 2 0 0.
Definition corner_out : list (Q * Q) := [(0, 0); (0, 40); (40, 40)]%Q.
Theorem C80_oblong_refuted : upright_cells wide /\ clear_of wide 15 12 corner_out /\ ~ enclosed (centre wide 15 12) corner_out /\
  forall V (junk : Z -> Z -> V) v0 (g : grid V) nb F nodata, grid_is g wide 20 16 nb F nodata ->
  exists kept, masks junk v0 g (Poly (upoly corner_out [])) wide 20 16 nb F nodata kept /\ kept 15 12 = true.
Proof.
  split; [repeat split; reflexivity|]. split.
  { apply (clear_box wide 15 12 corner_out 0 0 40 40); [|right; left; reflexivity].
    intros v I. repeat (destruct I as [<- | I]; [cbn [fst snd]; lra|]). destruct I. }
  split; [apply not_enclosed; vm_compute; reflexivity|].
  intros V junk v0 g nb F nodata G. apply mask_at; [exact G|]. vm_compute. reflexivity.
Qed.
Print Assumptions C80_oblong_refuted.

(** C80 refuted for rows that go south, as those of most image files do: the mask is upside
    down.  The cell in row 4, 11.5 above the box, is kept, that in row 15 in the box is lost. *)
Definition south : transform := mkT 0 20 1 (-1) 0 0.
Definition low_out : list (Q * Q) := [(2, 2); (2, 8); (8, 8); (8, 2)]%Q.
Theorem C80_south_refuted : ~ enclosed (centre south 4 5) low_out /\ enclosed (centre south 15 5) low_out /\
  forall V (junk : Z -> Z -> V) v0 (g : grid V) nb F nodata, grid_is g south 20 10 nb F nodata ->
  exists kept, masks junk v0 g (Poly (upoly low_out [])) south 20 10 nb F nodata kept /\ kept 4 5 = true /\ kept 15 5 = false.
Proof.
  split; [apply not_enclosed; vm_compute; reflexivity|]. split; [apply is_enclosed; vm_compute; reflexivity|].
  intros V junk v0 g nb F nodata G. apply mask_at2; [exact G|]. vm_compute. split; reflexivity.
Qed.
Print Assumptions C80_south_refuted.

(** C80 refuted for polygons with holes: cells in the hole are kept. *)
Definition hole : geom unit unit unit := upoly [(2, 2); (8, 2); (8, 8); (2, 8)]%Q [].
Definition holed : geom unit unit unit := upoly [(0, 0); (0, 10); (10, 10); (10, 0)]%Q [hole].
Theorem C80_holes_refuted : square_cells ident /\ enclosed (centre ident 5 5) (outline hole) /\ ~ region unit unit unit (centre ident 5 5) holed /\
  forall V (junk : Z -> Z -> V) v0 (g : grid V) nb F nodata, grid_is g ident 10 10 nb F nodata ->
  exists kept, masks junk v0 g (Poly holed) ident 10 10 nb F nodata kept /\ kept 5 5 = true.
Proof.
  assert (E : enclosed (centre ident 5 5) (outline hole)) by (apply is_enclosed; vm_compute; reflexivity).
  split; [repeat split; reflexivity|]. split; [exact E|]. split.
  { intros (_ & N & _). apply N. split; [exact E|exact Logic.I]. }
  intros V junk v0 g nb F nodata G. apply mask_at; [exact G|]. vm_compute. reflexivity.
Qed.
Print Assumptions C80_holes_refuted.

(** C80 refuted for outlines of many turns: the cells inside a box run round 256 times are
    lost, as the counts are kept in eight bits. *)
Definition turns : list (Q * Q) := flat_map (fun _ => low_out) (seq 0 256).
Theorem C80_turns_refuted : square_cells ident /\ enclosed (centre ident 5 5) turns /\
  forall V (junk : Z -> Z -> V) v0 (g : grid V) nb F nodata, grid_is g ident 10 10 nb F nodata ->
  exists kept, masks junk v0 g (Poly (upoly turns [])) ident 10 10 nb F nodata kept /\ kept 5 5 = false.
Proof.
  split; [repeat split; reflexivity|]. split; [apply is_enclosed; vm_compute; reflexivity|].
  intros V junk v0 g nb F nodata G. apply mask_at; [exact G|]. vm_compute. reflexivity.
Qed.
Print Assumptions C80_turns_refuted.

(** C80 refuted for skewed cells: a box is no mask but a ZeroDivisionError. *)
Definition skewed : transform := mkT 0 0 1 1 0 (1 # 2).
Theorem C80_skew_refuted : forall V (junk : Z -> Z -> V) v0 (g : grid V) nb F nodata inplace, grid_is g skewed 10 10 nb F nodata ->
  mask_by_poly junk v0 g (Poly (upoly low_out [])) inplace = MaskErr Geom_Model.ZeroDivisionError.
Proof.
  intros V junk v0 g nb F nodata inplace G. apply (mask_err _ _ _ _ junk v0 g skewed 10 10 nb F nodata _ inplace _ G). vm_compute. reflexivity.
Qed.
Print Assumptions C80_skew_refuted.

(** Grids as in the hypotheses exist. *)
Example C80_grid_ex : exists g : grid Z, exists F, grid_is g ident 10 10 2 F 0.
Proof.
  destruct (Grid_OpsProofs.make_grid_spec Z (fun _ _ => 0) 0 ClsComp ident (Band_IndexModel.mkN [10; 10; 2] (fun _ => 1)) 0 10 10 2 (fun _ _ _ => 1))
    as (g & _ & G & _); try lia; try reflexivity. exists g. eexists. exact G.
Qed.
