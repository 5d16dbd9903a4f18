(** Calls that raise (C111). *)
From Coq Require Import String List ZArith QArith Bool Lia.
From Verif Require Import Band_Model Band_Spec Band_IndexModel Band_IndexSpec Grid_Model Grid_Spec Grid_Props Atom_Spec Atom_Proofs Atom_Grid.
From Verif Require Table_Model Table_Spec Multi_Model.
Import ListNotations.
Open Scope Z_scope.

(** Tables: a column, a row or a deletion that is refused leaves the table as it was, *)
Theorem C111_table : forall (val : Type) (t : Table_Model.table val) f vs i r,
  unchanged_if_raised t (Table_Model.setfield t f vs) /\
  unchanged_if_raised t (Table_Model.setitem t i r) /\
  unchanged_if_raised t (Table_Model.delitem t i).
Proof. intros. split; [apply setfield_atomic | split; [apply setitem_atomic | apply delitem_atomic]]. Qed.
Print Assumptions C111_table.
(** and a table whose rows are complete can always be added to another. Whatever happens
    the rows that were there stay, in their places. *)
Theorem C111_extend_partial : forall (val : Type) (vnone : val) (t other t' : Table_Model.table val) e,
  Table_Model.extend vnone t other = (t', e) ->
  (Table_Spec.rectangular other -> e = None) /\
  Table_Model.fields t' = Table_Model.fields t /\
  firstn (Table_Model.tlen t) (Table_Model.rows t') = Table_Model.rows t /\
  (Table_Model.tlen t' <= Table_Model.tlen t + Table_Model.tlen other)%nat.
Proof.
  intros val vnone t other t' e E. split; [| exact (extend_prefix val vnone t other t' e E)].
  intros R. pose proof (extend_total val vnone t other R) as X. rewrite E in X. exact X.
Qed.
Print Assumptions C111_extend_partial.
(** Finding: adding a table with an incomplete row raises after the rows before it have
    been added. *)
Theorem C111_extend_refuted :
  Table_Model.extend 0 (Table_Model.mkT ["a"; "b"]%string [[1; 2]]) (Table_Model.mkT ["a"; "b"]%string [[3; 4]; [5]]) =
  (Table_Model.mkT ["a"; "b"]%string [[1; 2]; [3; 4]], Some Table_Model.IndexError).
Proof. reflexivity. Qed.
Print Assumptions C111_extend_refuted.

(** Grids of any bands: an assignment with any key and any value that raises has written
    to no band. *)
Theorem C111_assignment : forall (V : Type) (bands : list (band V)) H W F key is_nd value,
  stack_holds bands H W F -> unchanged_if_raised bands (setitem bands key is_nd value).
Proof. exact setitem_raise. Qed.
Print Assumptions C111_assignment.
(** So a history in which every exception is caught leaves what the calls that did not
    raise leave by themselves. *)
Theorem C111_history : forall (V : Type) (bands : list (band V)) H W F,
  stack_holds bands H W F ->
  let run := fun (c : key * bool * nd V) b => setitem b (fst (fst c)) (snd (fst c)) (snd c) in
  forall calls, going_on run calls bands = going_on run (accepted run calls bands) bands /\
    accepted run (accepted run calls bands) bands = accepted run calls bands.
Proof.
  intros V bands H W F SH run calls.
  apply (going_on_accepted run (fun b => exists F, stack_holds b H W F)); [| | exists F; exact SH].
  - intros c b [G S]. apply (setitem_raise V b H W G _ _ _ S).
  - intros c b b' [G S] E. pose proof (setitem_all V b H W G (fst (fst c)) (snd (fst c)) (snd c) S) as A. unfold run in E. rewrite E in A. exact (proj2 A).
Qed.
Print Assumptions C111_history.
(** Masked assignments: with one band always, with more if mask and values fit all bands
    or none. *)
Theorem C111_one_band : forall (V : Type) junk (bands : list (band V)) H W F m value,
  stack_holds bands H W F -> length bands = 1%nat -> unchanged_if_raised bands (set_mask junk bands m value).
Proof. exact one_band_raise. Qed.
Print Assumptions C111_one_band.
Theorem C111_mask_partial : forall (V : Type) junk (bands : list (band V)) H W F m value,
  stack_holds bands H W F -> alike m value (Z.of_nat (length bands)) -> unchanged_if_raised bands (set_mask junk bands m value).
Proof. exact mask_raise. Qed.
Print Assumptions C111_mask_partial.
(** Applying a function in place to a grid of one band. *)
Theorem C111_apply_partial : forall (V : Type) junk isnan veq (g : grid V) T H W F nodata func,
  grid_is g T H W 1 F nodata -> unchanged_if_raised g (apply junk isnan veq g func).
Proof. exact apply_raise. Qed.
Print Assumptions C111_apply_partial.

(** Two bands of 1 x 2 cells for the examples and findings. *)
Definition two : grid Z := zget exT (nd3_of 1 2 2 (fun i j k => 10 * k + j)) (-1).
Example C111_example :
  snd (setitem (gbands two) (KeyTuple [KInt 0; KSlice None None None]) true (nd_of 1 3 [7; 8; 9])) = Some ValueError /\
  snd (setitem (gbands two) (KeyTuple [KInt 0; KSlice None None None]) true (nd_of 1 2 [7; 8])) = None /\
  snd (set_mask zj (gbands two) (Mask2 1 2 (fun _ _ => true)) (M1 [7; 8; 9])) = Some ValueError /\
  alike (Mask2 1 2 (fun _ _ => true)) (M1 [7; 8; 9]) 2 /\
  snd (apply zj (fun _ => false) Z.eqb maskg (fun l => l ++ l)) = Some ValueError.
Proof. repeat split; vm_compute; reflexivity. Qed.
Definition after (r : list (band Z) * option exn) : option (Z * Z * list (list (list Z))) * option exn :=
  (show (Ok (mkG exT (fst r) ClsComp (-1))), snd r).
(** Finding: values for the pixels of a grid of two bands that have one column raise
    IndexError, but the first band has been written. *)
Theorem C111_columns_refuted :
  after (gbands two, None) = (Some (1, 2, [[[0; 1]]; [[10; 11]]]), None) /\
  after (set_mask zj (gbands two) (Mask2 1 2 (fun _ _ => true)) (M2 [[7]; [8]])) = (Some (1, 2, [[[7; 8]]; [[10; 11]]]), Some IndexError).
Proof. split; vm_compute; reflexivity. Qed.
Print Assumptions C111_columns_refuted.
(** Finding: a mask for one band, used on a grid of two bands, raises IndexError, but the
    first band has been written. *)
Theorem C111_mask_bands_refuted :
  after (set_mask zj (gbands two) (Mask3 1 2 1 (fun _ _ _ => true)) (MReal 7)) = (Some (1, 2, [[[7; 7]]; [[10; 11]]]), Some IndexError).
Proof. vm_compute; reflexivity. Qed.
Print Assumptions C111_mask_bands_refuted.
(** Finding: apply in place on a grid of two bands, the second of them without data,
    raises ValueError after the function has been applied to the first. *)
Theorem C111_apply_refuted :
  let g := zget exT (nd3_of 1 2 2 (fun i j k => if k =? 0 then j + 1 else -1)) (-1) in
  let r := apply zj (fun _ => false) Z.eqb g (map (fun v => 10 * v)) in
  show (Ok g) = Some (1, 2, [[[1; 2]]; [[-1; -1]]]) /\
  show (Ok (fst r)) = Some (1, 2, [[[10; 20]]; [[-1; -1]]]) /\ snd r = Some ValueError.
Proof. vm_compute. repeat split; reflexivity. Qed.
Print Assumptions C111_apply_refuted.

(** Multipoints with a row of data for each vertex: replacing a vertex that is not there
    changes neither vertices nor data. *)
Theorem C111_vertex : forall (P val : Type) (vnone : val) ord (m : Multi_Model.multi P val) i p q,
  Table_Model.tlen (Multi_Model.tbl m) = length (Multi_Model.parts m) ->
  unchanged_if_raised m (Multi_Model.set_point vnone ord m i p) /\ unchanged_if_raised m (Multi_Model.set_vertex m i q).
Proof. intros. split; [apply set_point_atomic; assumption | apply set_vertex_atomic; assumption]. Qed.
Print Assumptions C111_vertex.
(** Finding: in a multipoint made with a Table of fewer rows than there are vertices the
    vertex is replaced before IndexError is raised. *)
Theorem C111_vertex_refuted : forall q : Z, exists m : Multi_Model.multi Z Z,
  Multi_Model.of_parts [1; 2] (Multi_Model.DTable (Table_Model.mkT ["a"%string] [[5]])) [] = Table_Model.Ok m /\
  Multi_Model.set_vertex m 1 (Some q) =
    (Multi_Model.mkMulti [1; q] (Table_Model.mkT ["a"%string] [[5]]) [] [], Some Table_Model.IndexError).
Proof. intros q. eexists. split; reflexivity. Qed.
Print Assumptions C111_vertex_refuted.
