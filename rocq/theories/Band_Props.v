(** Properties C10-C13: raster bands. *)
From Coq Require Import List ZArith Bool Lia ZifyBool.
From Verif Require Import Band_Model Band_Spec Band_Proofs Band_IndexModel Band_IndexSpec
  Band_IndexProofs Band_MaskProofs.
Import ListNotations.
Open Scope Z_scope.

(** C10. A CompressedBand reads as the array of last written values, whatever
    uninitialised memory ([junk]) contains. *)
Theorem C10_compressed_band_is_an_array :
  forall (V : Type) (junk : Z -> Z -> V) sy sx cy cx (init : V) (ws : list (write V)),
  0 <= sy -> 0 <= sx -> 0 < cy -> 0 < cx -> Forall (write_ok sy sx) ws ->
  exists cb, cb_run (cb_init sy sx cy cx init) ws = (cb, None) /\
    forall y x h w, in_bounds sy sx y x h w ->
      exists r, cb_getblock junk cb y x h w = Ok r /\
        shows r h w (fun i j v => last_value init ws (y + i) (x + j) v).
Proof. exact compressed_is_array. Qed.
Print Assumptions C10_compressed_band_is_an_array.

Definition dump (r : res (arr Z)) : option (list (list Z)) :=
  match r with
  | Ok a => Some (map (fun i => map (fun j => at_ a i j) (zrange 0 (ncol a))) (zrange 0 (nrow a)))
  | Err _ => None
  end.
Definition cst (h w v : Z) : arr Z := mkA h w (fun _ _ => v).

(** Finding: a window reaching over the right edge is not rejected; the cells
    outside come back as uninitialised memory. *)
Theorem C10_out_of_bounds_read_refuted :
  exists (cb : cband Z), cb = cb_init 4 4 2 2 0 /\
    forall junk : Z -> Z -> Z,
      dump (cb_getblock junk cb 0 3 1 3) = Some [[0; junk 0 1; junk 0 2]].
Proof.
  eexists; split; [reflexivity|]. intros junk. vm_compute. reflexivity.
Qed.
Print Assumptions C10_out_of_bounds_read_refuted.

(** ... and a write over the edge may stop half way: the columns inside are
    written, then ValueError is raised. *)
Theorem C10_out_of_bounds_write_refuted :
  exists (cb cb' : cband Z), cb = cb_init 4 4 2 2 0 /\
    cb_setblock cb 0 2 (cst 1 4 7) = (cb', Some ValueError) /\
    dump (cb_getblock (fun _ _ => 0) cb' 0 0 1 4) = Some [[0; 0; 7; 7]].
Proof.
  exists (cb_init 4 4 2 2 0), (fst (cb_setblock (cb_init 4 4 2 2 0) 0 2 (cst 1 4 7))).
  split; [reflexivity|]. split; [|vm_compute; reflexivity].
  assert (E : snd (cb_setblock (cb_init 4 4 2 2 0) 0 2 (cst 1 4 7)) = Some ValueError)
    by (vm_compute; reflexivity).
  rewrite <- E. destruct (cb_setblock (cb_init 4 4 2 2 0) 0 2 (cst 1 4 7)). reflexivity.
Qed.
Print Assumptions C10_out_of_bounds_write_refuted.

Definition ramp (h w s : Z) : arr Z := mkA h w (fun i j => s + 10 * i + j).
Definition ex_ws : list (write Z) :=
  [mkW 1 1 (ramp 3 4 100); mkW 0 2 (ramp 2 3 200); mkW 4 0 (ramp 1 5 300); mkW 2 2 (ramp 0 2 0)].
Example C10_nonvacuous :
  Forall (write_ok 5 5) ex_ws /\
  dump (cb_getblock (fun _ _ => -1) (fst (cb_run (cb_init 5 5 2 3 0) ex_ws)) 0 1 5 4)
  = Some [[0; 200; 201; 202]; [100; 210; 211; 212]; [110; 111; 112; 113];
          [120; 121; 122; 123]; [301; 302; 303; 304]].
Proof.
  split; [|vm_compute; reflexivity].
  repeat constructor; unfold write_ok, in_bounds; simpl; lia.
Qed.

(** C11. Chunk size and band class are unobservable. *)
Theorem C11_chunksize_unobservable :
  forall (V : Type) (junk junk' : Z -> Z -> V) sy sx cy cx cy' cx' (init : V) (ws : list (write V)),
  0 <= sy -> 0 <= sx -> 0 < cy -> 0 < cx -> 0 < cy' -> 0 < cx' -> Forall (write_ok sy sx) ws ->
  exists cb cb' A,
    cb_run (cb_init sy sx cy cx init) ws = (cb, None) /\
    cb_run (cb_init sy sx cy' cx' init) ws = (cb', None) /\
    simple_run (mkA sy sx (fun _ _ => init)) ws = Ok A /\
    forall y x h w, in_bounds sy sx y x h w ->
      exists r r', cb_getblock junk cb y x h w = Ok r /\ cb_getblock junk' cb' y x h w = Ok r' /\
        arr_eq r r' /\ arr_eq r (simple_getblock A y x h w).
Proof. exact chunksize_unobservable. Qed.
Print Assumptions C11_chunksize_unobservable.

Example C11_nonvacuous :
  dump (cb_getblock (fun _ _ => -1) (fst (cb_run (cb_init 5 5 2 3 0) ex_ws)) 0 0 5 5) =
  dump (cb_getblock (fun _ _ => -2) (fst (cb_run (cb_init 5 5 4 1 0) ex_ws)) 0 0 5 5) /\
  match simple_run (cst 5 5 0) ex_ws with
  | Ok A => dump (Ok (simple_getblock A 0 0 5 5)) | Err e => None end =
  dump (cb_getblock (fun _ _ => -1) (fst (cb_run (cb_init 5 5 7 7 0) ex_ws)) 0 0 5 5).
Proof. split; vm_compute; reflexivity. Qed.

(** C12. Reading by integer and slice keys is numpy indexing. *)
Theorem C12_getitem_is_numpy :
  forall (V : Type) (junk : Z -> Z -> V) (bands : list (band V)) H W F k0 k1 rest cr rows cc cols cb bnds,
  stack_holds bands H W F ->
  selects H k0 cr rows -> selects W k1 cc cols ->
  selects_bands (Z.of_nat (length bands)) rest cb bnds ->
  forward H k0 -> forward W k1 ->
  exists r, getitem junk bands (KeyTuple (k0 :: k1 :: rest)) = Ok r /\
            np_result F cr rows cc cols cb bnds r.
Proof. exact getitem_spec. Qed.
Print Assumptions C12_getitem_is_numpy.

Theorem C12_single_slice :
  forall (V : Type) (junk : Z -> Z -> V) (bands : list (band V)) a b c,
  getitem junk bands (KeySlice a b c)
  = getitem junk bands (KeyTuple [KSlice a b c; KSlice None None None; KSlice None None None]).
Proof. exact getitem_slice_key. Qed.
Print Assumptions C12_single_slice.

(** Every slice that selects something satisfies [forward]. *)
Theorem C12_forward_if_nonempty :
  forall n a b c l, 0 <= n -> selects n (KSlice a b c) false l -> l <> [] -> forward n (KSlice a b c).
Proof.
  intros n a b c l Hn S N s e st E. inversion S as [| |? ? ? s' e' st' E']; subst.
  rewrite E in E'. inversion E'; subst.
  destruct (slice_indices_spec n a b c s' e' st' Hn E) as (N0 & _).
  destruct (py_range s' e' st') as [|z r] eqn:Er; [congruence|].
  assert (X : nth_error (py_range s' e' st') 0 = Some z) by (rewrite Er; reflexivity).
  apply py_range_nth in X. destruct X as [_ X]. unfold range_len, zceil in X.
  destruct (0 <? st') eqn:E0.
  - pose proof (div_bounds (- (e' - s')) st' ltac:(lia)). nia.
  - pose proof (div_bounds (- (s' - e')) (- st') ltac:(lia)). nia.
Qed.
Print Assumptions C12_forward_if_nonempty.

Theorem C12_getmask_is_numpy :
  forall (V : Type) (junk : Z -> Z -> V) (bands : list (band V)) H W F,
  stack_holds bands H W F ->
  (forall m, get_mask junk bands (Mask2 H W m)
     = Ok (inl (map (fun p => map (fun k => F k (fst p) (snd p)) (zrange 0 (Z.of_nat (length bands))))
                    (true_cells H W m)))) /\
  (forall m, get_mask junk bands (Mask3 H W (Z.of_nat (length bands)) m)
     = Ok (inr (flat_map (fun p => map (fun k => F k (fst p) (snd p))
                   (filter (m (fst p) (snd p)) (zrange 0 (Z.of_nat (length bands))))) (cells H W)))).
Proof. exact get_mask_spec. Qed.
Print Assumptions C12_getmask_is_numpy.

(** The cells of a mask are listed in row-major order, each true one once. *)
Theorem C12_mask_order :
  forall h w m, Sorted.StronglySorted row_major (true_cells h w m) /\
  forall p, In p (true_cells h w m) <-> (0 <= fst p < h /\ 0 <= snd p < w) /\ m (fst p) (snd p) = true.
Proof. exact (fun h w m => conj (true_cells_sorted h w m) (in_true_cells h w m)). Qed.
Print Assumptions C12_mask_order.

Theorem C12_iteration_by_rows :
  forall (V : Type) (junk : Z -> Z -> V) (bands : list (band V)) H W F, stack_holds bands H W F ->
  exists rows, iter junk bands = Ok rows /\ length rows = Z.to_nat H /\
    forall i row, nth_error rows i = Some row ->
      length row = length bands /\
      forall k a, nth_error row k = Some a ->
        shows a 1 W (fun _ j v => v = F (Z.of_nat k) (Z.of_nat i) j).
Proof. exact iter_spec. Qed.
Print Assumptions C12_iteration_by_rows.

(** Two bands, one of each class. *)
Definition ex_cb : cband Z := fst (cb_run (cb_init 3 4 2 2 5) [mkW 0 0 (ramp 3 4 100)]).
Definition ex_bands : list (band Z) := [BSimple (ramp 3 4 0); BComp ex_cb].
Definition ex_F (b y x : Z) : Z := 100 * b + 10 * y + x.
Lemma ex_cb_run : cb_run (cb_init 3 4 2 2 5) [mkW 0 0 (ramp 3 4 100)] = (ex_cb, None).
Proof.
  unfold ex_cb.
  assert (E : snd (cb_run (cb_init 3 4 2 2 5) [mkW 0 0 (ramp 3 4 100)]) = None)
    by (vm_compute; reflexivity).
  rewrite <- E. apply surjective_pairing.
Qed.
Lemma ex_cb_content : forall y x, 0 <= y < 3 -> 0 <= x < 4 -> ex_F 1 y x = content Z ex_cb y x.
Proof.
  intros y x Hy Hx.
  assert (y = 0 \/ y = 1 \/ y = 2) as Cy by lia.
  assert (x = 0 \/ x = 1 \/ x = 2 \/ x = 3) as Cx by lia.
  destruct Cy as [->|[->| ->]]; destruct Cx as [->|[->|[->| ->]]]; vm_compute; reflexivity.
Qed.
Lemma ex_stack : stack_holds ex_bands 3 4 ex_F.
Proof.
  split; [discriminate|]. intros [|[|k]] b E.
  - injection E as <-. apply holds_content. split; [split; discriminate|]. split; [reflexivity|].
    intros. unfold ex_F. simpl. lia.
  - injection E as <-.
    assert (F : Forall (write_ok 3 4) [mkW 0 0 (ramp 3 4 100)])
      by (repeat constructor; unfold write_ok, in_bounds; simpl; lia).
    apply holds_content. split; [|split; [reflexivity|exact ex_cb_content]].
    exists 3, 4, 2, 2, 5, [mkW 0 0 (ramp 3 4 100)]. repeat (split; [lia|]). split; [exact F|].
    exact ex_cb_run.
  - destruct k; discriminate.
Qed.
Definition dump_nd (r : res (nd Z)) (l : list (list Z)) : option (list Z * list Z) :=
  match r with Ok a => Some (shp a, map (elt a) l) | Err _ => None end.
Example C12_nonvacuous :
  stack_holds ex_bands 3 4 ex_F /\
  selects 3 (KSlice None None (Some (-2))) false [2; 0] /\ forward 3 (KSlice None None (Some (-2))) /\
  selects 4 (KInt (-1)) true [3] /\ selects_bands 2 [] false [0; 1] /\
  dump_nd (getitem (fun _ _ => 0) ex_bands
             (KeyTuple [KSlice None None (Some (-2)); KInt (-1)]))
          [[0; 0]; [0; 1]; [1; 0]; [1; 1]] = Some ([2; 2], [23; 123; 3; 103]).
Proof.
  split; [exact ex_stack|].
  split; [apply (sel_slice 3 None None (Some (-2)) 2 (-1) (-2)); reflexivity|].
  split; [intros s e st E; vm_compute in E; inversion E; subst; simpl; lia|].
  split; [apply (sel_neg 4 (-1)); lia|].
  split; [apply (selb_all 2)|]. vm_compute. reflexivity.
Qed.

(** Finding: integers outside the axis wrap around instead of raising
    IndexError. *)
Theorem C12_out_of_range_integer_refuted :
  exists (bands : list (band Z)) H W F r,
    stack_holds bands H W F /\ (forall c l, ~ selects H (KInt 5) c l) /\
    getitem (fun _ _ => 0) bands (KeyTuple [KInt 5; KInt 0; KInt 0]) = Ok r /\ elt r [] = F 0 2 0.
Proof.
  exists ex_bands, 3, 4, ex_F. eexists. split; [exact ex_stack|].
  split; [intros c l S; inversion S; lia|]. split; [vm_compute; reflexivity|vm_compute; reflexivity].
Qed.
Print Assumptions C12_out_of_range_integer_refuted.

(** Finding: a slice running against its step, empty in numpy, raises. *)
Theorem C12_backward_slice_refuted :
  exists (bands : list (band Z)) H W F,
    stack_holds bands H W F /\ selects H (KSlice (Some 3) (Some 1) None) false [] /\
    getitem (fun _ _ => 0) bands
      (KeyTuple [KSlice (Some 3) (Some 1) None; KSlice None None None]) = Err ValueError.
Proof.
  exists ex_bands, 3, 4, ex_F. split; [exact ex_stack|].
  split; [apply (sel_slice 3 (Some 3) (Some 1) None 3 1 1); reflexivity|]. vm_compute. reflexivity.
Qed.
Print Assumptions C12_backward_slice_refuted.

(** C13. Assignment with unit-step keys. *)
Theorem C13_setitem_writes_selection :
  forall (V : Type) (bands : list (band V)) H W F k0 k1 rest cr rows cc cols cb bnds is_nd value,
  stack_holds bands H W F ->
  selects H k0 cr rows -> selects W k1 cc cols ->
  selects_bands (Z.of_nat (length bands)) rest cb bnds ->
  forward H k0 -> forward W k1 -> unit_step k0 -> unit_step k1 ->
  let cellv i j k := cell_value is_nd value (Z.of_nat (length rows)) (Z.of_nat (length cols))
                       (Z.of_nat (length bnds)) (Z.of_nat i) (Z.of_nat j) (Z.of_nat k) in
  ((exists i j k, cellv i j k <> None) ->
   exists bands' F', setitem bands (KeyTuple (k0 :: k1 :: rest)) is_nd value = (bands', None) /\
     length bands' = length bands /\ stack_holds bands' H W F' /\
     (forall i j k y x b,
        nth_error rows i = Some y -> nth_error cols j = Some x -> nth_error bnds k = Some b ->
        cellv i j k = Some (F' b y x)) /\
     (forall b y x, ~ (In b bnds /\ In y rows /\ In x cols) -> F' b y x = F b y x)) /\
  ((forall i j k, cellv i j k = None) ->
   setitem bands (KeyTuple (k0 :: k1 :: rest)) is_nd value = (bands, Some ValueError)).
Proof. exact setitem_spec. Qed.
Print Assumptions C13_setitem_writes_selection.

Theorem C13_stepped_not_implemented :
  forall (V : Type) (bands : list (band V)) H W F k0 k1 rest cr rows cc cols cb bnds is_nd value,
  stack_holds bands H W F ->
  selects H k0 cr rows -> selects W k1 cc cols ->
  selects_bands (Z.of_nat (length bands)) rest cb bnds ->
  ~ (unit_step k0 /\ unit_step k1) ->
  setitem bands (KeyTuple (k0 :: k1 :: rest)) is_nd value = (bands, Some NotImplementedError).
Proof. exact setitem_stepped. Qed.
Print Assumptions C13_stepped_not_implemented.

(** Masked assignment: reading the true cells back in order gives the values,
    and nothing else changes. *)
Theorem C13_masked_assignment :
  forall (V : Type) (junk : Z -> Z -> V) (bands : list (band V)) H W F m value,
  stack_holds bands H W F -> mask_fits m H W (Z.of_nat (length bands)) ->
  (forall k, (k < length bands)%nat -> exists vs,
     mask_values value k (length (true_cells H W (mask_of m k))) vs) ->
  exists bands' F', set_mask junk bands m value = (bands', None) /\
    length bands' = length bands /\ stack_holds bands' H W F' /\
    (forall k vs, (k < length bands)%nat ->
      mask_values value k (length (true_cells H W (mask_of m k))) vs ->
      map (fun p => F' (Z.of_nat k) (fst p) (snd p)) (true_cells H W (mask_of m k)) = vs) /\
    (forall k y x, (k < length bands)%nat -> mask_of m k y x = false ->
       F' (Z.of_nat k) y x = F (Z.of_nat k) y x).
Proof. exact set_mask_spec. Qed.
Print Assumptions C13_masked_assignment.

Theorem C13_mask_read_back :
  forall (V : Type) (junk : Z -> Z -> V) (bands : list (band V)) H W F m rows,
  stack_holds bands H W F -> get_mask junk bands (Mask2 H W m) = Ok (inl rows) ->
  exists bands', set_mask junk bands (Mask2 H W m) (M2 rows) = (bands', None) /\
    stack_holds bands' H W F.
Proof. exact mask_read_back. Qed.
Print Assumptions C13_mask_read_back.

Definition vec (l : list Z) : nd Z :=
  mkN [Z.of_nat (length l)] (fun i => match i with [k] => nth (Z.to_nat k) l 0 | _ => 0 end).
Example C13_nonvacuous :
  cell_value true (vec [7; 8]) 2 2 1 0 0 0 <> None /\
  let r := setitem ex_bands (KeyTuple [KSlice (Some 1) None None; KSlice (Some 1) (Some 3) None; KInt (-1)])
             true (vec [7; 8]) in
  snd r = None /\
  dump_nd (getitem (fun _ _ => 0) (fst r) (KeyTuple [KSlice (Some 1) None None; KSlice None None None; KInt 1]))
    [[0; 0]; [0; 1]; [0; 2]; [0; 3]; [1; 2]] = Some ([2; 4], [110; 7; 8; 113; 8]) /\
  let s := set_mask (fun _ _ => 0) ex_bands (Mask2 3 4 (fun y x => x =? y)) (M2 [[1; 2]; [3; 4]; [5; 6]]) in
  snd s = None /\
  dump_nd (getitem (fun _ _ => 0) (fst s) (KeyTuple [KInt 1; KSlice None None None]))
    [[0; 0]; [1; 0]; [1; 1]; [2; 1]] = Some ([4; 2], [10; 3; 4; 112]).
Proof. vm_compute. repeat split; discriminate || reflexivity. Qed.

(** Finding: a 1-D array cannot be assigned to a column although numpy allows
    a[:, 1, 0] = v. *)
Theorem C13_column_assignment_refuted :
  exists (bands : list (band Z)) H W F v,
    stack_holds bands H W F /\ shp v = [H] /\
    setitem bands (KeyTuple [KSlice None None None; KInt 1; KInt 0]) true v = (bands, Some ValueError).
Proof.
  exists ex_bands, 3, 4, ex_F, (vec [1; 2; 3]). split; [exact ex_stack|]. split; reflexivity.
Qed.
Print Assumptions C13_column_assignment_refuted.

(** Finding: what a three-dimensional mask reads cannot be written back. *)
Theorem C13_mask3_read_back_refuted :
  exists (bands : list (band Z)) H W F m vs,
    stack_holds bands H W F /\
    get_mask (fun _ _ => 0) bands (Mask3 H W (Z.of_nat (length bands)) m) = Ok (inr vs) /\
    set_mask (fun _ _ => 0) bands (Mask3 H W (Z.of_nat (length bands)) m) (M1 vs)
    = (bands, Some ValueError).
Proof.
  exists ex_bands, 3, 4, ex_F, (fun y x k => y =? x), [0; 100; 11; 111; 22; 122].
  split; [exact ex_stack|]. split; [vm_compute; reflexivity|]. reflexivity.
Qed.
Print Assumptions C13_mask3_read_back_refuted.
