(** Specification of indexing a stack of bands as a numpy array with axes
    (row, column, band). *)
From Coq Require Import List ZArith Bool.
From Verif Require Import Band_Model Band_Spec Band_IndexModel.
Import ListNotations.
Open Scope Z_scope.

(** numpy / Python selection along an axis of length [n]: an integer selects
    one position and removes the axis (flag true); a slice selects the
    positions of its range. *)
Inductive selects (n : Z) : kitem -> bool -> list Z -> Prop :=
| sel_int : forall z, 0 <= z < n -> selects n (KInt z) true [z]
| sel_neg : forall z, - n <= z < 0 -> selects n (KInt z) true [z + n]
| sel_slice : forall a b c s e st, slice_indices n a b c = Ok (s, e, st) ->
    selects n (KSlice a b c) false (py_range s e st).

(** The third item of the key may be missing, meaning all bands. *)
Inductive selects_bands (n : Z) : list kitem -> bool -> list Z -> Prop :=
| selb_all : selects_bands n [] false (zrange 0 n)
| selb_one : forall it c l, selects n it c l -> selects_bands n [it] c l.

(** The slice does not run against its step, as a[5:2] does.  Every slice that
    selects something is of this kind. *)
Definition forward (n : Z) (it : kitem) : Prop :=
  match it with
  | KSlice a b c => forall s e st, slice_indices n a b c = Ok (s, e, st) ->
                    if 0 <? st then s <= e else e <= s
  | _ => True
  end.

Definition unit_step (it : kitem) : Prop :=
  match it with
  | KInt _ => True
  | KSlice _ _ c => c = None \/ c = Some 1
  | KOther => False
  end.

Section Spec.
Variable V : Type.

(** A band as users can obtain it: created, then written in bounds. *)
Definition usable (b : band V) : Prop :=
  match b with
  | BSimple A => 0 <= nrow A /\ 0 <= ncol A
  | BComp cb => exists sy sx cy cx init ws,
      0 <= sy /\ 0 <= sx /\ 0 < cy /\ 0 < cx /\ Forall (write_ok sy sx) ws /\
      cb_run (cb_init sy sx cy cx init) ws = (cb, None)
  end.

(** The band has size H x W and reading any window gives the values [f]. *)
Definition holds (b : band V) (H W : Z) (f : Z -> Z -> V) : Prop :=
  usable b /\ bsize b = (H, W) /\
  forall junk y x h w, in_bounds H W y x h w ->
    exists r, getblock junk b y x h w = Ok r /\
      shows r h w (fun i j v => v = f (y + i) (x + j)).

(** A non-empty stack of bands holding the array [F band row column]. *)
Definition stack_holds (bands : list (band V)) (H W : Z) (F : Z -> Z -> Z -> V) : Prop :=
  bands <> [] /\
  forall k b, nth_error bands k = Some b -> holds b H W (F (Z.of_nat k)).

Definition axis (collapsed : bool) (i : nat) : list Z :=
  if collapsed then [] else [Z.of_nat i].
Definition axis_len (collapsed : bool) (l : list Z) : list Z :=
  if collapsed then [] else [Z.of_nat (length l)].

(** [r] is what numpy returns when the given rows, columns and bands are
    selected and the collapsed axes removed. *)
Definition np_result (F : Z -> Z -> Z -> V) (cr : bool) (rows : list Z)
    (cc : bool) (cols : list Z) (cb : bool) (bnds : list Z) (r : nd V) : Prop :=
  shp r = axis_len cr rows ++ axis_len cc cols ++ axis_len cb bnds /\
  forall i j k y x b,
    nth_error rows i = Some y -> nth_error cols j = Some x -> nth_error bnds k = Some b ->
    elt r (axis cr i ++ axis cc j ++ axis cb k) = F b y x.

(** The value the assigned [value] gives to the cell in row i, column j and
    band k of an h x w x nb selection: arrays are laid out (row, column, band),
    a 1-D array runs along the columns, or over the bands of a single pixel if
    it is an ndarray; axes of length one are repeated.  None: it does not fit. *)
Definition rep (n m i : Z) : option Z :=
  if n =? m then Some i else if n =? 1 then Some 0 else None.
Definition cell_value (is_nd : bool) (value : nd V) (h w nb i j k : Z) : option V :=
  match shp value with
  | [] => Some (elt value [])
  | [n] => if is_nd && (h =? 1) && (w =? 1)
           then if n =? nb then Some (elt value [k]) else None
           else match rep n w j with
                | Some j' => Some (elt value [j'])
                | None => None
                end
  | [m; n] => match rep m h i, rep n w j with
              | Some i', Some j' => Some (elt value [i'; j'])
              | _, _ => None
              end
  | [m; n; b] => match rep m h i, rep n w j, rep b nb k with
                 | Some i', Some j', Some k' => Some (elt value [i'; j'; k'])
                 | _, _, _ => None
                 end
  | _ => None
  end.
End Spec.
Arguments usable {V}. Arguments holds {V}. Arguments stack_holds {V}.
Arguments np_result {V}. Arguments cell_value {V}.

(** Boolean masks: the mask of band k, and the values a masked assignment puts
    in its n true cells (in row-major order). *)
Definition mask_of (m : mask) (k : nat) (y x : Z) : bool :=
  match m with
  | Mask2 _ _ f => f y x
  | Mask3 _ _ _ f => f y x (Z.of_nat k)
  | MaskOther => false
  end.
Definition mask_fits (m : mask) (H W nb : Z) : Prop :=
  match m with
  | Mask2 h w _ => h = H /\ w = W
  | Mask3 h w b _ => h = H /\ w = W /\ b = nb
  | MaskOther => False
  end.
Definition mask_values {V} (value : mvalue V) (k n : nat) (vs : list V) : Prop :=
  match value with
  | MReal v => vs = repeat v n
  | M1 l => vs = l /\ length l = n
  | M2 rows => length rows = n /\ Forall2 (fun r v => nth_error r k = Some v) rows vs
  end.
(** The true cells in row-major order, characterised. *)
Definition row_major (p q : Z * Z) : Prop :=
  fst p < fst q \/ (fst p = fst q /\ snd p < snd q).
