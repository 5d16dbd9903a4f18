(** Model of some computations of karta in doubles: IEEE 754 binary64, each
    operation rounded to nearest even (Flocq), NaNs without payload.  It is
    assumed that the C compiler neither fuses operations nor keeps more digits. *)
From Coq Require Import List ZArith Bool.
From Flocq Require Import Core IEEE754.BinarySingleNaN.
Import ListNotations.
Open Scope Z_scope.

(** The format has 53 digits and exponents below 1024 (C's double, crfuncs.pyx:12-20). *)
Definition double := binary_float 53 1024.
(** Required by Flocq (precision of double, crfuncs.pyx:12-20). *)
Global Instance prec53 : Prec_gt_0 53 := eq_refl.
(** Required by Flocq (range of double, crfuncs.pyx:12-20). *)
Global Instance emax1024 : Prec_lt_emax 53 1024 := eq_refl.

(** The operations of C and numpy (crfuncs.pyx:26-29, contains.pyx:11). *)
Definition dadd (a b : double) : double := Bplus mode_NE a b.
(** Subtraction (crfuncs.pyx:26-29, contains.pyx:11). *)
Definition dsub (a b : double) : double := Bminus mode_NE a b.
(** Multiplication (crfuncs.pyx:26-29, contains.pyx:11). *)
Definition dmul (a b : double) : double := Bmult mode_NE a b.
(** Division, with infinities and NaN (crfuncs.pyx:26-29, [cdivision]). *)
Definition ddiv (a b : double) : double := Bdiv mode_NE a b.
(** [<], false for NaN (contains.pyx:32-39). *)
Definition dlt (a b : double) : bool := Bltb a b.
(** [<=], false for NaN (contains.pyx:32-39). *)
Definition dle (a b : double) : bool := Bleb a b.
(** Integers as doubles (grid.py:304-307). *)
Definition of_int (n : Z) : double := binary_normalize 53 1024 _ _ mode_NE n 0 false.
(** The literal 0.5 (grid.py:304-307, crfuncs.pyx:28-29). *)
Definition half : double := binary_normalize 53 1024 _ _ mode_NE 1 (-1) false.
(** The literal 0.0 (contains.pyx:34). *)
Definition zero : double := B754_zero false.

(** contains.pyx:6-11 [isleft]. *)
Definition isleft (pt pt0 pt1 : double * double) : double :=
  dsub (dmul (dsub (fst pt1) (fst pt0)) (dsub (snd pt) (snd pt0)))
       (dmul (dsub (fst pt) (fst pt0)) (dsub (snd pt1) (snd pt0))).
(** contains.pyx:32-39, the change of [cnt] for one edge. *)
Definition edge_count (pt pt0 pt1 : double * double) : Z :=
  if dle (snd pt0) (snd pt) && dlt (snd pt) (snd pt1) then
    if dlt zero (isleft pt pt0 pt1) then 1 else 0
  else if dlt (snd pt) (snd pt0) && dle (snd pt1) (snd pt) then
    if dlt (isleft pt pt0 pt1) zero then -1 else 0
  else 0.
(** contains.pyx:25-40, the loop. *)
Fixpoint count_loop (pt pt0 : double * double) (next : list (double * double)) (cnt : Z) : Z :=
  match next with
  | [] => cnt
  | pt1 :: next' => count_loop pt pt1 next' (cnt + edge_count pt pt0 pt1)
  end.
(** contains.pyx:13-42 [contains] of a ring, last edge back to the first vertex. *)
Definition contains (pt : double * double) (l : list (double * double)) : bool :=
  match l with
  | [] => false
  | v :: l' => negb (count_loop pt v (l' ++ [v]) 0 =? 0)
  end.

(** A transform (grid.py:143-150). *)
Record transform := mkT { x0 : double; y0 : double; dx : double; dy : double; sx : double; sy : double }.
(** grid.py:299-308 [center_coords], one cell. *)
Definition center (T : transform) (i j : Z) : double * double :=
  (dadd (dadd (x0 T) (dmul (dadd (of_int j) half) (dx T))) (dmul (dadd (of_int i) half) (sx T)),
   dadd (dadd (y0 T) (dmul (dadd (of_int i) half) (dy T))) (dmul (dadd (of_int j) half) (sy T))).
(** crfuncs.pyx:11-33 [get_positions_vec], one point. *)
Definition positions (T : transform) (x y : double) : double * double :=
  let j_ := ddiv (dsub (dadd (dsub (dmul (dy T) x) (dmul (dy T) (x0 T))) (dmul (sx T) (y0 T))) (dmul (sx T) y))
                 (dsub (dmul (dx T) (dy T)) (dmul (sx T) (sy T))) in
  let i_ := ddiv (dsub (dsub y (y0 T)) (dmul j_ (sy T))) (dy T) in
  (dsub i_ half, dsub j_ half).
(** np.round and the conversion to int32, grid.py:799-800; None if it does not
    fit or is not a number (the C conversion is then undefined). *)
Definition to_int32 (a : double) : option Z :=
  let r := Bnearbyint mode_NE a in
  if is_finite r then let n := Btrunc r in if (-2147483648 <=? n) && (n <? 2147483648) then Some n else None
  else None.
(** grid.py:788-801 [_indices], one point. *)
Definition indices (T : transform) (x y : double) : option (Z * Z) :=
  let (i, j) := positions T x y in
  match to_int32 i, to_int32 j with Some i, Some j => Some (i, j) | _, _ => None end.

(** np.min (geometry.py:1138) of finite doubles. *)
Definition dmin (a b : double) : double := if dle a b then a else b.
(** One summand of geometry.py:1139-1140, from vertex [a] to [b]. *)
Definition strip (m : double) (a b : double * double) : double :=
  dmul (dsub (dmul half (dadd (fst b) (fst a))) m) (dsub (snd b) (snd a)).
(** The sum of geometry.py:1140, from the left. *)
Fixpoint strips (m : double) (acc : double) (a : double * double) (l : list (double * double)) : double :=
  match l with
  | [] => acc
  | b :: l' => strips m (dadd acc (strip m a b)) b l'
  end.
(** geometry.py:1137-1141, the area of one ring before [abs]; the first summand is
    the closing side. *)
Definition ring_area (l : list (double * double)) : double :=
  match l with
  | [] => B754_nan
  | v :: l' =>
      let m := fold_left dmin (map fst l') (fst v) in
      dadd (strip m (last l v) v) (strips m zero v l')
  end.
