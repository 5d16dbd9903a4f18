(** Model of the extreme values, [data_bbox], [sample] and [profile] of
    karta/raster/grid.py, on the grids of Grid_Model and the samplers of GridSample_Model.
    Values are exact rationals or nan; coordinates are in the system of the grid. *)
From Coq Require Import String List ZArith QArith Bool.
From Coq Require DecimalString Decimal.
From Verif Require Table_Model.
From Verif Require Import Band_Model Band_IndexModel Grid_Model GridSample_Model.
Import ListNotations.
Local Open Scope Z_scope.

(** [a.max()] and [a.min()] of a numpy array of floats that is not empty: nan if it has one.
    grid.py:26-48. *)
Definition fpick (le : Q -> Q -> bool) (a b : fl) : fl :=
  match a, b with Some p, Some q => Some (if le p q then q else p) | _, _ => None end.
(** numpy's max or min of an array, a ValueError if it is empty (grid.py:26-48). *)
Definition np_reduce (le : Q -> Q -> bool) (l : list fl) : res fl :=
  match l with [] => Err ValueError | a :: l' => Ok (fold_left (fpick le) l' a) end.
(** [a.max()], grid.py:26-32. *)
Definition np_max (l : list fl) : res fl := np_reduce Qle_bool l.
(** [a.min()], grid.py:34-40. *)
Definition np_min (l : list fl) : res fl := np_reduce (fun p q => Qle_bool q p) l.

Section Grids.
Variable junk : Z -> Z -> fl.

(** grid.py:27, 35: [self[self.data_mask]]; rows of one value per band. *)
Definition masked (g : grid fl) : res (list (list fl)) :=
  bind (data_mask junk fnan feq g) (fun m =>
  bind (get_mask junk (gbands g) m) (fun t => match t with inl rows => Ok rows | inr _ => Err ValueError end)).
(** grid.py:26-32 [max], 34-40 [min]. *)
Definition gmax (g : grid fl) : res fl := bind (masked g) (fun t => match t with [] => Ok None | _ => np_max (concat t) end).
(** grid.py:34-40 [min]. *)
Definition gmin (g : grid fl) : res fl := bind (masked g) (fun t => match t with [] => Ok None | _ => np_min (concat t) end).
(** grid.py:42-48 [minmax]. *)
Definition minmax (g : grid fl) : res (fl * fl) :=
  bind (data_mask_full junk fnan feq g) (fun m =>
  bind (get_mask junk (gbands g) m) (fun t =>
  match t with
  | inr [] => Ok (None, None)
  | inr vs => bind (np_min vs) (fun a => bind (np_max vs) (fun b => Ok (a, b)))
  | inl _ => Err ValueError
  end)).
(** grid.py:334-336 [data_bbox]. *)
Definition data_bbox (g : grid fl) : res (Q * Q * Q * Q) :=
  bind (data_extent junk g false) (fun '(a, b, c, d) => Ok (a, c, b, d)).

(** The positions given to [sample]: a Point, a Multipoint, another geometry, two numbers, two
    sequences, or a single argument that is not a geometry. grid.py:1004-1025. *)
Inductive where_ : Type :=
| APoint (p : Q * Q) | AMultipoint (l : list (Q * Q)) | AGeometry | ANumbers (x y : Q) | AArrays (xs ys : list Q) | ASingle.
(** The keyword argument method of grid.py:971-1033. *)
Inductive method : Type := Nearest | Bilinear | OtherMethod.
(** A number, a vector over the bands, or a vector over the points for every band. What
    grid.py:971-1033 returns. *)
Inductive samples : Type := Number (v : fl) | Vector (l : list fl) | Table (l : list (list fl)).
(** An array as a list of its rows, grid.py:1026-1032. *)
Definition rows_of (a : arr fl) : list (list fl) := map (fun i => map (at_ a i) (zrange 0 (ncol a))) (zrange 0 (nrow a)).
(** grid.py:1026-1032 for vectors of points. *)
Definition sample_many (g : grid fl) (dt : dtype) (m : method) (pts : list (Q * Q)) : res (list (list fl)) :=
  match m with
  | Nearest => bind (sample_nearest junk g pts) (fun a => Ok (rows_of a))
  | Bilinear => sample_bilinear junk g dt pts
  | OtherMethod => Err ValueError
  end.
(** grid.py:1026-1032 for one point: [sample_bilinear] makes vectors of one point of it and
    takes the first value of every band. *)
Definition sample_one (g : grid fl) (dt : dtype) (m : method) (p : Q * Q) : res samples :=
  match m with
  | Nearest => bind (sample_nearest1 junk g (fst p) (snd p)) (fun r => Ok (match r with inl v => Number v | inr l => Vector l end))
  | Bilinear => bind (sample_bilinear junk g dt [p]) (fun rows =>
      bind (mapM (fun r => match r with v :: _ => Ok v | [] => Err IndexError end) rows) (fun l => Ok (Vector l)))
  | OtherMethod => Err ValueError
  end.
(** grid.py:971-1033 [sample]; [len] of a number is a TypeError. *)
Definition sample (g : grid fl) (dt : dtype) (m : method) (w : where_) : res samples :=
  match w with
  | APoint p => sample_one g dt m p
  | AMultipoint l => bind (sample_many g dt m l) (fun z => Ok (Table z))
  | AGeometry => Err TypeError
  | ANumbers _ _ => Err TypeError
  | ASingle => Err TypeError
  | AArrays xs ys =>
    if negb (Nat.eqb (List.length xs) (List.length ys)) then Err TypeError
    else bind (sample_many g dt m (combine xs ys)) (fun z => Ok (Table z))
  end.

(** ["band_{0}".format(i)]. grid.py:1059-1063. *)
Definition band_name (i : nat) : string := "band_" ++ DecimalString.NilZero.string_of_uint (Nat.to_uint i).
(** grid.py:1056 the spacing of [profile] if none is given. *)
Definition default_resolution (T : transform) : Q := if Qlt_le_dec (dy T) (dx T) then dy T else dx T.
(** grid.py:1059-1063: a field for every band; rows of [z] that are missing are IndexErrors. *)
Fixpoint set_bands (t : Table_Model.table fl) (i : nat) (z : list (list fl)) (n : nat) : res (Table_Model.table fl) :=
  match n with
  | O => Ok t
  | S n' =>
    match z with
    | [] => Err IndexError
    | row :: z' =>
      match Table_Model.setfield t (band_name i) row with
      | (t', None) => set_bands t' (S i) z' n'
      | (_, Some _) => Err ValueError
      end
    end
  end.
(** grid.py:1035-1064 [profile] with the points of [line.to_points(resolution)] (GeomR_Model):
    their data, which had no fields (geometry.py:1190), and the samples. *)
Definition profile (g : grid fl) (dt : dtype) (m : method) (pts : list (Q * Q)) : res (Table_Model.table fl * list (list fl)) :=
  bind (sample g dt m (AArrays (map fst pts) (map snd pts))) (fun r =>
  match r with
  | Table z =>
    let t := Table_Model.mkT [] (map (fun _ => []) pts) in
    bind (set_bands t 0 z (List.length (gbands g))) (fun t' => Ok (t', z))
  | _ => Err ValueError
  end).
End Grids.
