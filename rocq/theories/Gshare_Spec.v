(** What can be seen of grids and arrays, and when bands are the same object. *)
From Coq Require Import List Arith Bool ZArith.
From Verif Require Import Gshare_Model.
Import ListNotations.
Open Scope nat_scope.

(** The band object that g[:, :, k] reads: two are equal when Python's [is] says so. *)
Definition band_at (s : state) (g k : nat) : option nat :=
  match nth_error (grids s) g with
  | Some G => nth_error (nth (ilist G) (lists s) []) k
  | None => None
  end.
(** The cell g[i, j, k]; None outside of the grid or without such a band. *)
Definition seen (s : state) (g k i j : nat) : option val :=
  match band_at s g k with
  | Some a => match nth_error (bands s) a with
              | Some b => if (i <? rows b) && (j <? cols b) then Some (cell b i j) else None
              | None => None
              end
  | None => None
  end.
(** g.nodata. *)
Definition nodata_of (s : state) (g : nat) : option val := option_map nodata (nth_error (grids s) g).
(** g.nbands, the length of the list g.bands. *)
Definition nbands (s : state) (g : nat) : option nat :=
  option_map (fun G => length (nth (blist G) (lists s) [])) (nth_error (grids s) g).
(** a[i, j]; None outside of the array. *)
Definition entry (s : state) (a i j : nat) : option val :=
  match nth_error (arrays s) a with
  | Some (Own r c f) => if (i <? r) && (j <? c) then Some (f i j) else None
  | Some (View b y x r c) =>
      match nth_error (bands s) b with
      | Some b => if (i <? r) && (j <? c) then Some (cell b (y + i) (x + j)) else None
      | None => None
      end
  | None => None
  end.
(** A cell that is not data: data_mask_full at row i, column j, band k is false. *)
Definition masked (s : state) (g k i j : nat) : option bool :=
  match nodata_of s g, seen s g k i j with
  | Some nd, Some v => Some (missing nd v)
  | _, _ => None
  end.

(** g.bands[k] is h.bands[m], as the grids read them. *)
Definition same_band (s : state) (g k h m : nat) : Prop := exists a, band_at s g k = Some a /\ band_at s h m = Some a.
(** No band of [g] is a band of [h]. *)
Definition apart (s : state) (g h : nat) : Prop := forall k m, ~ same_band s g k h m.
(** Grid [h] is as before: cells, nodata value, number of bands. *)
Definition kept (s s' : state) (h : nat) : Prop :=
  (forall k i j, seen s' h k i j = seen s h k i j) /\ nodata_of s' h = nodata_of s h /\ nbands s' h = nbands s h.
(** Array [a] is as before. *)
Definition kept_array (s s' : state) (a : nat) : Prop := forall i j, entry s' a i j = entry s a i j.

(** Steps that make objects, and those that change one. *)
Definition makes (o : op) : bool :=
  match o with
  | Append _ _ | Rebind _ _ | Assign _ _ | SetNodata _ _ | Mask _ _ | Apply _ _ | SetArr _ _ _ _ => false
  | _ => true
  end.
(** The grid that a step is meant to change. *)
Definition target (o : op) : option nat :=
  match o with
  | Assign g _ | SetNodata g _ | Mask g _ | Apply g _ => Some g
  | _ => None
  end.
(** Steps in which the user hands on bands: the others never do. *)
Definition hands_on (o : op) : bool := match o with FromBands _ _ | Append _ _ | Rebind _ _ => true | _ => false end.
Definition rebinds (o : op) : bool := match o with Rebind _ _ => true | _ => false end.
Definition appends (o : op) : bool := match o with Append _ _ => true | _ => false end.
(** The class of the k-th band of grid [g]. *)
Definition class_at (s : state) (g k : nat) : option class :=
  match band_at s g k with
  | Some a => option_map bcls (nth_error (bands s) a)
  | None => None
  end.
