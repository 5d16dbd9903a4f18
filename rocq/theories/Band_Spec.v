(** Specification of raster bands, independent of chunks. *)
From Coq Require Import List ZArith Bool.
From Verif Require Import Band_Model.
Import ListNotations.
Open Scope Z_scope.

Section Spec.
Variable V : Type.

(** One write: the array [a] placed with its first element at (yoff, xoff). *)
Record write := mkW { wy : Z; wx : Z; wa : arr V }.

(** The window y <= row < y+h, x <= column < x+w lies in an H x W band. *)
Definition in_bounds (H W y x h w : Z) : Prop :=
  0 <= y /\ 0 <= x /\ 0 <= h /\ 0 <= w /\ y + h <= H /\ x + w <= W.

Definition write_ok (H W : Z) (w : write) : Prop :=
  in_bounds H W (wy w) (wx w) (nrow (wa w)) (ncol (wa w)).

(** The write covers cell (y, x). *)
Definition covers (w : write) (y x : Z) : Prop :=
  wy w <= y < wy w + nrow (wa w) /\ wx w <= x < wx w + ncol (wa w).

(** [last_value init ws y x v]: after the writes [ws], oldest first, the cell
    (y, x) of a band initialised to [init] holds [v]. *)
Inductive last_value (init : V) : list write -> Z -> Z -> V -> Prop :=
| lv_never : forall y x, last_value init [] y x init
| lv_here : forall ws w y x, covers w y x ->
    last_value init (ws ++ [w]) y x (at_ (wa w) (y - wy w) (x - wx w))
| lv_before : forall ws w y x v, ~ covers w y x ->
    last_value init ws y x v -> last_value init (ws ++ [w]) y x v.

(** [a] is an h x w array whose cells satisfy [P]. *)
Definition shows (a : arr V) (h w : Z) (P : Z -> Z -> V -> Prop) : Prop :=
  nrow a = h /\ ncol a = w /\
  forall i j, 0 <= i < h -> 0 <= j < w -> P i j (at_ a i j).

(** Two arrays are equal as numpy arrays. *)
Definition arr_eq (a b : arr V) : Prop :=
  nrow a = nrow b /\ ncol a = ncol b /\
  forall i j, 0 <= i < nrow a -> 0 <= j < ncol a -> at_ a i j = at_ b i j.

(** Perform writes in order on a chunked band, on a plain one. *)
Fixpoint cb_run (cb : cband V) (ws : list write) : cband V * option exn :=
  match ws with
  | [] => (cb, None)
  | w :: ws' => match cb_setblock cb (wy w) (wx w) (wa w) with
                | (cb', None) => cb_run cb' ws'
                | r => r
                end
  end.
Fixpoint simple_run (A : arr V) (ws : list write) : res (arr V) :=
  match ws with
  | [] => Ok A
  | w :: ws' => bind (simple_setblock A (wy w) (wx w) (wa w))
                     (fun A' => simple_run A' ws')
  end.
End Spec.
Arguments mkW {V}. Arguments wy {V}. Arguments wx {V}. Arguments wa {V}.
Arguments write_ok {V}. Arguments covers {V}. Arguments last_value {V}.
Arguments shows {V}. Arguments arr_eq {V}. Arguments cb_run {V}. Arguments simple_run {V}.
