(** What it means that a call which raises has changed nothing. *)
From Coq Require Import List ZArith.
From Verif Require Import Band_IndexModel.
Import ListNotations.

(** A call of the model: the new state, and the exception if there is one. *)
Definition unchanged_if_raised {S E : Type} (before : S) (call : S * option E) : Prop :=
  forall after e, call = (after, Some e) -> after = before.

(** Calls one after the other, where the caller catches every exception and goes on. *)
Definition going_on {S E C : Type} (run : C -> S -> S * option E) (calls : list C) (s : S) : S :=
  fold_left (fun s c => fst (run c s)) calls s.

(** The calls of a history that did not raise. *)
Fixpoint accepted {S E C : Type} (run : C -> S -> S * option E) (calls : list C) (s : S) : list C :=
  match calls with
  | [] => []
  | c :: cs => match run c s with
               | (s', None) => c :: accepted run cs s'
               | (s', Some _) => accepted run cs s'
               end
  end.

(** Masked assignments that fit all of the nb bands of a grid or none: one mask for all
    bands and a number or a list of values, or a mask for each band and a number.  A mask
    of one or of four dimensions fits none. *)
Definition alike {V} (m : mask) (value : mvalue V) (nb : Z) : Prop :=
  match m, value with
  | Mask2 _ _ _, MReal _ | Mask2 _ _ _, M1 _ => True
  | Mask3 _ _ n _, MReal _ => (nb <= n)%Z
  | MaskOther, _ => True
  | _, _ => False
  end.
