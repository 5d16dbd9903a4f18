(** What the properties of extreme values, samples and profiles are stated with. *)
From Coq Require Import List ZArith QArith.
From Verif Require Import Grid_Spec GridSample_Model.
Import ListNotations.
Local Open Scope Z_scope.

(** A cell of an H x W grid; a value of band k of it that is data; a cell all of whose nb
    values are data. *)
Definition cell (H W y x : Z) : Prop := 0 <= y < H /\ 0 <= x < W.
Definition data_value (H W nb : Z) (F : Z -> Z -> Z -> fl) (nodata v : fl) : Prop :=
  exists k y x, 0 <= k < nb /\ cell H W y x /\ is_data fnan feq nodata (F k y x) /\ F k y x = v.
Definition full_value (H W nb : Z) (F : Z -> Z -> Z -> fl) (nodata v : fl) : Prop :=
  exists k y x, 0 <= k < nb /\ cell H W y x /\ (forall k', 0 <= k' < nb -> is_data fnan feq nodata (F k' y x)) /\ F k y x = v.
(** [v] is the greatest (smallest) of the values; there are some and they are numbers. *)
Definition greatest (P : fl -> Prop) (v : fl) : Prop := exists q, v = Some q /\ P v /\ forall r, P (Some r) -> (r <= q)%Q.
Definition smallest (P : fl -> Prop) (v : fl) : Prop := exists q, v = Some q /\ P v /\ forall r, P (Some r) -> (q <= r)%Q.
