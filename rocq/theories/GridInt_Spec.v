(** Specification of sampling grids of integers, and of the grids that cannot be
    merged (C19, C22). *)
From Coq Require Import List ZArith QArith Qround.
From Verif Require Import Grid_Model Grid_Spec GridSample_Model GridSample_Spec.
Import ListNotations.
Open Scope Z_scope.

(** [z'] is the number [z] without its fraction. *)
Definition truncated (z z' : fl) : Prop :=
  forall q, z = Some q -> exists k, z' = Some (inject_Z k) /\
    ((0 <= q)%Q -> (inject_Z k <= q < inject_Z k + 1)%Q) /\
    ((q <= 0)%Q -> (inject_Z k - 1 < q <= inject_Z k)%Q).
(** [z] is the bilinear interpolation at [p] without its fraction, or the nodata value outside. *)
Definition sampled_int (T : transform) (f : Z -> Z -> fl) (H W : Z) (nodata : fl) (p : Q * Q) (z : fl) : Prop :=
  (exists z0, sampled T f H W nodata p z0 /\ truncated z0 z) /\
  (~ between_centres T H W p -> z = nodata).

(** Two grids with the same resolution and rotation. *)
Definition like (S T : transform) : Prop :=
  (dx S == dx T /\ dy S == dy T /\ sx S == sx T /\ sy S == sy T)%Q.
(** [q] exceeds an integer by no more than 1e-15. *)
Definition hardly_above (q : Q) : Prop :=
  exists n, (inject_Z n <= q)%Q /\ (q <= inject_Z n + (1 # 1000000000000000))%Q.
