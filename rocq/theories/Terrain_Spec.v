(** Specification of terrain derivatives. *)
From Coq Require Import List ZArith QArith Bool.
From Verif Require Import Grid_Model Grid_Spec GridSample_Model GridSample_Spec.
Open Scope Z_scope.

(** A polynomial a + b x + c y + d x^2 + e x y + f y^2 and its derivatives. *)
Record quad := mkQuad { qa : Q; qb : Q; qc : Q; qd : Q; qe : Q; qf : Q }.
Definition qval (h : quad) (p : Q * Q) : Q :=
  let (x, y) := p in (qa h + qb h * x + qc h * y + qd h * x * x + qe h * x * y + qf h * y * y)%Q.
Definition qdx (h : quad) (p : Q * Q) : Q :=
  let (x, y) := p in (qb h + 2 * qd h * x + qe h * y)%Q.
Definition qdy (h : quad) (p : Q * Q) : Q :=
  let (x, y) := p in (qc h + qe h * x + 2 * qf h * y)%Q.
(** A plane. *)
Definition plane (a b c : Q) : quad := mkQuad a b c 0 0 0.

(** Cell (i, j) of an H x W grid lies on its border. *)
Definition border (H W i j : Z) : Prop := i = 0 \/ i = H - 1 \/ j = 0 \/ j = W - 1.
Definition interior (H W i j : Z) : Prop := 0 < i < H - 1 /\ 0 < j < W - 1.

(** Cell (i, j) holds data in every band. *)
Definition data_cell (nb : Z) (F : Z -> Z -> Z -> fl) (nodata : fl) (i j : Z) : Prop :=
  forall k, 0 <= k < nb -> is_data fnan feq nodata (F k i j).

(** Cells (a, b) and (i, j) touch, or are the same. *)
Definition near (i j a b : Z) : Prop := -1 <= a - i <= 1 /\ -1 <= b - j <= 1.

(** [f] gives the number [q] at a cell. *)
Definition is_num (z : fl) (q : Q) : Prop := exists p, z = Some p /\ (p == q)%Q.

(** No rotation; cells of non-zero size. *)
Definition unskewed (T : transform) : Prop :=
  (sx T == 0 /\ sy T == 0 /\ ~ dx T == 0 /\ ~ dy T == 0)%Q.
