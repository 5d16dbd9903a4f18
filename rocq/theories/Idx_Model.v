(** Model of [RegularGrid.indices], grid.py:803-826, on top of [_indices] of Grid_Model. *)
From Coq Require Import List ZArith QArith Bool.
From Verif Require Import Band_Model Grid_Model GridSample_Model.
Import ListNotations.
Open Scope Z_scope.

(** grid.py:817-826, one point, of a grid with [ny] rows and [nx] columns.  Where [positions]
    divides by zero the integers are unspecified; it is reported as ValueError, as for
    [sample_nearest1].  The overflow of int32 is not modelled. *)
Definition indices1 (T : transform) (ny nx : Z) (x y : Q) : res (Z * Z) :=
  match indices_ T x y with
  | None => Err ValueError
  | Some (i, j) =>
      if (i <? 0) || (ny - 1 <? i) || (j <? 0) || (nx - 1 <? j) then Err IndexError
      else Ok (i, j)
  end.

(** grid.py:817-822, vectors; [positions] wants them of one length (grid.py:777-780) and
    [i.min()] of no points is a ValueError. *)
Definition indices_vec (T : transform) (ny nx : Z) (xs ys : list Q) : res (list Z * list Z) :=
  if negb (Nat.eqb (length xs) (length ys)) then Err ValueError
  else
    match option_all (map (fun p => indices_ T (fst p) (snd p)) (combine xs ys)) with
    | None => Err ValueError
    | Some [] => Err ValueError
    | Some ((i0, j0) :: r) =>
        let I := map fst r in
        let J := map snd r in
        if (zmin I i0 <? 0) || (ny - 1 <? zmax I i0) || (zmin J j0 <? 0) || (nx - 1 <? zmax J j0)
        then Err IndexError
        else Ok (i0 :: I, j0 :: J)
    end.
