(** Model of [affine_matrix], karta/vector/geometry.py:1833-1851.

    [np.linalg.lstsq] is a parameter: it is given the rows of the matrix and the right-hand
    side and gives the entries of a solution, or raises LinAlgError ([None]).  The arithmetic
    is exact (rationals). *)
From Coq Require Import List QArith Bool.
From Verif Require Geom_Model.
From Verif Require Import Proj_Model.
Import ListNotations.
Local Open Scope Q_scope.

(** [np.asarray(vertices).ravel()], geometry.py:1847. *)
Definition ravel (v : verts) : list Q :=
  match v with
  | Geom_Model.V2 l => flat_map (fun p => [fst p; snd p]) l
  | Geom_Model.V3 l => flat_map (fun p => [fst (fst p); snd (fst p); snd p]) l
  end.
(** geometry.py:1850, [np.kron(np.eye(2), [x, y, 1])]: two rows of six entries. *)
Definition kron_rows (p : Q * Q) : list (list Q) :=
  [[fst p; snd p; 1; 0; 0; 0]; [0; 0; 0; fst p; snd p; 1]].
(** geometry.py:1848-1850: the matrix, row by row. *)
Definition design (l : list (Q * Q)) : list (list Q) := flat_map kron_rows l.
(** geometry.py:1852, [np.reshape(M, [2, 3])]; another number of entries raises ValueError. *)
Definition reshaped (m : list Q) : outcome Geom_Model.matrix :=
  match m with
  | [a; b; c; d; e; f] => Ok (Geom_Model.M23 a b c d e f)
  | _ => Raise ValueError
  end.

Section Fit.
Variable C : Type.
Variable is_same : C -> C -> bool.
Variable transform : C -> C -> outcome (Q * Q -> Q * Q).
Variable lstsq : list (list Q) -> list Q -> option (list Q).

(** geometry.py:1833-1852 [affine_matrix]; a multipoint is its vertices and its system.
    Unpacking (line 1849) raises ValueError for vertices with three coordinates. *)
Definition affine_matrix (a b : verts * C) : outcome Geom_Model.matrix :=
  if negb (Nat.eqb (Geom_Model.nverts (fst a)) (Geom_Model.nverts (fst b))) then Raise GeometryError
  else
    andthen (vertices C is_same transform (fst b) (snd b) (Some (snd a)) false) (fun v =>
    let vecp := ravel v in
    match fst a with
    | Geom_Model.V3 (_ :: _) => Raise ValueError
    | Geom_Model.V3 [] => match lstsq [] vecp with Some m => reshaped m | None => Raise LinAlgError end
    | Geom_Model.V2 l => match lstsq (design l) vecp with Some m => reshaped m | None => Raise LinAlgError end
    end).
End Fit.
