(** Model of karta/vector/contains.pyx:6-42 and of [Polygon.contains]
    (geometry.py:1156-1174) for planar coordinates.  Doubles are exact rationals. *)
From Coq Require Import List ZArith QArith Bool.
From Verif Require Import Geom_Model.
Import ListNotations.
Open Scope Q_scope.

(** C's [a < b]. contains.pyx:32-39. *)
Definition qlt (a b : Q) : bool := negb (Qle_bool b a).
(** contains.pyx:6-11 [isleft]. *)
Definition isleft (pt pt0 pt1 : Q * Q) : Q :=
  (fst pt1 - fst pt0) * (snd pt - snd pt0) - (fst pt - fst pt0) * (snd pt1 - snd pt0).
(** contains.pyx:32-39: the change of [cnt] for one edge. *)
Definition edge_count (pt pt0 pt1 : Q * Q) : Z :=
  if Qle_bool (snd pt0) (snd pt) && qlt (snd pt) (snd pt1) then
    if qlt 0 (isleft pt pt0 pt1) then 1%Z else 0%Z
  else if qlt (snd pt) (snd pt0) && Qle_bool (snd pt1) (snd pt) then
    if qlt (isleft pt pt0 pt1) 0 then (-1)%Z else 0%Z
  else 0%Z.
(** contains.pyx:25-40: the loop; [next] are the vertices still to be taken as [pt1],
    the first vertex last. *)
Fixpoint count_loop (pt pt0 : Q * Q) (next : list (Q * Q)) (cnt : Z) : Z :=
  match next with
  | [] => cnt
  | pt1 :: next' => count_loop pt pt1 next' (cnt + edge_count pt pt0 pt1)
  end.
(** contains.pyx:13-42, the count for all edges, the last one back to the first vertex. *)
Definition count (pt : Q * Q) (l : list (Q * Q)) : Z :=
  match l with [] => 0%Z | v :: l' => count_loop pt v (l' ++ [v]) 0 end.
(** contains.pyx:13-42 [contains]; on a ring without vertices the C code reads the
    coordinates of a vertex that does not exist, and does not use them. *)
Definition contains_c (pt : Q * Q) (l : list (Q * Q)) (ring : bool) : res bool :=
  if ring then Ok (negb (Z.eqb (count pt l) 0)) else Err TypeError.

Section Poly.
Variables P D C : Type.
(** geometry.py:1156-1174 [Polygon.contains] for a point in the polygon's coordinate
    system, not geographical; [and] and [any] stop early. *)
Fixpoint contains (g : geom P D C) (pt : Q * Q) : res bool :=
  match g with
  | Geom _ _ _ _ v ring subs _ _ _ =>
      bind (contains_c pt (xys v) ring) (fun b =>
      if b then
        bind ((fix any (l : list (geom P D C)) : res bool :=
                 match l with
                 | [] => Ok false
                 | s :: l' => bind (contains s pt) (fun c => if c then Ok true else any l')
                 end) subs) (fun c => Ok (negb c))
      else Ok false)
  end.
End Poly.
