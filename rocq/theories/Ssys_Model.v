(** Model of the coordinate systems of positions given to [sample] and [profile] of
    karta/raster/grid.py, on Stat_Model.  [tr a b] is [a.transform(b, x, y)] of crs.py:245-246,
    297-298 (pyproj, external) or [_reproject] of utilities.py:24-27, taken to succeed. *)
From Coq Require Import List ZArith QArith Bool.
From Verif Require Table_Model.
From Verif Require Import Band_Model Band_IndexModel Grid_Model GridSample_Model Stat_Model.
Import ListNotations.

Section Systems.
Variables (C : Type) (eqb : C -> C -> bool) (tr : C -> C -> Q * Q -> Q * Q).
Variable junk : Z -> Z -> fl.

(** A Point or Multipoint with its system, or two sequences. grid.py:1005-1016. *)
Inductive places : Type := InPoint (c : C) (p : Q * Q) | InMultipoint (c : C) (l : list (Q * Q)) | InArrays (xs ys : list Q).
(** geometry.py:135-140 [vertex(crs)] and 393-404 [coords(crs)], of each vertex: unchanged in the
    same system. *)
Definition coords_in (own asked : C) (p : Q * Q) : Q * Q := if eqb asked own then p else tr own asked p.
(** grid.py:1001-1033 [sample(…, crs=kw)] of a grid in the system [s].  The system of a geometry
    replaces the keyword (1006).  Sequences are transformed whenever there is a keyword (1018-1021);
    sequences of different lengths raise there in pyproj, here as without a keyword. *)
Definition sample_in (s : C) (g : grid fl) (dt : dtype) (m : method) (kw : option C) (w : places) : res samples :=
  match w with
  | InPoint c p => sample junk g dt m (APoint (coords_in c s p))
  | InMultipoint c l => sample junk g dt m (AMultipoint (map (coords_in c s) l))
  | InArrays xs ys =>
    match kw with
    | None => sample junk g dt m (AArrays xs ys)
    | Some c =>
      if negb (Nat.eqb (length xs) (length ys)) then Err TypeError
      else let pts := map (tr c s) (combine xs ys) in sample junk g dt m (AArrays (map fst pts) (map snd pts))
    end
  end.
(** grid.py:1055-1064 [profile(line, resolution, crs=kw)] of a line in the system [c], whose
    [to_points] are [pts]: the coordinates in the grid's system go to [sample] with the keyword
    (1058).  The points returned are those of the line, with the samples as data. *)
Definition profile_in (s : C) (g : grid fl) (dt : dtype) (m : method) (kw : option C) (c : C) (pts : list (Q * Q))
  : res (list (Q * Q) * Table_Model.table fl * list (list fl)) :=
  let there := map (coords_in c s) pts in
  bind (sample_in s g dt m kw (InArrays (map fst there) (map snd there))) (fun r =>
  match r with
  | Table z =>
    bind (set_bands (Table_Model.mkT [] (map (fun _ => []) pts)) 0 z (length (gbands g))) (fun t => Ok (pts, t, z))
  | _ => Err ValueError
  end).
End Systems.
Arguments InPoint {C} c p. Arguments InMultipoint {C} c l. Arguments InArrays {C} xs ys.
