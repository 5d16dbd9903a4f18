(** Model of the search for the nearest position on geodesics, vectorgeo.pyx:253-318, and of
    its use by karta/vector/geometry.py:725-792 for geographical coordinate systems.

    [fwd] and [inv] are [crs.forward] and [crs.inverse] (crs.py:232-243, pyproj): position,
    azimuth and distance to position and back azimuth; two positions to azimuths and distance.
    Numbers are reals; [tol] is a C float, whose rounding is left out. *)
From Coq Require Import List Reals Bool Arith.
From Verif Require Geom_Model.
From Verif Require Import GeomR_Model.
Import ListNotations.
Open Scope R_scope.

(** What [pt_nearest_proj] returns or raises (vectorgeo.pyx:257-318). *)
Inductive near := Found (q : rpt) (d : R) | ConvergenceError.

Section Arc.
Variable fwd : R -> R -> R -> R -> R * R * R.
Variable inv : R -> R -> R -> R -> R * R * R.

(** vectorgeo.pyx:257-264 [_along_distance]. *)
Definition along_distance (x0 y0 xp yp az f : R) : R :=
  let '(tx, ty, _) := fwd x0 y0 az f in let '(_, _, d) := inv tx ty xp yp in d.
(** vectorgeo.pyx:266-272 [_along_distance_gradient].  For an edge of length zero the division
    by zero is reported but not raised (a cdef function), and the value is 0, as here. *)
Definition along_gradient (x0 y0 xp yp az f dx : R) : R :=
  let d1 := along_distance x0 y0 xp yp az f in
  let d2 := along_distance x0 y0 xp yp az (f + dx) in
  (d2 - d1) / dx.

(** vectorgeo.pyx:303-314, the loop; [n] iterations are left, [dx] is the last step.  Gives
    the last midpoint. *)
Fixpoint bisect (grad : R -> R) (L tol : R) (n : nat) (x0 x1 xm dx : R) : option R :=
  if Rlt_dec tol dx then
    match n with
    | O => None
    | S n' =>
        let xm' := 5 / 10 * (x0 + x1) in
        if Rlt_dec 0 (grad (xm' * L)) then bisect grad L tol n' x0 xm' xm' (Rabs (x1 - xm') * L)
        else bisect grad L tol n' xm' x1 xm' (Rabs (x0 - xm') * L)
    end
  else Some xm.

(** vectorgeo.pyx:274-318 [pt_nearest_proj]. *)
Definition pt_nearest_proj (pt e0 e1 : rpt) (tol : R) (maxiter : nat) : near :=
  let '(az, _, L) := inv (fst e0) (snd e0) (fst e1) (snd e1) in
  let dist f := along_distance (fst e0) (snd e0) (fst pt) (snd pt) az f in
  let grad f := along_gradient (fst e0) (snd e0) (fst pt) (snd pt) az f (/ 10000000 * L) in
  if Rlt_dec 0 (grad 0) then Found e0 (dist 0)
  else if Rlt_dec (grad L) 0 then Found e1 (dist L)
  else
    match bisect grad L tol maxiter 0 1 0 (tol + 1) with
    | None => ConvergenceError
    | Some xm => let '(xn, yn, _) := fwd (fst e0) (snd e0) az (xm * L) in Found (xn, yn) (dist (xm * L))
    end.

(** geometry.py:749-751: the tolerance given, and the default number of iterations of
    vectorgeo.pyx:275. *)
Definition nearest_on_edge (pt e0 e1 : rpt) : near := pt_nearest_proj pt e0 e1 (1 / 100) 100.
(** geometry.py:753-757: the nearest positions of all edges, or the exception. *)
Fixpoint edges_near (pt : rpt) (segs : list (rpt * rpt)) : option (list (rpt * R)) :=
  match segs with
  | [] => Some []
  | s :: segs' =>
      match nearest_on_edge pt (fst s) (snd s) with
      | ConvergenceError => None
      | Found q d => option_map (cons (q, d)) (edges_near pt segs')
      end
  end.
(** geometry.py:725-763 [_nearest_to_point] for a geographical system; the point is in the
    system of the line.  Lines and polygons alike pair [vertices[0:-1]] with [vertices[1:]]. *)
Definition nearest_to_point_geog (l : list rpt) (pt : rpt) : option (R * option rpt) :=
  option_map (fun ds => nearest_loop ds 0 None (-1)) (edges_near pt (pairs l)).
(** geometry.py:765-777 [shortest_distance_to]. *)
Definition shortest_distance_geog (l : list rpt) (pt : rpt) : option R :=
  option_map fst (nearest_to_point_geog l pt).
(** geometry.py:779-792 [nearest_on_boundary]: the vertex of the point returned; a line
    without edges has none ([Point(None)] raises TypeError). *)
Definition nearest_on_boundary_geog (l : list rpt) (pt : rpt) : option rpt :=
  match nearest_to_point_geog l pt with Some (_, Some q) => Some q | _ => None end.
End Arc.
