(** Specification of hillshading. *)
From Coq Require Import Reals.
Open Scope R_scope.

(** Illumination of a surface with derivatives p and q: its upward unit normal
    (-p, -q, 1) / |(-p, -q, 1)| times the light vector of misc.py:197-199, whose
    horizontal part has length one. *)
Definition illumination (azimuth elevation p q : R) : R :=
  (- p * cos (azimuth * PI / 180) - q * sin (azimuth * PI / 180) + sin (elevation * PI / 180))
  / sqrt (1 + p * p + q * q).
