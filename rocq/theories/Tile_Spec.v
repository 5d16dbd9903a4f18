(** What the properties of tiles are stated with. *)
From Coq Require Import ZArith Reals.
From Verif Require Import Tile_Model.
Open Scope R_scope.

(** A bounding box (xmin, ymin, xmax, ymax) contains a position: the west and north edges
    belong to it, the east and south edges to its neighbours. *)
Definition bbox_contains (b : R * R * R * R) (lon lat : R) : Prop :=
  let '(xmin, ymin, xmax, ymax) := b in xmin <= lon < xmax /\ ymin < lat <= ymax.

(** The tiles that exist at a zoom level: 2^z columns and rows, counted from the
    northwest. *)
Definition tile_valid (t : tile) : Prop :=
  (0 <= tx t < 2 ^ Z.of_nat (tz t) /\ 0 <= ty t < 2 ^ Z.of_nat (tz t))%Z.

(** The latitude (in degrees) at which the square map ends, about 85.05. *)
Definition mercator_limit : R := atan (sinh PI) * 180 / PI.

(** The four tiles of the next zoom level that replace a tile. *)
Definition child (t : tile) (east south : bool) : tile :=
  Tile (S (tz t)) (2 * tx t + (if east then 1 else 0)) (2 * ty t + (if south then 1 else 0)).
