(** Model of map tiles: karta/tile.py.  Longitudes and latitudes are real numbers in
    degrees (rounding is not modelled); division is Python 3's. *)
From Coq Require Import ZArith Reals.
From Coq Require Import R_Ifp.
Open Scope R_scope.

(** tile.py:5-10 [Tile]; the zoom level is a natural number. *)
Record tile : Type := Tile { tz : nat; tx : Z; ty : Z }.

(** tile.py:12-15 [Tile.__eq__], between two tiles. *)
Definition tile_eqb (s t : tile) : bool :=
  (Nat.eqb (tz s) (tz t) && Z.eqb (tx s) (tx t) && Z.eqb (ty s) (ty t))%bool.

(** tile.py:20-33 [Tile.nw_corner], as (longitude, latitude). *)
Definition nw_corner (t : tile) : R * R :=
  let n := 2 ^ tz t in
  let lon := IZR (tx t) / n * 360 - 180 in
  let lat := atan (sinh (PI * (1 - 2 * IZR (ty t) / n))) * 180 / PI in
  (lon, lat).

(** tile.py:35-49 [Tile.bbox]. *)
Definition tile_bbox (t : tile) : R * R * R * R :=
  let p0 := nw_corner t in
  let p1 := nw_corner (Tile (tz t) (tx t + 1) (ty t)) in
  let p2 := nw_corner (Tile (tz t) (tx t) (ty t + 1)) in
  (fst p0, snd p2, fst p1, snd p0).

(** tile.py:51-78 [tile_from_point], given the longitude and latitude of the point (the
    projection to them is pyproj's); [Int_part] is the floor that // takes. *)
Definition tile_from_point (lon0 lat0 : R) (z : nat) : tile :=
  let dlon := 256 in
  let dlat := 256 in
  let c := 128 / PI * 2 ^ z in
  let x0 := c * (lon0 * PI / 180 + PI) in
  let y0 := c * (PI - ln (tan (PI / 4 + lat0 * PI / 360))) in
  Tile z (Int_part (x0 / dlon)) (Int_part (y0 / dlat)).
