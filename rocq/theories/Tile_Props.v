(** C41: map tiles. *)
From Coq Require Import ZArith Reals Lra.
From Verif Require Import Tile_Model Tile_Spec Tile_Proofs.
Open Scope R_scope.

(** The tile of a point contains it (whatever the longitude, and also beyond the limit). *)
Theorem C41_contains : forall lon lat z, -90 < lat < 90 -> bbox_contains (tile_bbox (tile_from_point lon lat z)) lon lat.
Proof. exact tile_contains. Qed.
Print Assumptions C41_contains.
Theorem C41_exists : forall lon lat z, -180 <= lon < 180 -> - mercator_limit < lat <= mercator_limit ->
  tile_valid (tile_from_point lon lat z).
Proof. exact tile_exists. Qed.
Print Assumptions C41_exists.
(** No other tile of the zoom level contains it: distinct tiles are disjoint. *)
Theorem C41_disjoint : forall t lon lat, -90 < lat < 90 -> bbox_contains (tile_bbox t) lon lat -> t = tile_from_point lon lat (tz t).
Proof. exact tile_unique. Qed.
Print Assumptions C41_disjoint.
Theorem C41_extent : forall t lon lat, tile_valid t -> -90 < lat < 90 -> bbox_contains (tile_bbox t) lon lat ->
  -180 <= lon < 180 /\ - mercator_limit < lat <= mercator_limit.
Proof. exact valid_extent. Qed.
Print Assumptions C41_extent.
Theorem C41_corner : forall t, tile_from_point (fst (nw_corner t)) (snd (nw_corner t)) (tz t) = t.
Proof. exact corner_round_trip. Qed.
Print Assumptions C41_corner.
(** A tile is split exactly into its four children. *)
Theorem C41_children : forall t, (forall lon lat, -90 < lat < 90 ->
    (bbox_contains (tile_bbox t) lon lat <-> exists e s, bbox_contains (tile_bbox (child t e s)) lon lat)) /\
  (forall e s e' s', child t e s = child t e' s' -> e = e' /\ s = s') /\
  (forall e s, tile_valid t -> tile_valid (child t e s)).
Proof. exact (fun t => conj (child_iff t) (conj (child_disjoint t) (child_valid t))). Qed.
Print Assumptions C41_children.
Theorem C41_equal : forall s t, tile_eqb s t = true <-> s = t.
Proof. exact tile_eqb_iff. Qed.
Print Assumptions C41_equal.
(** The meridian 180 itself is given a column that does not exist. *)
Theorem C41_east_edge_refuted : forall lat z, tx (tile_from_point 180 lat z) = (2 ^ Z.of_nat z)%Z.
Proof. exact east_edge. Qed.
Print Assumptions C41_east_edge_refuted.
Example C41_example : 0 < mercator_limit < 90 /\ tile_from_point 0 0 1 = Tile 1 1 1.
Proof. exact (conj limit_pos origin_tile). Qed.
