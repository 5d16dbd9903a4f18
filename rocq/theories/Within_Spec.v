(** Vocabulary for members of multipart geometries within or touching a line or polygon. *)
From Coq Require Import List ZArith QArith.
From Verif Require Import Geom_Model Geom_Spec Inter_Spec Contains_Spec.
Import ListNotations.
Open Scope Q_scope.

(** [z] is a point of the line (or ring) with vertices [l]: it is on one of its edges. *)
Definition point_of (l : list pt) (ring : bool) (z : pt) : Prop := exists e, edge_of l ring e /\ on_seg e z.
(** Not all on one upright line, and not all on one level line. *)
Definition has_area (l : list pt) : Prop :=
  (exists u v, In u l /\ In v l /\ fst u < fst v) /\ (exists u v, In u l /\ In v l /\ snd u < snd v).

Section Geom.
Variables P D C : Type.
(** The polygon has [z] inside: not on the boundary, and in the region it bounds. *)
Definition interior (g : geom P D C) (z : pt) : Prop := off_edges P D C z g /\ region P D C z g.
(** [z] is on the line, or on the outer boundary of the polygon. *)
Definition outline (g : geom P D C) (z : pt) : Prop := point_of (xys (gverts P D C g)) (gring P D C g) z.
(** All points of the line (ring) are inside the polygon. *)
Definition lies_within (l : list pt) (ring : bool) (g : geom P D C) : Prop := forall z, point_of l ring z -> interior g z.
(** A point of the line (ring) is inside the polygon or on its boundary. *)
Definition touches (l : list pt) (ring : bool) (g : geom P D C) : Prop := exists z, point_of l ring z /\ (interior g z \/ outline g z).
(** A point of the line (ring) is on the line [g]. *)
Definition crosses (l : list pt) (ring : bool) (g : geom P D C) : Prop := exists z, point_of l ring z /\ outline g z.
(** The line and the query do not touch themselves, and meet only inside their edges. *)
Definition general (g : geom P D C) (l : list pt) (ring : bool) : Prop :=
  simple_path (xys (gverts P D C g)) (gring P D C g) /\ simple_path l ring /\
  proper (xys (gverts P D C g)) (gring P D C g) l ring.
End Geom.
