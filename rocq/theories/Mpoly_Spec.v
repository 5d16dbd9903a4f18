(** Specification vocabulary for the parts of multilines and multipolygons. *)
From Coq Require Import String List QArith.
From Verif Require Import Table_Model Multi_Model Multi_Spec Geom_Model Mpoly_Model.
Import ListNotations.
Local Open Scope list_scope.

Section Spec.
Variables val D C : Type.
Notation props := (list (string * val)).
Notation geom := (geom props D C).
(** [h] is a polygon with the vertices of [g] and with holes that have the vertices of its
    holes. *)
Definition same_rings (g h : geom) : Prop :=
  gkind _ _ _ h = KPolygon /\ gverts _ _ _ h = gverts _ _ _ g /\ map (gverts _ _ _) (gsubs _ _ _ h) = map (gverts _ _ _) (gsubs _ _ _ g).
(** The holes of [g] have no holes. *)
Definition flat (g : geom) : Prop := forall s, In s (gsubs _ _ _ g) -> gsubs _ _ _ s = [].
(** All the polygons have property [k]. *)
Definition shared (gs : list geom) (k : string) : Prop := forall g, In g gs -> In k (map fst (gprops _ _ _ g)).

(** What a geometry to be merged has: its parts, and the properties of each of them. *)
Definition lparts (x : litem val D C) : list verts :=
  match x with LMulti _ _ _ m => parts m | LLine _ _ _ g => [gverts _ _ _ g] | LOther _ _ _ => [] end.
Definition lhas (x : litem val D C) (k : string) : Prop :=
  match x with LMulti _ _ _ m => In k (fields (tbl m)) | LLine _ _ _ g => In k (map fst (gprops _ _ _ g)) | LOther _ _ _ => False end.
Definition lvalue (x : litem val D C) (i : nat) (k : string) (v : option val) : Prop :=
  match x with LMulti _ _ _ m => cell m i k v | LLine _ _ _ g => v = dict_get (gprops _ _ _ g) k | LOther _ _ _ => False end.
Definition lgood (x : litem val D C) : Prop :=
  match x with LMulti _ _ _ m => one_record_each m | LLine _ _ _ _ => True | LOther _ _ _ => False end.
Definition pparts (x : pitem val D C) (l : list (list verts)) : Prop :=
  match x with
  | PMulti _ _ _ m => map (map (@Coords val D C)) l = parts m
  | PPoly _ _ _ g => l = [gverts _ _ _ g :: map (gverts _ _ _) (gsubs _ _ _ g)]
  | POther _ _ _ => False
  end.
Definition phas (x : pitem val D C) (k : string) : Prop :=
  match x with PMulti _ _ _ m => In k (fields (tbl m)) | PPoly _ _ _ g => In k (map fst (gprops _ _ _ g)) | POther _ _ _ => False end.
Definition pvalue (x : pitem val D C) (i : nat) (k : string) (v : option val) : Prop :=
  match x with PMulti _ _ _ m => cell m i k v | PPoly _ _ _ g => v = dict_get (gprops _ _ _ g) k | POther _ _ _ => False end.
Definition pgood (x : pitem val D C) : Prop :=
  match x with PMulti _ _ _ m => one_record_each m | PPoly _ _ _ _ => True | POther _ _ _ => False end.
(** The image of a coordinate list under the affine map of a 3x4 matrix. *)
Definition moved (N : matrix) (v : verts) : verts :=
  match v with
  | V2 l => V2 (map (fun p => fst (dot34 N (fst p) (snd p) 0)) l)
  | V3 l => V3 (map (fun p => dot34 N (fst (fst p)) (snd (fst p)) (snd p)) l)
  end.
End Spec.
(** Lists of coordinates of different ranks; [plane v]: without the third coordinate. *)
Definition one_rank (l : list verts) : Prop := (forall v, In v l -> exists a, v = V2 a) \/ (forall v, In v l -> exists a, v = V3 a).
Definition plane (v : verts) : verts := V2 (xys v).
