(** What the property of the coordinate systems of GPX documents is stated with. *)
From Coq Require Import List QArith Qabs.
From Verif Require Import Gpx_Model.
Import ListNotations.

(** Longitudes and latitudes that agree to six decimals. *)
Definition near (p q : pos) : Prop := (Qabs (fst p - fst q) <= 1 # 2000000 /\ Qabs (snd p - snd q) <= 1 # 2000000)%Q.
(** The vertices of a geometry in the system [s] are, in [wgs84], the positions [l]. *)
Definition located {C : Type} (tr : C -> C -> pos -> pos) (wgs84 s : C) (vs : list (Q * Q * option Q)) (l : list pos) : Prop :=
  Forall2 (fun v p => near p (tr s wgs84 (fst v))) vs l.
(** They have the numbers of the vertices as they are. *)
Definition as_they_are (vs : list (Q * Q * option Q)) (l : list pos) : Prop := Forall2 (fun v p => near p (fst v)) vs l.
