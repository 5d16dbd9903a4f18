(** What it means for an export to leave the files in order, in terms of the contents of the
    disk before and after. *)
From Coq Require Import String.
From Coq Require Import List.
From Verif Require Aai_Model.
From Verif Require Import File_Model.
Import ListNotations.

Section Spec.
Context {A : Type}.
(** The path an export is told to write to; [None] if it is given an object instead.
    _geojson.py:105, _gpx.py:307, grid.py:1084, _shp.py:360-374, _gdal.py:197. *)
Definition path_of (e : export A) : option string :=
  match e with
  | EGeojson (Path p) _ | EGpx p _ | EAai _ (Path p) _ _ | EGeotiff p _ _ _ => Some p
  | EShapefile false p _ _ => Some p
  | EShapefile true p _ _ => Some (shp_path p)
  | _ => None
  end.
(** Pieces put together, up to the first that cannot be made. _shp.py:244-248. *)
Fixpoint together (l : list (outcome (list A))) : list A :=
  match l with Ok s :: l' => s ++ together l' | _ => [] end.
(** What is to be written: all that can be made of it. _geojson.py:127, _gpx.py:309,
    grid.py:1117-1136, _shp.py:244-248, _gdal.py:243-247. *)
Definition text_of (e : export A) : list A :=
  match e with
  | EGeojson _ text | EGpx _ text => together [text]
  | EAai render _ (Aai_Model.Ok ls) _ => concat (map render ls)
  | EShapefile _ _ (Ok features) _ => together features
  | EGeotiff _ _ _ bands => together bands
  | _ => []
  end.
(** The exports that use ogr, which reports nothing. _shp.py:180-249. *)
Definition by_ogr (e : export A) : Prop := match e with EShapefile _ _ _ _ => True | _ => False end.
(** The exports to which the last words about a file are those of a library that reports
    nothing when it closes it. _shp.py:180-249, _gdal.py:234-252. *)
Definition by_library (e : export A) : Prop := match e with EShapefile _ _ _ _ | EGeotiff _ _ _ _ => True | _ => False end.

(** [s] is the beginning of [t]. _geojson.py:127. *)
Definition beginning (s t : list A) : Prop := exists r, t = s ++ r.
(** [s] is [t] with some items left out. _shp.py:294. *)
Inductive gaps : list A -> list A -> Prop :=
| gaps_nil : gaps [] []
| gaps_keep x s t : gaps s t -> gaps (x :: s) (x :: t)
| gaps_skip x s t : gaps s t -> gaps s (x :: t).
(** Only the file at [p] differs. _geojson.py:124. *)
Definition only (p : string) (d d' : disk_t A) : Prop := forall q, q <> p -> d' q = d q.
(** No operation fails. _geojson.py:124-133. *)
Definition quiet (fault : nat -> option error) : Prop := forall n, fault n = None.
(** A disk as it may be while or after [e] is executed on [d]: the other files are as they
    were; the file has its old contents, or the beginning of the new ones; a shapefile may
    also be missing, or lack some of the new ones. _geojson.py:105-135, _shp.py:180-249. *)
Definition may_be (e : export A) (p : string) (d d' : disk_t A) : Prop :=
  only p d d' /\
  (d' p = d p \/ (exists s, d' p = Some s /\ beginning s (text_of e)) \/
   (by_ogr e /\ (d' p = None \/ exists s, d' p = Some s /\ gaps s (text_of e)))).
(** The disks of all the moments between the worlds [w] and [w']: before each operation, and
    at the end. _geojson.py:105-135. *)
Definition moment (w w' : world A) (d : disk_t A) : Prop :=
  d = disk w' \/ exists recent, past w' = recent ++ past w /\ In d recent.
(** All files opened in the meantime are closed, nothing waits to be written.
    _geojson.py:132-133. *)
Definition nothing_open (w w' : world A) : Prop :=
  exists hs, handles w' = handles w ++ hs /\ Forall (fun h => hopen h = false /\ hbuf h = []) hs.
(** The last of a history of exports to [p] and its outcome, with what was there before
    otherwise. _geojson.py:105-135. *)
Fixpoint last_to (p : string) (es : list (export A)) (rs : list (outcome unit)) : option (export A * outcome unit) :=
  match es, rs with
  | e :: es', r :: rs' =>
    match last_to p es' rs' with
    | Some x => Some x
    | None => match path_of e with Some q => if String.eqb q p then Some (e, r) else None | None => None end
    end
  | _, _ => None
  end.
(** Everything that is to be written can be made. _geojson.py:127, _gpx.py:309, grid.py:1102-1118,
    _shp.py:191-248, _gdal.py:241-247. *)
Definition possible (e : export A) : Prop :=
  match e with
  | EGeojson _ text | EGpx _ text => exists t, text = Ok t
  | EAai _ _ lines filled => (exists ls, lines = Aai_Model.Ok ls) /\ filled = Ok tt
  | EShapefile _ _ interfaces setup =>
    exists fs, interfaces = Ok fs /\ fs <> [] /\ Forall (fun l => exists s, l = Ok s) fs /\ setup = Ok tt
  | EGeotiff _ type system bands => type = Ok tt /\ system = Ok tt /\ Forall (fun l => exists s, l = Ok s) bands
  end.
End Spec.
