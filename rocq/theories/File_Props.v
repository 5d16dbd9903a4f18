(** C103: exports and the files on the disk. *)
From Coq Require Import String.
From Coq Require Import List.
From Verif Require Aai_Model Gjs_Model Gjs_Props.
From Verif Require Import File_Model File_Spec File_Proofs File_History.
Import ListNotations.
Open Scope string_scope.

(** C103: whatever fails, and wherever the machine stops: the other files are as they were, and
    the file written to has its old contents or the beginning of the new ones (a shapefile may
    also be missing or have gaps). *)
Theorem C103_moments : forall (A : Type) fault flushed (e : export A) p w w' r d,
  path_of e = Some p -> call fault flushed e w = (r, w') -> moment w w' d -> may_be e p (disk w) d.
Proof. intros A fault flushed e p w w' r d H1 H2. apply (path_export fault flushed e p w w' r H1 H2). Qed.
Print Assumptions C103_moments.

(** C103, in part: an export that returns has written all it was to write; those of gdal and
    ogr, if no operation failed. *)
Theorem C103_returned_partial : forall (A : Type) fault flushed (e : export A) p w w',
  path_of e = Some p -> call fault flushed e w = (Ok tt, w') -> (by_library e -> quiet fault) ->
  disk w' p = Some (text_of e) /\ only p (disk w) (disk w').
Proof.
  intros A fault flushed e p w w' H1 H2 H3. destruct (path_export fault flushed e p w w' _ H1 H2) as (M & D & _).
  split; [now apply D|]. apply (M _ (or_introl eq_refl)).
Qed.
Print Assumptions C103_returned_partial.

(** C103: an export returns if all that is to be written can be made and no operation fails. *)
Theorem C103_returns : forall (A : Type) fault flushed (e : export A) p w,
  quiet fault -> possible e -> path_of e = Some p -> exists w', call fault flushed e w = (Ok tt, w').
Proof. intros A fault flushed e p w Q. exact (returns fault flushed Q e p w). Qed.
Print Assumptions C103_returns.

(** C103: after every call, also one that raises, all files it has opened are closed, and
    nothing waits to be written. *)
Theorem C103_closed : forall (A : Type) fault flushed (e : export A) w w' r,
  call fault flushed e w = (r, w') -> nothing_open w w'.
Proof. intros A fault flushed e w w' r. exact (call_open fault flushed e w w' r). Qed.
Print Assumptions C103_closed.

(** C103: after any history of exports, with any failures, a file nobody exported to is as it
    was; one whose last export returned holds what that export was to write; every other one
    has its old contents or part of what one of the exports to it was to write. *)
Theorem C103_history : forall (A : Type) fault flushed (es : list (export A)) w w' rs,
  calls fault flushed es w = (rs, w') ->
  length rs = length es /\ nothing_open w w' /\
  forall p,
  match last_to p es rs with
  | None => disk w' p = disk w p
  | Some (e, r) => path_of e = Some p /\ In e es /\ (r = Ok tt -> (by_library e -> quiet fault) -> disk w' p = Some (text_of e))
  end /\
  (disk w' p = disk w p \/
   exists e, In e es /\ path_of e = Some p /\
     ((exists s, disk w' p = Some s /\ beginning s (text_of e)) \/
      (by_ogr e /\ (disk w' p = None \/ exists s, disk w' p = Some s /\ gaps s (text_of e))))).
Proof. intros A fault flushed es. exact (history fault flushed es). Qed.
Print Assumptions C103_history.

(** C103: an object given in place of a path receives the text after what it had; no file is
    touched, and no other object. *)
Theorem C103_objects : forall (A : Type) fault flushed (w w' : world A) o,
  (forall text, to_geojson fault flushed (Object o) text w = (Ok tt, w') ->
    exists t, text = Ok t /\ received (streams w' o) = (received (streams w o) ++ t)%list /\ closed (streams w' o) = false /\
    disk w' = disk w /\ forall q, q <> o -> streams w' q = streams w q) /\
  (forall render ls filled, to_aai fault flushed render (Object o) (Aai_Model.Ok ls) filled w = (Ok tt, w') ->
    received (streams w' o) = (received (streams w o) ++ concat (map render ls))%list /\
    disk w' = disk w /\ forall q, q <> o -> streams w' q = streams w q).
Proof.
  intros A fault flushed w w' o. split.
  - intros text E. destruct (object_export fault flushed (EGeojson (Object o) text) w w' _ eq_refl E) as (D & _).
    apply geojson_object in E. destruct E as (t & H). exists t. tauto.
  - intros render ls filled E. destruct (object_export fault flushed (EAai render (Object o) (Aai_Model.Ok ls) filled) w w' _ eq_refl E) as (D & _).
    apply aai_object in E. tauto.
Qed.
Print Assumptions C103_objects.

(** C103, in part: grids whose cells are not square (or that are skewed), geometries without an
    interface and grids of an unknown type raise before anything is touched. *)
Theorem C103_kept_partial : forall (A : Type) fault flushed (w : world A) p er e2,
  (forall render f filled, to_aai fault flushed render f (Aai_Model.Raise e2) filled w = (Raise "GridError", w)) /\
  (forall m setup, to_shapefile fault flushed m p (Raise er) setup w = (Raise er, w)) /\
  (forall system bands, to_geotiff fault flushed p (Raise er) system bands w = (Raise er, w)).
Proof. intros; repeat split. Qed.
Print Assumptions C103_kept_partial.

(** Finding: [to_geojson(f, force_wgs84=False)] without urn raises NameError for every geometry,
    but only after the file has been opened: what was in it is lost. *)
Theorem C103_geojson_refuted : forall (A V : Type) fault flushed render wgs tr (g : Gjs_Model.geo V) p (w : world A),
  quiet fault ->
  exists w', to_geojson fault flushed (Path p) (gj_text render (Gjs_Model.as_geojson None false wgs tr g)) w = (Raise "NameError", w')
  /\ disk w' p = Some [].
Proof. intros A V fault flushed render wgs tr g p w Q. rewrite Gjs_Props.C45_crs_refuted. exact (geojson_fails fault flushed Q p "NameError" w). Qed.
Print Assumptions C103_geojson_refuted.

(** Finding: [GPX.writefile] opens the file before it makes the text: if that raises (an unknown
    keyword is enough) the old contents are lost.  So it is with [to_aai] and a value for nodata
    that the array cannot hold, and with [to_geotiff] and a system that gdal does not know. *)
Theorem C103_emptied_refuted : forall (A : Type) fault flushed p er (w : world A), quiet fault ->
  (exists w', writefile fault flushed p (Raise er) w = (Raise er, w') /\ disk w' p = Some []) /\
  (forall render ls, exists w', to_aai fault flushed render (Path p) (Aai_Model.Ok ls) (Raise er) w = (Raise er, w') /\ disk w' p = Some []) /\
  (forall bands, exists w', to_geotiff fault flushed p (Ok tt) (Raise er) bands w = (Raise er, w') /\ disk w' p = Some []).
Proof.
  intros A fault flushed p er w Q. split; [exact (gpx_fails fault flushed Q p er w)|]. split.
  - intros render ls. exact (aai_fails fault flushed Q render p ls er w).
  - intros bands. exact (geotiff_fails fault flushed Q p er bands w).
Qed.
Print Assumptions C103_emptied_refuted.

(** Finding: [write_shapefile] deletes an existing file before it looks at what it is to write:
    without geometries, or with a system that cannot be understood, the file is gone. *)
Theorem C103_deleted_refuted : forall (A : Type) fault flushed p c (w : world A), quiet fault -> disk w p = Some c ->
  (forall setup, exists w', to_shapefile fault flushed false p (Ok []) setup w = (Raise "IndexError", w') /\ disk w' p = None) /\
  (forall fs er, fs <> [] -> exists w', to_shapefile fault flushed false p (Ok fs) (Raise er) w = (Raise er, w') /\ disk w' p = None).
Proof.
  intros A fault flushed p c w Q Hd. split.
  - intros setup. exact (shapefile_empty fault flushed Q setup p c w Hd).
  - intros fs er Hf. exact (shapefile_fails fault flushed Q p fs er c w Hf Hd).
Qed.
Print Assumptions C103_deleted_refuted.

(** Finding: a shapefile that cannot be written completely (a full disk, say) is not reported: the
    call returns. *)
Theorem C103_unnoticed_refuted : exists fault flushed (w : world nat) w',
  to_shapefile fault flushed true "lakes" (Ok [Ok [1; 2]; Ok [3]]) (Ok tt) w = (Ok tt, w') /\ disk w' "lakes.shp" = Some [3].
Proof.
  exists (fun n => if Nat.eqb n 1 then Some "OSError" else None), (fun _ => 0),
    (mkWorld (fun _ => None) [] (fun _ => mkStream true true [] false) 0 []).
  eexists. split; reflexivity.
Qed.
Print Assumptions C103_unnoticed_refuted.

(** Finding: if the file cannot be opened, [to_geojson] raises UnboundLocalError instead of the
    error of [open], whatever the text. *)
Theorem C103_unbound_refuted : forall (A : Type) fault flushed p text (w : world A) er, fault (clock w) = Some er ->
  exists w', to_geojson fault flushed (Path p) text w = (Raise "UnboundLocalError", w') /\ disk w' = disk w.
Proof. intros A fault flushed p text w er. exact (unbound flushed p text w fault er). Qed.
Print Assumptions C103_unbound_refuted.

(** Finding: [to_aai] closes the object it was given; the text written to a StringIO is gone with
    it, and nothing can be written after the grid. *)
Theorem C103_object_closed_refuted : forall (A : Type) fault flushed render o ls (w : world A), quiet fault ->
  has_read (streams w o) = true -> closed (streams w o) = false ->
  exists w', to_aai fault flushed render (Object o) (Aai_Model.Ok ls) (Ok tt) w = (Ok tt, w') /\ closed (streams w' o) = true.
Proof. intros A fault flushed render o ls w Q. exact (aai_closes fault flushed Q render o ls w). Qed.
Print Assumptions C103_object_closed_refuted.

(** Exports one after the other, of which the second fails when the first letters are written:
    the hypotheses are met, and the file has the old contents, then a beginning, then all. *)
Example C103_nonvacuous :
  let fault n := if Nat.eqb n 4 then Some "OSError" else None in
  let w0 := mkWorld (fun p => if String.eqb p "b" then Some [9; 9] else None) [] (fun _ => mkStream true true [] false) 0 [] in
  let es := [EGeojson (Path "a") (Ok [1; 2; 3]); EGpx "a" (Ok [4; 5; 6; 7]); EGeojson (Object 0) (Ok [8])] in
  let x := calls fault (fun _ => 2) es w0 in
  fst x = [Ok tt; Raise "OSError"; Ok tt] /\ disk (snd x) "a" = Some [4; 5] /\ disk (snd x) "b" = Some [9; 9]
  /\ received (streams (snd x) 0) = [8]
  /\ option_map snd (last_to "a" es (fst x)) = Some (Raise "OSError")
  /\ quiet (fun _ => None) /\ possible (EGpx "a" (Ok [4; 5; 6; 7])).
Proof. repeat split. exists [4; 5; 6; 7]. reflexivity. Qed.
