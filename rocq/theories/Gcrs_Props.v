(** C115: the coordinate systems of GeoJSON text. *)
From Coq Require Import String List Bool ZArith.
From Verif Require Import Gjs_Model Gjs_Spec Gcrs_Model Gcrs_Spec Gcrs_Proofs.
Import ListNotations.
Local Open Scope Z_scope.

(** Two systems for the examples, the second shifted by 100; [true] is WGS84. *)
Definition shift (a b : bool) (v : Z) : Z := match a, b with true, false => v + 100 | false, true => v - 100 | _, _ => v end.
(** What two URNs mean, for the examples. *)
Definition meaning (u : string) : option bool :=
  if String.eqb u "urn:ogc:def:crs:OGC:1.3:CRS84" then Some true else if String.eqb u "urn:other" then Some false else None.

(** C115: what [as_geojson()] writes is in the system that the text names, whatever the system of
    the geometry. *)
Theorem C115_default : forall (V C : Type) (ceq : C -> C -> bool) (wgs84 : C) (tr : C -> C -> V -> V)
    (denotes : string -> option C) (g : placed V C) t g',
  (forall a b, ceq a b = true -> a = b) -> (forall c v, tr c c v = v) ->
  denotes "urn:ogc:def:crs:OGC:1.3:CRS84"%string = Some wgs84 ->
  as_geojson_text ceq wgs84 tr None true g = Ok (t, g') -> truthful denotes tr g t.
Proof. exact default_truthful. Qed.
Print Assumptions C115_default.
Example C115_default_ex : exists g',
  as_geojson_text Bool.eqb true shift None true (mkPlaced false (mkGeo (MLn [[150; 160]; [170; 180; 190]]) [] None)) =
    Ok (mkText (Named "urn:ogc:def:crs:OGC:1.3:CRS84") (GMultiLineString [[50; 60]; [70; 80; 90]]) [], g') /\
  (forall a b, Bool.eqb a b = true -> a = b) /\ (forall c v, shift c c v = v) /\
  meaning "urn:ogc:def:crs:OGC:1.3:CRS84" = Some true.
Proof.
  eexists; split; [vm_compute; reflexivity |]. split; [exact eqb_prop |]. split; [intros [|] v; reflexivity | reflexivity].
Qed.

(** C115: so is what [as_geojson(urn=..., force_wgs84=False)] writes, with the URN of the system of
    the geometry. *)
Theorem C115_own : forall (V C : Type) (ceq : C -> C -> bool) (wgs84 : C) (tr : C -> C -> V -> V)
    (denotes : string -> option C) u (g : placed V C) t g',
  (forall c v, tr c c v = v) -> denotes u = Some (system g) ->
  as_geojson_text ceq wgs84 tr (Some u) false g = Ok (t, g') -> truthful denotes tr g t.
Proof. exact own_truthful. Qed.
Print Assumptions C115_own.
Example C115_own_ex : exists g',
  as_geojson_text Bool.eqb true shift (Some "urn:other"%string) false (mkPlaced false (mkGeo (Ln [150; 160]) [] None)) =
    Ok (mkText (Named "urn:other") (GLineString [150; 160]) [], g') /\ meaning "urn:other" = Some false.
Proof. eexists; split; vm_compute; reflexivity. Qed.

(** C115: and no vertex is missing, but for the holes of a polygon (C45_reprojected_refuted). *)
Theorem C115_all_partial : forall (V C : Type) (ceq : C -> C -> bool) (wgs84 : C) (tr : C -> C -> V -> V)
    urn force (g : placed V C) t g',
  (forall a b, ceq a b = true -> a = b) -> (forall c v, tr c c v = v) ->
  (forall r subs, verts (what g) = Pg r subs -> subs = []) ->
  as_geojson_text ceq wgs84 tr urn force g = Ok (t, g') ->
  shows_all (tr (system g) (if force then wgs84 else system g)) (coordinates t) (verts (what g)).
Proof. exact text_all. Qed.
Print Assumptions C115_all_partial.
Example C115_all_ex : exists g',
  as_geojson_text Bool.eqb true shift None true (mkPlaced false (mkGeo (MPg [[[150; 160; 170]; [151; 152; 153]]]) [] None)) =
    Ok (mkText (Named "urn:ogc:def:crs:OGC:1.3:CRS84") (GMultiPolygon [[[50; 60; 70; 50]; [51; 52; 53; 51]]]) [], g').
Proof. eexists; vm_compute; reflexivity. Qed.
(** C115: the geometry that was written is still in its system, with its vertices and data. *)
Theorem C115_unchanged : forall (V C : Type) (ceq : C -> C -> bool) (wgs84 : C) (tr : C -> C -> V -> V)
    urn force (g : placed V C) t g', as_geojson_text ceq wgs84 tr urn force g = Ok (t, g') ->
  system g' = system g /\ verts (what g') = verts (what g) /\ data (what g') = data (what g).
Proof. exact text_unchanged. Qed.
Print Assumptions C115_unchanged.

(** Finding: with a URN alone, [as_geojson(urn=...)], the positions are transformed to WGS84
    all the same, and labelled with the URN given. *)
Theorem C115_urn_refuted : forall (V C : Type) (ceq : C -> C -> bool) (wgs84 : C) (tr : C -> C -> V -> V)
    (denotes : string -> option C) u c v p, ceq c wgs84 = false -> denotes u = Some c ->
  tr c wgs84 v <> tr c c v ->
  exists t g', as_geojson_text ceq wgs84 tr (Some u) true (mkPlaced c (mkGeo (Pt v) p None)) = Ok (t, g') /\
    ~ truthful denotes tr (mkPlaced c (mkGeo (Pt v) p None)) t.
Proof. exact urn_untrue. Qed.
Print Assumptions C115_urn_refuted.
(** This is so for every geometry that is not in WGS84. *)
Theorem C115_urn : forall (V C : Type) (ceq : C -> C -> bool) (wgs84 : C) (tr : C -> C -> V -> V)
    u (g : placed V C) t g', ceq (system g) wgs84 = false ->
  as_geojson_text ceq wgs84 tr (Some u) true g = Ok (t, g') ->
  label t = Named u /\ shows (tr (system g) wgs84) (coordinates t) (verts (what g)).
Proof. exact urn_mislabels. Qed.
Print Assumptions C115_urn.
Example C115_urn_ex : exists g',
  as_geojson_text Bool.eqb true shift (Some "urn:other"%string) true (mkPlaced false (mkGeo (Ln [150; 160]) [] None)) =
    Ok (mkText (Named "urn:other") (GLineString [50; 60]) [], g') /\
  Bool.eqb false true = false /\ meaning "urn:other" = Some false /\ shift false true 150 <> shift false false 150.
Proof. eexists; split; [vm_compute; reflexivity |]. repeat split; discriminate. Qed.

(** Finding: without a URN, [as_geojson(force_wgs84=False)] is a NameError for every geometry. *)
Theorem C115_force_refuted : forall (V C : Type) (ceq : C -> C -> bool) (wgs84 : C) (tr : C -> C -> V -> V) (g : placed V C),
  as_geojson_text ceq wgs84 tr None false g = Raise NameError.
Proof. exact no_urn. Qed.
Print Assumptions C115_force_refuted.

(** C115: every geometry that [read_geojson(f, crs=crs)] returns, at whatever depth, is in the
    system given. *)
Theorem C115_read : forall (V C : Type) (crs : C) (d : document V) r p,
  read_geojson_in crs d = Ok r -> among p r -> system p = crs.
Proof. exact read_system. Qed.
Print Assumptions C115_read.
Example C115_read_ex : exists r p, read_geojson_in false (Some (Named "urn:other"),
    DGeometryCollection [DGeometry (GPoint 1); DGeometryCollection [DGeometry (GLineString [2; 3])]]) = Ok r /\
  among p r /\ verts (what p) = Ln [2; 3].
Proof.
  eexists; exists (mkPlaced false (mkGeo (Ln [2; 3]) [] None)). split; [vm_compute; reflexivity |]. split; [| reflexivity].
  eapply among_several; [right; left; reflexivity |]. eapply among_several; [left; reflexivity | constructor].
Qed.

(** C115: and they are those that the document has without systems (C45), in order and nested
    alike; exceptions are the same. *)
Theorem C115_read_all : forall (V C : Type) (crs : C) (d : document V), match read_geojson (snd d) with
  | Ok r => exists f, read_geojson_in crs d = Ok f /\ placed_in crs r f
  | Raise e => read_geojson_in crs d = Raise e
  end.
Proof. exact read_placed. Qed.
Print Assumptions C115_read_all.

(** C115: a line written with [as_geojson] is read with its positions as they were written, in the
    system the reader is given. *)
Theorem C115_line : forall (V C : Type) (ceq : C -> C -> bool) (wgs84 : C) (tr : C -> C -> V -> V)
    wind urn force c vs p t g', is_dict p ->
  as_geojson_text ceq wgs84 tr urn force (mkPlaced c (mkGeo (@Ln V vs) p None)) = Ok (t, g') ->
  forall crs : C, read_geojson_in crs (document_of wind t) =
    Ok (Several [Found (mkPlaced crs (mkGeo (Ln (if force && negb (ceq c wgs84) then map (tr c wgs84) vs else vs)) p None))]).
Proof. exact line_text. Qed.
Print Assumptions C115_line.
(** Finding: the system that the text names plays no part: a line written in its own system, and
    labelled so, is read as one with the same numbers in WGS84. *)
Theorem C115_label_refuted : exists (g : placed Z bool) t g' p,
  as_geojson_text Bool.eqb true shift (Some "urn:other"%string) false g = Ok (t, g') /\ truthful meaning shift g t /\
  read_geojson_in true (document_of (fun _ r => r) t) = Ok (Several [Found p]) /\
  system g = false /\ system p = true /\ verts (what p) = verts (what g) /\ verts (what g) = Ln [150; 160].
Proof.
  exists (mkPlaced false (mkGeo (Ln [150; 160]) [] None)). eexists; eexists; eexists.
  split; [vm_compute; reflexivity |]. split.
  { exists "urn:other"%string, false. split; [reflexivity |]. split; [reflexivity |].
    intros x I; exists x; split; [exact I | reflexivity]. }
  split; [vm_compute; reflexivity |]. repeat split.
Qed.
Print Assumptions C115_label_refuted.
