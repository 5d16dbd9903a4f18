(** C114: what reaches GDAL and OGR of the arguments of to_geotiff, to_shapefile and
    read_shapefile. *)
From Coq Require Import String Ascii.
From Coq Require Import List Bool Arith.
From Verif Require Import Opt_Model Opt_Spec Opt_Proofs.
Import ListNotations.
Open Scope string_scope.

(** C114: the compression asked for is the one GDAL takes, whatever else is given. *)
Theorem C114_compress : forall c tiled kw, In c compressions -> first_value "COMPRESS" c (to_geotiff_options (Some c) tiled kw).
Proof. exact compressed. Qed.
Print Assumptions C114_compress.
Example C114_compress_ex : In "DEFLATE" compressions /\ to_geotiff_options (Some "DEFLATE") false [("PREDICTOR", "2")] = ["COMPRESS=DEFLATE"; "PREDICTOR=2"].
Proof. split; [cbn; auto | reflexivity]. Qed.

(** C114: every other keyword reaches GDAL under its name, and nothing does that was not asked
    for. *)
Theorem C114_keywords : forall compress tiled kw k v, In (k, v) kw -> In (k ++ "=" ++ v) (to_geotiff_options compress tiled kw).
Proof. exact keywords. Qed.
Print Assumptions C114_keywords.
Theorem C114_only : forall compress tiled kw o, In o (to_geotiff_options compress tiled kw) ->
  (exists c, compress = Some c /\ In c compressions /\ o = "COMPRESS=" ++ c) \/ exists k v, In (k, v) kw /\ o = k ++ "=" ++ v.
Proof. exact only. Qed.
Print Assumptions C114_only.

(** C114, refuted for tiling: [to_geotiff(..., tiled=True)] asks GDAL for the same file as
    without it, although [_gdal.write] would pass the option on. *)
Theorem C114_tiled_refuted : forall compress kw,
  to_geotiff_options compress true kw = to_geotiff_options compress false kw /\ In "TILED=YES" (write_options compress true kw).
Proof. intros compress kw. split; [exact (untiled compress kw) | exact (tiled compress kw)]. Qed.
Print Assumptions C114_tiled_refuted.
Example C114_tiled_case : ~ In "TILED=YES" (to_geotiff_options default_compress true []).
Proof. cbn. intros [H | []]. discriminate. Qed.

(** C114, refuted: a compression that is not one of the four, also one in small letters, is
    silently no compression. *)
Theorem C114_unknown_refuted : forall c tiled kw, ~ In c compressions -> to_geotiff_options (Some c) tiled kw = to_geotiff_options None tiled kw.
Proof. exact unknown. Qed.
Print Assumptions C114_unknown_refuted.
Example C114_unknown_case : ~ In "lzw" compressions /\ to_geotiff_options (Some "lzw") false [] = [].
Proof. split; [cbn; intuition discriminate | reflexivity]. Qed.

(** C114, refuted: a COMPRESS keyword comes after the default, which GDAL takes. *)
Theorem C114_keyword_refuted : forall v,
  first_value "COMPRESS" "PACKBITS" (to_geotiff_options default_compress false [("COMPRESS", v)]) /\
  In ("COMPRESS=" ++ v) (to_geotiff_options default_compress false [("COMPRESS", v)]).
Proof. exact keyword_compress. Qed.
Print Assumptions C114_keyword_refuted.

(** C114: the old name does the same. *)
Theorem C114_alias : forall compress tiled kw, to_gtiff_options compress tiled kw = to_geotiff_options compress tiled kw.
Proof. reflexivity. Qed.
Print Assumptions C114_alias.

(** C114: [read_shapefile(name)] opens the file that [to_shapefile(name)] made, for every name. *)
Theorem C114_shapefile : forall name, read_name name = to_shapefile_name name.
Proof. exact written_read. Qed.
Print Assumptions C114_shapefile.

(** C114: a name stands for the three files of its stem, with or without the ending. *)
Theorem C114_names : forall p, get_filenames (p ++ ".shp") = (p ++ ".shp", p ++ ".shx", p ++ ".dbf") /\
  (~ ends p ".shp" -> get_filenames p = get_filenames (p ++ ".shp")).
Proof. exact names. Qed.
Print Assumptions C114_names.
Example C114_names_ex : ~ ends "roads" ".shp" /\ get_filenames "roads" = ("roads.shp", "roads.shx", "roads.dbf") /\ read_name "roads.SHP" = "roads.SHP.shp".
Proof.
  split; [| split; reflexivity]. intros E. apply endswith_spec in E. discriminate.
Qed.

(** C114, refuted for [write_shapefile(name, ...)]: it uses the name as it is, so that
    [read_shapefile(name)] opens the same file only if the name ends with .shp. *)
Theorem C114_write_refuted : forall name, read_name name = write_shapefile_name name <-> ends name ".shp".
Proof. exact written_shapefile. Qed.
Print Assumptions C114_write_refuted.
Example C114_write_case : ~ ends "roads" ".shp" /\ read_name "roads" <> write_shapefile_name "roads".
Proof. split; [intros E; apply endswith_spec in E; discriminate | discriminate]. Qed.
