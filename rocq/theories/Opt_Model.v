(** Model of what reaches GDAL and OGR besides the data: the creation options of a GeoTIFF
    (_gdal.py:197-250, grid.py:1066-1082) and the names of shapefiles (read.py:153-175,
    _shp.py:180-190, 360-374). *)
From Coq Require Import String Ascii.
From Coq Require Import List Bool Arith.
Import ListNotations.
Open Scope string_scope.

(** _gdal.py:218-226: the option for the argument [compress]; None is Python's None. *)
Definition compress_option (compress : option string) : list string :=
  match compress with
  | Some c => if (c =? "LZW") then ["COMPRESS=LZW"]
              else if (c =? "PACKBITS") then ["COMPRESS=PACKBITS"]
              else if (c =? "DEFLATE") then ["COMPRESS=DEFLATE"]
              else if (c =? "LZMA") then ["COMPRESS=LZMA"]
              else []
  | None => []
  end.
(** _gdal.py:197, 217-232 [write]: the options given to [driver.Create]; [kw] are the other
    keyword arguments, in order, with their values as [format] writes them. *)
Definition write_options (compress : option string) (tiled : bool) (kw : list (string * string)) : list string :=
  (compress_option compress ++ (if tiled then ["TILED=YES"] else []) ++ map (fun kv => (fst kv ++ "=" ++ snd kv)%string) kw)%list.
(** grid.py:1066-1076 [to_geotiff(fnm, compress, tiled, **kw)]: what it gives to [write]. *)
Definition to_geotiff_options (compress : option string) (tiled : bool) (kw : list (string * string)) : list string :=
  write_options compress false kw.
(** grid.py:1066: the default of [compress]. *)
Definition default_compress : option string := Some "PACKBITS".
(** grid.py:1078-1082 [to_gtiff], which passes its arguments on. *)
Definition to_gtiff_options (compress : option string) (tiled : bool) (kw : list (string * string)) : list string :=
  to_geotiff_options compress tiled kw.

(** [s.endswith(suffix)], read.py:156, _shp.py:370. *)
Definition endswith (s suffix : string) : bool :=
  (String.length suffix <=? String.length s)%nat && (substring (String.length s - String.length suffix)%nat (String.length suffix) s =? suffix)%string.
(** read.py:153-165 [get_filenames(stem)] with the default [check=False]: the names with the
    endings .shp, .shx and .dbf. *)
Definition get_filenames (stem : string) : string * string * string :=
  let stem := if endswith stem ".shp" then substring 0 (String.length stem - 4)%nat stem else stem in
  (stem ++ ".shp", stem ++ ".shx", stem ++ ".dbf")%string.
(** read.py:167-170 [read_shapefile(stem)]: the file that is opened. *)
Definition read_name (stem : string) : string := fst (fst (get_filenames stem)).
(** _shp.py:368-372 [to_shapefile(fnm)]: the file that is created. *)
Definition to_shapefile_name (fnm : string) : string := if endswith fnm ".shp" then fnm else (fnm ++ ".shp")%string.
(** _shp.py:180-190, 360-361 [write_shapefile(fnm, ...)]: the file that is created. *)
Definition write_shapefile_name (fnm : string) : string := fnm.
