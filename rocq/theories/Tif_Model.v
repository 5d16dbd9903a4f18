(** Model of GeoTIFF reading and writing: karta/raster/_gdal.py and [read_geotiff] and
    [from_geotiffs] of karta/raster/read.py.  GDAL is modelled as a store: a dataset holds
    the geotransform, the bands (rows from the top), the nodata values and the data type
    given to it, and gives them back.  Writing a value converts it to the data type of the
    file ([conv]).  Compression and tiling options do not change what is stored.  The
    numbers of the transform are rationals, so products and sums are exact.  Bands in
    memory are those of Band_Model and Band_IndexModel. *)
From Coq Require Import String List ZArith QArith Bool.
From Verif Require Import Band_Model Band_IndexModel.
From Verif Require Crs_Model.
Import ListNotations.
Open Scope Z_scope.

(** numpy types that occur; [dt_other] is any type not named in _gdal.py. *)
Inductive dtype : Type := uint8 | uint16 | uint32 | int8 | int16 | int32 | int64
  | float32 | float64 | complex64 | dt_other.
(** GDAL data types, by their names in _gdal.py:68-78. *)
Inductive gtype : Type := GByte | GUInt16 | GInt16 | GUInt32 | GInt32 | GFloat32 | GFloat64
  | GCInt16 | GCInt32 | GCFloat32 | GCFloat64 | GUnknown.
(** _gdal.py:68-86 [numpy_dtype]. *)
Definition numpy_dtype (g : gtype) : res dtype :=
  match g with
  | GByte => Ok uint8 | GUInt16 => Ok uint16 | GInt16 => Ok int16 | GUInt32 => Ok uint32 | GInt32 => Ok int32
  | GFloat32 => Ok float32 | GFloat64 => Ok float64
  | GCInt16 | GCInt32 | GCFloat32 | GCFloat64 => Ok complex64
  | GUnknown => Err TypeError
  end.
(** _gdal.py:88-112 [gdal_type]. *)
Definition gdal_type (d : dtype) : res gtype :=
  match d with
  | uint8 => Ok GByte | uint16 => Ok GUInt16 | int8 => Ok GByte | int16 => Ok GInt16
  | int32 | int64 => Ok GInt32 | float32 => Ok GFloat32 | float64 => Ok GFloat64 | complex64 => Ok GCFloat64
  | uint32 | dt_other => Err TypeError
  end.

(** A grid's transform, grid.py:144-147: (x0, y0, dx, dy, sx, sy). *)
Record transform : Type := Transform { t_x0 : Q; t_y0 : Q; t_dx : Q; t_dy : Q; t_sx : Q; t_sy : Q }.
(** The six numbers of a GDAL geotransform, in GDAL's order. _gdal.py:143-150, 238-240. *)
Record geotransform : Type := Geotransform { gt0 : Q; gt1 : Q; gt2 : Q; gt3 : Q; gt4 : Q; gt5 : Q }.

Open Scope Q_scope.
(** _gdal.py:238-240 (in [write]), the geotransform of a grid with ny rows. *)
Definition gt_of (ny : Z) (t : transform) : geotransform :=
  let n := inject_Z ny in
  Geotransform (t_x0 t + n * t_sx t) (t_dx t) (- t_sx t) (t_y0 t + n * t_dy t) (t_sy t) (- t_dy t).
(** _gdal.py:143-150 and read.py:46-51 (97-103 in [from_geotiffs]), the transform of a file
    with ny rows. *)
Definition t_of (ny : Z) (g : geotransform) : transform :=
  let n := inject_Z ny in
  Transform (gt0 g - n * gt2 g) (gt3 g + n * gt5 g) (gt1 g) (- gt5 g) (gt2 g) (- gt4 g).
Open Scope Z_scope.

Section Tif.
Variable V : Type.
(** What is in memory that was not initialised; the value 0. *)
Variable junk : Z -> Z -> V.
Variable zero : V.
(** Conversion of a value to the data type of a file. *)
Variable conv : gtype -> V -> V.
(** grid.py:1233-1257 [get_nodata], the default for a numpy type. *)
Variable default_nodata : dtype -> V.
(** [numpy.isnan]. *)
Variable isnan : V -> bool.

(** A GDAL dataset: size, geotransform, data type, and for each band its rows from the top and
    its nodata value. _gdal.py:114-188, 197-250. *)
Record dataset : Type := Dataset { d_ny : Z; d_nx : Z; d_gt : geotransform; d_type : gtype; d_bands : list (arr V * option V) }.

(** _gdal.py:246 [WriteArray], a two-dimensional array as it is stored. *)
Definition stored (g : gtype) (a : nd V) : res (arr V) :=
  match shp a with
  | [h; w] => Ok (mkA h w (fun i j => conv g (elt a [i; j])))
  | _ => Err ValueError
  end.
(** _gdal.py:197-250 [write]: [grid[::-1,:,i]] for each band. *)
Definition write (t : transform) (dt : dtype) (nodata : V) (bands : list (band V)) : res dataset :=
  match bands with
  | [] => Err IndexError
  | b0 :: _ =>
    let (ny, nx) := bsize b0 in
    bind (gdal_type dt) (fun g =>
    bind (mapM (fun i =>
            bind (getitem junk bands (KeyTuple [KSlice None None (Some (-1)); KSlice None None None; KInt i])) (fun a =>
            bind (stored g a) (fun s => Ok (s, Some nodata)))) (zrange 0 (Z.of_nat (length bands)))) (fun stored_bands =>
    Ok (Dataset ny nx (gt_of ny t) g stored_bands)))
  end.

(** A band of a grid that was read: in memory, or on disk ([GdalFileBand]). _gdal.py:14-57,
    160-186. *)
Inductive gband : Type := InMemory (b : band V) | OnDisk (a : arr V).
(** An array with its rows in reverse order, [a[::-1]]. _gdal.py:42, 181, 246. *)
Definition flip (a : arr V) : arr V := mkA (nrow a) (ncol a) (fun i j => at_ a (nrow a - 1 - i) j).
(** GDAL's [ReadAsArray(xoff, yoff, xsize, ysize)]: an error unless the window is not empty and
    inside the raster. _gdal.py:36-42, 178-181. *)
Definition read_as_array (a : arr V) (xoff yoff xsize ysize : Z) : res (arr V) :=
  if (0 <=? xoff) && (0 <=? yoff) && (0 <? xsize) && (0 <? ysize) && (xoff + xsize <=? ncol a) && (yoff + ysize <=? nrow a)
  then Ok (mkA ysize xsize (fun i j => at_ a (yoff + i) (xoff + j)))
  else Err RuntimeError.
(** _gdal.py:36-42 [GdalFileBand.getblock]. *)
Definition file_getblock (a : arr V) (yoff xoff ny nx : Z) : res (arr V) :=
  bind (read_as_array a xoff (nrow a - yoff - ny) nx ny) (fun chunk => Ok (flip chunk)).
(** band.getblock of either. _gdal.py:36-42, band.py:236-237, 354-380. *)
Definition gband_getblock (b : gband) (yoff xoff ny nx : Z) : res (arr V) :=
  match b with InMemory b => getblock junk b yoff xoff ny nx | OnDisk a => file_getblock a yoff xoff ny nx end.
(** band.size of either (_gdal.py:51-53). *)
Definition gband_size (b : gband) : Z * Z :=
  match b with InMemory b => bsize b | OnDisk a => (nrow a, ncol a) end.

(** The classes of bands a file is read into, _gdal.py:114-120, 176. *)
Inductive bandclass : Type := Simple | Compressed.
(** _gdal.py:176, a new band of the class; chunks of 256 by 256, band.py:248. *)
Definition new_band (cls : bandclass) (ny nx : Z) : band V :=
  match cls with Simple => BSimple (mkA ny nx junk) | Compressed => BComp (cb_init ny nx 256 256 zero) end.
(** _gdal.py:178-181: the array squeezed, flipped and stored.  Squeezing removes axes of
    length one: a single value cannot be flipped, and the setblock of either class unpacks
    two dimensions (band.py:239 and 327). *)
Definition load (cls : bandclass) (ny nx : Z) (a : arr V) : res (band V) :=
  if (ny =? 1) && (nx =? 1) then Err IndexError
  else if (ny =? 1) || (nx =? 1) then Err (match cls with Simple => ValueError | Compressed => TypeError end)
  else match setblock (new_band cls ny nx) 0 0 (flip a) with (b, None) => Ok b | (_, Some e) => Err e end.

(** _gdal.py:134-137, the band numbers asked for. *)
Inductive selection : Type := All | One (i : Z) | Several (l : list Z).
(** _gdal.py:134-137. *)
Definition numbers (d : dataset) (s : selection) : list Z :=
  match s with All => zrange 1 (Z.of_nat (length (d_bands d)) + 1) | One i => [i] | Several l => l end.
(** GDAL's [GetRasterBand], counting from 1. _gdal.py:167. *)
Definition raster_band (d : dataset) (i : Z) : res (arr V * option V) :=
  if 1 <=? i then match nth_error (d_bands d) (Z.to_nat (i - 1)) with Some b => Ok b | None => Err RuntimeError end
  else Err RuntimeError.
(** _gdal.py:114-188 [read], the bands and the nodata value of the header. *)
Definition read (d : dataset) (in_memory : bool) (s : selection) (cls : bandclass) : res (list gband * option V) :=
  bind (mapM (raster_band d) (numbers d s)) (fun rbs =>
  match rbs with
  | [] => Err IndexError
  | (_, nodata) :: _ =>
    if in_memory then
      bind (numpy_dtype (d_type d)) (fun _ =>
      bind (mapM (fun rb => bind (load cls (d_ny d) (d_nx d) (fst rb)) (fun b => Ok (InMemory b))) rbs) (fun bs => Ok (bs, nodata)))
    else Ok (map (fun rb => OnDisk (fst rb)) rbs, nodata)
  end).

(** A grid that was read: transform, bands, nodata value. read.py:27-62. *)
Record tgrid : Type := Tgrid { tg_t : transform; tg_bands : list gband; tg_nodata : V }.
(** grid.py:155-160, whether all bands have the size of the first. *)
Definition same_sizes (bs : list gband) : bool :=
  match bs with
  | [] => true
  | b0 :: bs' => forallb (fun b => Z.eqb (fst (gband_size b)) (fst (gband_size b0)) && Z.eqb (snd (gband_size b)) (snd (gband_size b0))) bs'
  end.
(** grid.py:1250, the types whose default does not need [issubclass]. *)
Definition unsigned (t : dtype) : bool := match t with uint8 | uint16 | uint32 => true | _ => false end.
(** grid.py:187-193 and 1233-1257: the nodata value of the grid.  The dtype of a band on
    disk is a numpy.dtype object, not a class (_gdal.py:55-57), on which [issubclass]
    raises TypeError. *)
Definition grid_nodata (d : dataset) (in_memory : bool) (nodata : option V) : res V :=
  match nodata with
  | Some v => Ok v
  | None => bind (numpy_dtype (d_type d)) (fun t =>
              if in_memory || unsigned t then Ok (default_nodata t) else Err TypeError)
  end.
(** read.py:27-62 [read_geotiff] without the coordinate system. *)
Definition read_geotiff (d : dataset) (in_memory : bool) (s : selection) (cls : bandclass) : res tgrid :=
  bind (read d in_memory s cls) (fun r => let (bs, nodata) := r in
  if same_sizes bs then bind (grid_nodata d in_memory nodata) (fun v => Ok (Tgrid (t_of (d_ny d) (d_gt d)) bs v))
  else Err ValueError).

(** read.py:87-93, the check of a header against the one before it.  The items of a header
    that are floats are the six numbers of the geotransform, which are not nan here, and the
    nodata value; [numpy.isnan(None)] is a TypeError. *)
Definition check_headers (prev cur : option V) : option exn :=
  match cur with
  | None => None
  | Some v => if isnan v then match prev with None => Some TypeError | Some w => if isnan w then None else Some GridError end else None
  end.
(** read.py:85-95, the loop over the files. *)
Fixpoint read_each (ds : list dataset) (in_memory : bool) (cls : bandclass) (prev : option (option V)) : res (list (gband * option V)) :=
  match ds with
  | [] => Ok []
  | d :: ds' =>
    bind (read d in_memory (One 1) cls) (fun r =>
    match r with
    | ([], _) => Err IndexError
    | (b :: _, nodata) =>
      match match prev with None => None | Some p => check_headers p nodata end with
      | Some e => Err e
      | None => bind (read_each ds' in_memory cls (Some nodata)) (fun rest => Ok ((b, nodata) :: rest))
      end
    end)
  end.
(** read.py:64-111 [from_geotiffs] without the coordinate system; [kw_in_memory] is the
    keyword argument, which is also passed on and then given twice to [_gdal.read]. *)
Definition from_geotiffs (ds : list dataset) (kw_in_memory : option bool) (cls : bandclass) : res tgrid :=
  match ds with
  | [] => Err ValueError
  | d0 :: _ =>
    match kw_in_memory with
    | Some _ => Err TypeError
    | None =>
      bind (read_each ds true cls None) (fun l =>
      if same_sizes (map fst l) then
        match l with
        | [] => Err IndexError
        | (_, nodata) :: _ => bind (grid_nodata d0 true nodata) (fun v => Ok (Tgrid (t_of (d_ny d0) (d_gt d0)) (map fst l) v))
        end
      else Err ValueError)
    end
  end.
End Tif.
Arguments Dataset {V}. Arguments d_ny {V}. Arguments d_nx {V}. Arguments d_gt {V}. Arguments d_type {V}. Arguments d_bands {V}.
Arguments stored {V}. Arguments write {V}. Arguments InMemory {V}. Arguments OnDisk {V}. Arguments flip {V}.
Arguments read_as_array {V}. Arguments file_getblock {V}. Arguments gband_getblock {V}. Arguments gband_size {V}.
Arguments new_band {V}. Arguments load {V}. Arguments numbers {V}. Arguments raster_band {V}. Arguments read {V}.
Arguments Tgrid {V}. Arguments tg_t {V}. Arguments tg_bands {V}. Arguments tg_nodata {V}. Arguments same_sizes {V}.
Arguments grid_nodata {V}. Arguments read_geotiff {V}. Arguments check_headers {V}. Arguments read_each {V}. Arguments from_geotiffs {V}.

(** read.py:23-25 [proj4_isgeodetic]. *)
Definition proj4_isgeodetic (s : string) : bool :=
  (Crs_Model.has_substring "lonlat" s || Crs_Model.has_substring "longlat" s
   || Crs_Model.has_substring "latlon" s || Crs_Model.has_substring "latlong" s)%string.
(** read.py:53-61, the coordinate system of a file whose srs GDAL describes by a proj.4 text,
    the semi-major axis and the *inverse* flattening (_gdal.py:156-158); the last two are
    given as Python writes them.  The name is left out. *)
Inductive crs_kind : Type := Cartesian | Projected (proj4 : string) | Geographic (e : Crs_Model.ellipsoid) (proj4 : string).
(** read.py:53-61. *)
Definition read_crs (float : string -> option Q) (proj4 semimajor inv_flattening : string) : Crs_Model.outcome crs_kind :=
  if String.eqb proj4 "" then Crs_Model.Ok Cartesian
  else if proj4_isgeodetic proj4 then
    match Crs_Model.geographical_crs float ("+a=" ++ semimajor ++ " +f=" ++ inv_flattening)%string "+datum=WGS84" with
    | Crs_Model.Raise e => Crs_Model.Raise e
    | Crs_Model.Ok (e, p) => Crs_Model.Ok (Geographic e p)
    end
  else Crs_Model.Ok (Projected proj4).
