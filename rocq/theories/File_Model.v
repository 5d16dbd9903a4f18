(** Model of the files written by the exporting methods: [to_geojson] (karta/vector/_geojson.py),
    [GPX.writefile] (karta/vector/_gpx.py), [RegularGrid.to_aai] (karta/raster/grid.py),
    [write_shapefile] and [to_shapefile] (karta/vector/_shp.py) and [RegularGrid.to_geotiff]
    (karta/raster/_gdal.py).  What they write is that of Gjs_Model, Gpx_Model, Aai_Model,
    Ogr_Model and Tif_Model; here it is a list of items (letters of a text, features, bands),
    and the subject is what happens to the files on the disk, also when something fails on the
    way.  Every operation of the operating system may fail, and may write any part of what is
    waiting in the buffer of a file: [fault] and [flushed] decide, for each operation.  Other
    processes do not touch the files. *)
From Coq Require Import String.
From Coq Require Import List Arith Bool.
From Verif Require Aai_Model Gjs_Model.
Import ListNotations.

(** An exception, by the name of its class (_geojson.py:122-135, grid.py:1102-1139,
    _shp.py:180-249). *)
Definition error : Type := string.
(** What a call does: it returns or raises (_geojson.py:105-135, _gpx.py:307-311,
    grid.py:1084-1139, _shp.py:180-249, _gdal.py:197-252). *)
Inductive outcome (B : Type) : Type := Ok (b : B) | Raise (e : error).
Arguments Ok {B}. Arguments Raise {B}.

Section Model.
Context {A : Type}.
(** The failure of the n-th operation (_geojson.py:124, 127 and so on), if it fails. *)
Variable fault : nat -> option error.
(** How many of the waiting items the n-th operation brings to the disk, at least; how many of
    the new items a write takes over before it fails. _geojson.py:127. *)
Variable flushed : nat -> nat.

(** A file opened for writing: its path, what waits to be written, and whether it is open
    (_geojson.py:124, _gpx.py:308, grid.py:1114). *)
Record handle : Type := mkHandle { hpath : string; hbuf : list A; hopen : bool }.
(** An object given in place of a path: whether it has the attributes that are asked for,
    what it has received and whether it has been closed (_geojson.py:123, 131; grid.py:1113). *)
Record stream : Type := mkStream { has_read : bool; has_write : bool; received : list A; closed : bool }.
(** The contents of the files by path; None is no file. _shp.py:186, _geojson.py:124. *)
Definition disk_t : Type := string -> option (list A).
(** The state of things: the disk, the files this process has opened, the objects of the
    caller, the number of operations so far, and what the disk was before each of them, the
    last one first: the points at which the machine may stop. _geojson.py:105-135. *)
Record world : Type := mkWorld
  { disk : disk_t; handles : list handle; streams : nat -> stream; clock : nat; past : list disk_t }.
(** A statement: it returns or raises, and changes the world (_geojson.py:122-135). *)
Definition stm (B : Type) : Type := world -> outcome B * world.
(** [return], _geojson.py:135. *)
Definition ret {B : Type} (b : B) : stm B := fun w => (Ok b, w).
(** [raise], grid.py:1103. *)
Definition raise {B : Type} (e : error) : stm B := fun w => (Raise e, w).
(** One statement after another, _geojson.py:123-128. *)
Definition seq_ {B C : Type} (m : stm B) (f : B -> stm C) : stm C :=
  fun w => match m w with (Ok b, w') => f b w' | (Raise e, w') => (Raise e, w') end.
(** [try: m; finally: last], _geojson.py:122-134, grid.py:1116-1138; also the [with] of
    _gpx.py:308.  An exception of the last part takes the place of that of [m]. *)
Definition try_finally {B : Type} (m : stm B) (last : stm unit) : stm B :=
  fun w => let (r, w1) := m w in
    match last w1 with (Ok _, w2) => (r, w2) | (Raise e, w2) => (Raise e, w2) end.
(** A value computed without touching files, or its exception (_geojson.py:127). *)
Definition given {B : Type} (r : outcome B) : stm B := match r with Ok b => ret b | Raise e => raise e end.

(** The disk with the contents [c] at the path [p]; None removes the file. _shp.py:186-189. *)
Definition put (d : disk_t) (p : string) (c : option (list A)) : disk_t := fun q => if String.eqb q p then c else d q.
(** The beginning of an operation: the disk is recorded. _geojson.py:124. *)
Definition tick (w : world) : world :=
  mkWorld (disk w) (handles w) (streams w) (S (clock w)) (disk w :: past w).
(** The i-th file replaced, _geojson.py:127. *)
Fixpoint set_nth {B : Type} (l : list B) (i : nat) (b : B) : list B :=
  match l, i with [], _ => [] | _ :: l', 0 => b :: l' | x :: l', S i' => x :: set_nth l' i' b end.
(** The first [m] waiting items of the i-th file are brought to the disk. _geojson.py:127, 132. *)
Definition flush (m i : nat) (w : world) : world :=
  match nth_error (handles w) i with
  | None => w
  | Some h =>
    let old := match disk w (hpath h) with Some c => c | None => [] end in
    mkWorld (put (disk w) (hpath h) (Some (old ++ firstn m (hbuf h))))
            (set_nth (handles w) i (mkHandle (hpath h) (skipn m (hbuf h)) (hopen h)))
            (streams w) (clock w) (past w)
  end.
(** [open(p, "w")] (_geojson.py:124, _gpx.py:308, grid.py:1114): the file is emptied at once. *)
Definition open_w (p : string) : stm nat := fun w =>
  let w := tick w in
  match fault (pred (clock w)) with
  | Some e => (Raise e, w)
  | None => (Ok (length (handles w)),
             mkWorld (put (disk w) p (Some [])) (handles w ++ [mkHandle p [] true]) (streams w) (clock w) (past w))
  end.
(** [f.write(s)] of an opened file (_geojson.py:127, _gpx.py:309, grid.py:1120-1136). *)
Definition write (i : nat) (s : list A) : stm unit := fun w =>
  let n := clock w in
  let w := tick w in
  match nth_error (handles w) i with
  | None => (Raise "ValueError"%string, w)
  | Some h =>
    if hopen h then
      let taken := match fault n with Some _ => firstn (flushed n) s | None => s end in
      let w := mkWorld (disk w) (set_nth (handles w) i (mkHandle (hpath h) (hbuf h ++ taken) true))
                       (streams w) (clock w) (past w) in
      let w := flush (flushed n) i w in
      match fault n with Some e => (Raise e, w) | None => (Ok tt, w) end
    else (Raise "ValueError"%string, w)
  end.
(** [f.close()] of an opened file (_geojson.py:132-133, grid.py:1138): what waits is brought to
    the disk; if that fails the file is closed all the same. *)
Definition close (i : nat) : stm unit := fun w =>
  let n := clock w in
  let w := tick w in
  match nth_error (handles w) i with
  | None => (Raise "ValueError"%string, w)
  | Some h =>
    let w := flush (match fault n with Some _ => flushed n | None => length (hbuf h) end) i w in
    let w := mkWorld (disk w) (set_nth (handles w) i (mkHandle (hpath h) [] false)) (streams w) (clock w) (past w) in
    match fault n with Some e => (Raise e, w) | None => (Ok tt, w) end
  end.
(** [f.write(s)] of an object of the caller (_geojson.py:126-127, grid.py:1120-1136). *)
Definition stream_write (o : nat) (s : list A) : stm unit := fun w =>
  let n := clock w in
  let w := tick w in
  let x := streams w o in
  if closed x then (Raise "ValueError"%string, w)
  else
    let taken := match fault n with Some _ => firstn (flushed n) s | None => s end in
    let w := mkWorld (disk w) (handles w)
      (fun q => if Nat.eqb q o then mkStream (has_read x) (has_write x) (received x ++ taken) false else streams w q)
      (clock w) (past w) in
    match fault n with Some e => (Raise e, w) | None => (Ok tt, w) end.
(** [f.close()] of an object of the caller (grid.py:1138). *)
Definition stream_close (o : nat) : stm unit := fun w =>
  let n := clock w in
  let w := tick w in
  let x := streams w o in
  let w := mkWorld (disk w) (handles w)
    (fun q => if Nat.eqb q o then mkStream (has_read x) (has_write x) (received x) true else streams w q)
    (clock w) (past w) in
  match fault n with Some e => (Raise e, w) | None => (Ok tt, w) end.

(** The argument [f]: a path or an object (_geojson.py:105-121, grid.py:1084-1094). *)
Inductive target : Type := Path (p : string) | Object (o : nat).

(** _geojson.py:105-135 [to_geojson]; [text] is what [as_geojson] does.  If [open] raises,
    [fobj] has no value in the [finally] part.  An object without [write] is given to [open]. *)
Definition to_geojson (f : target) (text : outcome (list A)) : stm unit := fun w =>
  match f with
  | Path p =>
    match open_w p w with
    | (Raise _, w1) => (Raise "UnboundLocalError"%string, w1)
    | (Ok i, w1) => try_finally (seq_ (given text) (write i)) (close i) w1
    end
  | Object o =>
    if has_write (streams w o) then seq_ (given text) (stream_write o) w
    else (Raise "UnboundLocalError"%string, w)
  end.
(** The text [as_geojson] makes, or its exception: what Gjs_Model says it does, in the letters of
    the serializer. _geojson.py:102-103, 127. *)
Definition gj_text {B : Type} (render : B -> list A) (r : Gjs_Model.outcome B) : outcome (list A) :=
  match r with
  | Gjs_Model.Ok b => Ok (render b)
  | Gjs_Model.Raise Gjs_Model.NameError => Raise "NameError"%string
  | Gjs_Model.Raise Gjs_Model.AttributeError => Raise "AttributeError"%string
  | Gjs_Model.Raise Gjs_Model.IndexError => Raise "IndexError"%string
  | Gjs_Model.Raise Gjs_Model.KeyError => Raise "KeyError"%string
  | Gjs_Model.Raise Gjs_Model.ValueError => Raise "ValueError"%string
  end.
(** _gpx.py:307-311 [GPX.writefile]; [text] is what [as_string] does. *)
Definition writefile (p : string) (text : outcome (list A)) : stm unit :=
  seq_ (open_w p) (fun i => try_finally (seq_ (given text) (write i)) (close i)).
(** Lines written one after the other, grid.py:1120-1136. *)
Fixpoint writes (wr : list A -> stm unit) (ls : list (list A)) : stm unit :=
  match ls with [] => ret tt | l :: ls' => seq_ (wr l) (fun _ => writes wr ls') end.
(** grid.py:1084-1139 [to_aai].  [lines] is the result of Aai_Model.to_aai (the errors it
    raises come before the file is opened), [filled] whether the values can be copied and
    filled (grid.py:1117-1118), [render] the text of a line.  An object without [read] is
    given to [open]; any other is written to, and closed. *)
Definition to_aai (render : list Aai_Model.word -> list A) (f : target) (lines : Aai_Model.outcome (list (list Aai_Model.word)))
  (filled : outcome unit) : stm unit := fun w =>
  match lines with
  | Aai_Model.Raise _ => (Raise "GridError"%string, w)
  | Aai_Model.Ok ls =>
    match f with
    | Path p => seq_ (open_w p) (fun i => try_finally (seq_ (given filled) (fun _ => writes (write i) (map render ls))) (close i)) w
    | Object o =>
      if has_read (streams w o)
      then try_finally (seq_ (given filled) (fun _ => writes (stream_write o) (map render ls))) (stream_close o) w
      else (Raise "TypeError"%string, w)
    end
  end.

(** Features or bands, each of which may fail to be made, written one after the other
    (_shp.py:244-248, _gdal.py:243-247). *)
Fixpoint writes_each (wr : list A -> stm unit) (ls : list (outcome (list A))) : stm unit :=
  match ls with [] => ret tt | l :: ls' => seq_ (given l) (fun s => seq_ (wr s) (fun _ => writes_each wr ls')) end.
(** A call whose error code nobody looks at (_shp.py:187, 294: ogr raises no exceptions unless
    asked to, which only raster/_gdal.py:13 and crs.py:26 do, for gdal and osr). *)
Definition unheeded (m : stm unit) : stm unit := fun w => let (_, w') := m w in (Ok tt, w').
(** A dataset that is closed when its last reference goes, at the end of the function or with
    the traceback of an exception; errors at that time are not raised.  _shp.py:190-249,
    _gdal.py:234-252. *)
Definition dropping (i : nat) (m : stm unit) : stm unit := fun w =>
  let (r, w1) := m w in let (_, w2) := close i w1 in (r, w2).
(** _shp.py:187 [driver.DeleteDataSource]. *)
Definition delete (p : string) : stm unit := fun w =>
  let n := clock w in
  let w := tick w in
  match fault n with
  | Some e => (Raise e, w)
  | None => (Ok tt, mkWorld (put (disk w) p None) (handles w) (streams w) (clock w) (past w))
  end.
(** _shp.py:180-249 [ogr_write]: [setup] is the part that looks at the first of the objects
    (the system and the type of the layer) and at the attributes, [features] the features.
    The files of the dataset count as one; they are made by CreateLayer. *)
Definition ogr_write (p : string) (setup : outcome unit) (features : list (outcome (list A))) : stm unit :=
  seq_ (fun w => match disk w p with Some _ => unheeded (delete p) w | None => (Ok tt, w) end) (fun _ =>
  seq_ (given setup) (fun _ w =>
  match open_w p w with
  | (Raise _, w1) => (Raise "ValueError"%string, w1)
  | (Ok i, w1) => dropping i (writes_each (fun s => unheeded (write i s)) features) w1
  end)).
(** Whether a path ends with .shp (_shp.py:370). *)
Definition ends_shp (p : string) : bool :=
  Nat.leb 4 (String.length p) && String.eqb (substring (String.length p - 4) 4 p) ".shp".
(** _shp.py:370-371, the path with its ending. *)
Definition shp_path (p : string) : string := if ends_shp p then p else (p ++ ".shp")%string.
(** _shp.py:360-374 [write_shapefile], [to_shapefile]: the interface of every geometry is made
    first ([interfaces] is an error if one cannot be made); the path gets its ending in
    [to_shapefile] only, [method] says which it is.  Without any geometry [objs[0]] is an
    IndexError. *)
Definition to_shapefile (method : bool) (p : string) (interfaces : outcome (list (outcome (list A)))) (setup : outcome unit) : stm unit :=
  seq_ (given interfaces) (fun features =>
  ogr_write (if method then shp_path p else p) (match features with [] => Raise "IndexError"%string | _ => setup end) features).
(** _gdal.py:197-252 [write]: the type of the values is looked up first; then the file is made,
    then [system] (_gdal.py:190-195, 241-242) and the bands. *)
Definition to_geotiff (p : string) (type : outcome unit) (system : outcome unit) (bands : list (outcome (list A))) : stm unit :=
  seq_ (given type) (fun _ =>
  seq_ (open_w p) (fun i =>
  dropping i (seq_ (given system) (fun _ => writes_each (write i) bands)))).

(** One export, as the caller asks for it. _geojson.py:105, _gpx.py:307, grid.py:1084,
    _shp.py:360-374, grid.py:1066. *)
Inductive export : Type :=
| EGeojson (f : target) (text : outcome (list A))
| EGpx (p : string) (text : outcome (list A))
| EAai (render : list Aai_Model.word -> list A) (f : target) (lines : Aai_Model.outcome (list (list Aai_Model.word))) (filled : outcome unit)
| EShapefile (method : bool) (p : string) (interfaces : outcome (list (outcome (list A)))) (setup : outcome unit)
| EGeotiff (p : string) (type system : outcome unit) (bands : list (outcome (list A))).
(** The call of one export, _geojson.py:105-135 and so on. *)
Definition call (e : export) : stm unit :=
  match e with
  | EGeojson f text => to_geojson f text
  | EGpx p text => writefile p text
  | EAai render f lines filled => to_aai render f lines filled
  | EShapefile m p fs setup => to_shapefile m p fs setup
  | EGeotiff p t s bs => to_geotiff p t s bs
  end.
(** A history of exports; each one that raises is caught by the caller. _geojson.py:105-135. *)
Fixpoint calls (es : list export) (w : world) : list (outcome unit) * world :=
  match es with
  | [] => ([], w)
  | e :: es' => let (r, w1) := call e w in let (rs, w2) := calls es' w1 in (r :: rs, w2)
  end.
End Model.
Arguments handle A : clear implicits. Arguments stream A : clear implicits. Arguments world A : clear implicits.
Arguments disk_t A : clear implicits. Arguments export A : clear implicits.
