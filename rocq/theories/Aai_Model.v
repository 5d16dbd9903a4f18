(** Model of ESRI ASCII grids: [RegularGrid.to_aai] (karta/raster/grid.py), karta/raster/_aai.py
    and [read_aai] (karta/raster/read.py).  A file is a list of lines and a line a list of
    words; a word is a header key (in any case), a number, or a number with square brackets
    stuck to it, which [float] refuses.  The text of a number is identified with the number: Python 3 writes floats so that reading restores them.
    Numbers are rationals, and None stands for nan. *)
From Coq Require Import List ZArith QArith Bool Arith.
Import ListNotations.
Open Scope Q_scope.

(** A cell value of a grid (grid.py:1121) or of a data line (_aai.py:48-50): a rational number,
    or nan. *)
Notation cell := (option Q) (only parsing).
(** _aai.py:15-17, the keys a header line may begin with. *)
Inductive key : Type := NROWS | NCOLS | YLLCENTER | XLLCENTER | YLLCORNER | XLLCORNER | CELLSIZE | NODATA_VALUE.
(** A word of a line of the file (_aai.py:14-24, 48-50; grid.py:1115-1139): a key, a number, or
    a number with a bracket before it, after it or both. *)
Inductive word : Type := Key (k : key) | Num (x : cell) | Bracketed (before after : bool) (x : cell).
(** A line of the file, split at white space (_aai.py:14, 48). *)
Notation line := (list word) (only parsing).

(** The part of a single-band [RegularGrid] used here: the transform (x0, y0, dx, dy, sx, sy)
    and the rows of values of its band. grid.py:114-194 [RegularGrid.__init__]. *)
Record grid : Type := Grid { g_x0 : Q; g_y0 : Q; g_dx : Q; g_dy : Q; g_sx : Q; g_sy : Q; g_rows : list (list cell) }.

(** The exceptions of _aai.py:5-82 and grid.py:1084-1139. *)
Inductive aai_error : Type := GridError | ValueError | KeyError | IndexError.
(** What [read_aai] (read.py:9-21) or [to_aai] (grid.py:1084-1139) does: it returns or raises. *)
Inductive outcome (A : Type) : Type := Ok (v : A) | Raise (e : aai_error).
Arguments Ok {A}. Arguments Raise {A}.

(** The argument [reference] of grid.py:1084 [to_aai]. *)
Inductive refkind : Type := Center | Corner.

(** grid.py:258-269 [center_llref], [corner_llref]. *)
Definition center_llref (g : grid) : Q * Q := (g_x0 g + (1 # 2) * (g_dx g + g_sx g), g_y0 g + (1 # 2) * (g_dy g + g_sy g)).
(** grid.py:265-269 [corner_llref]. *)
Definition corner_llref (g : grid) : Q * Q := (g_x0 g, g_y0 g).
(** grid.py:1121, nan replaced by the number that stands for it. *)
Definition fill (nodata : Q) (c : cell) : cell := match c with None => Some nodata | Some x => Some x end.
(** The number of rows and columns ([bands[0].size]). grid.py:1111-1115. *)
Definition nrows (g : grid) : nat := length (g_rows g).
(** The number of columns, grid.py:1111-1115. *)
Definition ncols (g : grid) : nat := length (hd [] (g_rows g)).

(** grid.py:1135, the end of [str] of the list of the values of a cell, without commas. *)
Fixpoint last_words (c : cell) (cs : list cell) : line :=
  match cs with [] => [Bracketed false true c] | d :: cs' => Num c :: last_words d cs' end.
(** grid.py:1135, [str(row).replace(',','')] for one cell of the row, the list of its values
    band by band: [[1.0]] gives the word with both brackets, [[1.0, 2.0]] two words with one each.
    There is no cell without bands. *)
Definition cell_words (cs : list cell) : line :=
  match cs with [] => [] | [c] => [Bracketed true true c] | c :: d :: cs' => Bracketed true false c :: last_words d cs' end.
(** grid.py:1135-1136, a line of data; [1:-1] takes away the brackets of the row, not those of
    its cells. *)
Definition row_words (row : list (list cell)) : line := concat (map cell_words row).

(** grid.py:1084-1139 [RegularGrid.to_aai], the lines written; the argument [reference] is
    'center' or 'corner'.  [sx != sy != 0.0] means sx != sy and sy != 0.  [values] is
    [self[:,:]], an array of three dimensions: a list of bands for each cell. *)
Definition to_aai_bands (g : grid) (values : list (list (list cell))) (reference : refkind) (nodata : Q) : outcome (list line) :=
  if negb (Qeq_bool (g_dx g) (g_dy g)) then Raise GridError
  else if negb (Qeq_bool (g_sx g) (g_sy g)) && negb (Qeq_bool (g_sy g) 0) then Raise GridError
  else
    let num n := Num (Some (inject_Z (Z.of_nat n))) in
    let refs := match reference with
      | Center => [[Key XLLCENTER; Num (Some (fst (center_llref g)))]; [Key YLLCENTER; Num (Some (snd (center_llref g)))]]
      | Corner => [[Key XLLCORNER; Num (Some (fst (corner_llref g)))]; [Key YLLCORNER; Num (Some (snd (corner_llref g)))]]
      end in
    Ok ([[Key NCOLS; num (ncols g)]; [Key NROWS; num (nrows g)]] ++ refs
        ++ [[Key CELLSIZE; Num (Some (g_dx g))]; [Key NODATA_VALUE; Num (Some nodata)]]
        ++ map (fun row => row_words (map (map (fill nodata)) row)) values).
(** band.py:76-110, [self[:,:]] of a grid with one band: a key of two items keeps the third
    dimension, so each cell is a list of one value. *)
Definition one_band (g : grid) : list (list (list cell)) := map (map (fun c => [c])) (g_rows g).
(** grid.py:1084-1139 [RegularGrid.to_aai] of a grid with one band. *)
Definition to_aai (g : grid) (reference : refkind) (nodata : Q) : outcome (list line) :=
  to_aai_bands g (one_band g) reference nodata.

(** _aai.py:11-24, header lines and data lines; IndexError at the end of the file or at an
    empty line. *)
Fixpoint split_header (f : list line) : outcome (list line * list line) :=
  match f with
  | [] => Raise IndexError
  | [] :: _ => Raise IndexError
  | (Key k :: r) :: f' => match split_header f' with Ok (h, d) => Ok ((Key k :: r) :: h, d) | Raise e => Raise e end
  | (Num _ :: _) :: _ => Ok ([], f)
  | (Bracketed _ _ _ :: _) :: _ => Ok ([], f)
  end.
(** _aai.py:27-28, the dictionary of the header: a key is followed by exactly one number. *)
Fixpoint header_dict (h : list line) : outcome (list (key * cell)) :=
  match h with
  | [] => Ok []
  | [Key k; Num x] :: h' => match header_dict h' with Ok d => Ok ((k, x) :: d) | Raise e => Raise e end
  | _ => Raise ValueError
  end.
(** Equality of keys of the header, as a dictionary compares them (_aai.py:27-28). *)
Definition key_eqb (a b : key) : bool :=
  match a, b with
  | NROWS, NROWS | NCOLS, NCOLS | YLLCENTER, YLLCENTER | XLLCENTER, XLLCENTER | YLLCORNER, YLLCORNER
  | XLLCORNER, XLLCORNER | CELLSIZE, CELLSIZE | NODATA_VALUE, NODATA_VALUE => true
  | _, _ => false
  end.
(** Looking a key up: the last line with the key counts. Used for _aai.py:30-82. *)
Fixpoint dict_get (k : key) (d : list (key * cell)) : option cell :=
  match d with
  | [] => None
  | (k', v) :: d' => match dict_get k d' with Some w => Some w | None => if key_eqb k k' then Some v else None end
  end.
(** Arithmetic with nan. Subtraction in _aai.py:58-82. *)
Definition nan_minus (a b : cell) : cell := match a, b with Some x, Some y => Some (x - y) | _, _ => None end.
(** Division by two in _aai.py:58-82; nan stays nan. *)
Definition nan_half (a : cell) : cell := match a with Some x => Some (x / 2) | None => None end.
(** The comparison with the number that stands for nan, _aai.py:51 and read.py:20; nan equals
    nothing. *)
Definition nan_eqb (a b : cell) : bool := match a, b with Some x, Some y => Qeq_bool x y | _, _ => false end.
(** _aai.py:58-82 [check_header], the corner reference it leaves in the header (the center
    takes precedence). *)
Definition check_corner (center corner : option cell) (d : cell) : outcome cell :=
  match center with
  | Some c => Ok (nan_minus c (nan_half d))
  | None => match corner with Some c => Ok c | None => Raise ValueError end
  end.
(** _aai.py:48-50, a data line as a row of numbers. *)
Fixpoint data_row (l : line) : outcome (list cell) :=
  match l with
  | [] => Ok []
  | Num x :: l' => match data_row l' with Ok r => Ok (x :: r) | Raise e => Raise e end
  | Key _ :: _ => Raise ValueError
  | Bracketed _ _ _ :: _ => Raise ValueError
  end.
(** _aai.py:48-50, the data lines one after the other. *)
Fixpoint data_rows (ls : list line) : outcome (list (list cell)) :=
  match ls with
  | [] => Ok []
  | l :: ls' => match data_row l, data_rows ls' with Ok r, Ok rs => Ok (r :: rs) | Raise e, _ => Raise e | _, Raise e => Raise e end
  end.
(** _aai.py:51 and read.py:20, the numbers that stand for nan. *)
Definition mask (nodata c : cell) : cell := if nan_eqb c nodata then None else c.
(** _aai.py:5-53 [aairead] and read.py:9-21 [read_aai]: the grid, whose georeference may be
    nan.  Lines of unequal length (which numpy refuses) are not modelled. *)
Definition read_aai (f : list line) : outcome (cell * cell * cell * list (list cell)) :=
  match split_header f with
  | Raise e => Raise e
  | Ok (h, data) =>
    match header_dict h with
    | Raise e => Raise e
    | Ok hdr =>
      match dict_get NCOLS hdr, dict_get NROWS hdr with
      | Some _, Some _ =>
        let nodata := match dict_get NODATA_VALUE hdr with Some v => v | None => Some (- (9999)) end in
        match dict_get CELLSIZE hdr with
        | None => Raise ValueError
        | Some d =>
          match check_corner (dict_get YLLCENTER hdr) (dict_get YLLCORNER hdr) d with
          | Raise e => Raise e
          | Ok y =>
            match check_corner (dict_get XLLCENTER hdr) (dict_get XLLCORNER hdr) d with
            | Raise e => Raise e
            | Ok x =>
              match data_rows data with
              | Raise e => Raise e
              | Ok rows => Ok (x, y, d, rev (map (map (mask nodata)) rows))
              end
            end
          end
        end
      | _, _ => Raise KeyError
      end
    end
  end.
(** What [read_aai] makes of it: a grid with dx = dy = cellsize and no skew (read.py:14-21);
    None if the georeference is nan. *)
Definition read_grid (f : list line) : outcome (option grid) :=
  match read_aai f with
  | Raise e => Raise e
  | Ok (Some x, Some y, Some d, rows) => Ok (Some (Grid x y d d 0 0 rows))
  | Ok _ => Ok None
  end.
