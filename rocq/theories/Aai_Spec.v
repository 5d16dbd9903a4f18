(** What the properties of ESRI ASCII grids are stated with. *)
From Coq Require Import List ZArith QArith Bool Arith.
From Verif Require Import Aai_Model.
Import ListNotations.
Open Scope Q_scope.

(** A grid that can be written: square cells, no skew, at least one row and one column, rows
    of equal length. *)
Definition writable (g : grid) : Prop :=
  g_dx g == g_dy g /\ g_sx g == 0 /\ g_sy g == 0 /\ g_rows g <> [] /\
  exists n, (0 < n)%nat /\ Forall (fun r => length r = n) (g_rows g).
(** The value at row i and column j; None outside. *)
Definition at_ (rows : list (list cell)) (i j : nat) : option cell :=
  match nth_error rows i with Some r => nth_error r j | None => None end.
(** Two values are the same: both nan, or equal numbers. *)
Definition same_value (a b : cell) : Prop :=
  match a, b with Some x, Some y => x == y | None, None => True | _, _ => False end.
(** The same georeference. *)
Definition same_georef (g h : grid) : Prop :=
  g_x0 g == g_x0 h /\ g_y0 g == g_y0 h /\ g_dx g == g_dx h /\ g_dy g == g_dy h /\ g_sx g == g_sx h /\ g_sy g == g_sy h.
(** No value of the grid is the number that stands for nan. *)
Definition free_of (nodata : Q) (g : grid) : Prop :=
  forall i j x, at_ (g_rows g) i j = Some (Some x) -> ~ x == nodata.

(** A file as the ESRI format defines it: a header and rows from north to south. *)
Definition esri_file (nc nr x y d nodata : Q) (rows : list (list cell)) : list (list word) :=
  [[Key NCOLS; Num (Some nc)]; [Key NROWS; Num (Some nr)]; [Key XLLCORNER; Num (Some x)]; [Key YLLCORNER; Num (Some y)];
   [Key CELLSIZE; Num (Some d)]; [Key NODATA_VALUE; Num (Some nodata)]] ++ map (map Num) rows.

(** A word, and a file, with the square brackets taken away: what an editor that deletes them
    would leave. *)
Definition bare (w : word) : word := match w with Bracketed _ _ x => Num x | _ => w end.
Definition without_brackets (f : list (list word)) : list (list word) := map (map bare) f.
(** The header the format asks for. *)
Definition esri_header (nc nr : nat) (center : bool) (x y d nodata : Q) : list (list word) :=
  let n k := Num (Some (inject_Z (Z.of_nat k))) in
  [[Key NCOLS; n nc]; [Key NROWS; n nr]; [Key (if center then XLLCENTER else XLLCORNER); Num (Some x)];
   [Key (if center then YLLCENTER else YLLCORNER); Num (Some y)]; [Key CELLSIZE; Num (Some d)]; [Key NODATA_VALUE; Num (Some nodata)]].
