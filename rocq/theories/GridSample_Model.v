(** Model of sampling, merging and gridding, karta/raster/grid.py and
    karta/raster/crfuncs.pyx. *)
From Coq Require Import List ZArith QArith Qround Qabs Bool.
From Verif Require Import Band_Model Band_IndexModel Grid_Model.
Import ListNotations.
Open Scope Z_scope.

Section Nearest.
Variable V : Type.
Variable junk : Z -> Z -> V.

(** grid.py:854-859 [sample_nearest] of one point: the nodata value, or the
    vector of band values.  Where [positions] divides by zero the result of the
    C code is unspecified; it is reported as ValueError. *)
Definition sample_nearest1 (g : grid V) (x y : Q) : res (V + list V) :=
  let (m, n) := gsize g in
  match indices_ (gT g) x y with
  | None => Err ValueError
  | Some (i, j) =>
      if (0 <=? i) && (i <? m) && (0 <=? j) && (j <? n)
      then bind (getitem junk (gbands g) (KeyTuple [KInt i; KInt j])) (fun v =>
           Ok (inr (map (fun k => elt v [k]) (zrange 0 (Z.of_nat (length (gbands g)))))))
      else Ok (inl (gnodata g))
  end.

(** Indexing arrays with arrays of indices (grid.py:861-892): all of them, or none if one
    fails. *)
Fixpoint option_all {A} (l : list (option A)) : option (list A) :=
  match l with
  | [] => Some []
  | None :: _ => None
  | Some a :: l' => match option_all l' with Some r => Some (a :: r) | None => None end
  end.
(** numpy's min of the indices, grid.py:861-892. *)
Definition zmin (l : list Z) (d : Z) : Z := fold_left Z.min l d.
(** numpy's max of the indices, grid.py:861-892. *)
Definition zmax (l : list Z) (d : Z) : Z := fold_left Z.max l d.

(** grid.py:861-892 [sample_nearest] of a vector of points: the array
    [data.reshape(nbands, npoints)].  [I.min()] of no points is a ValueError. *)
Definition sample_nearest (g : grid V) (pts : list (Q * Q)) : res (arr V) :=
  let (m, n) := gsize g in
  let nb := Z.of_nat (length (gbands g)) in
  match option_all (map (fun p => indices_ (gT g) (fst p) (snd p)) pts) with
  | None => Err ValueError
  | Some ij =>
      let inb (p : Z * Z) := (0 <=? fst p) && (fst p <? m) && (0 <=? snd p) && (snd p <? n) in
      match filter inb ij with
      | [] => Err ValueError
      | p0 :: rest =>
          let Imn := Z.max (zmin (map fst rest) (fst p0) - 1) 0 in
          let Imx := Z.min (zmax (map fst rest) (fst p0) + 1) m in
          let Jmn := Z.max (zmin (map snd rest) (snd p0) - 1) 0 in
          let Jmx := Z.min (zmax (map snd rest) (snd p0) + 1) n in
          bind (getitem junk (gbands g) (KeyTuple [sl Imn Imx; sl Jmn Jmx; full])) (fun win =>
          let data := map (fun p => map (fun k =>
                        if inb p then elt win [fst p - Imn; snd p - Jmn; k] else gnodata g)
                        (zrange 0 nb)) ij in
          let np := Z.of_nat (length pts) in
          Ok (mkA nb np (fun b p => nth (Z.to_nat (b * np + p)) (concat data) (gnodata g))))
      end
  end.
End Nearest.
Arguments sample_nearest1 {V}. Arguments sample_nearest {V}.

(** Numbers of a floating point band: exact rationals and nan. crfuncs.pyx:118-195,
    grid.py:389-463. *)
Notation fl := (option Q).
(** Addition, with nan (crfuncs.pyx:153-154). *)
Definition fadd (a b : fl) : fl :=
  match a, b with Some p, Some q => Some (p + q)%Q | _, _ => None end.
(** Multiplication by a weight, with nan (crfuncs.pyx:153-154). *)
Definition fscale (a : fl) (q : Q) : fl := match a with Some p => Some (p * q)%Q | None => None end.
(** [isnan] (grid.py:465-472, 1209-1219). *)
Definition fnan (a : fl) : bool := match a with None => true | _ => false end.
(** [==] of floats; nan equals nothing (grid.py:465-472). *)
Definition feq (a b : fl) : bool :=
  match a, b with Some p, Some q => Qeq_bool p q | _, _ => false end.

(** crfuncs.pyx:132-150: the two rows (or columns) around position [i]. *)
Definition around (i : Q) : Z * Z :=
  if negb (Qeq_bool (i - inject_Z (Qfloor i)) 0) then (Qfloor i, Qfloor i + 1)
  else if negb (Qeq_bool i 0) then (Qfloor i - 1, Qfloor i)
  else (Qfloor i, Qfloor i + 1).

(** crfuncs.pyx:153-154: the weighted sum. *)
Definition blend (z00 z10 z01 z11 : fl) (i j : Q) (i0 i1 j0 j1 : Z) : fl :=
  fadd (fadd (fadd (fscale (fscale z00 (inject_Z i1 - i)) (inject_Z j1 - j))
                   (fscale (fscale z10 (i - inject_Z i0)) (inject_Z j1 - j)))
             (fscale (fscale z01 (inject_Z i1 - i)) (j - inject_Z j0)))
       (fscale (fscale z11 (i - inject_Z i0)) (j - inject_Z j0)).

(** crfuncs.pyx:118-157 [sample_bilinear_double], one point. *)
Definition bilinear_double (Z_ : arr fl) (na : fl) (i j : Q) : fl :=
  let (i0, i1) := around i in
  let (j0, j1) := around j in
  if (0 <=? i0) && (i1 <? nrow Z_) && (0 <=? j0) && (j1 <? ncol Z_)
  then blend (at_ Z_ i0 j0) (at_ Z_ i1 j0) (at_ Z_ i0 j1) (at_ Z_ i1 j1) i j i0 i1 j0 j1
  else na.

(** C conversion of a double to an integer. crfuncs.pyx:35-116. *)
Definition ctrunc (q : Q) : Z := if Qle_bool 0 q then Qfloor q else Qceiling q.
(** That conversion, leaving nan (crfuncs.pyx:35-116). *)
Definition ftrunc (a : fl) : fl := match a with Some q => Some (inject_Z (ctrunc q)) | None => None end.

(** crfuncs.pyx:35-76 [sample_bilinear_uint]. *)
Definition bilinear_uint (Z_ : arr fl) (na : fl) (i j : Q) : fl :=
  let (i0, i1) := around i in
  let (j0, j1) := around j in
  if (0 <=? i0) && (i1 <? nrow Z_) && (0 <=? j0) && (j1 <? ncol Z_)
  then ftrunc (blend (at_ Z_ i0 j0) (at_ Z_ i1 j0) (at_ Z_ i0 j1) (at_ Z_ i1 j1) i j i0 i1 j0 j1)
  else na.

(** crfuncs.pyx:78-116 [sample_bilinear_int]: no test of the indices; Cython
    wraps negative ones and raises IndexError beyond the end. *)
Definition cell_at (Z_ : arr fl) (i j : Z) : res fl :=
  bind (py_index (nrow Z_) i) (fun i =>
  bind (py_index (ncol Z_) j) (fun j => Ok (at_ Z_ i j))).
(** crfuncs.pyx:78-116 [sample_bilinear_int]. *)
Definition bilinear_int (Z_ : arr fl) (i j : Q) : res fl :=
  let (i0, i1) := around i in
  let (j0, j1) := around j in
  bind (cell_at Z_ i0 j0) (fun z00 =>
  bind (cell_at Z_ i1 j0) (fun z10 =>
  bind (cell_at Z_ i0 j1) (fun z01 =>
  bind (cell_at Z_ i1 j1) (fun z11 =>
  Ok (ftrunc (blend z00 z10 z01 z11 i j i0 i1 j0 j1)))))).

(** The kinds of dtypes told apart at grid.py:944-958. *)
Inductive dtype := DFloat | DInt | DUint.

Section Grids.
Variable junk : Z -> Z -> fl.

(** grid.py:951-958: the loop body for band k; [squeeze] of an array with an
    axis of length one leaves fewer than two axes, which the Cython functions
    reject with ValueError. *)
Definition bilinear_band (g : grid fl) (dt : dtype) (w : option (Z * Z * Z * Z))
    (ij : list (Q * Q)) (k : Z) : res (list fl) :=
  let ki := match w with Some (a, b, _, _) => sl a b | None => full end in
  let kj := match w with Some (_, _, c, d) => sl c d | None => full end in
  bind (getitem junk (gbands g) (KeyTuple [ki; kj; KInt k])) (fun v =>
  match shp v with
  | [h; wd] =>
      if (h =? 1) || (wd =? 1) then Err ValueError
      else
        let A := mkA h wd (fun i j => elt v [i; j]) in
        match dt with
        | DFloat => Ok (map (fun p => bilinear_double A (gnodata g) (fst p) (snd p)) ij)
        | DUint => Ok (map (fun p => bilinear_uint A (gnodata g) (fst p) (snd p)) ij)
        | DInt => mapM (fun p => bilinear_int A (fst p) (snd p)) ij
        end
  | _ => Err ValueError
  end).

(** numpy's min of the coordinates, grid.py:894-969. *)
Definition qminl (l : list Q) (d : Q) : Q := fold_left qmin l d.
(** numpy's max of the coordinates, grid.py:894-969. *)
Definition qmaxl (l : list Q) (d : Q) : Q := fold_left qmax l d.

(** grid.py:894-969 [sample_bilinear] of a vector of points; one list per band. *)
Definition sample_bilinear (g : grid fl) (dt : dtype) (pts : list (Q * Q)) : res (list (list fl)) :=
  let (m, n) := gsize g in
  match option_all (map (fun p => positions (gT g) (fst p) (snd p)) pts) with
  | None => Err ValueError
  | Some [] => Err ValueError
  | Some [p] => mapM (bilinear_band g dt None [p]) (zrange 0 (Z.of_nat (length (gbands g))))
  | Some (p0 :: rest) =>
      let Imn := Z.max (Qfloor (qminl (map fst rest) (fst p0)) - 1) 0 in
      let Imx := Z.min (Qceiling (qmaxl (map fst rest) (fst p0) + 1)) m in
      let Jmn := Z.max (Qfloor (qminl (map snd rest) (snd p0)) - 1) 0 in
      let Jmx := Z.min (Qceiling (qmaxl (map snd rest) (snd p0) + 1)) n in
      let ij := map (fun p => ((fst p - inject_Z Imn)%Q, (snd p - inject_Z Jmn)%Q)) (p0 :: rest) in
      mapM (bilinear_band g dt (Some (Imn, Imx, Jmn, Jmx)) ij) (zrange 0 (Z.of_nat (length (gbands g))))
  end.

(** grid.py:1216 and 1218: [A[oy:oy+h, ox:ox+w][mask] += vals] for an h x w
    mask and values; the shapes must agree. *)
Definition add_masked (A : arr fl) (oy ox h w : Z) (mask : Z -> Z -> bool) (vals : Z -> Z -> fl)
  : res (arr fl) :=
  let r0 := clamp (nrow A) oy in
  let c0 := clamp (ncol A) ox in
  if (sl_len (nrow A) oy (oy + h) =? h) && (sl_len (ncol A) ox (ox + w) =? w)
  then Ok (mkA (nrow A) (ncol A) (fun i j =>
         if (r0 <=? i) && (i <? r0 + h) && (c0 <=? j) && (j <? c0 + w) && mask (i - r0) (j - c0)
         then fadd (at_ A i j) (vals (i - r0) (j - c0)) else at_ A i j))
  else Err IndexError.

(** grid.py:1209-1219: add the grids to (counts, values) for one band. *)
Fixpoint add_grids (T : transform) (xmin ymin : Q) (iband : Z) (l : list (grid fl * Q))
    (cv : arr fl * arr fl) : res (arr fl * arr fl) :=
  match l with
  | [] => Ok cv
  | (g, weight) :: l' =>
      let (ny, nx) := gsize g in
      let '(gx, _, gy, _) := extent (gT g) ny nx false in
      let offx := ctrunc ((gx - xmin) / dx T)%Q in
      let offy := ctrunc ((gy - ymin) / dy T)%Q in
      bind (data_mask junk fnan feq g) (fun m =>
      match m with
      | Mask2 h w f =>
          bind (add_masked (fst cv) offy offx h w f (fun _ _ => Some weight)) (fun counts =>
          bind (py_index (Z.of_nat (length (gbands g))) iband) (fun k =>
          match nth_error (gbands g) (Z.to_nat k) with
          | None => Err IndexError
          | Some b =>
              bind (getblock junk b 0 0 (fst (bsize b)) (snd (bsize b))) (fun blk =>
              bind (add_masked (snd cv) offy offx h w f (fun i j => fscale (at_ blk i j) weight))
                   (fun values => add_grids T xmin ymin iband l' (counts, values)))
          end))
      | _ => Err IndexError
      end)
  end.

(** grid.py:1205-1227: one band of the mosaic. *)
Definition merge_band (T : transform) (xmin ymin : Q) (ny nx : Z) (nodata : fl)
    (l : list (grid fl * Q)) (iband : Z) : res (band fl) :=
  bind (np_full ny nx (Some 0%Q)) (fun zeros =>
  bind (add_grids T xmin ymin iband l (zeros, zeros)) (fun cv =>
  let out := mkA ny nx (fun i j =>
    match at_ (fst cv) i j with
    | Some c => if Qeq_bool c 0 then nodata
                else match at_ (snd cv) i j with Some v => Some (v / c)%Q | None => None end
    | None => None
    end) in
  setblock_ (BComp (cb_init ny nx 256 256 nodata)) 0 0 out)).

(** grid.py:1168-1176, whether two transforms have the same spacing and skew. *)
Definition same_stretch (S T : transform) : bool :=
  Qeq_bool (dx S) (dx T) && Qeq_bool (dy S) (dy T) && Qeq_bool (sx S) (sx T) && Qeq_bool (sy S) (sy T).
(** [x % 1], grid.py:1177-1188. *)
Definition frac (q : Q) : Q := (q - inject_Z (Qfloor q))%Q.
(** 1e-15 The tolerance of grid.py:1177-1188. *)
Definition eps : Q := 1 # 1000000000000000.

(** grid.py:1190-1196: union of two extents. *)
Definition join_extent (a b : Q * Q * Q * Q) : Q * Q * Q * Q :=
  let '(x, x', y, y') := a in
  let '(u, u', v, v') := b in (qmin x u, qmax x' u', qmin y v, qmax y' v').

(** grid.py:1141-1231 [merge]; GridError is reported as TypeError.  The dtype
    of the first grid is taken to be a floating point one (adding fractions to
    an integer array raises), and counts are not rounded to float32. *)
Definition merge (grids : list (grid fl)) (weights : list Q) : res (grid fl) :=
  match grids with
  | [] => Err IndexError
  | g0 :: rest =>
      let T := gT g0 in
      if negb (forallb (fun g => same_stretch (gT g) T) rest) then Err TypeError
      else if Qeq_bool (dx T) 0 || Qeq_bool (dy T) 0 then Err ZeroDivisionError
      else if existsb (fun g => negb (Qle_bool (frac ((x0 (gT g) - x0 T) / dx T)) eps)
                             || negb (Qle_bool (frac ((y0 (gT g) - y0 T) / dy T)) eps)) rest
      then Err ValueError
      else if negb (forallb (fun g => Nat.eqb (length (gbands g)) (length (gbands g0))) rest)
      then Err ValueError
      else
        let total := fold_right Qplus 0%Q weights in
        let nw := map (fun w => (w * inject_Z (Z.of_nat (length weights)) / total)%Q) weights in
        let ext g := let (ny, nx) := gsize g in extent (gT g) ny nx false in
        let '(xmin, xmax, ymin, ymax) := fold_left (fun a g => join_extent a (ext g)) rest (ext g0) in
        let nx := rint ((xmax - xmin) / dx T)%Q in
        let ny := rint ((ymax - ymin) / dy T)%Q in
        bind (mapM (merge_band T xmin ymin ny nx (gnodata g0) (combine grids nw))
                   (zrange 0 (Z.of_nat (length (gbands g0))))) (fun bands =>
        Ok (mkG (mkT xmin ymin (dx T) (dy T) (sx T) (sy T)) bands ClsComp (gnodata g0)))
  end.

(** crfuncs.pyx:159-195 [fillarray_double]: sums and counts of the points in
    each cell, then the mean. *)
Definition fill_sum (l : list (Z * Z * Q)) (i j : Z) : Q :=
  fold_left (fun s p => if (fst (fst p) =? i) && (snd (fst p) =? j) then (s + snd p)%Q else s) l 0%Q.
(** crfuncs.pyx:161-195, the number of points in a cell. *)
Definition fill_count (l : list (Z * Z * Q)) (i j : Z) : Z :=
  fold_left (fun s p => if (fst (fst p) =? i) && (snd (fst p) =? j) then s + 1 else s) l 0.
(** crfuncs.pyx:161-195 [fillarray_double]. *)
Definition fillarray (ny nx : Z) (l : list (Z * Z * Q)) : arr fl :=
  mkA ny nx (fun i j =>
    if negb (fill_count l i j =? 0)
    then Some (fill_sum l i j / inject_Z (fill_count l i j))%Q else None).

(** grid.py:1259-1302 [gridpoints]; points are (x, y, z). *)
Definition gridpoints (T : transform) (pts : list (Q * Q * Q)) : res (grid fl) :=
  match pts with
  | [] => Err ValueError
  | p0 :: rest =>
      if Qeq_bool (dx T) 0 || Qeq_bool (dy T) 0 then Err ZeroDivisionError
      else
        let xs := map (fun p => fst (fst p)) in
        let ys := map (fun p => snd (fst p)) in
        let ny := Qfloor ((qmaxl (ys rest) (snd (fst p0)) - y0 T) / dy T)%Q + 1 in
        let nx := Qfloor ((qmaxl (xs rest) (fst (fst p0)) - x0 T) / dx T)%Q + 1 in
        bind (np_empty junk ny nx) (fun e =>
        bind (make_grid junk (Some 0%Q) ClsComp T (mkN [ny; nx] (fun idx =>
                match idx with [i; j] => at_ e i j | _ => None end)) None) (fun g =>
        match option_all (map (fun p => indices_ T (fst (fst p)) (snd (fst p))) pts) with
        | None => Err ValueError
        | Some ij =>
            if existsb (fun p => (fst p <? 0) || (ny - 1 <? fst p) || (snd p <? 0) || (nx - 1 <? snd p)) ij
            then Err IndexError
            else
              let A := fillarray ny nx (combine ij (map snd pts)) in
              match setitem (gbands g) (KeyTuple [full; full; KInt 0]) true
                      (mkN [ny; nx] (fun idx => match idx with [i; j] => at_ A i j | _ => None end)) with
              | (bands, None) => Ok (mkG (gT g) bands (gcls g) (gnodata g))
              | (_, Some e) => Err e
              end
        end))
  end.

(** grid.py:427-448, one row of [data_extent] of a single-band grid.  Only lx, rx, by, ty
    are returned, so the companions bx, tx, ly, ry are left out. *)
Definition extent_row (T : transform) (isdata : fl -> bool) (i : Z) (row : list fl)
    (acc : Q * Q * Q * Q) : Q * Q * Q * Q :=
  let '(lx, rx, b_, ty) := acc in
  let sel := filter (fun jv => isdata (snd jv)) (enumerate row) in
  let xa := (x0 T + half * dx T + half * sx T)%Q in
  let ya := (y0 T + half * dy T + half * sy T)%Q in
  let xs := map (fun jv => (xa + inject_Z (fst jv) * dx T + inject_Z i * sx T)%Q) sel in
  let ys := map (fun jv => (ya + inject_Z i * dy T + inject_Z (fst jv) * sy T)%Q) sel in
  match xs, ys with
  | x :: xs', y :: ys' =>
      let xmax := qmaxl xs' x in let xmin := qminl xs' x in
      let ymax := qmaxl ys' y in let ymin := qminl ys' y in
      ((if negb (Qle_bool lx xmin) then xmin else lx),
       (if negb (Qle_bool xmax rx) then xmax else rx),
       (if negb (Qle_bool b_ ymin) then ymin else b_),
       (if negb (Qle_bool ymax ty) then ymax else ty))
  | _, _ => acc
  end.
(** grid.py:389-463, the loops over the rows and columns. *)
Definition data_extent_rows (T : transform) (ny nx : Z) (isdata : fl -> bool) (rows : list (list fl))
    (center : bool) : Q * Q * Q * Q :=
  let xa := (x0 T + half * dx T + half * sx T)%Q in
  let ya := (y0 T + half * dy T + half * sy T)%Q in
  let '(lx, rx, b_, ty) :=
    fold_left (fun acc ir => extent_row T isdata (fst ir) (snd ir) acc) (enumerate rows)
      ((xa + inject_Z nx * dx T)%Q, ya, (ya + inject_Z ny * dy T)%Q, ya) in
  if center then (lx, rx, b_, ty)
  else ((lx - (half * dx T - half * sx T))%Q, (rx + (half * dx T + half * sx T))%Q,
        (b_ - (half * dy T - half * sy T))%Q, (ty + (half * dy T + half * sy T))%Q).
(** grid.py:389-463 [data_extent].  A row of [self[:,:]] has one column per band; squeezed and
    compared it selects from a vector, which numpy refuses with an IndexError (line 428) if there
    are several bands. *)
Definition data_extent (g : grid fl) (center : bool) : res (Q * Q * Q * Q) :=
  let (ny, nx) := gsize g in
  bind (getitem junk (gbands g) (KeyTuple [full; full])) (fun a =>
  if (0 <? ny) && negb (Nat.eqb (length (gbands g)) 1) then Err IndexError else
  let rows := map (fun i => map (fun j => elt a [i; j; 0]) (zrange 0 nx)) (zrange 0 ny) in
  Ok (data_extent_rows (gT g) ny nx (isdata fnan feq (gnodata g)) rows center)).
End Grids.

(** grid.py:724-760 [resample] with method 'nearest'.  The coordinate arrays
    are flattened for sampling; a two-dimensional result (of a coordinate array
    with one axis) is taken for a plane. *)
Definition resample_nearest {V} (junk : Z -> Z -> V) (v0 : V) (g : grid V) (dx' dy' : Q)
  : res (grid V) :=
  if Qle_bool dx' 0 || Qle_bool dy' 0 then Err ValueError
  else
    let T := gT g in
    let (m, n) := gsize g in
    let '(xmin, xmax, ymin, ymax) := extent T m n true in
    let ny := Qfloor ((ymax - ymin) / dy')%Q + 1 in
    let nx := Qfloor ((xmax - xmin) / dx')%Q + 1 in
    let tnew := mkT (xmin - half * dx' - half * sx T) (ymin - half * dy' - half * sy T)
                    dx' dy' (sx T) (sy T) in
    bind (coord_getitem tnew ny nx full full) (fun xy =>
    match shp xy with
    | [a; b] =>
        bind (sample_nearest junk g (map (fun p => elt xy [fst p; snd p]) (cells a b))) (fun d =>
        make_grid junk v0 ClsComp tnew
          (mkN [a; b; nrow d] (fun idx => match idx with
             | [i; j; k] => at_ d k (i * b + j) | _ => v0 end)) (gnodata g))
    | [a] =>
        bind (sample_nearest junk g (map (fun i => elt xy [i]) (zrange 0 a))) (fun d =>
        make_grid junk v0 ClsComp tnew
          (mkN [nrow d; a] (fun idx => match idx with
             | [i; j] => at_ d i j | _ => v0 end)) (gnodata g))
    | _ => Err ValueError
    end).
