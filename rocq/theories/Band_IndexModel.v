(** Model of BandIndexer, karta/raster/band.py:40-223. *)
From Coq Require Import List ZArith Bool.
From Verif Require Import Band_Model.
Import ListNotations.
Open Scope Z_scope.

(** One item of a key: an integer, a slice, or anything else. *)
Inductive kitem :=
| KInt (z : Z)
| KSlice (start stop step : option Z)
| KOther.

(** A key that is not an array: a slice, a tuple, or anything else. *)
Inductive key :=
| KeySlice (start stop step : option Z)
| KeyTuple (items : list kitem)
| KeyOther.

(** Python's [slice(start, stop, step).indices(n)] (CPython's
    PySlice_AdjustIndices). *)
Definition adjust (n step dflt lo hi : Z) (v : option Z) : Z :=
  match v with
  | None => dflt
  | Some s => let s := if s <? 0 then s + n else s in
              if s <? lo then lo else if hi <? s then hi else s
  end.
Definition slice_indices (n : Z) (start stop step : option Z) : res (Z * Z * Z) :=
  let st := match step with None => 1 | Some s => s end in
  if st =? 0 then Err ValueError
  else if 0 <? st
  then Ok (adjust n st 0 0 n start, adjust n st n 0 n stop, st)
  else Ok (adjust n st (n - 1) (-1) (n - 1) start, adjust n st (-1) (-1) (n - 1) stop, st).

(** Number of elements of [range(start, stop, step)], step <> 0. *)
Definition range_len (start stop step : Z) : Z :=
  if 0 <? step then Z.max 0 (zceil (stop - start) step)
  else Z.max 0 (zceil (start - stop) (- step)).
Definition py_range (start stop step : Z) : list Z :=
  map (fun k => start + k * step) (zrange 0 (range_len start stop step)).

(** [list(range(n))[i]]-style enumeration. *)
Definition enumerate {A} (l : list A) : list (Z * A) :=
  combine (zrange 0 (Z.of_nat (length l))) l.

Section Index.
Variable V : Type.
Variable junk : Z -> Z -> V.

(** A band of the stack: SimpleBand or CompressedBand. *)
Inductive band := BSimple (A : arr V) | BComp (cb : cband V).

Definition bsize (b : band) : Z * Z :=
  match b with
  | BSimple A => (nrow A, ncol A)
  | BComp cb => (szy cb, szx cb)
  end.
Definition getblock (b : band) (yoff xoff ny nx : Z) : res (arr V) :=
  match b with
  | BSimple A => Ok (simple_getblock A yoff xoff ny nx)
  | BComp cb => cb_getblock junk cb yoff xoff ny nx
  end.
Definition setblock (b : band) (yoff xoff : Z) (a : arr V) : band * option exn :=
  match b with
  | BSimple A => match simple_setblock A yoff xoff a with
                 | Ok A' => (BSimple A', None)
                 | Err e => (b, Some e)
                 end
  | BComp cb => let (cb', e) := cb_setblock cb yoff xoff a in (BComp cb', e)
  end.

(** A numpy array of any dimension: shape and element at an index tuple. *)
Record nd := mkN { shp : list Z; elt : list Z -> V }.

(** [A[::rs, ::cs]] of a two-dimensional array, rs and cs not zero. *)
Definition stride_len (n s : Z) : Z := zceil n (Z.abs s).
Definition stride_idx (n s i : Z) : Z := if 0 <? s then i * s else n - 1 + i * s.
Definition strided (A : arr V) (rs cs : Z) : arr V :=
  mkA (stride_len (nrow A) rs) (stride_len (ncol A) cs)
      (fun i j => at_ A (stride_idx (nrow A) rs i) (stride_idx (ncol A) cs j)).

(** band.py:58-65 and 67-74: a row or column key item as
    (collapse, (start, end, step)). *)
Definition parse_item (n : Z) (it : kitem) : res (bool * (Z * Z * Z)) :=
  match it with
  | KInt z => if n =? 0 then Err ZeroDivisionError
              else Ok (true, (z mod n, z mod n + 1, 1))
  | KSlice a b c => bind (slice_indices n a b c) (fun t => Ok (false, t))
  | KOther => Err TypeError
  end.

(** band.py:76-84: the bands selected, and whether to collapse. *)
Definition parse_bands (nb : Z) (rest : list kitem) : res (bool * list Z) :=
  match rest with
  | [] => Ok (false, zrange 0 nb)
  | [KInt z] => if nb =? 0 then Err ZeroDivisionError else Ok (true, [z mod nb])
  | [KSlice a b c] => bind (slice_indices nb a b c) (fun t =>
      let '(s, e, st) := t in Ok (false, py_range s e st))
  | _ => Err TypeError
  end.

(** band.py:49-53: a key as a tuple of items. *)
Definition key_items (k : key) : res (list kitem) :=
  match k with
  | KeySlice a b c => Ok [KSlice a b c; KSlice None None None; KSlice None None None]
  | KeyTuple l => Ok l
  | KeyOther => Err TypeError
  end.

(** band.py:49-84 and 116-148: everything the key determines.  Reading
    [self.bands[0]] of an empty stack is an IndexError. *)
Definition parse_key (bands : list band) (k : key)
  : res ((bool * (Z * Z * Z)) * (bool * (Z * Z * Z)) * (bool * list Z)) :=
  bind (key_items k) (fun items =>
  match bands with
  | [] => Err IndexError
  | b0 :: _ =>
    let (ny, nx) := bsize b0 in
    match items with
    | [] => Err IndexError
    | k0 :: items' =>
      bind (parse_item ny k0) (fun r =>
      match items' with
      | [] => Err IndexError
      | k1 :: rest =>
        bind (parse_item nx k1) (fun c =>
        bind (parse_bands (Z.of_nat (length bands)) rest) (fun bs =>
        Ok (r, c, bs)))
      end)
    end
  end).

(** band.py:86-90: window (start, end) for a possibly negative step. *)
Definition window (t : Z * Z * Z) : Z * Z :=
  let '(s, e, st) := t in if st <? 0 then (e + 1, s + 1) else (s, e).

(** band.py:92-93: one entry of the shape. *)
Definition out_len (s e st : Z) : Z := 1 + (e - s - 1) / Z.abs st.

(** band.py:98-101: the planes [out[:,:,i]]; [self.bands[iband]] may fail. *)
Fixpoint read_planes (bands : list band) (ys ye yst xs xe xst : Z) (h w : Z)
    (ids : list Z) : res (list (arr V)) :=
  match ids with
  | [] => Ok []
  | ib :: ids' =>
    bind (py_index (Z.of_nat (length bands)) ib) (fun k =>
    match nth_error bands (Z.to_nat k) with
    | None => Err IndexError
    | Some b =>
      bind (getblock b ys xs (ye - ys) (xe - xs)) (fun v =>
      bind (np_empty junk h w) (fun plane =>
      bind (set2 plane 0 h 0 w (strided v yst xst)) (fun plane' =>
      bind (read_planes bands ys ye yst xs xe xst h w ids') (fun rest =>
      Ok (plane' :: rest)))))
    end)
  end.

(** The three-dimensional array made of planes. *)
Definition stack (h w : Z) (planes : list (arr V)) : nd :=
  mkN [h; w; Z.of_nat (length planes)]
      (fun idx => match idx with
                  | [i; j; k] => match nth_error planes (Z.to_nat k) with
                                 | Some p => at_ p i j
                                 | None => junk i j
                                 end
                  | _ => junk 0 0
                  end).

(** band.py:103-108: [out[:,:,0]], [out[:,0]], [out[0]]. *)
Definition drop3 (a : nd) : nd :=
  mkN (firstn 2 (shp a)) (fun idx => elt a (idx ++ [0])).
Definition drop2 (a : nd) : nd :=
  mkN (match shp a with h :: _ :: r => h :: r | s => s end)
      (fun idx => match idx with i :: r => elt a (i :: 0 :: r) | [] => elt a [] end).
Definition drop1 (a : nd) : nd :=
  mkN (tl (shp a)) (fun idx => elt a (0 :: idx)).

(** band.py:45-110 [__getitem__] for keys that are not arrays. *)
Definition getitem (bands : list band) (k : key) : res nd :=
  bind (parse_key bands k) (fun p =>
  let '((cr, (ys0, ye0, yst)), (cc, (xs0, xe0, xst)), (cbd, ids)) := p in
  let (ys, ye) := window (ys0, ye0, yst) in
  let (xs, xe) := window (xs0, xe0, xst) in
  let h := out_len ys ye yst in
  let w := out_len xs xe xst in
  bind (np_empty junk h w) (fun _ =>
  bind (read_planes bands ys ye yst xs xe xst h w ids) (fun planes =>
  let out := stack h w planes in
  let out := if cbd then drop3 out else out in
  let out := if cc then drop2 out else out in
  let out := if cr then drop1 out else out in
  Ok out))).

(** [np.atleast_3d]. *)
Definition atleast_3d (a : nd) : nd :=
  match shp a with
  | [] => mkN [1; 1; 1] (fun _ => elt a [])
  | [n] => mkN [1; n; 1] (fun idx => match idx with [_; j; _] => elt a [j] | _ => elt a [] end)
  | [m; n] => mkN [m; n; 1]
      (fun idx => match idx with [i; j; _] => elt a [i; j] | _ => elt a [] end)
  | _ => a
  end.

(** [np.broadcast_to(a, [h, w, b])] as the planes [:,:,i]. *)
Definition pick (n i : Z) : Z := if n =? 1 then 0 else i.
Definition fits (n m : Z) : bool := (n =? m) || (n =? 1).
Definition broadcast_to (a : nd) (h w b : Z) : res (Z -> arr V) :=
  if (h <? 0) || (w <? 0) || (b <? 0) then Err ValueError
  else match shp a with
  | [n0; n1; n2] =>
      if fits n0 h && fits n1 w && fits n2 b
      then Ok (fun k => mkA h w (fun i j => elt a [pick n0 i; pick n1 j; pick n2 k]))
      else Err ValueError
  | _ => Err ValueError
  end.

(** [np.reshape(np.atleast_3d(value), [1, 1, b])] of a 1-D value. *)
Definition reshape_1_1 (a : nd) (b : Z) : res (Z -> arr V) :=
  match shp a with
  | [n] => if n =? b then Ok (fun k => mkA 1 1 (fun _ _ => elt a [k])) else Err ValueError
  | _ => Err ValueError
  end.

(** band.py:163-166; [is_nd] tells whether value is an ndarray (as opposed to
    a number or a list). *)
Definition val_array (is_nd : bool) (value : nd) (h w b : Z) : res (Z -> arr V) :=
  if is_nd && (Z.of_nat (length (shp value)) =? 1) && ((h =? w) && (w =? 1))
  then reshape_1_1 value b
  else broadcast_to (atleast_3d value) h w b.

(** band.py:168-170: write plane i to the i-th selected band. *)
Fixpoint write_planes (bands : list band) (ys xs : Z) (planes : Z -> arr V)
    (l : list (Z * Z)) : list band * option exn :=
  match l with
  | [] => (bands, None)
  | (i, ib) :: l' =>
    match py_index (Z.of_nat (length bands)) ib with
    | Err e => (bands, Some e)
    | Ok k =>
      match nth_error bands (Z.to_nat k) with
      | None => (bands, Some IndexError)
      | Some b =>
        match setblock b ys xs (planes i) with
        | (b', None) => write_planes (list_upd bands (Z.to_nat k) b') ys xs planes l'
        | (b', Some e) => (list_upd bands (Z.to_nat k) b', Some e)
        end
      end
    end
  end.

(** band.py:112-172 [__setitem__] for keys that are not arrays. *)
Definition setitem (bands : list band) (k : key) (is_nd : bool) (value : nd)
  : list band * option exn :=
  match parse_key bands k with
  | Err e => (bands, Some e)
  | Ok ((_, (ys, ye, yst)), (_, (xs, xe, xst)), (_, ids)) =>
    if negb ((xst =? yst) && (yst =? 1)) then (bands, Some NotImplementedError)
    else
      let h := out_len ys ye yst in
      let w := out_len xs xe xst in
      match val_array is_nd value h w (Z.of_nat (length ids)) with
      | Err e => (bands, Some e)
      | Ok planes => write_planes bands ys xs planes (enumerate ids)
      end
  end.

(** Boolean masks.  The cells of an h x w array in the order numpy visits
    them, and those where the mask is true. *)
Definition cells (h w : Z) : list (Z * Z) :=
  flat_map (fun i => map (fun j => (i, j)) (zrange 0 w)) (zrange 0 h).
Inductive mask := Mask2 (h w : Z) (m : Z -> Z -> bool)
                | Mask3 (h w b : Z) (m : Z -> Z -> Z -> bool)
                | MaskOther.
Definition true_cells (h w : Z) (m : Z -> Z -> bool) : list (Z * Z) :=
  filter (fun p => m (fst p) (snd p)) (cells h w).

(** [a[mask]] of a three-dimensional array [a]: a list of pixels (each a list
    over the bands) for a 2-D mask, a list of values for a 3-D one. *)
Definition nd_mask (a : nd) (m : mask) : res (list (list V) + list V) :=
  match shp a, m with
  | [h; w; b], Mask2 h' w' m =>
      if (h =? h') && (w =? w')
      then Ok (inl (map (fun p => map (fun k => elt a [fst p; snd p; k]) (zrange 0 b))
                        (true_cells h w m)))
      else Err IndexError
  | [h; w; b], Mask3 h' w' b' m =>
      if (h =? h') && (w =? w') && (b =? b')
      then Ok (inr (flat_map (fun p =>
             map (fun k => elt a [fst p; snd p; k])
                 (filter (m (fst p) (snd p)) (zrange 0 b))) (cells h w)))
      else Err IndexError
  | _, _ => Err IndexError
  end.

(** band.py:174-182 [_get_from_array_mask]. *)
Definition get_mask (bands : list band) (m : mask) : res (list (list V) + list V) :=
  match m with
  | MaskOther => Err IndexError
  | _ => bind (getitem bands (KeyTuple [KSlice None None None; KSlice None None None;
                                        KSlice None None None]))
              (fun a => nd_mask a m)
  end.

(** The value of a masked assignment: a number, a 1-D array or a 2-D array
    given as its list of rows. *)
Inductive mvalue := MReal (v : V) | M1 (vs : list V) | M2 (rows : list (list V)).

(** [value[:, i]] of a 2-D array whose rows all have the same length. *)
Fixpoint column (rows : list (list V)) (i : nat) : res (list V) :=
  match rows with
  | [] => Ok []
  | r :: rows' => match nth_error r i with
                  | None => Err IndexError
                  | Some v => bind (column rows' i) (fun vs => Ok (v :: vs))
                  end
  end.

Definition put (A : arr V) (p : Z * Z) (v : V) : arr V :=
  mkA (nrow A) (ncol A)
      (fun i j => if (i =? fst p) && (j =? snd p) then v else at_ A i j).

(** [tmp[mask] = v] and [tmp[mask] = vs] with a mask of tmp's shape. *)
Definition mask_set (A : arr V) (h w : Z) (m : Z -> Z -> bool) (vs : V + list V)
  : res (arr V) :=
  if (h =? nrow A) && (w =? ncol A)
  then match vs with
       | inl v => Ok (fold_left (fun a p => put a p v) (true_cells h w m) A)
       | inr [v] => Ok (fold_left (fun a p => put a p v) (true_cells h w m) A)
       | inr vs => if Nat.eqb (length vs) (length (true_cells h w m))
                   then Ok (fold_left (fun a pv => put a (fst pv) (snd pv))
                                      (combine (true_cells h w m) vs) A)
                   else Err ValueError
       end
  else Err IndexError.

(** band.py:187-199: the loop body for band number i. *)
Definition mask_band (b : band) (i : nat) (m : mask) (value : mvalue)
  : band * option exn :=
  let (sy, sx) := bsize b in
  let vals := match value with
              | MReal v => Ok (inl v)
              | M1 vs => Ok (inr vs)
              | M2 rows => bind (column rows i) (fun c => Ok (inr c))
              end in
  let r := match m with
    | Mask3 h w nb m3 =>
        bind (py_index nb (Z.of_nat i)) (fun k =>
        bind (getblock b 0 0 sy sx) (fun tmp =>
        bind vals (fun vs => mask_set tmp h w (fun y x => m3 y x k) vs)))
    | Mask2 h w m2 =>
        bind (getblock b 0 0 sy sx) (fun tmp =>
        bind vals (fun vs => mask_set tmp h w m2 vs))
    | MaskOther => Err IndexError
    end in
  match r with
  | Ok tmp => setblock b 0 0 tmp
  | Err e => (b, Some e)
  end.

Fixpoint mask_bands (bands : list band) (i : nat) (m : mask) (value : mvalue)
  : list band * option exn :=
  match bands with
  | [] => ([], None)
  | b :: rest => match mask_band b i m value with
                 | (b', Some e) => (b' :: rest, Some e)
                 | (b', None) => let (rest', e) := mask_bands rest (S i) m value in
                                 (b' :: rest', e)
                 end
  end.

(** band.py:184-199 [_set_from_array_mask]. *)
Definition set_mask (bands : list band) (m : mask) (value : mvalue)
  : list band * option exn := mask_bands bands 0 m value.

(** band.py:201-207 [__iter__]: one array (bands x columns) per row. *)
Fixpoint mapM {A B} (f : A -> res B) (l : list A) : res (list B) :=
  match l with
  | [] => Ok []
  | a :: l' => bind (f a) (fun b => bind (mapM f l') (fun bs => Ok (b :: bs)))
  end.
Definition iter (bands : list band) : res (list (list (arr V))) :=
  match bands with
  | [] => Err IndexError
  | b0 :: _ => let (ny, nx) := bsize b0 in
     mapM (fun i => mapM (fun b => getblock b i 0 1 nx) bands) (zrange 0 ny)
  end.
End Index.
Arguments BSimple {V}. Arguments BComp {V}. Arguments bsize {V}. Arguments getblock {V}.
Arguments setblock {V}. Arguments mkN {V}. Arguments shp {V}. Arguments elt {V}.
Arguments strided {V}. Arguments parse_key {V}. Arguments read_planes {V}.
Arguments stack {V}. Arguments drop1 {V}. Arguments drop2 {V}. Arguments drop3 {V}.
Arguments getitem {V}. Arguments atleast_3d {V}. Arguments broadcast_to {V}.
Arguments reshape_1_1 {V}. Arguments val_array {V}. Arguments write_planes {V}.
Arguments setitem {V}. Arguments nd_mask {V}. Arguments get_mask {V}.
Arguments MReal {V}. Arguments M1 {V}. Arguments M2 {V}. Arguments column {V}.
Arguments put {V}. Arguments mask_set {V}. Arguments mask_band {V}.
Arguments mask_bands {V}. Arguments set_mask {V}. Arguments iter {V}.
