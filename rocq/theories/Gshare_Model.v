(** Model of the objects behind grids, karta/raster/grid.py and band.py: which
    lists of bands, bands and arrays are shared between grids, and what each
    method and assignment does to them.  Transforms (tuples, which do not change)
    and coordinate systems are left out, and so are dtypes and what methods
    compute: the cells of a new grid are given by functions.  Bands that read
    from files (C103) are left out too.  Arrays have two dimensions here: one
    band of a grid is read at a time. *)
From Coq Require Import List Arith Bool ZArith.
Import ListNotations.
Open Scope nat_scope.

(** The value of a cell; None is NaN.  band.py:238-241. *)
Definition val := option Z.
(** Whether a cell with value [v] is without data, given the nodata value; grid.py:465-472. *)
Definition missing (nd v : val) : bool :=
  match nd, v with
  | None, None => true
  | Some a, Some b => (a =? b)%Z
  | _, _ => false
  end.

(** The two classes of bands in memory, band.py:222-240, 242-282. *)
Inductive class := Simple | Compressed.
(** A band: its class, size and cells; band.py:225-231, 247-282. *)
Record band := mkB { bcls : class; rows : nat; cols : nat; cell : nat -> nat -> val }.
(** A grid: the list [bands], the list held by its BandIndexer, the nodata value
    and the class used for new bands; grid.py:152-193, band.py:42-43. *)
Record grid := mkG { blist : nat; ilist : nat; nodata : val; gcls : class }.
(** An array: with memory of its own, or a view of a window of a band; band.py:233-234, 87-103. *)
Inductive arr :=
  | Own (r c : nat) (f : nat -> nat -> val)
  | View (b y x r c : nat).
(** All objects, by their addresses: bands, lists of bands, grids and arrays in the
    order in which they were made; grid.py:152-193. *)
Record state := mkS { bands : list band; lists : list (list nat); grids : list grid; arrays : list arr }.
(** Before anything is made (grid.py). *)
Definition start : state := mkS [] [] [] [].

(** Item assignment of a list; grid.py:163-176. *)
Fixpoint lset {A} (l : list A) (i : nat) (x : A) : list A :=
  match l, i with
  | [], _ => []
  | _ :: l', 0 => x :: l'
  | y :: l', S i' => y :: lset l' i' x
  end.

(** A list that the user names: one they have made, or that of a grid; grid.py:163. *)
Inductive lref := Lst (n : nat) | BandsOf (g : nat).
(** An item of such a list; grid.py:233. *)
Inductive bref := Item (l : lref) (k : nat).

(** What a user can do.  The first group makes grids, the second lists and arrays,
    the third changes something; grid.py:50-79, 114-193, 242-255, 619-668, band.py:42-240. *)
Inductive op :=
  | FromValues (c : class) (r k : nat) (planes : list (nat -> nat -> val)) (nd : val)   (* RegularGrid(T, values=..., bandclass=c) *)
  | FromArray (c : class) (a : nat) (nd : val)              (* RegularGrid(T, values=a, bandclass=c) *)
  | FromBands (l : lref) (nd : val)                         (* RegularGrid(T, bands=l) *)
  | Copy (g : nat)                                          (* g.copy() *)
  | Method (g r k : nat) (planes : list (nat -> nat -> val)) (nd : val)
      (* g + h, g - h, clip, aschunks, mask_by_poly, resample, merge, slope and so on *)
  | Resize (g r k : nat) (cells : nat -> nat -> nat -> val) (* g.resize(bbox) *)
  | ApplyNew (g : nat) (f : nat -> nat -> val)              (* g.apply(func) *)
  | NewBands (c : class) (r k n : nat) (v : val)            (* [cls((r, k), dtype, initval=v) for _ in range(n)] *)
  | ListOf (bs : list bref)                                 (* [g.bands[0], h.bands[1], ...] *)
  | Read (g k y x h w : nat)                                (* g[y:y+h, x:x+w, k] *)
  | Row (g i : nat)                                         (* the i-th item of: for row in g.values *)
  | Block (b : bref) (y x h w : nat)                        (* band.getblock(y, x, h, w) *)
  | Append (l : lref) (b : bref)                            (* l.append(b) *)
  | Rebind (g : nat) (l : lref)                             (* g.bands = l *)
  | Assign (g : nat) (f : nat -> nat -> nat -> option val)  (* g[...] = ...: band, row, column *)
  | SetNodata (g : nat) (v : val)                           (* g.set_nodata_value(v) *)
  | Mask (g : nat) (inside : nat -> nat -> bool)            (* g.mask_by_poly(poly, inplace=True) *)
  | Apply (g : nat) (f : nat -> nat -> val)                 (* g.apply(func, inplace=True) *)
  | SetArr (a i j : nat) (v : val).                         (* a[i, j] = v *)

(** Addresses of the items of a list; grid.py:163, band.py:43. *)
Definition items (s : state) (l : nat) : list nat := nth l (lists s) [].
(** The address of a list; grid.py:163. *)
Definition list_addr (s : state) (l : lref) : option nat :=
  match l with
  | Lst n => if n <? length (lists s) then Some n else None
  | BandsOf g => option_map blist (nth_error (grids s) g)
  end.
(** The address of an item; IndexError past the end; grid.py:233. *)
Definition band_addr (s : state) (b : bref) : option nat :=
  match b with
  | Item l k => match list_addr s l with Some n => nth_error (items s n) k | None => None end
  end.
(** A comprehension in which one item raises; grid.py:659-663. *)
Fixpoint all_some {A} (l : list (option A)) : option (list A) :=
  match l with
  | [] => Some []
  | Some a :: l' => match all_some l' with Some r => Some (a :: r) | None => None end
  | None :: _ => None
  end.
(** The size of a band, band.py:226. *)
Definition size (s : state) (b : nat) : option (nat * nat) :=
  option_map (fun b => (rows b, cols b)) (nth_error (bands s) b).
(** Comparison of sizes, grid.py:160. *)
Definition same_size (s : state) (a b : nat) : bool :=
  match size s a, size s b with
  | Some (r, c), Some (r', c') => (r =? r') && (c =? c')
  | _, _ => false
  end.
(** Whether all bands have the size of the first, grid.py:159-162. *)
Definition uniform (s : state) (l : list nat) : bool :=
  match l with [] => true | a :: l' => forallb (same_size s a) l' end.

(** A band with some cells replaced (setblock, band.py:236-239, 329-361). *)
Definition put (b : band) (f : nat -> nat -> option val) : band :=
  mkB (bcls b) (rows b) (cols b) (fun i j => match f i j with Some v => v | None => cell b i j end).
(** The same, by address; band.py:236-239, 329-361. *)
Definition put_at (bs : list band) (a : nat) (f : nat -> nat -> option val) : list band :=
  match nth_error bs a with Some b => lset bs a (put b f) | None => bs end.
(** The loop over bands of band.py:161-163, 183-196 and grid.py:659-662: the k-th
    band gets the cells [f k]. *)
Fixpoint put_all (bs : list band) (addrs : list nat) (k : nat) (f : nat -> nat -> nat -> option val) : list band :=
  match addrs with
  | [] => bs
  | a :: addrs' => put_all (put_at bs a (f k)) addrs' (S k) f
  end.

(** A new grid with new bands: grid.py:165-180 (values=), 608-616 (resize), 1203-1231 (merge). *)
Definition make (s : state) (c : class) (r k : nat) (planes : list (nat -> nat -> val)) (nd : val) : state :=
  mkS (bands s ++ map (mkB c r k) planes)
      (lists s ++ [seq (length (bands s)) (length planes)])
      (grids s ++ [mkG (length (lists s)) (length (lists s)) nd c])
      (arrays s).

(** The position of an address in a list (the memo of deepcopy, grid.py:50-52). *)
Fixpoint index (a : nat) (l : list nat) : nat :=
  match l with [] => 0 | b :: l' => if a =? b then 0 else S (index a l') end.
(** copy.deepcopy of a grid, grid.py:50-52: every band is copied once, and so is
    every list (the grid and its BandIndexer keep having one list if they had one). *)
Definition deepcopy (s : state) (G : grid) : state :=
  let old := nodup Nat.eq_dec (items s (blist G) ++ items s (ilist G)) in
  let new := map (fun a => length (bands s) + index a old) in
  let copies := map (fun a => nth a (bands s) (mkB Simple 0 0 (fun _ _ => None))) old in
  let l1 := length (lists s) in
  let l2 := if blist G =? ilist G then l1 else S l1 in
  mkS (bands s ++ copies)
      (lists s ++ new (items s (blist G)) :: (if blist G =? ilist G then [] else [new (items s (ilist G))]))
      (grids s ++ [mkG l1 l2 (nodata G) (gcls G)])
      (arrays s).

(** The values of a window of a band; band.py:233-234, 363-392. *)
Definition window (b : band) (y x : nat) : nat -> nat -> val := fun i j => cell b (y + i) (x + j).
(** The k-th value of [apply] and the others: cells with data get the new value;
    grid.py:71-79. *)
Definition applied (b : band) (nd : val) (f : nat -> nat -> val) : nat -> nat -> nat -> option val :=
  fun _ i j => if missing nd (cell b i j) then None else Some (f i j).

(** The bands a grid reads and writes through its BandIndexer; band.py:42-43. *)
Definition own_bands (s : state) (G : grid) : list nat := items s (ilist G).
(** New contents of the bands; band.py:236-239. *)
Definition with_bands (s : state) (bs : list band) : state := mkS bs (lists s) (grids s) (arrays s).
(** A new array; band.py:87, 233-234. *)
Definition with_array (s : state) (a : arr) : state := mkS (bands s) (lists s) (grids s) (arrays s ++ [a]).
(** A new list of bands; grid.py:163. *)
Definition with_list (s : state) (l : list nat) : state := mkS (bands s) (lists s ++ [l]) (grids s) (arrays s).

(** The cells of np.where(self.data_mask_full, self[:,:,:], val), grid.py:253: the
    mask has as many bands as the list [bands], read through the BandIndexer; one
    mask is broadcast to all bands, otherwise the numbers must be the same. *)
Definition nodata_cells (s : state) (G : grid) (v : val) : option (nat -> nat -> nat -> option val) :=
  let n := length (items s (blist G)) in
  let bs := own_bands s G in
  if n =? 0 then None else
  if (length bs =? 0) then None else
  if negb ((n =? length bs) || (n =? 1)) then None else
  Some (fun k i j =>
    match nth_error bs (if n =? length bs then k else 0) with
    | Some a => match nth_error (bands s) a with
                | Some b => if missing (nodata G) (cell b i j) then Some v else None
                | None => None
                end
    | None => None
    end).

(** grid.py:71-79 with one band; with several, the values do not fit the bands
    (except in special cases, here left out) and the assignment raises. *)
Definition single (s : state) (G : grid) : option (nat * band) :=
  match items s (blist G), own_bands s G with
  | [_], [a] => option_map (pair a) (nth_error (bands s) a)
  | _, _ => None
  end.

(** One step; None if it raises, and then nothing has changed; grid.py and band.py, lines below. *)
Definition step (s : state) (o : op) : option state :=
  match o with
  (* grid.py:164-176 *)
  | FromValues c r k planes nd => Some (make s c r k planes nd)
  | FromArray c a nd =>
      match nth_error (arrays s) a with
      | Some (Own r k f) => Some (make s c r k [f] nd)
      | Some (View b y x r k) =>
          match nth_error (bands s) b with
          | Some b => Some (make s c r k [window b y x] nd)
          | None => None
          end
      | None => None
      end
  (* grid.py:152-163, 180: IndexError for no bands, ValueError for different sizes *)
  | FromBands l nd =>
      match list_addr s l with
      | Some n =>
          match items s n with
          | [] => None
          | a :: _ =>
              if uniform s (items s n)
              then match nth_error (bands s) a with
                   | Some b => Some (mkS (bands s) (lists s) (grids s ++ [mkG n n nd (bcls b)]) (arrays s))
                   | None => None
                   end
              else None
          end
      | None => None
      end
  (* grid.py:50-52 *)
  | Copy g => option_map (deepcopy s) (nth_error (grids s) g)
  (* grid.py:198-209, 503-563, 664-668, 693, 759, 1203-1231, misc.py:40-206: values= without bandclass *)
  | Method g r k planes nd =>
      match nth_error (grids s) g with
      | Some _ => Some (make s Compressed r k planes nd)
      | None => None
      end
  (* grid.py:608-617 *)
  | Resize g r k cells =>
      match nth_error (grids s) g with
      | Some G => match items s (blist G) with
                  | [] => None
                  | l => Some (make s (gcls G) r k (map cells (seq 0 (length l))) (nodata G))
                  end
      | None => None
      end
  (* grid.py:77-79 *)
  | ApplyNew g f =>
      match nth_error (grids s) g with
      | Some G =>
          match single s G with
          | Some (_, b) =>
              let s' := deepcopy s G in
              match nth_error (grids s') (length (grids s)) with
              | Some G' => Some (with_bands s' (put_all (bands s') (own_bands s' G') 0 (applied b (nodata G) f)))
              | None => None
              end
          | None => None
          end
      | None => None
      end
  (* band.py:225-231, 247-282 *)
  | NewBands c r k n v =>
      Some (mkS (bands s ++ repeat (mkB c r k (fun _ _ => v)) n)
                (lists s ++ [seq (length (bands s)) n]) (grids s) (arrays s))
  | ListOf bs => option_map (with_list s) (all_some (map (band_addr s) bs))
  (* band.py:45-105: values are copied to a new array.  Windows are cut at the
     edges; the number of the band is taken modulo the number of bands. *)
  | Read g k y x h w =>
      match nth_error (grids s) g with
      | Some G =>
          let bs := own_bands s G in
          match nth_error bs (k mod length bs) with
          | Some a => match nth_error (bands s) a with
                      | Some b => Some (with_array s (Own (min h (rows b - y)) (min w (cols b - x)) (window b y x)))
                      | None => None
                      end
          | None => None
          end
      | None => None
      end
  (* band.py:198-204: a single band gives what getblock gives, several are stacked *)
  | Row g i =>
      match nth_error (grids s) g with
      | Some G =>
          match own_bands s G with
          | [] => None
          | a :: rest =>
              match nth_error (bands s) a with
              | Some b =>
                  if i <? rows b then
                    match rest, bcls b with
                    | [], Simple => Some (with_array s (View a i 0 1 (cols b)))
                    | [], Compressed => Some (with_array s (Own 1 (cols b) (window b i 0)))
                    | _, _ => Some (with_array s (Own (S (length rest)) (cols b) (fun k j =>
                                match nth_error (bands s) (nth k (a :: rest) 0) with
                                | Some b => cell b i j | None => None end)))
                    end
                  else None
              | None => None
              end
          end
      | None => None
      end
  (* band.py:233-234, 363-392; blocks that leave the band are left out *)
  | Block b y x h w =>
      match band_addr s b with
      | Some a =>
          match nth_error (bands s) a with
          | Some b =>
              if (y + h <=? rows b) && (x + w <=? cols b) then
                match bcls b with
                | Simple => Some (with_array s (View a y x h w))
                | Compressed => Some (with_array s (Own h w (window b y x)))
                end
              else None
          | None => None
          end
      | None => None
      end
  (* list.append; bands of another size are left out *)
  | Append l b =>
      match list_addr s l, band_addr s b with
      | Some n, Some a =>
          if uniform s (items s n ++ [a])
          then Some (mkS (bands s) (lset (lists s) n (items s n ++ [a])) (grids s) (arrays s))
          else None
      | _, _ => None
      end
  (* An attribute is assigned: the BandIndexer (grid.py:180) keeps the list it has.
     Lists without bands or with bands of another size are left out. *)
  | Rebind g l =>
      match nth_error (grids s) g, list_addr s l with
      | Some G, Some n =>
          match items s (ilist G), items s n with
          | a :: _, _ :: _ =>
              if uniform s (a :: items s n)
              then Some (mkS (bands s) (lists s) (lset (grids s) g (mkG n (ilist G) (nodata G) (gcls G))) (arrays s))
              else None
          | _, _ => None
          end
      | _, _ => None
      end
  (* grid.py:211-217, band.py:107-196; assignments that raise are left out *)
  | Assign g f =>
      match nth_error (grids s) g with
      | Some G => match own_bands s G with
                  | [] => None
                  | bs => Some (with_bands s (put_all (bands s) bs 0 f))
                  end
      | None => None
      end
  (* grid.py:242-255 *)
  | SetNodata g v =>
      match nth_error (grids s) g with
      | Some G =>
          match nodata_cells s G v with
          | Some f =>
              Some (mkS (put_all (bands s) (own_bands s G) 0 f) (lists s)
                        (lset (grids s) g (mkG (blist G) (ilist G) v (gcls G))) (arrays s))
          | None => None
          end
      | None => None
      end
  (* grid.py:658-663 *)
  | Mask g inside =>
      match nth_error (grids s) g with
      | Some G =>
          let bs := own_bands s G in
          match items s (blist G), bs with
          | [], _ | _, [] => None
          | l, _ =>
              Some (with_bands s (put_all (bands s) (map (fun k => nth (k mod length bs) bs 0) (seq 0 (length l))) 0
                                    (fun _ i j => if inside i j then None else Some (nodata G))))
          end
      | None => None
      end
  (* grid.py:71-76 *)
  | Apply g f =>
      match nth_error (grids s) g with
      | Some G =>
          match single s G with
          | Some (_, b) => Some (with_bands s (put_all (bands s) (own_bands s G) 0 (applied b (nodata G) f)))
          | None => None
          end
      | None => None
      end
  (* numpy item assignment: through a view it reaches the band, band.py:233-234 *)
  | SetArr a i j v =>
      match nth_error (arrays s) a with
      | Some (Own r c f) =>
          if (i <? r) && (j <? c)
          then Some (mkS (bands s) (lists s) (grids s)
                 (lset (arrays s) a (Own r c (fun i' j' => if (i' =? i) && (j' =? j) then v else f i' j'))))
          else None
      | Some (View b y x r c) =>
          if (i <? r) && (j <? c)
          then Some (with_bands s (put_at (bands s) b (fun i' j' => if (i' =? y + i) && (j' =? x + j) then Some v else None)))
          else None
      | None => None
      end
  end.

(** A history: steps that raise change nothing (grid.py). *)
Definition next (s : state) (o : op) : state := match step s o with Some s' => s' | None => s end.
(** See [next] (grid.py). *)
Definition run (s : state) (os : list op) : state := fold_left next os s.
