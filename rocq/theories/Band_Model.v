(** Model of karta/raster/band.py.

    A two-dimensional numpy array is its shape and a function giving the value
    at each position; only positions inside the shape are meaningful.  Pixel
    values are an arbitrary type [V] and every array has the band's dtype, so
    the dtype conversion numpy performs on assignment is the identity.
    blosc.compress / decompress and tostring / frombuffer (band.py:282-290)
    are taken to be inverse to each other: a stored chunk is the chunk itself.
    float division and ceil (band.py:270-271, 299, 301, 303) are exact for the
    integers involved (below 2^53) and modelled by integer division. *)
From Coq Require Import List ZArith Bool.
Import ListNotations.
Open Scope Z_scope.

(** The exceptions raised by band.py, by numpy below it and by grid.py above it. *)
Inductive exn := IndexError | ValueError | TypeError | NotImplementedError
  | ZeroDivisionError | RuntimeError | GridError.
(** What a method of band.py does: it returns a value or raises. *)
Inductive res (A : Type) := Ok (a : A) | Err (e : exn).
Arguments Ok {A} a. Arguments Err {A} e.
(** Statements one after the other (band.py): an exception ends the method. *)
Definition bind {A B} (r : res A) (f : A -> res B) : res B :=
  match r with Ok a => f a | Err e => Err e end.

(** Integers a, a+1, ..., b-1. The loops of band.py:305-320. *)
Definition zrange (a b : Z) : list Z :=
  map (fun k => a + Z.of_nat k) (seq 0 (Z.to_nat (b - a))).

(** [ceil(float(a)/float(b))] for b > 0. band.py:270-271, 303. *)
Definition zceil (a b : Z) : Z := - ((- a) / b).

(** Start or end of a unit-step slice of a sequence of length [n], given explicitly (negative
    values count from the end, then clamped). Used for the slices of band.py:225-242, 328-379. *)
Definition clamp (n a : Z) : Z := if a <? 0 then Z.max 0 (a + n) else Z.min a n.
(** The length of such a slice (band.py:225-242, 328-379). *)
Definition sl_len (n a b : Z) : Z := Z.max 0 (clamp n b - clamp n a).

(** Python indexing of a sequence of length [n]: the position, or IndexError. Used for
    band.py:328-379. *)
Definition py_index (n i : Z) : res Z :=
  if (0 <=? i) && (i <? n) then Ok i
  else if (- n <=? i) && (i <? 0) then Ok (i + n)
  else Err IndexError.

Section Model.
Variable V : Type.

(** A two-dimensional numpy array, the values that bands store and return (band.py:225-381): its
    shape and its values. *)
Record arr := mkA { nrow : Z; ncol : Z; at_ : Z -> Z -> V }.

(** [np.full((h, w), v)]; a negative dimension is a ValueError. band.py:334, 368-370. *)
Definition np_full (h w : Z) (v : V) : res arr :=
  if (h <? 0) || (w <? 0) then Err ValueError else Ok (mkA h w (fun _ _ => v)).

(** [np.empty((h, w))]; the contents are unspecified. band.py:358. *)
Definition np_empty (junk : Z -> Z -> V) (h w : Z) : res arr :=
  if (h <? 0) || (w <? 0) then Err ValueError else Ok (mkA h w junk).

(** [A[a:b, c:d]]. band.py:225-242, 345-379. *)
Definition get2 (A : arr) (a b c d : Z) : arr :=
  let r0 := clamp (nrow A) a in
  let c0 := clamp (ncol A) c in
  mkA (sl_len (nrow A) a b) (sl_len (ncol A) c d)
      (fun i j => at_ A (r0 + i) (c0 + j)).

(** [dst[a:b, c:d] = src] with numpy broadcasting of [src]. band.py:225-242, 345-379. *)
Definition set2 (dst : arr) (a b c d : Z) (src : arr) : res arr :=
  let r0 := clamp (nrow dst) a in
  let c0 := clamp (ncol dst) c in
  let h := sl_len (nrow dst) a b in
  let w := sl_len (ncol dst) c d in
  if ((nrow src =? h) || (nrow src =? 1)) && ((ncol src =? w) || (ncol src =? 1))
  then Ok (mkA (nrow dst) (ncol dst)
        (fun i j =>
           if (r0 <=? i) && (i <? r0 + h) && (c0 <=? j) && (j <? c0 + w)
           then at_ src (if nrow src =? 1 then 0 else i - r0)
                        (if ncol src =? 1 then 0 else j - c0)
           else at_ dst i j))
  else Err ValueError.

(** band.py:225-242 [SimpleBand]. *)
Definition simple_getblock (A : arr) (yoff xoff ny nx : Z) : arr :=
  get2 A yoff (yoff + ny) xoff (xoff + nx).
(** band.py:238-242 [SimpleBand.setblock]. *)
Definition simple_setblock (A : arr) (yoff xoff : Z) (a : arr) : res arr :=
  set2 A yoff (yoff + nrow a) xoff (xoff + ncol a) a.

(** band.py:244-280 [CompressedBand]; [None] is an unset chunk
    (chunkstatus 0). *)
Record cband := mkC {
  szy : Z; szx : Z; chy : Z; chx : Z; initval : V;
  data : list (option arr) }.

(** band.py:249-280 [__init__]. *)
Definition cb_init (sy sx cy cx : Z) (v : V) : cband :=
  mkC sy sx cy cx v (repeat None (Z.to_nat (zceil sy cy * zceil sx cx))).

(** band.py:303: chunks per row. *)
Definition nxchunks (cb : cband) : Z := zceil (szx cb) (chx cb).

(** band.py:292-320 [_getchunks]: first the (i, j) pairs of the two while
    loops, then the tuple yielded for a pair. *)
Definition chunk_ids (cb : cband) (yoff xoff ny nx : Z) : list (Z * Z) :=
  flat_map (fun i => map (fun j => (i, j))
                         (zrange (xoff / chx cb) (zceil (xoff + nx) (chx cb))))
           (zrange (yoff / chy cb) (zceil (yoff + ny) (chy cb))).

(** band.py:292-320, the tuple that [_getchunks] yields: the number of the chunk, its rows and
    its columns. *)
Record chunk := mkChunk { cnum : Z; yst : Z; yen : Z; xst : Z; xen : Z }.

(** band.py:312-318, the tuple for the chunk in row i and column j of the chunks. *)
Definition chunk_of (cb : cband) (ij : Z * Z) : chunk :=
  let (i, j) := ij in
  mkChunk (i * nxchunks cb + j)
          (i * chy cb) (Z.min ((i + 1) * chy cb) (szy cb))
          (j * chx cb) (Z.min ((j + 1) * chx cb) (szx cb)).

(** The assignment [self._data[index] = ...], band.py:282-285; the index is in range. *)
Fixpoint list_upd {A} (l : list A) (n : nat) (a : A) : list A :=
  match l, n with
  | [], _ => []
  | _ :: l', O => a :: l'
  | b :: l', S n' => b :: list_upd l' n' a
  end.

(** [self._data[index]] / [self.chunkstatus[index]]. band.py:331-332, 367, 379. *)
Definition fetch (cb : cband) (index : Z) : res (Z * option arr) :=
  bind (py_index (Z.of_nat (length (data cb))) index)
       (fun k => match nth_error (data cb) (Z.to_nat k) with
                 | Some c => Ok (k, c)
                 | None => Err IndexError
                 end).

(** A band with other chunks, the effect of band.py:282-285 on [self]. *)
Definition with_data (cb : cband) (d : list (option arr)) : cband :=
  mkC (szy cb) (szx cb) (chy cb) (chx cb) (initval cb) d.

(** band.py:328-351: the body of the loop in [setblock] for one chunk. *)
Definition set_chunk (cb : cband) (yoff xoff : Z) (array : arr) (ij : Z * Z)
  : res cband :=
  let ck := chunk_of cb ij in
  bind (fetch cb (cnum ck)) (fun kc =>
  bind (match snd kc with
        | Some c => Ok c
        | None => np_full (chy cb) (chx cb) (initval cb)
        end) (fun chunkdata =>
  let cy0 := Z.max 0 (yoff - yst ck) in
  let cy1 := Z.min (chy cb) (yoff + nrow array - yst ck) in
  let cx0 := Z.max 0 (xoff - xst ck) in
  let cx1 := Z.min (chx cb) (xoff + ncol array - xst ck) in
  let dy0 := Z.max 0 (yst ck - yoff) in
  let dy1 := Z.min (nrow array) (yen ck - yoff) in
  let dx0 := Z.max 0 (xst ck - xoff) in
  let dx1 := Z.min (ncol array) (xen ck - xoff) in
  bind (set2 chunkdata cy0 cy1 cx0 cx1 (get2 array dy0 dy1 dx0 dx1)) (fun c' =>
  Ok (with_data cb (list_upd (data cb) (Z.to_nat (fst kc)) (Some c')))))).

(** band.py:328-351, the loop over the chunks; chunks written before an exception stay written. *)
Fixpoint set_chunks (cb : cband) (yoff xoff : Z) (array : arr)
    (l : list (Z * Z)) : cband * option exn :=
  match l with
  | [] => (cb, None)
  | ij :: l' => match set_chunk cb yoff xoff array ij with
                | Ok cb' => set_chunks cb' yoff xoff array l'
                | Err e => (cb, Some e)
                end
  end.

(** band.py:322-352 [setblock]: the band after the call and the exception. *)
Definition cb_setblock (cb : cband) (yoff xoff : Z) (array : arr)
  : cband * option exn :=
  set_chunks cb yoff xoff array (chunk_ids cb yoff xoff (nrow array) (ncol array)).

(** band.py:359-379: the loop body of [getblock]. *)
Definition get_chunk (cb : cband) (yoff xoff ny nx : Z) (result : arr)
    (ij : Z * Z) : res arr :=
  let ck := chunk_of cb ij in
  let oy0 := Z.max 0 (yst ck - yoff) in
  let oy1 := Z.min ny (yen ck - yoff) in
  let ox0 := Z.max 0 (xst ck - xoff) in
  let ox1 := Z.min nx (xen ck - xoff) in
  bind (fetch cb (cnum ck)) (fun kc =>
  bind (match snd kc with
        | None => np_full (oy1 - oy0) (ox1 - ox0) (initval cb)
        | Some c =>
            let cy0 := Z.max yoff (yst ck) - yst ck in
            let cy1 := Z.min (yoff + ny) (yen ck) - yst ck in
            let cx0 := Z.max xoff (xst ck) - xst ck in
            let cx1 := Z.min (xoff + nx) (xen ck) - xst ck in
            Ok (get2 c cy0 cy1 cx0 cx1)
        end) (fun src =>
  set2 result oy0 oy1 ox0 ox1 src)).

(** band.py:359-379, the loop over the chunks. *)
Fixpoint get_chunks (cb : cband) (yoff xoff ny nx : Z) (result : arr)
    (l : list (Z * Z)) : res arr :=
  match l with
  | [] => Ok result
  | ij :: l' => bind (get_chunk cb yoff xoff ny nx result ij)
                     (fun r => get_chunks cb yoff xoff ny nx r l')
  end.

(** band.py:354-381 [getblock]; [junk] is the content of [np.empty]. *)
Definition cb_getblock (junk : Z -> Z -> V) (cb : cband) (yoff xoff ny nx : Z)
  : res arr :=
  bind (np_empty junk ny nx)
       (fun r => get_chunks cb yoff xoff ny nx r (chunk_ids cb yoff xoff ny nx)).

End Model.

Arguments mkA {V}. Arguments nrow {V}. Arguments ncol {V}. Arguments at_ {V}.
Arguments np_full {V}. Arguments np_empty {V}. Arguments get2 {V}. Arguments set2 {V}.
Arguments simple_getblock {V}. Arguments simple_setblock {V}.
Arguments mkC {V}. Arguments szy {V}. Arguments szx {V}. Arguments chy {V}.
Arguments chx {V}. Arguments initval {V}. Arguments data {V}.
Arguments cb_init {V}. Arguments nxchunks {V}. Arguments chunk_ids {V}.
Arguments chunk_of {V}. Arguments fetch {V}. Arguments with_data {V}.
Arguments set_chunk {V}. Arguments set_chunks {V}. Arguments cb_setblock {V}.
Arguments get_chunk {V}. Arguments get_chunks {V}. Arguments cb_getblock {V}.
