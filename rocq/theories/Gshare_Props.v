(** Property C109: what grids have in common. *)
From Coq Require Import List Arith Bool ZArith Lia.
From Verif Require Import Gshare_Model Gshare_Spec Gshare_Proofs.
Import ListNotations.
Open Scope nat_scope.

(** A grid 0 with two simple bands of two rows and three columns (10*row + column,
    and without data on the diagonal), its copy 1, a grid 2 with the list of bands
    of grid 0, a grid 3 with one of its bands, and a grid 4 with one simple band. *)
Definition plane0 (i j : nat) : val := Some (Z.of_nat (10 * i + j)).
Definition plane1 (i j : nat) : val := if i =? j then Some (-1)%Z else Some 5%Z.
Definition tour : list op :=
  [FromValues Simple 2 3 [plane0; plane1] (Some (-1)%Z); Copy 0; FromBands (BandsOf 0) (Some (-1)%Z);
   ListOf [Item (BandsOf 0) 1]; FromBands (Lst 2) None; FromValues Simple 2 3 [plane0] None].
Definition after (s : state) (o : op) : state := next s o.
Definition raises (s : state) (o : op) : bool := match step s o with Some _ => false | None => true end.
Notation num z := (Some (Some z%Z)).

(** C109.  Methods that return a grid (copy, clip, aschunks, resize, arithmetic,
    mask_by_poly, apply and so on), constructors, reading and iteration change
    nothing that exists: no grid, and no array read before. *)
Theorem C109_methods : forall os o s', let s := run start os in makes o = true -> step s o = Some s' ->
  (forall g, g < length (grids s) -> kept s s' g) /\ (forall a, a < length (arrays s) -> kept_array s s' a).
Proof. exact makes_kept. Qed.
Print Assumptions C109_methods.
Example C109_methods_not_vacuous :
  let s := run start tour in let s' := after s (ApplyNew 4 (fun i j => Some 7%Z)) in
  length (grids s) = 5 /\ length (grids s') = 6 /\ seen s' 5 0 1 2 = num 7 /\ seen s' 4 0 1 2 = num 12.
Proof. vm_compute. auto. Qed.

(** C109.  g[...] = ... changes the cells of exactly the grids that have a band of
    [g], in any history: the last of the values given for the band (a grid can
    have a band twice) is what they read there, and everything else stays. *)
Theorem C109_assigned : forall os g f s' h k i j v, let s := run start os in
  step s (Assign g f) = Some s' -> seen s h k i j = Some v ->
  (exists m u, same_band s g m h k /\ f m i j = Some u /\
     (forall m', m < m' -> same_band s g m' h k -> f m' i j = None) /\ seen s' h k i j = Some u) \/
  ((forall m, same_band s g m h k -> f m i j = None) /\ seen s' h k i j = Some v).
Proof. exact assigned. Qed.
Print Assumptions C109_assigned.
Example C109_assigned_not_vacuous :
  let s := run start tour in
  let s' := after s (Assign 2 (fun k i j => if (k =? 1) && (i =? 0) then Some (Some 9%Z) else None)) in
  map (fun g => seen s' g 1 0 2) [0; 1; 2] = [num 9; num 5; num 9] /\ seen s' 3 0 0 2 = num 9 /\ seen s' 3 0 1 2 = num 5.
Proof. vm_compute. auto. Qed.

(** C109.  No assignment, masking, applied function or new nodata value reaches a
    band that the grid does not have; grids with no band in common do not see
    each other's changes. *)
Theorem C109_apart : forall os o s' g h, let s := run start os in target o = Some g -> step s o = Some s' ->
  (forall k, (forall m, ~ same_band s g m h k) -> forall i j, seen s' h k i j = seen s h k i j) /\
  (h <> g -> apart s g h -> kept s s' h).
Proof.
  intros os o s' g h s T H. split.
  - intros k. exact (other_bands os o s' g h k T H).
  - exact (apart_kept os o s' g h T H).
Qed.
Print Assumptions C109_apart.
Example C109_apart_not_vacuous :
  let s := run start tour in
  map (fun g => band_at s g 0) [0; 1; 2; 3; 4] = [Some 0; Some 2; Some 0; Some 1; Some 4] /\
  map (fun g => band_at s g 1) [0; 1; 2; 3; 4] = [Some 1; Some 3; Some 1; None; None].
Proof. vm_compute. auto. Qed.

(** C109.  copy, clip, aschunks (also with copy=False), resize, arithmetic,
    mask_by_poly, apply and RegularGrid(values=...) return a grid with bands of its
    own: it has none in common with any grid that exists. *)
Theorem C109_new : forall os o s' h, let s := run start os in
  match o with
  | FromValues _ _ _ _ _ | FromArray _ _ _ | Copy _ | Method _ _ _ _ _ | Resize _ _ _ _ | ApplyNew _ _ => True
  | _ => False
  end -> step s o = Some s' ->
  length (grids s') = S (length (grids s)) /\ (h < length (grids s) -> apart s' (length (grids s)) h).
Proof.
  intros os o s' h s F. apply fresh_apart. destruct o; auto; destruct F.
Qed.
Print Assumptions C109_new.
Example C109_new_not_vacuous :
  let s := run start tour in
  map (fun o => band_at (after s o) 5 0) [Copy 2; Resize 0 1 1 (fun _ _ _ => None); Method 0 1 1 [plane0] None] = [Some 5; Some 5; Some 5] /\
  length (bands s) = 5.
Proof. vm_compute. auto. Qed.

(** C109.  Grids with no band in common keep none in common, as long as no band is
    appended to a list. *)
Theorem C109_stays_apart : forall os os' g h, let s := run start os in
  existsb appends os' = false -> g < length (grids s) -> h < length (grids s) -> apart s g h ->
  apart (run start (os ++ os')) g h.
Proof. exact stays_apart. Qed.
Print Assumptions C109_stays_apart.
Example C109_stays_apart_not_vacuous :
  let os' := [Rebind 1 (BandsOf 0); FromBands (BandsOf 1) None; SetNodata 0 None] in
  existsb appends os' = false /\ map (raises (run start tour)) os' = [false; false; false] /\
  band_at (run start (tour ++ os')) 1 0 = Some 2 /\ band_at (run start (tour ++ os')) 5 0 = Some 0.
Proof. vm_compute. auto. Qed.

(** C109.  In a history in which no bands are handed on (bands=..., append, g.bands =
    ...), a change of one grid is never seen in another one. *)
Theorem C109_independent : forall os o s' g h, let s := run start os in existsb hands_on os = false ->
  target o = Some g -> step s o = Some s' -> h <> g -> kept s s' h.
Proof. exact independent. Qed.
Print Assumptions C109_independent.
Example C109_independent_not_vacuous :
  let os := [FromValues Simple 2 3 [plane0] None; Copy 0; Method 0 2 3 [plane1] None; ApplyNew 1 plane1] in
  existsb hands_on os = false /\ length (grids (run start os)) = 4 /\
  map (fun g => seen (after (run start os) (Mask 1 (fun _ _ => false))) g 0 1 1) [0; 1; 2; 3] =
  [num 11; Some None; num (-1); num (-1)].
Proof. vm_compute. auto. Qed.

(** C109.  RegularGrid(T, bands=g.bands) and [g] have the same bands and the same
    values from then on, whatever is done to either, other than g.bands = ... *)
Theorem C109_same_list : forall os os' g nd s1, let s := run start os in
  existsb rebinds (os ++ os') = false -> step s (FromBands (BandsOf g) nd) = Some s1 ->
  let n := length (grids s) in let s2 := run s1 os' in
  (forall k, band_at s2 n k = band_at s2 g k) /\ (forall k i j, seen s2 n k i j = seen s2 g k i j) /\ nbands s2 n = nbands s2 g.
Proof. exact same_list. Qed.
Print Assumptions C109_same_list.
Example C109_same_list_not_vacuous :
  let os' := [Append (BandsOf 2) (Item (BandsOf 4) 0); Assign 0 (fun k i j => if k =? 2 then Some (Some 3%Z) else None)] in
  let s := run start (tour ++ os') in
  existsb rebinds (tour ++ os') = false /\ nbands s 0 = Some 3 /\ nbands s 2 = Some 3 /\ seen s 2 2 1 1 = num 3 /\
  seen s 4 0 1 1 = num 3.
Proof. vm_compute. auto. Qed.

(** C109.  copy() has the cells, the nodata value and the number of bands of the
    grid, and has a band twice where the grid has. *)
Theorem C109_copy : forall os g s', let s := run start os in let n := length (grids s) in
  step s (Copy g) = Some s' ->
  (forall k i j, seen s' n k i j = seen s g k i j) /\ nodata_of s' n = nodata_of s g /\ nbands s' n = nbands s g /\
  (forall k m, same_band s' n k n m <-> same_band s g k g m).
Proof. exact copy_same. Qed.
Print Assumptions C109_copy.
Example C109_copy_not_vacuous :
  let s := run start (tour ++ [Append (BandsOf 0) (Item (BandsOf 0) 0); Copy 0]) in
  map (band_at s 5) [0; 1; 2; 3] = [Some 6; Some 5; Some 6; None] /\ seen s 5 1 1 1 = num (-1).
Proof. vm_compute. auto. Qed.

(** C109.  set_nodata_value: the cells without data get the new value, in all grids
    with the band; only the grid itself gets the new nodata value.  In the grid
    itself cells without data stay without data, and cells that have the new value
    join them. *)
Theorem C109_nodata : forall os g v s', let s := run start os in existsb rebinds os = false ->
  step s (SetNodata g v) = Some s' ->
  nodata_of s' g = Some v /\ (forall h, h <> g -> nodata_of s' h = nodata_of s h) /\
  (forall h k m i j nd, same_band s g m h k -> nodata_of s g = Some nd ->
     seen s' h k i j = option_map (fun x => if missing nd x then v else x) (seen s h k i j)) /\
  (forall k i j x nd, nodata_of s g = Some nd -> seen s g k i j = Some x ->
     masked s' g k i j = Some (missing nd x || missing v x)).
Proof.
  intros os g v s' s R H. split; [|split; [|split]].
  - exact (proj1 (nodata_set os g v s' 0 0 0 0 0 R H)).
  - intros h. exact (proj1 (proj2 (nodata_set os g v s' h 0 0 0 0 R H))).
  - intros h k m i j nd B. exact (proj2 (proj2 (nodata_set os g v s' h k m i j R H)) B nd).
  - intros k i j x nd. exact (nodata_mask os g v s' k i j x nd R H).
Qed.
Print Assumptions C109_nodata.
Example C109_nodata_not_vacuous :
  let s := after (run start tour) (SetNodata 0 (Some 5%Z)) in
  map (seen s 0 1 0) [0; 1] = [num 5; num 5] /\ masked s 0 1 0 0 = Some true /\ masked s 0 1 0 1 = Some true /\
  masked s 0 0 0 1 = Some false /\ seen s 3 0 0 0 = num 5.
Proof. vm_compute. auto. Qed.

(** C109.  mask_by_poly(inplace=True) and apply(inplace=True), seen in all grids with the band. *)
Theorem C109_in_place : forall os g s' h k m i j nd, let s := run start os in
  same_band s g m h k -> nodata_of s g = Some nd ->
  (forall inside, existsb rebinds os = false -> step s (Mask g inside) = Some s' ->
     seen s' h k i j = option_map (fun x => if inside i j then x else nd) (seen s h k i j)) /\
  (forall f, step s (Apply g f) = Some s' ->
     seen s' h k i j = option_map (fun x => if missing nd x then x else f i j) (seen s h k i j)).
Proof.
  intros os g s' h k m i j nd s B N. split.
  - intros inside R H. exact (mask_set os g inside s' h k m i j nd R H B N).
  - intros f H. exact (apply_set os g f s' h k m i j nd H B N).
Qed.
Print Assumptions C109_in_place.
Example C109_in_place_not_vacuous :
  let s := run start tour in
  seen (after s (Mask 2 (fun i _ => i =? 0))) 0 0 1 2 = num (-1) /\ seen (after s (Mask 2 (fun i _ => i =? 0))) 0 0 0 2 = num 2 /\
  seen (after s (Apply 3 (fun _ _ => Some 6%Z))) 2 1 0 1 = num 6.
Proof. vm_compute. auto. Qed.

(** C109.  What g[y:y+h, x:x+w, k] returns has the values of the grid and is a copy:
    whatever happens later, it stays until it is assigned to, and assigning to it
    changes no grid. *)
Theorem C109_read : forall os g k y x h w s1 os', let s := run start os in
  step s (Read g k y x h w) = Some s1 -> let a := length (arrays s) in let s2 := run s1 os' in
  (band_at s g k <> None -> forall i j, i < h -> j < w -> entry s1 a i j = seen s g k (y + i) (x + j)) /\
  ((forall i j v, ~ In (SetArr a i j v) os') -> forall i j, entry s2 a i j = entry s1 a i j) /\
  (forall i j v s3 g', step s2 (SetArr a i j v) = Some s3 -> kept s2 s3 g').
Proof.
  intros os g k y x h w s1 os' s H a s2. split; [|split].
  - intros B i j. exact (read_entry os g k y x h w s1 i j H B).
  - intros N i j. exact (read_stays os g k y x h w s1 os' i j H N).
  - intros i j v s3 g'. exact (read_detached os g k y x h w s1 os' i j v s3 g' H).
Qed.
Print Assumptions C109_read.
Example C109_read_not_vacuous :
  let s := run start tour in let s1 := after s (Read 0 0 1 1 5 5) in
  entry s1 0 0 1 = num 12 /\ entry s1 0 1 0 = None /\
  entry (after s1 (Assign 0 (fun _ _ _ => Some None))) 0 0 1 = num 12 /\
  seen (after s1 (SetArr 0 0 1 None)) 0 0 1 2 = num 12.
Proof. vm_compute. auto. Qed.

(** C109.  for row in g.values, with one band: each row has the values of the grid.
    Assigning to it changes the grid if the band is simple, and does not if it is
    compressed. *)
Theorem C109_rows : forall os g i s1 a b, let s := run start os in step s (Row g i) = Some s1 ->
  band_at s g 1 = None -> band_at s g 0 = Some a -> nth_error (bands s) a = Some b ->
  (forall j, entry s1 (length (arrays s)) 0 j = seen s g 0 i j) /\
  (forall j v s2, step s1 (SetArr (length (arrays s)) 0 j v) = Some s2 ->
     seen s2 g 0 i j = match bcls b with Simple => Some v | Compressed => seen s g 0 i j end).
Proof.
  intros os g i s1 a b s H B1 B0 Q. split.
  - intros j. exact (row_entry os g i s1 j H B1).
  - intros j v s2. exact (row_live os g i s1 a b j v s2 H B1 B0 Q).
Qed.
Print Assumptions C109_rows.
Example C109_rows_not_vacuous :
  let s1 := after (run start tour) (Row 4 1) in
  raises (run start tour) (Row 4 1) = false /\ map (entry s1 0 0) [0; 2; 3] = [num 10; num 12; None].
Proof. vm_compute. auto. Qed.

(** C109.  band.getblock(...) likewise: it has the values of every grid with that
    band, and assigning to it changes them if the band is simple. *)
Theorem C109_blocks : forall os b y x h w s1 a B g k, let s := run start os in step s (Block b y x h w) = Some s1 ->
  band_addr s b = Some a -> nth_error (bands s) a = Some B -> band_at s g k = Some a ->
  (forall i j, i < h -> j < w -> entry s1 (length (arrays s)) i j = seen s g k (y + i) (x + j)) /\
  (forall i j v s2, step s1 (SetArr (length (arrays s)) i j v) = Some s2 ->
     seen s2 g k (y + i) (x + j) = match bcls B with Simple => Some v | Compressed => seen s g k (y + i) (x + j) end).
Proof. exact blocks. Qed.
Print Assumptions C109_blocks.
Example C109_blocks_not_vacuous :
  let s1 := after (run start tour) (Block (Item (BandsOf 2) 1) 0 1 2 2) in
  map (entry s1 0 1) [0; 1; 2] = [num (-1); num 5; None] /\ map (fun g => seen (after s1 (SetArr 0 1 1 None)) g 1 1 2) [0; 1; 2] = [Some None; num 5; Some None].
Proof. vm_compute. auto. Qed.

(** C109.  a[i, j] = v changes that item of the array and no other. *)
Theorem C109_array_set : forall os a i j v s', let s := run start os in step s (SetArr a i j v) = Some s' ->
  entry s' a i j = Some v /\ forall i' j', (i', j') <> (i, j) -> entry s' a i' j' = entry s a i' j'.
Proof. exact array_set. Qed.
Print Assumptions C109_array_set.
Example C109_array_set_not_vacuous :
  let s := run start (tour ++ [Read 0 1 0 0 2 3; Row 4 1]) in
  map (fun a => entry (after s (SetArr a 0 1 None)) a 0 1) [0; 1] = [Some None; Some None] /\ map (fun a => entry (after s (SetArr a 0 1 None)) a 0 2) [0; 1] = [num 5; num 12].
Proof. vm_compute. auto. Qed.

(** C109.  Which bands these are: those of copy() have the classes of the grid, those
    of resize() the class of its first band, and those of all other methods are
    compressed, whatever the class was. *)
Theorem C109_classes : forall os g s' m, let s := run start os in let n := length (grids s) in
  (forall r k p nd, step s (Method g r k p nd) = Some s' -> class_at s' n m = if m <? length p then Some Compressed else None) /\
  (step s (Copy g) = Some s' -> class_at s' n m = class_at s g m) /\
  (forall r k cells nb, existsb appends os = false -> class_at s g 0 <> None ->
     step s (Resize g r k cells) = Some s' -> nbands s g = Some nb -> class_at s' n m = if m <? nb then class_at s g 0 else None).
Proof. exact classes. Qed.
Print Assumptions C109_classes.
Example C109_classes_not_vacuous :
  let s := run start tour in
  map (fun o => class_at (after s o) 5 0) [Copy 0; Resize 0 1 1 (fun _ _ _ => None); Method 0 1 1 [plane0] None] =
  [Some Simple; Some Simple; Some Compressed].
Proof. vm_compute. auto. Qed.

(** C109.  A grid keeps its bands and its size in all histories: the k-th band it
    reads is always the same object, and has the same rows and columns. *)
Theorem C109_bands_stay : forall os os' g k a, band_at (run start os) g k = Some a ->
  band_at (run start (os ++ os')) g k = Some a /\
  forall i j, seen (run start (os ++ os')) g k i j = None <-> seen (run start os) g k i j = None.
Proof. exact bands_stay. Qed.
Print Assumptions C109_bands_stay.
Example C109_bands_stay_not_vacuous :
  let os' := [Rebind 0 (BandsOf 1); Append (BandsOf 0) (Item (BandsOf 4) 0); Resize 0 7 7 (fun _ _ _ => None)] in
  band_at (run start tour) 0 1 = Some 1 /\ band_at (run start (tour ++ os')) 0 1 = Some 1 /\
  seen (run start (tour ++ os')) 0 1 2 0 = None /\ seen (run start (tour ++ os')) 5 0 6 6 = Some None.
Proof. vm_compute. auto. Qed.

(** Finding: a grid made with bands=g.bands and the same nodata value does not hear
    of g.set_nodata_value(v): its cells without data have turned into data. *)
Theorem C109_nodata_shared_refuted : exists os g h v s' k i j, let s := run start os in
  g <> h /\ (forall m, band_at s g m = band_at s h m) /\ nodata_of s g = nodata_of s h /\
  masked s h k i j = Some true /\ step s (SetNodata g v) = Some s' /\ masked s' h k i j = Some false /\ masked s' g k i j = Some true.
Proof.
  exists tour, 0, 2, (Some 99%Z), (after (run start tour) (SetNodata 0 (Some 99%Z))), 1, 0, 0.
  split; [discriminate|]. split; [reflexivity|]. split; [reflexivity|]. split; [reflexivity|].
  split; [reflexivity|]. split; reflexivity.
Qed.
Print Assumptions C109_nodata_shared_refuted.

(** Finding: the rows given by iterating over g.values are copies for compressed
    bands and for several bands, but windows into the grid for one simple band:
    the same loop leaves one grid as it was and changes the other. *)
Theorem C109_rows_refuted : exists c c' planes nd i j v,
  let s := run start [FromValues c 2 3 planes nd; FromValues c' 2 3 planes nd] in
  let s1 := run s [Row 0 i; Row 1 i; SetArr 0 0 j v; SetArr 1 0 j v] in
  (forall k i j, seen s 0 k i j = seen s 1 k i j) /\ seen s1 0 0 i j = Some v /\ seen s1 1 0 i j = seen s 1 0 i j /\
  seen s 1 0 i j <> Some v.
Proof.
  exists Simple, Compressed, [plane0], None, 1, 2, None. split; [|split; [|split]].
  - intros k i j. destruct k; reflexivity.
  - reflexivity.
  - reflexivity.
  - vm_compute. discriminate.
Qed.
Print Assumptions C109_rows_refuted.

(** Finding: after g.bands = other, g.nbands and g.size are those of the other list,
    while g[...] and everything computed from it still reads the first one; then
    set_nodata_value raises when the numbers of bands differ. *)
Theorem C109_rebind_refuted : exists os g h s' v, let s := run start os in
  step s (Rebind g (BandsOf h)) = Some s' /\ nbands s' g = nbands s' h /\ nbands s g <> nbands s h /\
  (forall k i j, seen s' g k i j = seen s g k i j) /\ seen s' g 0 0 1 <> seen s' h 0 0 1 /\
  step s (SetNodata g v) <> None /\ step s' (SetNodata g v) = None.
Proof.
  set (os := [FromValues Simple 2 3 [plane0; plane0; plane0] None; FromValues Simple 2 3 [plane1; plane0] None]).
  exists os, 0, 1, (after (run start os) (Rebind 0 (BandsOf 1))), (Some 4%Z).
  split; [reflexivity|]. split; [reflexivity|]. split; [vm_compute; discriminate|]. split.
  - intros k i j. destruct k as [|[|[|k]]]; reflexivity.
  - split; [vm_compute; discriminate|]. split; [vm_compute; discriminate | reflexivity].
Qed.
Print Assumptions C109_rebind_refuted.

(** Finding: a band appended to the list of one grid is a new band of all grids made
    with bands=g.bands, and grids then see each other's changes although they were
    made from different arrays. *)
Theorem C109_append_refuted : exists os g h d s1 f s2, let s := run start os in
  apart s g d /\ apart s h d /\ step s (Append (BandsOf g) (Item (BandsOf d) 0)) = Some s1 /\
  nbands s1 h <> nbands s h /\ step s1 (Assign h f) = Some s2 /\ seen s2 d 0 1 1 <> seen s1 d 0 1 1.
Proof.
  set (s1 := after (run start tour) (Append (BandsOf 0) (Item (BandsOf 4) 0))).
  set (f := fun k (_ _ : nat) => if k =? 2 then Some (Some 3%Z) else None).
  exists tour, 0, 2, 4, s1, f, (after s1 (Assign 2 f)).
  assert (A : forall g, g = 0 \/ g = 2 -> apart (run start tour) g 4).
  { intros g Hg k m (a & E1 & E2). destruct m as [|m]; [|destruct m; discriminate].
    vm_compute in E2. injection E2 as <-.
    destruct Hg as [-> | ->]; (destruct k as [|[|k]]; [discriminate | discriminate | destruct k; discriminate]). }
  split; [apply A; auto|]. split; [apply A; auto|]. split; [reflexivity|]. split; [vm_compute; discriminate|].
  split; [reflexivity|]. vm_compute. discriminate.
Qed.
Print Assumptions C109_append_refuted.
