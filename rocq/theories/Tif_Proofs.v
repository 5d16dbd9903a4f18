(** Proofs about GeoTIFF files. *)
From Coq Require Import String List ZArith QArith Bool Arith Lia ZifyBool ZifyNat Lqa.
From Verif Require Crs_Model Crs_Spec Crs_Proofs.
From Verif Require Import Band_Model Band_Spec Band_Proofs Band_IndexModel Band_IndexSpec Band_IndexProofs Tif_Model Tif_Spec.
Import ListNotations.
Open Scope Z_scope.

(* ---- georeference *)
Lemma injQ : forall a b, (inject_Z (a - b) == inject_Z a - inject_Z b)%Q.
Proof. intros a b. unfold Qeq, inject_Z, Qminus, Qplus, Qopp. cbn. lia. Qed.

Lemma written_places : forall t ny i j, same_place (pixel (gt_of ny t) (ny - i) j) (node t i j).
Proof. intros t ny i j. unfold same_place, pixel, node, gt_of. cbn. rewrite injQ. split; ring. Qed.

Lemma round_transform : forall t ny, 0 < ny ->
  (same_transform (t_of ny (gt_of ny t)) t <-> (t_sx t == 0 /\ t_sy t == 0)%Q).
Proof.
  intros t ny Hn. unfold same_transform, t_of, gt_of. cbn. split.
  - intros (_ & _ & _ & _ & A & B). split; lra.
  - intros [A B]. repeat split; rewrite ?A, ?B; ring.
Qed.

Lemma round_transform_skew : forall t ny, same_transform (t_of ny (gt_of ny t))
  (Transform (t_x0 t + 2 * inject_Z ny * t_sx t) (t_y0 t) (t_dx t) (t_dy t) (- t_sx t) (- t_sy t)).
Proof. intros t ny. unfold same_transform, t_of, gt_of. cbn. repeat split; ring. Qed.

Lemma inject_pos : forall n, 0 < n -> (0 < inject_Z n)%Q.
Proof. intros n H. unfold Qlt, inject_Z. cbn. lia. Qed.

Lemma read_places : forall g ny, 0 < ny ->
  ((forall i j, same_place (node (t_of ny g) i j) (pixel g (ny - i) j)) <-> (gt2 g == 0 /\ gt4 g == 0)%Q).
Proof.
  intros g ny Hn. split.
  - intros A. destruct (A 0 1) as [A1 A2]. destruct (A 1 0) as [A3 _]. destruct (A 0 0) as [A4 A5].
    unfold node, pixel, t_of in *. cbn [fst snd t_x0 t_y0 t_dx t_dy t_sx t_sy] in *. rewrite !injQ in *.
    assert (inject_Z 0 == 0)%Q as E0 by reflexivity. assert (inject_Z 1 == 1)%Q as E1 by reflexivity.
    rewrite ?E0, ?E1 in *. split; lra.
  - intros [A B] i j. unfold same_place, node, pixel, t_of. cbn. rewrite A, B, injQ. split; ring.
Qed.

(* ---- values *)
Section Values.
Variable V : Type.
Variable junk : Z -> Z -> V.
Variable zero : V.
Variable conv : gtype -> V -> V.
Variable default_nodata : dtype -> V.
Variable isnan : V -> bool.

Lemma mapM_nth : forall A B (f : A -> res B) l r, mapM f l = Ok r ->
  length r = length l /\ forall k a, nth_error l k = Some a -> exists b, f a = Ok b /\ nth_error r k = Some b.
Proof.
  intros A B f l. induction l as [|a l IH]; cbn; intros r E.
  - inversion E; subst. split; [reflexivity|]. intros [|k] a H; discriminate H.
  - destruct (f a) as [b|e] eqn:Ea; [|discriminate E]. cbn in E.
    destruct (mapM f l) as [bs|e] eqn:El; [|discriminate E]. cbn in E. inversion E; subst.
    destruct (IH bs eq_refl) as [L N]. split; [cbn; congruence|].
    intros [|k] a' H; cbn in *; [inversion H; subst; eauto|]. apply N. exact H.
Qed.
Lemma mapM_ok : forall A B (f : A -> res B) l, (forall a, In a l -> exists b, f a = Ok b) -> exists r, mapM f l = Ok r.
Proof.
  intros A B f l H. induction l as [|a l IH]; [eexists; reflexivity|].
  destruct (H a (or_introl eq_refl)) as [b E]. destruct IH as [r Er]; [intros x Hx; apply H; right; exact Hx|].
  exists (b :: r). cbn. rewrite E. cbn. rewrite Er. reflexivity.
Qed.

(** One written band. *)
Definition shows_top (s : arr V) (H W : Z) (f : Z -> Z -> V) : Prop :=
  nrow s = H /\ ncol s = W /\ forall i j, 0 <= i < H -> 0 <= j < W -> at_ s (H - 1 - i) j = f i j.

Lemma zrange_length_Z : forall n, 0 <= n -> Z.of_nat (length (zrange 0 n)) = n.
Proof. intros n H. rewrite zrange_length. lia. Qed.

Lemma slice_back : forall n, 0 <= n -> slice_indices n None None (Some (-1)) = Ok (n - 1, -1, -1).
Proof. intros n H. reflexivity. Qed.
Lemma slice_all : forall n, 0 <= n -> slice_indices n None None None = Ok (0, n, 1).
Proof. intros n H. reflexivity. Qed.

Lemma nth_range : forall s e st i, 0 <= i < range_len s e st -> nth_error (py_range s e st) (Z.to_nat i) = Some (s + i * st).
Proof.
  intros s e st i H. pose proof (py_range_length s e st) as L.
  destruct (nth_error (py_range s e st) (Z.to_nat i)) as [z|] eqn:E.
  - destruct (py_range_nth s e st _ z E) as (E' & _). rewrite Z2Nat.id in E' by lia. congruence.
  - apply nth_error_None in E. lia.
Qed.

Lemma write_plane : forall bands H W F k, stack_holds bands H W F -> 1 <= H -> 1 <= W -> 0 <= k < Z.of_nat (length bands) ->
  exists a, getitem junk bands (KeyTuple [KSlice None None (Some (-1)); KSlice None None None; KInt k]) = Ok a /\
    shp a = [H; W] /\ forall i j, 0 <= i < H -> 0 <= j < W -> elt a [i; j] = F k (H - 1 - i) j.
Proof.
  intros bands H W F k SH HH HW Hk.
  destruct (getitem_spec V junk bands H W F (KSlice None None (Some (-1))) (KSlice None None None) [KInt k]
    false (py_range (H - 1) (-1) (-1)) false (py_range 0 W 1) true [k] SH) as (a & Ea & Sh & Va).
  - apply sel_slice. apply slice_back. lia.
  - apply sel_slice. apply slice_all. lia.
  - apply selb_one. apply sel_int. lia.
  - intros s e st E. rewrite slice_back in E by lia. inversion E; subst. cbn. lia.
  - intros s e st E. rewrite slice_all in E by lia. inversion E; subst. cbn. lia.
  - assert (range_len (H - 1) (-1) (-1) = H) as LH by (unfold range_len, zceil; cbn [Z.ltb Z.compare Z.opp]; rewrite Z.div_1_r; lia).
    assert (range_len 0 W 1 = W) as LW by (unfold range_len, zceil; cbn [Z.ltb Z.compare Z.opp]; rewrite Z.div_1_r; lia).
    exists a. split; [exact Ea|]. split.
    + rewrite Sh. unfold axis_len. cbn [app]. rewrite !py_range_length, LH, LW. reflexivity.
    + intros i j Hi Hj.
      specialize (Va (Z.to_nat i) (Z.to_nat j) 0%nat (H - 1 - i) j k).
      unfold axis in Va. cbn [app] in Va. rewrite !Z2Nat.id in Va by lia. apply Va.
      * rewrite nth_range by lia. f_equal. lia.
      * rewrite nth_range by lia. f_equal. lia.
      * reflexivity.
Qed.

Lemma write_spec : forall t dt g nodata bands H W F, stack_holds bands H W F -> 1 <= H -> 1 <= W -> gdal_type dt = Ok g ->
  representable conv g (Z.of_nat (length bands)) H W F ->
  exists d, write junk conv t dt nodata bands = Ok d /\ d_ny d = H /\ d_nx d = W /\ d_gt d = gt_of H t /\ d_type d = g /\
    length (d_bands d) = length bands /\
    forall k b, nth_error (d_bands d) k = Some b -> snd b = Some nodata /\ shows_top (fst b) H W (F (Z.of_nat k)).
Proof.
  intros t dt g nodata bands H W F SH HH HW Eg Rp.
  destruct bands as [|b0 bs] eqn:Eb; [destruct SH as [N _]; congruence|].
  assert (bsize b0 = (H, W)) as Sz by (destruct SH as [_ SH']; apply (SH' 0%nat b0 eq_refl)).
  unfold write. rewrite Sz, Eg. cbn [bind]. rewrite <- Eb in *. clear Eb Sz.
  set (f := fun i => bind (getitem junk bands (KeyTuple [KSlice None None (Some (-1)); KSlice None None None; KInt i]))
    (fun a => bind (stored conv g a) (fun s => Ok (s, Some nodata)))).
  assert (forall k, 0 <= k < Z.of_nat (length bands) -> exists s, f k = Ok (s, Some nodata) /\ shows_top s H W (F k)) as Hf.
  { intros k Hk. destruct (write_plane bands H W F k SH HH HW Hk) as (a & Ea & Sh & Va).
    unfold f. rewrite Ea. cbn [bind]. unfold stored. rewrite Sh. cbn [bind]. eexists. split; [reflexivity|].
    split; [reflexivity|]. split; [reflexivity|]. intros i j Hi Hj. cbn [at_].
    rewrite Va by lia. replace (H - 1 - (H - 1 - i)) with i by lia. apply Rp; lia. }
  destruct (mapM_ok _ _ f (zrange 0 (Z.of_nat (length bands)))) as [r Er].
  { intros k Hk. apply In_nth_error in Hk. destruct Hk as [n Hn]. apply zrange_nth in Hn.
    destruct (Hf k) as (s & Es & _); [lia|]. eauto. }
  rewrite Er. cbn [bind]. eexists. split; [reflexivity|]. cbn.
  destruct (mapM_nth _ _ f _ r Er) as [L N]. rewrite zrange_length in L.
  repeat (split; [reflexivity|]). split; [lia|].
  intros k b Hb. assert (k < length r)%nat as Hk by (apply nth_error_Some; congruence).
  assert (nth_error (zrange 0 (Z.of_nat (length bands))) k = Some (0 + Z.of_nat k)) as Hz by (apply zrange_nth_ex; lia).
  set (z := 0 + Z.of_nat k) in *.
  destruct (N k z Hz) as (b' & E1 & E2). rewrite Hb in E2. inversion E2; subst b'.
  apply zrange_nth in Hz. destruct (Hf z) as (s & Es & Ss); [lia|]. rewrite Es in E1. inversion E1; subst b.
  split; [reflexivity|]. cbn [fst]. replace (Z.of_nat k) with z by lia. exact Ss.
Qed.

(* ---- reading *)
Lemma file_reads : forall a H W f, shows_top a H W f -> reads junk (OnDisk a) H W f.
Proof.
  intros a H W f (Sr & Sc & Sv) y x h w (B1 & B2 & B3 & B4 & B5 & B6) Hh Hw.
  cbn. unfold file_getblock, read_as_array. rewrite Sr, Sc.
  replace ((0 <=? x) && (0 <=? H - y - h) && (0 <? w) && (0 <? h) && (x + w <=? W) && (H - y - h + h <=? H)) with true by lia.
  cbn [bind]. eexists. split; [reflexivity|]. split; [reflexivity|]. split; [reflexivity|].
  intros i j Hi Hj. cbn [flip at_ nrow].
  replace (H - y - h + (h - 1 - i)) with (H - 1 - (y + i)) by lia. apply Sv; lia.
Qed.
Lemma file_outside : forall a y x h w, ~ (in_bounds (nrow a) (ncol a) y x h w /\ 0 < h /\ 0 < w) ->
  gband_getblock junk (OnDisk a) y x h w = Err RuntimeError.
Proof.
  intros a y x h w N. cbn. unfold file_getblock, read_as_array.
  destruct ((0 <=? x) && (0 <=? nrow a - y - h) && (0 <? w) && (0 <? h) && (x + w <=? ncol a) && (nrow a - y - h + h <=? nrow a)) eqn:E; [|reflexivity].
  exfalso. apply N. unfold in_bounds. lia.
Qed.

Lemma new_band_holds : forall cls ny nx, 0 <= ny -> 0 <= nx -> exists f, holds (new_band junk zero cls ny nx) ny nx f.
Proof.
  intros cls ny nx Hy Hx. destruct cls; cbn.
  - exists junk. apply holds_content. split; [cbn; lia|]. split; [reflexivity|]. intros; reflexivity.
  - exists (fun _ _ => zero). apply holds_content. split; [|split; [reflexivity|]].
    + exists ny, nx, 256, 256, zero, []. repeat (split; [lia|]). split; [constructor|reflexivity].
    + intros y x Hp Hq. cbn. symmetry. apply init_content.
Qed.

Lemma load_spec : forall cls ny nx a f, 2 <= ny -> 2 <= nx -> shows_top a ny nx f ->
  exists b, load junk zero cls ny nx a = Ok b /\ holds b ny nx f.
Proof.
  intros cls ny nx a f Hy Hx (Sr & Sc & Sv). unfold load.
  replace ((ny =? 1) && (nx =? 1)) with false by lia. replace ((ny =? 1) || (nx =? 1)) with false by lia.
  destruct (new_band_holds cls ny nx) as [f0 Hf0]; [lia|lia|].
  destruct (setblock_holds V _ ny nx f0 0 0 (flip a) Hf0) as (b & Eb & Hb).
  { unfold in_bounds. cbn. lia. }
  rewrite Eb. exists b. split; [reflexivity|]. apply Hb. intros p q Hp Hq. cbn. rewrite Sr, Sc. split.
  - intros _. rewrite !Z.sub_0_r. symmetry. apply Sv; lia.
  - intros N. exfalso. apply N. lia.
Qed.
Lemma holds_reads : forall b H W f, holds b H W f -> reads junk (InMemory b) H W f.
Proof. intros b H W f (_ & _ & K) y x h w B _ _. cbn. apply K. exact B. Qed.

(** The bands selected. *)
Definition chosen (d : dataset V) (s : selection) (rbs : list (arr V * option V)) : Prop := mapM (raster_band d) (numbers d s) = Ok rbs.

Lemma chosen_all : forall d, chosen d All (d_bands d).
Proof.
  intros d. unfold chosen. cbn [numbers]. unfold zrange.
  replace (Z.to_nat (Z.of_nat (length (d_bands d)) + 1 - 1)) with (length (d_bands d)) by lia.
  enough (forall l l0, d_bands d = l0 ++ l ->
    mapM (raster_band d) (map (fun k => 1 + Z.of_nat k) (seq (length l0) (length l))) = Ok l) as G by (apply (G (d_bands d) []); reflexivity).
  intros l. induction l as [|b l IH]; intros l0 E; cbn [length seq map mapM]; [reflexivity|].
  unfold raster_band at 1. replace (1 <=? 1 + Z.of_nat (length l0)) with true by lia.
  replace (Z.to_nat (1 + Z.of_nat (length l0) - 1)) with (length l0) by lia.
  rewrite E at 1. rewrite nth_error_app2 by lia. rewrite Nat.sub_diag. cbn [nth_error bind].
  specialize (IH (l0 ++ [b])). rewrite app_length in IH. cbn [length] in IH. rewrite Nat.add_1_r in IH.
  rewrite IH; [reflexivity|]. rewrite E, <- app_assoc. reflexivity.
Qed.

Lemma raster_band_eq : forall d i (b : arr V * option V), 1 <= i -> nth_error (d_bands d) (Z.to_nat i - 1) = Some b -> raster_band d i = Ok b.
Proof.
  intros d i b H E. unfold raster_band. replace (1 <=? i) with true by lia.
  replace (Z.to_nat (i - 1)) with (Z.to_nat i - 1)%nat by lia. rewrite E. reflexivity.
Qed.
Lemma asked_chosen : forall d s rbs, asked d s rbs -> chosen d s rbs.
Proof.
  intros d [|i|l] rbs A; cbn in A.
  - subst. apply chosen_all.
  - destruct A as (b & -> & H & E). unfold chosen. cbn. rewrite (raster_band_eq d i b H E). reflexivity.
  - unfold chosen. cbn [numbers]. induction A as [|i b l rbs [H E] A IH]; [reflexivity|].
    cbn [mapM]. rewrite (raster_band_eq d i b H E). cbn [bind]. rewrite IH. reflexivity.
Qed.

Lemma read_disk : forall d s cls rbs b0 rest, chosen d s rbs -> rbs = b0 :: rest ->
  read junk zero d false s cls = Ok (map (fun rb => OnDisk (fst rb)) rbs, snd b0).
Proof. intros d s cls rbs [a n] rest C E. unfold read. rewrite C. cbn [bind]. rewrite E. reflexivity. Qed.

Lemma read_memory : forall d s cls rbs b0 rest t (P : arr V -> Z -> Z -> V), chosen d s rbs -> rbs = b0 :: rest ->
  numpy_dtype (d_type d) = Ok t -> 2 <= d_ny d -> 2 <= d_nx d ->
  (forall b, In b rbs -> shows_top (fst b) (d_ny d) (d_nx d) (P (fst b))) ->
  exists bs, read junk zero d true s cls = Ok (bs, snd b0) /\ length bs = length rbs /\
    forall k b rb, nth_error bs k = Some b -> nth_error rbs k = Some rb ->
      gband_size b = (d_ny d, d_nx d) /\ reads junk b (d_ny d) (d_nx d) (P (fst rb)).
Proof.
  intros d s cls rbs [a n] rest t P C E Et Hy Hx Sh. unfold read. rewrite C. cbn [bind].
  set (f := fun rb : arr V * option V => bind (load junk zero cls (d_ny d) (d_nx d) (fst rb)) (fun b => Ok (InMemory b))).
  assert (forall rb, In rb rbs -> exists b, f rb = Ok (InMemory b) /\ holds b (d_ny d) (d_nx d) (P (fst rb))) as Hf.
  { intros rb Hr. destruct (load_spec cls (d_ny d) (d_nx d) (fst rb) (P (fst rb)) Hy Hx (Sh rb Hr)) as (b & Eb & Hb).
    exists b. unfold f. rewrite Eb. split; [reflexivity|exact Hb]. }
  destruct (mapM_ok _ _ f rbs) as [r Er]; [intros rb Hr; destruct (Hf rb Hr) as (b & Eb & _); eauto|].
  exists r. split.
  - rewrite E. rewrite Et. cbn [bind]. rewrite <- E. rewrite Er. reflexivity.
  - destruct (mapM_nth _ _ f rbs r Er) as [L N]. split; [exact L|].
    intros k b rb Hb Hrb. destruct (N k rb Hrb) as (b' & E1 & E2). rewrite Hb in E2. inversion E2; subst b'.
    destruct (Hf rb (nth_error_In _ _ Hrb)) as (m & Em & Hm). rewrite Em in E1. inversion E1; subst b.
    split; [apply Hm|]. apply holds_reads. exact Hm.
Qed.

Lemma same_sizes_ok : forall (bs : list (gband V)) H W, (forall b, In b bs -> gband_size b = (H, W)) -> same_sizes bs = true.
Proof.
  intros [|b0 bs] H W A; [reflexivity|]. cbn. apply forallb_forall. intros b Hb.
  rewrite (A b (or_intror Hb)), (A b0 (or_introl eq_refl)). cbn. rewrite !Z.eqb_refl. reflexivity.
Qed.

Theorem round_memory : forall t dt g nt nodata bands H W F cls, stack_holds bands H W F -> 2 <= H -> 2 <= W ->
  gdal_type dt = Ok g -> numpy_dtype g = Ok nt -> representable conv g (Z.of_nat (length bands)) H W F ->
  exists d h, write junk conv t dt nodata bands = Ok d /\ read_geotiff junk zero default_nodata d true All cls = Ok h /\
    tg_t h = t_of H (gt_of H t) /\ tg_nodata h = nodata /\ length (tg_bands h) = length bands /\ all_read junk (tg_bands h) H W F.
Proof.
  intros t dt g nt nodata bands H W F cls SH HH HW Eg En Rp.
  destruct (write_spec t dt g nodata bands H W F SH) as (d & Ed & Hy & Hx & Hg & Ht & L & Sb); try assumption; try lia.
  destruct (d_bands d) as [|b0 rest] eqn:Eb; [destruct SH as [N _]; destruct bands; [congruence|discriminate L]|].
  assert (snd b0 = Some nodata) as Nd by apply (Sb 0%nat b0 eq_refl).
  destruct (read_memory d All cls (d_bands d) b0 rest nt (fun a i j => at_ a (H - 1 - i) j)) as (bs & Er & Lb & Hb).
  - apply chosen_all.
  - exact Eb.
  - congruence.
  - lia.
  - lia.
  - intros b Hb. apply In_nth_error in Hb. destruct Hb as [k Hk]. rewrite Eb in Hk. destruct (Sb k b Hk) as [_ (S1 & S2 & S3)].
    rewrite Hy, Hx. split; [exact S1|]. split; [exact S2|]. reflexivity.
  - exists d. unfold read_geotiff. rewrite Er. cbn [bind].
    assert (forall k b, nth_error bs k = Some b -> gband_size b = (H, W) /\ reads junk b H W (F (Z.of_nat k))) as A.
    { intros k b Hk. assert (k < length bs)%nat as Lk by (apply nth_error_Some; congruence).
      destruct (nth_error (d_bands d) k) as [rb|] eqn:Erb; [|apply nth_error_None in Erb; lia].
      destruct (Hb k b rb Hk Erb) as [A1 A2]. rewrite Hy, Hx in A1, A2. split; [exact A1|].
      rewrite Eb in Erb. destruct (Sb k rb Erb) as [_ (_ & _ & S3)].
      intros y x h w B Bh Bw. destruct (A2 y x h w B Bh Bw) as (r & Gr & R1 & R2 & R3).
      exists r. split; [exact Gr|]. split; [exact R1|]. split; [exact R2|].
      intros i j Hi Hj. rewrite R3 by assumption. destruct B as (B1 & B2 & B3 & B4 & B5 & B6). apply S3; lia. }
    rewrite (same_sizes_ok bs H W) by (intros b Ib; apply In_nth_error in Ib; destruct Ib as [k Ik]; apply (A k b Ik)).
    rewrite Nd. cbn [grid_nodata bind]. rewrite Hy, Hg. eexists. split; [exact Ed|]. split; [reflexivity|].
    cbn. split; [reflexivity|]. split; [reflexivity|]. rewrite Eb in Lb. split; [congruence|exact A].
Qed.

Theorem round_disk : forall t dt g nodata bands H W F cls, stack_holds bands H W F -> 1 <= H -> 1 <= W ->
  gdal_type dt = Ok g -> representable conv g (Z.of_nat (length bands)) H W F ->
  exists d h, write junk conv t dt nodata bands = Ok d /\ read_geotiff junk zero default_nodata d false All cls = Ok h /\
    tg_t h = t_of H (gt_of H t) /\ tg_nodata h = nodata /\ length (tg_bands h) = length bands /\ all_read junk (tg_bands h) H W F.
Proof.
  intros t dt g nodata bands H W F cls SH HH HW Eg Rp.
  destruct (write_spec t dt g nodata bands H W F SH) as (d & Ed & Hy & Hx & Hg & Ht & L & Sb); try assumption.
  destruct (d_bands d) as [|b0 rest] eqn:Eb; [destruct SH as [N _]; destruct bands; [congruence|discriminate L]|].
  assert (snd b0 = Some nodata) as Nd by apply (Sb 0%nat b0 eq_refl).
  exists d. unfold read_geotiff. rewrite (read_disk d All cls (d_bands d) b0 rest (chosen_all d) Eb). cbn [bind]. rewrite Nd.
  assert (forall k b, nth_error (map (fun rb : arr V * option V => OnDisk (fst rb)) (d_bands d)) k = Some b ->
    gband_size b = (H, W) /\ reads junk b H W (F (Z.of_nat k))) as A.
  { intros k b Hk. rewrite nth_error_map, Eb in Hk. destruct (nth_error (b0 :: rest) k) as [rb|] eqn:Erb; [|discriminate Hk].
    cbn in Hk. inversion Hk; subst b. destruct (Sb k rb Erb) as [_ Ss]. split; [|apply file_reads; exact Ss].
    destruct Ss as (S1 & S2 & _). cbn. congruence. }
  rewrite (same_sizes_ok _ H W) by (intros b Ib; apply In_nth_error in Ib; destruct Ib as [k Ik]; apply (A k b Ik)).
  cbn [grid_nodata bind]. rewrite Hy, Hg. eexists. split; [exact Ed|]. split; [reflexivity|].
  cbn. split; [reflexivity|]. split; [reflexivity|]. rewrite map_length, Eb. split; [exact L|]. rewrite <- Eb. exact A.
Qed.

(** Any file: both ways of reading give the same values, and the selected bands. *)
Theorem lazy_memory : forall d s cls cls' nt rbs b0 rest, valid d -> asked d s rbs -> rbs = b0 :: rest -> numpy_dtype (d_type d) = Ok nt ->
  2 <= d_ny d -> 2 <= d_nx d ->
  exists ms ls, read junk zero d true s cls = Ok (ms, snd b0) /\ read junk zero d false s cls' = Ok (ls, snd b0) /\
    length ms = length rbs /\ length ls = length rbs /\
    forall k rb m l, nth_error rbs k = Some rb -> nth_error ms k = Some m -> nth_error ls k = Some l ->
      reads junk m (d_ny d) (d_nx d) (fun i j => at_ (fst rb) (d_ny d - 1 - i) j) /\
      reads junk l (d_ny d) (d_nx d) (fun i j => at_ (fst rb) (d_ny d - 1 - i) j).
Proof.
  intros d s cls cls' nt rbs b0 rest (V1 & V2 & V3) C E En Hy Hx. apply asked_chosen in C.
  assert (forall b, In b rbs -> shows_top (fst b) (d_ny d) (d_nx d) (fun i j => at_ (fst b) (d_ny d - 1 - i) j)) as Sh.
  { intros b Hb. apply In_nth_error in Hb. destruct Hb as [k Hk].
    destruct (mapM_nth _ _ _ _ _ C) as [L N].
    destruct (nth_error (numbers d s) k) as [z|] eqn:Ez.
    2:{ apply nth_error_None in Ez. assert (k < length rbs)%nat by (apply nth_error_Some; congruence). lia. }
    destruct (N k z Ez) as (b' & E1 & E2). rewrite Hk in E2. inversion E2; subst b'.
    unfold raster_band in E1. destruct (1 <=? z); [|discriminate E1].
    destruct (nth_error (d_bands d) (Z.to_nat (z - 1))) as [b''|] eqn:En'; [|discriminate E1]. inversion E1; subst b''.
    apply nth_error_In in En'. rewrite Forall_forall in V3. destruct (V3 b En') as [A B]. repeat split; assumption. }
  destruct (read_memory d s cls rbs b0 rest nt (fun a i j => at_ a (d_ny d - 1 - i) j) C E En Hy Hx Sh) as (ms & Em & Lm & Hm).
  exists ms, (map (fun rb : arr V * option V => OnDisk (fst rb)) rbs). split; [exact Em|].
  split; [apply (read_disk d s cls' rbs b0 rest C E)|]. split; [exact Lm|]. rewrite map_length. split; [reflexivity|].
  intros k rb m l Hrb Hmk Hl. split; [apply (Hm k m rb Hmk Hrb)|].
  rewrite nth_error_map, Hrb in Hl. cbn in Hl. inversion Hl; subst l. apply file_reads. apply Sh. apply (nth_error_In _ _ Hrb).
Qed.

Theorem thin_raises : forall d s cls rbs b0 rest nt, asked d s rbs -> rbs = b0 :: rest -> numpy_dtype (d_type d) = Ok nt ->
  d_ny d = 1 \/ d_nx d = 1 -> exists e, read_geotiff junk zero default_nodata d true s cls = Err e.
Proof.
  intros d s cls rbs [a n] rest nt C E En Th. apply asked_chosen in C. unfold read_geotiff, read. rewrite C, E. cbn [bind]. rewrite En. cbn [bind mapM fst].
  assert (exists e, load junk zero cls (d_ny d) (d_nx d) a = Err e) as [e Ee].
  { unfold load. destruct ((d_ny d =? 1) && (d_nx d =? 1)); [eauto|].
    replace ((d_ny d =? 1) || (d_nx d =? 1)) with true by lia. eauto. }
  rewrite Ee. cbn. eauto.
Qed.

Theorem lazy_nodata : forall d s cls rbs a rest t, asked d s rbs -> rbs = (a, None) :: rest -> valid d ->
  numpy_dtype (d_type d) = Ok t -> unsigned t = false -> exists e, read_geotiff junk zero default_nodata d false s cls = Err e.
Proof.
  intros d s cls rbs a rest t C E Vd En U. apply asked_chosen in C. unfold read_geotiff. rewrite (read_disk d s cls rbs (a, None) rest C E). cbn [bind snd].
  destruct (same_sizes _); [|eexists; reflexivity]. unfold grid_nodata. rewrite En. cbn. rewrite U. eexists; reflexivity.
Qed.

(* ---- several files *)
Lemma read_each_ok : forall cls ds prev l, read_each junk zero isnan ds true cls prev = Ok l ->
  length l = length ds /\ forall k b n d, nth_error l k = Some (b, n) -> nth_error ds k = Some d -> exists bs, read junk zero d true (One 1) cls = Ok (b :: bs, n).
Proof.
  intros cls ds. induction ds as [|d ds IH]; cbn [read_each]; intros prev l E.
  - inversion E; subst. split; [reflexivity|]. intros [|k] b n d H; discriminate H.
  - destruct (read junk zero d true (One 1) cls) as [[bs n]|e] eqn:Er; [|discriminate E]. cbn [bind] in E.
    destruct bs as [|b bs]; [discriminate E|].
    destruct (match prev with None => None | Some p => check_headers isnan p n end); [discriminate E|].
    destruct (read_each junk zero isnan ds true cls (Some n)) as [rest|e] eqn:Es; [|discriminate E]. cbn [bind] in E.
    inversion E; subst l. destruct (IH _ _ Es) as [L N]. split; [cbn; congruence|].
    intros [|k] b' n' d' H1 H2; cbn in *.
    + inversion H1; inversion H2; subst. eauto.
    + eapply N; eassumption.
Qed.

Lemma first_chosen : forall d (a : arr V) n rest, d_bands d = (a, n) :: rest -> chosen d (One 1) [(a, n)].
Proof. intros d a n rest E. unfold chosen. cbn. unfold raster_band. rewrite E. reflexivity. Qed.

Theorem stack_files : forall d0 ds cls h, from_geotiffs junk zero default_nodata isnan (d0 :: ds) None cls = Ok h ->
  Forall valid (d0 :: ds) -> (forall d, In d (d0 :: ds) -> 2 <= d_ny d /\ 2 <= d_nx d) ->
  tg_t h = t_of (d_ny d0) (d_gt d0) /\ length (tg_bands h) = S (length ds) /\
  (forall d, In d (d0 :: ds) -> d_ny d = d_ny d0 /\ d_nx d = d_nx d0) /\
  forall k d b, nth_error (d0 :: ds) k = Some d -> nth_error (tg_bands h) k = Some b ->
    exists a n rest, d_bands d = (a, n) :: rest /\ reads junk b (d_ny d0) (d_nx d0) (fun i j => at_ a (d_ny d0 - 1 - i) j).
Proof.
  intros d0 ds cls h E Vd Sz. unfold from_geotiffs in E.
  destruct (read_each junk zero isnan (d0 :: ds) true cls None) as [l|e] eqn:El; [|discriminate E].
  cbn [bind] in E. destruct (same_sizes (map fst l)) eqn:Ss; [|discriminate E].
  destruct l as [|[b0 n0] l']; [discriminate E|].
  destruct (grid_nodata default_nodata d0 true n0) as [v|e]; [|discriminate E]. cbn [bind] in E.
  assert (h = Tgrid (t_of (d_ny d0) (d_gt d0)) (map fst ((b0, n0) :: l')) v) as -> by congruence. clear E.
  destruct (read_each_ok _ _ _ _ El) as [L N]. cbn [tg_t tg_bands].
  assert (forall k d b, nth_error (d0 :: ds) k = Some d -> nth_error (map fst ((b0, n0) :: l')) k = Some b ->
    gband_size b = (d_ny d, d_nx d) /\ exists a n rest, d_bands d = (a, n) :: rest /\ reads junk b (d_ny d) (d_nx d) (fun i j => at_ a (d_ny d - 1 - i) j)) as A.
  { intros k d b Hd Hb. rewrite nth_error_map in Hb. destruct (nth_error ((b0, n0) :: l') k) as [[b' n']|] eqn:Eb; [|discriminate Hb].
    cbn in Hb. inversion Hb; subst b'. destruct (N k b n' d Eb Hd) as [bs Er].
    assert (In d (d0 :: ds)) as Id by (apply (nth_error_In _ _ Hd)). destruct (Sz d Id) as [Hy Hx].
    rewrite Forall_forall in Vd. destruct (Vd d Id) as (V1 & V2 & V3).
    destruct (d_bands d) as [|[a n] rest] eqn:Ebd.
    { unfold read in Er. cbn in Er. unfold raster_band in Er. rewrite Ebd in Er. cbn in Er. discriminate Er. }
    destruct (numpy_dtype (d_type d)) as [nt|e] eqn:Ent.
    2:{ unfold read in Er. rewrite (first_chosen d a n rest Ebd) in Er. cbn [bind] in Er. rewrite Ent in Er. discriminate Er. }
    destruct (read_memory d (One 1) cls [(a, n)] (a, n) [] nt (fun a i j => at_ a (d_ny d - 1 - i) j) (first_chosen d a n rest Ebd) eq_refl Ent Hy Hx) as (bs' & Er' & Lb & Hb').
    { intros b1 [<-|[]]. cbn. inversion V3 as [|? ? V4 ?]; subst. cbn in V4. destruct V4. repeat split; assumption. }
    rewrite Er in Er'. inversion Er' as [[E1 E2]]. subst bs'.
    destruct (Hb' 0%nat b (a, n) eq_refl eq_refl) as [G1 G2]. split; [exact G1|]. exists a, n, rest. split; [reflexivity|exact G2]. }
  split; [reflexivity|]. split; [rewrite map_length; cbn in L |- *; lia|].
  assert (forall k d b, nth_error (d0 :: ds) k = Some d -> nth_error (map fst ((b0, n0) :: l')) k = Some b -> d_ny d = d_ny d0 /\ d_nx d = d_nx d0) as G.
  { intros k d b Hd Hb. destruct (A k d b Hd Hb) as [S1 _]. destruct (A 0%nat d0 b0 eq_refl eq_refl) as [S0 _].
    destruct k as [|k]; [cbn in Hd; inversion Hd; subst; split; reflexivity|].
    cbn in Ss. rewrite forallb_forall in Ss. cbn in Hb. specialize (Ss b (nth_error_In _ _ Hb)).
    rewrite S1, S0 in Ss. cbn in Ss. lia. }
  assert (forall k d, nth_error (d0 :: ds) k = Some d -> exists b, nth_error (map fst ((b0, n0) :: l')) k = Some b) as X.
  { intros k d Hd. assert (k < length (d0 :: ds))%nat as Lk by (apply nth_error_Some; congruence).
    destruct (nth_error (map fst ((b0, n0) :: l')) k) as [b|] eqn:Eb; [eauto|].
    apply nth_error_None in Eb. rewrite map_length in Eb. lia. }
  split.
  - intros d Hd. apply In_nth_error in Hd. destruct Hd as [k Hk]. destruct (X k d Hk) as [b Hb]. exact (G k d b Hk Hb).
  - intros k d b Hd Hb. destruct (G k d b Hd Hb) as [E1 E2]. destruct (A k d b Hd Hb) as [_ (a & n & rest & Ea & Ra)].
    exists a, n, rest. split; [exact Ea|]. rewrite E1, E2 in Ra. exact Ra.
Qed.

Theorem keyword_raises : forall ds im cls, exists e, from_geotiffs junk zero default_nodata isnan ds (Some im) cls = Err e.
Proof. intros [|d ds] im cls; cbn; eauto. Qed.

(** The transforms, types and contents of the files do not matter. *)
Theorem headers_ignored : forall d1 d2 a1 a2 n1 n2 r1 r2 t1 t2 cls, valid d1 -> valid d2 ->
  d_bands d1 = (a1, n1) :: r1 -> d_bands d2 = (a2, n2) :: r2 -> numpy_dtype (d_type d1) = Ok t1 -> numpy_dtype (d_type d2) = Ok t2 ->
  d_ny d1 = d_ny d2 -> d_nx d1 = d_nx d2 -> 2 <= d_ny d1 -> 2 <= d_nx d1 -> (forall v, n2 = Some v -> isnan v = false) ->
  exists h, from_geotiffs junk zero default_nodata isnan [d1; d2] None cls = Ok h.
Proof.
  intros d1 d2 a1 a2 n1 n2 r1 r2 t1 t2 cls (V1 & V2 & V3) (W1 & W2 & W3) E1 E2 T1 T2 Ey Ex Hy Hx Nn.
  rewrite E1 in V3. rewrite E2 in W3. inversion V3 as [|? ? V4 _]; subst. inversion W3 as [|? ? W4 _]; subst. cbn in V4, W4.
  destruct (read_memory d1 (One 1) cls _ (a1, n1) [] t1 (fun a i j => at_ a (d_ny d1 - 1 - i) j) (first_chosen d1 a1 n1 r1 E1) eq_refl T1 Hy Hx) as (b1 & Er1 & L1 & H1).
  { intros b [<-|[]]. cbn. destruct V4. repeat split; assumption. }
  destruct (read_memory d2 (One 1) cls _ (a2, n2) [] t2 (fun a i j => at_ a (d_ny d2 - 1 - i) j) (first_chosen d2 a2 n2 r2 E2) eq_refl T2) as (b2 & Er2 & L2 & H2); [lia|lia| |].
  { intros b [<-|[]]. cbn. destruct W4. repeat split; assumption. }
  destruct b1 as [|b1 [|? ?]]; try discriminate L1. destruct b2 as [|b2 [|? ?]]; try discriminate L2.
  destruct (H1 0%nat b1 (a1, n1) eq_refl eq_refl) as [S1 _]. destruct (H2 0%nat b2 (a2, n2) eq_refl eq_refl) as [S2 _].
  unfold from_geotiffs. cbn [read_each]. rewrite Er1. cbn [bind]. rewrite Er2. cbn [bind snd].
  assert (check_headers isnan n1 n2 = None) as Ck.
  { unfold check_headers. destruct n2 as [v|]; [|reflexivity]. rewrite (Nn v eq_refl). reflexivity. }
  rewrite Ck. cbn [bind map fst same_sizes forallb]. rewrite S1, S2. cbn [fst snd]. rewrite Ey, Ex, !Z.eqb_refl. cbn [andb].
  unfold grid_nodata. destruct n1 as [v|]; [cbn; eauto|]. rewrite T1. cbn. eauto.
Qed.
End Values.

Lemma dtype_round : forall d g, gdal_type d = Ok g -> d <> int8 -> d <> int64 -> numpy_dtype g = Ok d.
Proof. intros d g E N1 N2. destruct d; cbn in E; try discriminate E; try congruence; inversion E; reflexivity. Qed.

(* ---- coordinate systems *)
Lemma geodetic_iff : forall p, proj4_isgeodetic p = true -> p <> ""%string.
Proof. intros p H ->. discriminate H. Qed.

Theorem geographic_read : forall float proj4 ta tf a rf, proj4_isgeodetic proj4 = true ->
  Crs_Spec.keyed float "+a" ("+a=" ++ ta)%string a -> Crs_Spec.keyed float "+f" ("+f=" ++ tf)%string rf ->
  exists e p b, read_crs float proj4 ta tf = Crs_Model.Ok (Geographic e p) /\ Crs_Model.el_a e = a /\ Crs_Model.el_b e = Some b /\
    (b == a * (1 - rf))%Q.
Proof.
  intros float proj4 ta tf a rf G Ka Kf.
  destruct (Crs_Proofs.parse_af float [] ("+a=" ++ ta)%string [] ("+f=" ++ tf)%string [] a rf) as (e & E & _ & Ea & b & f' & Eb & _ & Hb & _); try constructor; try assumption.
  unfold read_crs. destruct (String.eqb proj4 "") eqn:Ep; [apply String.eqb_eq in Ep; subst; discriminate G|]. rewrite G.
  unfold Crs_Model.geographical_crs.
  assert (Crs_Spec.unwords ([] ++ ("+a=" ++ ta)%string :: [] ++ [("+f=" ++ tf)%string]) = ("+a=" ++ ta ++ " +f=" ++ tf)%string) as U.
  { cbn [app Crs_Spec.unwords]. cbn. reflexivity. }
  rewrite U in E. rewrite E. do 3 eexists. split; [reflexivity|]. split; [exact Ea|]. split; [exact Eb|exact Hb].
Qed.

Theorem sphere_read : forall float, float "6370997.0"%string = Some (6370997 # 1)%Q -> float "0.0"%string = Some 0%Q ->
  read_crs float "+proj=longlat +a=6370997 +b=6370997 +no_defs" "6370997.0" "0.0" = Crs_Model.Raise Crs_Model.ZeroDivisionError.
Proof.
  intros float A B. unfold read_crs.
  change (String.eqb "+proj=longlat +a=6370997 +b=6370997 +no_defs" "") with false.
  change (proj4_isgeodetic "+proj=longlat +a=6370997 +b=6370997 +no_defs") with true. cbv beta iota.
  change ("+a=" ++ "6370997.0" ++ " +f=" ++ "0.0")%string with "+a=6370997.0 +f=0.0"%string.
  unfold Crs_Model.geographical_crs, Crs_Model.parse_ellipsoid.
  change (Crs_Model.split_ws "+a=6370997.0 +f=0.0" "") with ["+a=6370997.0"; "+f=0.0"]%string.
  change (Crs_Model.has_substring "+ellps" "+a=6370997.0 +f=0.0") with false.
  change (Crs_Model.has_substring "+datum" "+a=6370997.0 +f=0.0") with false.
  change (Crs_Model.has_substring "+a" "+a=6370997.0 +f=0.0") with true.
  change (Crs_Model.has_substring "+b" "+a=6370997.0 +f=0.0") with false.
  change (Crs_Model.has_substring "+f" "+a=6370997.0 +f=0.0") with true.
  cbn -[Qdiv Qminus Qmult Qeq_bool]. rewrite A, B. cbn -[Qdiv Qminus Qmult Qeq_bool].
  change (Qeq_bool 6370997 0) with false. reflexivity.
Qed.
