(** Chunks, clipping, resizing and masks: proofs. *)
From Coq Require Import List ZArith QArith Qround Qabs Lia Lqa Bool.
From Verif Require Import Band_Model Band_Spec Band_Proofs Band_IndexModel Band_IndexSpec
  Band_IndexProofs Band_MaskProofs Grid_Model Grid_Spec Grid_Proofs.
Import ListNotations.
Open Scope Z_scope.

Lemma mapM_nth : forall A B (f : A -> res B) l (P : nat -> B -> Prop),
  (forall n a, nth_error l n = Some a -> exists b, f a = Ok b /\ P n b) ->
  exists bs, mapM f l = Ok bs /\ length bs = length l /\
    forall n b, nth_error bs n = Some b -> P n b.
Proof.
  intros A B f l. induction l as [|a l IH]; intros P Hf.
  - exists []. split; [reflexivity|]. split; [reflexivity|]. intros [|n] b E; discriminate.
  - destruct (Hf 0%nat a eq_refl) as (b & Eb & Pb).
    destruct (IH (fun n => P (S n))) as (bs & Ebs & L & Pbs).
    { intros n a' E. apply (Hf (S n) a'). exact E. }
    exists (b :: bs). simpl. rewrite Eb. simpl. rewrite Ebs. simpl.
    split; [reflexivity|]. split; [congruence|]. intros [|n] b' E.
    + injection E as <-. exact Pb.
    + apply Pbs. exact E.
Qed.

Lemma zrange_nth0 : forall n k, 0 <= k < n -> nth_error (zrange 0 n) (Z.to_nat k) = Some k.
Proof. intros. rewrite zrange_nth_ex by lia. f_equal. lia. Qed.

Lemma range_unit_nth : forall a b i, 0 <= i < b - a ->
  nth_error (py_range a b 1) (Z.to_nat i) = Some (a + i).
Proof.
  intros a b i Hi. unfold py_range. rewrite nth_error_map.
  assert (R : range_len a b 1 = b - a).
  { unfold range_len, zceil. simpl. rewrite Z.div_1_r. lia. }
  rewrite R.
  rewrite (zrange_nth_ex 0 (b - a) (Z.to_nat i)) by lia. simpl. f_equal. lia.
Qed.

Lemma range_unit_len : forall a b, a <= b -> Z.of_nat (length (py_range a b 1)) = b - a.
Proof.
  intros. rewrite py_range_length. unfold range_len, zceil. simpl. rewrite Z.div_1_r. lia.
Qed.

Lemma clip_slice : forall n a b, 0 <= n -> 0 <= a <= b ->
  selects n (sl a b) false (py_range (Z.min a n) (Z.min b n) 1) /\ forward n (sl a b).
Proof.
  intros n a b N B.
  assert (E : slice_indices n (Some a) (Some b) None = Ok (Z.min a n, Z.min b n, 1)).
  { unfold slice_indices. simpl. unfold adjust.
    rewrite (proj2 (Z.ltb_ge a 0)), (proj2 (Z.ltb_ge b 0)) by lia.
    rewrite (proj2 (Z.ltb_ge a 0)), (proj2 (Z.ltb_ge b 0)) by lia.
    destruct (n <? a) eqn:Y; [apply Z.ltb_lt in Y|apply Z.ltb_ge in Y];
    destruct (n <? b) eqn:X; [apply Z.ltb_lt in X|apply Z.ltb_ge in X
                             |apply Z.ltb_lt in X|apply Z.ltb_ge in X];
      repeat f_equal; lia. }
  split; [apply (sel_slice n _ _ _ _ _ _ E)|].
  unfold forward, sl. intros s e st E'. rewrite E in E'. injection E' as <- <- <-. simpl. lia.
Qed.

Section Ops.
Variable V : Type.
Variable junk : Z -> Z -> V.
Variable v0 : V.

Lemma new_band_holds : forall cls h w init, 0 <= h -> 0 <= w ->
  exists b f, new_band junk v0 cls h w init = Ok b /\ holds b h w f /\
    (forall v, init = Some v -> forall y x, f y x = v).
Proof.
  intros cls h w init Hh Hw. destruct cls; simpl.
  - assert (E : (h <? 0) || (w <? 0) = false) by (apply orb_false_intro; apply Z.ltb_ge; lia).
    destruct init as [v|].
    + unfold np_full. rewrite E. simpl. eexists _, (fun _ _ => v). split; [reflexivity|].
      split; [|intros v' [= <-]; reflexivity].
      apply holds_content. simpl. repeat split; auto.
    + unfold np_empty. rewrite E. simpl. eexists _, junk. split; [reflexivity|].
      split; [|discriminate]. apply holds_content. simpl. repeat split; auto.
  - set (v := match init with Some v => v | None => v0 end).
    eexists _, (fun _ _ => v). split; [reflexivity|]. split.
    + apply holds_content. simpl. split.
      { exists h, w, 256, 256, v, []. repeat split; try lia. constructor. }
      split; [reflexivity|]. intros. symmetry. apply init_content.
    + intros v' ->. reflexivity.
Qed.

Lemma new_plane : forall cls h w f, 0 <= h -> 0 <= w ->
  exists b, bind (new_band junk v0 cls h w None) (fun b => setblock_ b 0 0 (mkA h w f)) = Ok b /\
    forall f', (forall i j, 0 <= i < h -> 0 <= j < w -> f' i j = f i j) -> holds b h w f'.
Proof.
  intros cls h w f Hh Hw.
  destruct (new_band_holds cls h w None Hh Hw) as (b & f0 & E & Hb & _). rewrite E. simpl.
  destruct (setblock_holds V b h w f0 0 0 (mkA h w f) Hb) as (b' & E' & P).
  { unfold in_bounds; simpl. lia. }
  unfold setblock_. rewrite E'. exists b'. split; [reflexivity|]. intros f' Ef.
  apply P. intros p q Hp Hq. simpl. split; [|lia]. intros _. rewrite !Z.sub_0_r. apply Ef; lia.
Qed.

Lemma make_grid_spec : forall cls T (values : nd V) nodata h w nb F,
  0 <= h -> 0 <= w -> 0 < nb -> shp values = [h; w; nb] ->
  (forall i j k, 0 <= i < h -> 0 <= j < w -> 0 <= k < nb -> elt values [i; j; k] = F k i j) ->
  exists g, make_grid junk v0 cls T values nodata = Ok g /\ grid_is g T h w nb F nodata /\ gcls g = cls.
Proof.
  intros cls T values nodata h w nb F Hh Hw Hn S E. unfold make_grid. rewrite S. cbv beta.
  destruct (mapM_nth Z (band V)
    (fun k => bind (new_band junk v0 cls h w None)
                (fun b => setblock_ b 0 0 (mkA h w (fun i j => elt values [i; j; k]))))
    (zrange 0 nb) (fun n b => holds b h w (F (Z.of_nat n)))) as (bs & Eb & L & P).
  { intros n k Ek. apply zrange_nth in Ek.
    destruct (new_plane cls h w (fun i j => elt values [i; j; k]) Hh Hw) as (b & Eb & Pb).
    exists b. split; [exact Eb|]. apply Pb. intros i j Hi Hj.
    replace k with (Z.of_nat n) by lia. symmetry. apply E; lia. }
  rewrite Eb. simpl. eexists. split; [reflexivity|]. split; [|reflexivity].
  rewrite zrange_length in L.
  split; [reflexivity|]. split; [|split; [simpl; lia|reflexivity]].
  split; [intros X; simpl in X; subst bs; simpl in L; lia|]. exact P.
Qed.

Lemma make_grid_spec2 : forall cls T (values : nd V) nodata h w F,
  0 <= h -> 0 <= w -> shp values = [h; w] ->
  (forall i j, 0 <= i < h -> 0 <= j < w -> elt values [i; j] = F 0 i j) ->
  exists g, make_grid junk v0 cls T values nodata = Ok g /\ grid_is g T h w 1 F nodata /\ gcls g = cls.
Proof.
  intros cls T values nodata h w F Hh Hw S E. unfold make_grid. rewrite S. cbv beta.
  destruct (new_plane cls h w (fun i j => elt values [i; j]) Hh Hw) as (b & Eb & Pb).
  rewrite Eb. simpl. eexists. split; [reflexivity|]. split; [|reflexivity].
  split; [reflexivity|]. split; [|split; reflexivity].
  split; [discriminate|]. intros [|[|k]] b' E'; try discriminate. injection E' as <-.
  apply Pb. intros. symmetry. apply E; assumption.
Qed.

(** Reading rows a..b and columns c..d of all bands. *)
Definition wlen (n a b : Z) : Z := Z.max 0 (Z.min b n - a).

Lemma window_read : forall bands H W F a b c d, stack_holds bands H W F ->
  0 <= a <= b -> 0 <= c <= d ->
  exists r, getitem junk bands (KeyTuple [sl a b; sl c d]) = Ok r /\
    shp r = [wlen H a b; wlen W c d; Z.of_nat (length bands)] /\
    forall i j k, 0 <= i < wlen H a b -> 0 <= j < wlen W c d ->
      0 <= k < Z.of_nat (length bands) -> elt r [i; j; k] = F k (a + i) (c + j).
Proof.
  intros bands H W F a b c d SH B D. destruct (stack_size V _ _ _ _ SH) as [HH HW].
  destruct (clip_slice H a b HH B) as (S1 & F1). destruct (clip_slice W c d HW D) as (S2 & F2).
  destruct (getitem_spec V junk bands H W F (sl a b) (sl c d) [] false _ false _ false
              (zrange 0 (Z.of_nat (length bands))) SH S1 S2 (selb_all _) F1 F2) as (r & E & S & P).
  exists r. split; [exact E|]. unfold wlen. split.
  - rewrite S. simpl. rewrite !range_unit_len, zrange_length by lia. f_equal; [lia|]. f_equal; [lia|]. f_equal. lia.
  - intros i j k Hi Hj Hk.
    specialize (P (Z.to_nat i) (Z.to_nat j) (Z.to_nat k) (a + i) (c + j) k).
    simpl in P. rewrite !Z2Nat.id in P by lia. apply P.
    + replace (a + i) with (Z.min a H + i) by lia. apply range_unit_nth. lia.
    + replace (c + j) with (Z.min c W + j) by lia. apply range_unit_nth. lia.
    + apply zrange_nth0. lia.
Qed.

(** The grid made of such a window. *)
Lemma window_grid : forall g T H W nb F nodata a b c d T', grid_is g T H W nb F nodata ->
  0 <= a <= b -> 0 <= c <= d ->
  exists g', bind (getitem junk (gbands g) (KeyTuple [sl a b; sl c d]))
               (fun v => make_grid junk v0 ClsComp T' v (gnodata g)) = Ok g' /\
    grid_is g' T' (wlen H a b) (wlen W c d) nb (fun k i j => F k (a + i) (c + j)) nodata.
Proof.
  intros g T H W nb F nodata a b c d T' (ET & SH & EN & Ed) B D.
  destruct (window_read _ _ _ _ a b c d SH B D) as (r & E & S & P). rewrite E. simpl.
  rewrite Ed. destruct SH as [N _].
  destruct (make_grid_spec ClsComp T' r nodata (wlen H a b) (wlen W c d)
              (Z.of_nat (length (gbands g))) (fun k i j => F k (a + i) (c + j))) as (g' & E' & G & _).
  { unfold wlen; lia. } { unfold wlen; lia. }
  { destruct (gbands g); [congruence|simpl; lia]. } { exact S. } { exact P. }
  exists g'. split; [exact E'|]. rewrite <- EN. exact G.
Qed.

Lemma shift_same_place : forall T i0 j0, same_place (shift_T T i0 j0) T i0 j0.
Proof. intros T i0 j0 u v. unfold peq, world, shift_T; simpl. split; ring. Qed.

Lemma grid_size : forall (g : grid V) T H W nb F nodata, grid_is g T H W nb F nodata ->
  gsize g = (H, W) /\ 0 <= H /\ 0 <= W /\ 0 < nb.
Proof.
  clear junk v0. intros g T H W nb F nodata (_ & SH & EN & _). pose proof (stack_size V _ _ _ _ SH).
  destruct SH as [N P]. unfold gsize. destruct (gbands g) as [|b bs]; [congruence|].
  destruct (P 0%nat b eq_refl) as (_ & S & _). simpl in EN. split; [exact S|]. lia.
Qed.

(** * aschunks *)

Lemma chunk_grid_spec : forall g T H W nb F nodata size i0 j0, grid_is g T H W nb F nodata ->
  0 < fst size -> 0 < snd size -> 0 <= i0 < H -> 0 <= j0 < W ->
  exists g', chunk_grid junk v0 g size i0 j0 = Ok g' /\
    chunk_is T H W nb F nodata size g' (i0, j0).
Proof.
  intros g T H W nb F nodata size i0 j0 G S1 S2 I J.
  destruct (window_grid g T H W nb F nodata i0 (i0 + snd size) j0 (j0 + fst size)
              (shift_T (gT g) i0 j0) G) as (g' & E & G'); [lia|lia|].
  exists g'. split; [exact E|]. exists (shift_T (gT g) i0 j0).
  destruct G as (ET & _). rewrite ET in *. split; [apply shift_same_place|]. simpl.
  unfold wlen in G'.
  replace (Z.max 0 (Z.min (i0 + snd size) H - i0)) with (Z.min (snd size) (H - i0)) in G' by lia.
  replace (Z.max 0 (Z.min (j0 + fst size) W - j0)) with (Z.min (fst size) (W - j0)) in G' by lia.
  exact G'.
Qed.

Section Loop.
Variables (g : grid V) (T : transform) (H W nb : Z) (F : Z -> Z -> Z -> V) (nodata : V).
Variables (szx szy ox oy : Z).
Hypothesis G : grid_is g T H W nb F nodata.
Hypothesis HW0 : 0 < W.
Hypothesis OX : 0 <= ox < szx.
Hypothesis OY : 0 <= oy < szy.

Definition reached (i0 j0 i j : Z) : Prop :=
  0 <= i < H /\ 0 <= j < W /\
  ((i = i0 /\ exists m, 0 <= m /\ j = j0 + m * (szx - ox)) \/
   (exists n m, 0 < n /\ 0 <= m /\ i = i0 + n * (szy - oy) /\ j = m * (szx - ox))).

Lemma loop_spec : forall fuel i0 j0, 0 <= i0 -> 0 <= j0 ->
  (Z.max 0 (H - i0)) * (W + 1) + Z.max 0 (W - j0) < Z.of_nat fuel ->
  exists gs os, (forall k, chunk_loop junk v0 (k + fuel) g (szx, szy) (ox, oy) i0 j0 = Some (Ok gs)) /\
    Forall2 (chunk_is T H W nb F nodata (szx, szy)) gs os /\ NoDup os /\
    forall i j, In (i, j) os <-> reached i0 j0 i j.
Proof.
  destruct (grid_size g T H W nb F nodata G) as (Sz & H0 & _ & _).
  induction fuel as [|fuel IH]; intros i0 j0 I0 J0 M; [lia|].
  assert (Step : forall i j, 0 <= i < H -> 0 <= j < W -> Z.max 0 (H - i) * (W + 1) + Z.max 0 (W - j) < Z.of_nat (S fuel) ->
    exists gs os, (forall k, match chunk_grid junk v0 g (szx, szy) i j with
           | Err e => Some (Err e)
           | Ok c =>
               match chunk_loop junk v0 (k + fuel) g (szx, szy) (ox, oy) i (j + (szx - ox)) with
               | None => None
               | Some (Err e) => Some (Err e)
               | Some (Ok l) => Some (Ok (c :: l))
               end
           end = Some (Ok gs)) /\
      Forall2 (chunk_is T H W nb F nodata (szx, szy)) gs os /\ NoDup os /\
      forall a b, In (a, b) os <-> reached i j a b).
  { intros i j Hi Hj M'.
    destruct (chunk_grid_spec g T H W nb F nodata (szx, szy) i j G) as (c & Ec & Pc); simpl; try lia.
    destruct (IH i (j + (szx - ox))) as (gs & os & E & Fa & ND & In'); [lia|lia| |].
    { rewrite Nat2Z.inj_succ in M'. lia. }
    exists (c :: gs), ((i, j) :: os). split.
    { intros k. rewrite Ec, E. reflexivity. }
    split; [constructor; assumption|]. split.
    - constructor; [|assumption]. rewrite In'. intros (_ & _ & [(_ & m & Hm & E')|(n & m & Hn & _ & E' & _)]); nia.
    - intros a b. simpl. rewrite In'. unfold reached. split.
      + intros [E'|(A & B & [(E' & m & Hm & Eb)|X])].
        * injection E' as <- <-. split; [lia|]. split; [lia|]. left. split; [reflexivity|]. exists 0. lia.
        * split; [lia|]. split; [lia|]. left. split; [assumption|]. exists (m + 1). nia.
        * split; [lia|]. split; [lia|]. right. exact X.
      + intros (A & B & [(E' & m & Hm & Eb)|X]).
        * destruct (Z.eq_dec m 0) as [->|N]; [left; f_equal; lia|].
          right. split; [lia|]. split; [lia|]. left. split; [assumption|]. exists (m - 1). nia.
        * right. split; [lia|]. split; [lia|]. right. exact X. }
  assert (Red : forall k, chunk_loop junk v0 (k + S fuel) g (szx, szy) (ox, oy) i0 j0 =
    let '(i, j) := if W <=? j0 then (i0 + (szy - oy), 0) else (i0, j0) in
    if H <=? i then Some (Ok [])
    else match chunk_grid junk v0 g (szx, szy) i j with
           | Err e => Some (Err e)
           | Ok c =>
               match chunk_loop junk v0 (k + fuel) g (szx, szy) (ox, oy) i (j + (szx - ox)) with
               | None => None
               | Some (Err e) => Some (Err e)
               | Some (Ok l) => Some (Ok (c :: l))
               end
           end).
  { intros k. rewrite Nat.add_succ_r. simpl. rewrite Sz. reflexivity. }
  destruct (W <=? j0) eqn:EW; [apply Z.leb_le in EW|apply Z.leb_gt in EW].
  - destruct (H <=? i0 + (szy - oy)) eqn:EH; [apply Z.leb_le in EH|apply Z.leb_gt in EH].
    + exists [], []. split; [intros k; rewrite Red; reflexivity|].
      split; [constructor|]. split; [constructor|]. intros i j. split; [contradiction|].
      intros (A & B & [(E' & m & Hm & Eb)|(n & m & Hn & Hm & E' & Eb)]); nia.
    + destruct (Step (i0 + (szy - oy)) 0) as (gs & os & E & Fa & ND & In'); [lia|lia| |].
      { revert M. generalize (szy - oy) (ltac:(lia) : 0 < szy - oy). intros d D M. nia. }
      exists gs, os. split; [intros k; rewrite Red; apply E|].
      split; [assumption|]. split; [assumption|]. intros i j. rewrite In'. unfold reached. split.
      * intros (A & B & [(E' & m & Hm & Eb)|(n & m & Hn & Hm & E' & Eb)]); (split; [lia|]); (split; [lia|]); right.
        -- exists 1, m. lia.
        -- exists (n + 1), m. repeat split; try lia; nia.
      * intros (A & B & [(E' & m & Hm & Eb)|(n & m & Hn & Hm & E' & Eb)]); (split; [lia|]); (split; [lia|]).
        -- nia.
        -- destruct (Z.eq_dec n 1) as [->|N].
           ++ left. split; [lia|]. exists m. lia.
           ++ right. exists (n - 1), m. repeat split; try lia; nia.
  - destruct (H <=? i0) eqn:EH; [apply Z.leb_le in EH|apply Z.leb_gt in EH].
    + exists [], []. split; [intros k; rewrite Red; reflexivity|].
      split; [constructor|]. split; [constructor|]. intros i j. split; [contradiction|].
      intros (A & B & [(E' & m & Hm & Eb)|(n & m & Hn & Hm & E' & Eb)]); nia.
    + destruct (Step i0 j0) as (gs & os & E & Fa & ND & In'); [lia|lia|lia|].
      exists gs, os. split; [intros k; rewrite Red; apply E|].
      split; [assumption|]. split; assumption.
Qed.
End Loop.

Lemma aschunks_spec : forall g T H W nb F nodata szx szy ox oy,
  grid_is g T H W nb F nodata -> 0 < W -> 0 <= ox < szx -> 0 <= oy < szy ->
  exists n gs os,
    (forall fuel, (n <= fuel)%nat -> aschunks junk v0 fuel g (szx, szy) (ox, oy) = Some (Ok gs)) /\
    Forall2 (chunk_is T H W nb F nodata (szx, szy)) gs os /\ NoDup os /\
    (forall o, In o os -> 0 <= fst o < H /\ 0 <= snd o < W) /\
    (forall y x, 0 <= y < H -> 0 <= x < W -> exists o, In o os /\ in_chunk (szx, szy) o y x) /\
    (ox = 0 -> oy = 0 -> forall y x o o', In o os -> In o' os ->
       in_chunk (szx, szy) o y x -> in_chunk (szx, szy) o' y x -> o = o').
Proof.
  intros g T H W nb F nodata szx szy ox oy G HW OX OY.
  destruct (grid_size g T H W nb F nodata G) as (Sz & H0 & _ & _).
  destruct (loop_spec g T H W nb F nodata szx szy ox oy G HW OX OY
    (Z.to_nat (H * (W + 1) + W + 1)) 0 0) as (gs & os & E & Fa & ND & In'); [lia|lia| |].
  { rewrite !Z.sub_0_r, !Z.max_r by lia. rewrite Z2Nat.id; nia. }
  exists (Z.to_nat (H * (W + 1) + W + 1)), gs, os. split.
  { intros fuel Lf. unfold aschunks. rewrite Sz. simpl fst; simpl snd.
    replace (szx =? -1) with false by (symmetry; apply Z.eqb_neq; lia). simpl andb. cbv iota.
    replace fuel with ((fuel - Z.to_nat (H * (W + 1) + W + 1)) + Z.to_nat (H * (W + 1) + W + 1))%nat by lia.
    apply E. }
  split; [assumption|]. split; [assumption|]. split; [|split].
  - intros [i j] I. apply In' in I. destruct I as (A & B & _). simpl. lia.
  - intros y x Hy Hx. exists ((szy - oy) * (y / (szy - oy)), (szx - ox) * (x / (szx - ox))).
    pose proof (div_bounds y (szy - oy) ltac:(lia)). pose proof (div_bounds x (szx - ox) ltac:(lia)).
    assert (0 <= y / (szy - oy)) by (apply Z.div_pos; lia).
    assert (0 <= x / (szx - ox)) by (apply Z.div_pos; lia).
    split; [|unfold in_chunk; simpl; lia]. apply In'. unfold reached.
    split; [nia|]. split; [nia|].
    destruct (Z.eq_dec (y / (szy - oy)) 0) as [Ez|Nz].
    + left. rewrite Ez. split; [lia|]. exists (x / (szx - ox)). lia.
    + right. exists (y / (szy - oy)), (x / (szx - ox)). lia.
  - intros -> -> y x [a b] [a' b'] I I' C C'. apply In' in I, I'. unfold in_chunk in *; simpl in *.
    assert (K : forall a b, reached H W szx szy 0 0 0 0 a b ->
       exists n m, a = n * szy /\ b = m * szx).
    { intros c d (_ & _ & [(-> & m & _ & ->)|(n & m & _ & _ & -> & ->)]); rewrite !Z.sub_0_r.
      - exists 0, m. lia.
      - exists n, m. lia. }
    destruct (K _ _ I) as (n & m & -> & ->). destruct (K _ _ I') as (n' & m' & -> & ->).
    assert (U : forall s n n' z, 0 < s -> n * s <= z < n * s + s -> n' * s <= z < n' * s + s -> n = n').
    { intros s k k' z P P1 P2. destruct (Z.lt_trichotomy k k') as [L|[L|L]]; [nia|exact L|nia]. }
    rewrite (U szy n n' y), (U szx m m' x) by lia. reflexivity.
Qed.

Lemma default_size : forall fuel g T H W nb F nodata ov, grid_is g T H W nb F nodata ->
  aschunks junk v0 fuel g (-1, -1) ov = aschunks junk v0 fuel g (W / 4, H / 4) ov.
Proof.
  intros fuel g T H W nb F nodata ov G.
  destruct (grid_size g T H W nb F nodata G) as (Sz & H0 & W0 & _).
  unfold aschunks. rewrite Sz. simpl fst; simpl snd.
  assert (0 <= W / 4) by (apply Z.div_pos; lia).
  replace (W / 4 =? -1) with false by (symmetry; apply Z.eqb_neq; lia). reflexivity.
Qed.

(** A chunk size not larger than the overlap never ends. *)
Lemma loop_forever : forall g T H W nb F nodata szx szy oy, grid_is g T H W nb F nodata ->
  0 < W -> 0 <= szx -> 0 <= szy -> forall fuel i0 j0, 0 <= i0 < H -> 0 <= j0 < W ->
  chunk_loop junk v0 fuel g (szx, szy) (szx, oy) i0 j0 = None.
Proof.
  intros g T H W nb F nodata szx szy oy G HW S1 S2.
  destruct (grid_size g T H W nb F nodata G) as (Sz & _).
  induction fuel as [|fuel IH]; intros i0 j0 I0 J0; [reflexivity|].
  simpl. rewrite Sz. rewrite (proj2 (Z.leb_gt W j0)), (proj2 (Z.leb_gt H i0)) by lia.
  destruct (window_grid g T H W nb F nodata i0 (i0 + szy) j0 (j0 + szx)
              (shift_T (gT g) i0 j0) G) as (g' & E & G'); [lia|lia|].
  unfold chunk_grid. simpl. rewrite E. rewrite Z.sub_diag, Z.add_0_r, IH by assumption. reflexivity.
Qed.

(** * clip *)

Lemma affine_min : forall (a b c xmin xmax ymin ymax x y : Q),
  (xmin <= x <= xmax -> ymin <= y <= ymax ->
  let f u v := a + b * u + c * v in
  (exists u v, (u = xmin \/ u = xmax) /\ (v = ymin \/ v = ymax) /\ f u v <= f x y) /\
  (exists u v, (u = xmin \/ u = xmax) /\ (v = ymin \/ v = ymax) /\ f x y <= f u v))%Q.
Proof.
  intros a b c xmin xmax ymin ymax x y Hx Hy f. subst f; cbv beta. split.
  - exists (if Qlt_le_dec b 0 then xmax else xmin), (if Qlt_le_dec c 0 then ymax else ymin).
    split; [destruct (Qlt_le_dec b 0); auto|]. split; [destruct (Qlt_le_dec c 0); auto|].
    destruct (Qlt_le_dec b 0), (Qlt_le_dec c 0); nra.
  - exists (if Qlt_le_dec b 0 then xmin else xmax), (if Qlt_le_dec c 0 then ymin else ymax).
    split; [destruct (Qlt_le_dec b 0); auto|]. split; [destruct (Qlt_le_dec c 0); auto|].
    destruct (Qlt_le_dec b 0), (Qlt_le_dec c 0); nra.
Qed.

Lemma qmin4_le : forall a b c d, (let m := qmin (qmin (qmin a b) c) d in
  m <= a /\ m <= b /\ m <= c /\ m <= d /\ (m == a \/ m == b \/ m == c \/ m == d))%Q.
Proof.
  intros a b c d. cbv zeta.
  destruct (qmin_spec a b) as [[E1 L1]|[E1 L1]];
  destruct (qmin_spec (qmin a b) c) as [[E2 L2]|[E2 L2]];
  destruct (qmin_spec (qmin (qmin a b) c) d) as [[E3 L3]|[E3 L3]];
  repeat split; try lra; rewrite E3, ?E2, ?E1; auto using Qeq_refl.
Qed.
Lemma qmax4_ge : forall a b c d, (let m := qmax (qmax (qmax a b) c) d in
  a <= m /\ b <= m /\ c <= m /\ d <= m /\ (m == a \/ m == b \/ m == c \/ m == d))%Q.
Proof.
  intros a b c d. cbv zeta.
  destruct (qmax_spec a b) as [[E1 L1]|[E1 L1]];
  destruct (qmax_spec (qmax a b) c) as [[E2 L2]|[E2 L2]];
  destruct (qmax_spec (qmax (qmax a b) c) d) as [[E3 L3]|[E3 L3]];
  repeat split; try lra; rewrite E3, ?E2, ?E1; auto using Qeq_refl.
Qed.

Lemma positions_affine : forall T, invertible T -> (~ dy T == 0)%Q ->
  (exists a b c a' b' c', forall x y, exists i j, positions T x y = Some (i, j) /\
     i == a + b * x + c * y /\ j == a' + b' * x + c' * y /\
     (sx T == 0 -> sy T == 0 -> i == (y - y0 T) / dy T - (1 # 2) /\ j == (x - x0 T) / dx T - (1 # 2)))%Q.
Proof.
  intros T D Y. unfold positions. rewrite (Qeq_bool_false _ _ D), (Qeq_bool_false _ _ Y). simpl.
  unfold invertible in D. set (det := (dx T * dy T - sx T * sy T)%Q) in *.
  exists ((- y0 T - ((- dy T * x0 T + sx T * y0 T) / det) * sy T) / dy T - (1 # 2))%Q,
         (- (dy T / det) * sy T / dy T)%Q, ((1 + (sx T / det) * sy T) / dy T)%Q,
         ((- dy T * x0 T + sx T * y0 T) / det - (1 # 2))%Q, (dy T / det)%Q, (- sx T / det)%Q.
  intros x y. eexists _, _. split; [reflexivity|]. unfold half. split; [field; auto|]. split; [field; auto|].
  intros Ex Ey. assert (Dx : ~ (dx T == 0)%Q).
  { intros Z. apply D. unfold det. rewrite Z, Ex. ring. }
  unfold det in *. rewrite Ex, Ey. split; field; repeat split; auto.
  all: intros Z; apply D; rewrite Ex, Ey; rewrite <- Z; ring.
Qed.

Lemma positions_quadrant : forall T x y i j u v, invertible T -> (~ dy T == 0)%Q ->
  positions T x y = Some (i, j) -> peq (x, y) (world T u v) -> (i == u - (1 # 2) /\ j == v - (1 # 2))%Q.
Proof.
  intros T x y i j u v D Y E [P1 P2]. simpl in P1, P2.
  destruct (positions_world T (u - (1 # 2)) (v - (1 # 2)) D Y) as (i' & j' & E' & I & J).
  assert (Q1 : (x == fst (world T (u - (1 # 2) + (1 # 2)) (v - (1 # 2) + (1 # 2))))%Q)
    by (unfold world; simpl; rewrite P1; ring).
  assert (Q2 : (y == snd (world T (u - (1 # 2) + (1 # 2)) (v - (1 # 2) + (1 # 2))))%Q)
    by (unfold world; simpl; rewrite P2; ring).
  pose proof (positions_eq T _ _ _ _ Q1 Q2) as X. rewrite E, E' in X. destruct X as [X1 X2]; simpl in X1, X2.
  split; lra.
Qed.

Lemma ceil_nonneg : forall q, (- (1 # 2) <= q)%Q -> 0 <= Qceiling q.
Proof.
  intros q L. pose proof (ceil_bounds q) as [A B].
  assert (X : (inject_Z (-1) < inject_Z (Qceiling q))%Q) by (change (inject_Z (-1)) with (-1 # 1); lra).
  rewrite <- Zlt_Qlt in X. lia.
Qed.

Lemma ceil_le_floor : forall a b, (a <= b)%Q -> Qceiling a <= Qfloor b + 1.
Proof.
  intros a b L. pose proof (ceil_bounds a) as [A B]. pose proof (floor_bounds b) as [C D].
  assert (X : (inject_Z (Qceiling a) < inject_Z (Qfloor b + 2))%Q)
    by (rewrite inj_add; change (inject_Z 2) with (2 # 1); lra).
  rewrite <- Zlt_Qlt in X. lia.
Qed.

Lemma ceil_le_int : forall a z, (a <= inject_Z z)%Q -> Qceiling a <= z.
Proof.
  intros a z L. pose proof (ceil_bounds a) as [A B].
  assert (X : (inject_Z (Qceiling a) < inject_Z (z + 1))%Q) by (rewrite inj_add, inj_1; lra).
  rewrite <- Zlt_Qlt in X. lia.
Qed.
Lemma int_le_floor : forall a z, (inject_Z z <= a)%Q -> z <= Qfloor a.
Proof.
  intros a z L. pose proof (floor_bounds a) as [A B].
  assert (X : (inject_Z z < inject_Z (Qfloor a + 1))%Q) by (rewrite inj_add, inj_1; lra).
  rewrite <- Zlt_Qlt in X. lia.
Qed.
Lemma ceil_int : forall a z, Qceiling a <= z -> (a <= inject_Z z)%Q.
Proof. intros a z L. pose proof (ceil_bounds a) as [A _]. apply inj_le in L. lra. Qed.
Lemma floor_int : forall a z, z <= Qfloor a -> (inject_Z z <= a)%Q.
Proof. intros a z L. pose proof (floor_bounds a) as [A _]. apply inj_le in L. lra. Qed.

Lemma between_div : forall a b c d e : Q, (~ d == 0 -> (a - e) / d <= (c - e) / d <= (b - e) / d ->
  a <= c <= b \/ b <= c <= a)%Q.
Proof.
  intros a b c d e N [L U].
  assert (E1 : ((c - e) / d == (a - e) / d + (c - a) / d)%Q) by (field; exact N).
  assert (E2 : ((b - e) / d == (c - e) / d + (b - c) / d)%Q) by (field; exact N).
  assert (P1 : (0 <= (c - a) / d)%Q) by lra. assert (P2 : (0 <= (b - c) / d)%Q) by lra.
  assert (R1 : (c - a == (c - a) / d * d)%Q) by (field; exact N).
  assert (R2 : (b - c == (b - c) / d * d)%Q) by (field; exact N).
  destruct (Qlt_le_dec 0 d); [left|right]; split; nra.
Qed.

Lemma clip_spec : forall g T H W nb F nodata xmin xmax ymin ymax,
  grid_is g T H W nb F nodata -> invertible T -> (~ dy T == 0)%Q ->
  (xmin <= xmax)%Q -> (ymin <= ymax)%Q ->
  (forall p, in_box xmin xmax ymin ymax p -> exists u v, (0 <= u)%Q /\ (0 <= v)%Q /\ peq p (world T u v)) ->
  exists g' T' i0 j0 h w, clip junk v0 g xmin xmax ymin ymax = Ok g' /\
    grid_is g' T' h w nb (fun k i j => F k (i0 + i) (j0 + j)) nodata /\
    same_place T' T i0 j0 /\
    0 <= i0 /\ 0 <= j0 /\ 0 <= h /\ 0 <= w /\ (0 < h -> i0 + h <= H) /\ (0 < w -> j0 + w <= W) /\
    (forall i j, 0 <= i < H -> 0 <= j < W -> in_box xmin xmax ymin ymax (centre T i j) ->
       i0 <= i < i0 + h /\ j0 <= j < j0 + w) /\
    ((sx T == 0)%Q -> (sy T == 0)%Q -> forall i j, i0 <= i < i0 + h -> j0 <= j < j0 + w ->
       in_box xmin xmax ymin ymax (centre T i j)).
Proof.
  intros g T H W nb F nodata xmin xmax ymin ymax G D Y LX LY Quad.
  destruct (positions_affine T D Y) as (a & b & c & a' & b' & c' & Aff).
  unfold clip. assert (ET : gT g = T) by apply G. rewrite ET.
  destruct (Aff xmin ymin) as (i1 & j1 & E1 & I1 & J1 & U1). rewrite E1.
  destruct (Aff xmax ymin) as (i2 & j2 & E2 & I2 & J2 & U2). rewrite E2.
  destruct (Aff xmin ymax) as (i3 & j3 & E3 & I3 & J3 & U3). rewrite E3.
  destruct (Aff xmax ymax) as (i4 & j4 & E4 & I4 & J4 & U4). rewrite E4. cbv zeta. simpl fst. simpl snd.
  set (mni := qmin (qmin (qmin i1 i2) i3) i4). set (mxi := qmax (qmax (qmax i1 i2) i3) i4).
  set (mnj := qmin (qmin (qmin j1 j2) j3) j4). set (mxj := qmax (qmax (qmax j1 j2) j3) j4).
  destruct (qmin4_le i1 i2 i3 i4) as (m1 & m2 & m3 & m4 & m5). fold mni in m1, m2, m3, m4, m5.
  destruct (qmax4_ge i1 i2 i3 i4) as (M1 & M2 & M3 & M4 & M5). fold mxi in M1, M2, M3, M4, M5.
  destruct (qmin4_le j1 j2 j3 j4) as (n1 & n2 & n3 & n4 & n5). fold mnj in n1, n2, n3, n4, n5.
  destruct (qmax4_ge j1 j2 j3 j4) as (N1 & N2 & N3 & N4 & N5). fold mxj in N1, N2, N3, N4, N5.
  assert (B0 : (- (1 # 2) <= mni /\ - (1 # 2) <= mnj)%Q).
  { assert (K : forall x y i j, positions T x y = Some (i, j) -> (x = xmin \/ x = xmax) -> (y = ymin \/ y = ymax) ->
       (- (1 # 2) <= i /\ - (1 # 2) <= j)%Q).
    { intros x y i j E X Yy. destruct (Quad (x, y)) as (u & v & Pu & Pv & P).
      { unfold in_box; simpl. clear - LX LY X Yy. destruct X, Yy; subst; repeat split; lra. }
      destruct (positions_quadrant T x y i j u v D Y E P) as [X1 X2]. clear - X1 X2 Pu Pv. split; lra. }
    destruct (K _ _ _ _ E1) as [K1 K1']; auto. destruct (K _ _ _ _ E2) as [K2 K2']; auto.
    destruct (K _ _ _ _ E3) as [K3 K3']; auto. destruct (K _ _ _ _ E4) as [K4 K4']; auto.
    clear - m5 n5 K1 K2 K3 K4 K1' K2' K3' K4'.
    split; [destruct m5 as [m5|[m5|[m5|m5]]]|destruct n5 as [n5|[n5|[n5|n5]]]]; rewrite ?m5, ?n5; assumption. }
  assert (I0 : 0 <= Qceiling mni) by (apply ceil_nonneg, B0).
  assert (J0 : 0 <= Qceiling mnj) by (apply ceil_nonneg, B0).
  assert (I01 : Qceiling mni <= Qfloor mxi + 1) by (apply ceil_le_floor, (Qle_trans _ _ _ m1 M1)).
  assert (J01 : Qceiling mnj <= Qfloor mxj + 1) by (apply ceil_le_floor, (Qle_trans _ _ _ n1 N1)).
  destruct (window_grid g T H W nb F nodata (Qceiling mni) (Qfloor mxi + 1) (Qceiling mnj) (Qfloor mxj + 1)
              (shift_T T (Qceiling mni) (Qceiling mnj)) G) as (g' & E & G'); [lia|lia|].
  exists g', (shift_T T (Qceiling mni) (Qceiling mnj)), (Qceiling mni), (Qceiling mnj),
    (wlen H (Qceiling mni) (Qfloor mxi + 1)), (wlen W (Qceiling mnj) (Qfloor mxj + 1)).
  split; [exact E|]. split; [exact G'|]. split; [apply shift_same_place|]. unfold wlen.
  split; [exact I0|]. split; [exact J0|]. split; [lia|]. split; [lia|]. split; [lia|]. split; [lia|]. split.
  - intros i j Hi Hj [Bx By]. set (p := centre T i j) in *.
    destruct (Aff (fst p) (snd p)) as (ip & jp & Ep & Ip & Jp & _).
    destruct (positions_quadrant T (fst p) (snd p) ip jp (inject_Z i + (1 # 2))%Q (inject_Z j + (1 # 2))%Q D Y Ep)
      as [Pi Pj]; [split; reflexivity|].
    destruct (affine_min a b c xmin xmax ymin ymax (fst p) (snd p) Bx By) as [(u1 & v1 & A1 & A2 & A3) (u2 & v2 & A4 & A5 & A6)].
    destruct (affine_min a' b' c' xmin xmax ymin ymax (fst p) (snd p) Bx By) as [(u3 & v3 & A7 & A8 & A9) (u4 & v4 & A10 & A11 & A12)].
    assert (Pi' : (ip == inject_Z i)%Q) by (clear - Pi; lra).
    assert (Pj' : (jp == inject_Z j)%Q) by (clear - Pj; lra).
    rewrite <- Ip, Pi' in A3, A6. rewrite <- Jp, Pj' in A9, A12.
    assert (mni <= inject_Z i)%Q by (destruct A1, A2; subst; rewrite <- ?I1, <- ?I2, <- ?I3, <- ?I4 in A3;
      (eapply Qle_trans; [|exact A3]; assumption)).
    assert (inject_Z i <= mxi)%Q by (destruct A4, A5; subst; rewrite <- ?I1, <- ?I2, <- ?I3, <- ?I4 in A6;
      (eapply Qle_trans; [exact A6|]; assumption)).
    assert (mnj <= inject_Z j)%Q by (destruct A7, A8; subst; rewrite <- ?J1, <- ?J2, <- ?J3, <- ?J4 in A9;
      (eapply Qle_trans; [|exact A9]; assumption)).
    assert (inject_Z j <= mxj)%Q by (destruct A10, A11; subst; rewrite <- ?J1, <- ?J2, <- ?J3, <- ?J4 in A12;
      (eapply Qle_trans; [exact A12|]; assumption)).
    assert (Qceiling mni <= i) by (apply ceil_le_int; assumption).
    assert (i <= Qfloor mxi) by (apply int_le_floor; assumption).
    assert (Qceiling mnj <= j) by (apply ceil_le_int; assumption).
    assert (j <= Qfloor mxj) by (apply int_le_floor; assumption).
    clear - H0 H1 H2 H3 H4 H5 H6 H7 Hi Hj. lia.
  - intros Sx Sy i j Hi Hj.
    assert (Dx : ~ (dx T == 0)%Q).
    { intros Z. apply D. rewrite Z, Sx. ring. }
    assert (Qi : (mni <= inject_Z i <= mxi)%Q) by (split; [apply ceil_int|apply floor_int]; lia).
    assert (Qj : (mnj <= inject_Z j <= mxj)%Q) by (split; [apply ceil_int|apply floor_int]; lia).
    destruct (U1 Sx Sy) as [V1 V1']. destruct (U2 Sx Sy) as [V2 V2'].
    destruct (U3 Sx Sy) as [V3 V3']. destruct (U4 Sx Sy) as [V4 V4'].
    set (xc := fst (centre T i j)). set (yc := snd (centre T i j)).
    assert (Ei : (inject_Z i == (yc - y0 T) / dy T - (1 # 2))%Q).
    { unfold yc, centre, world; simpl. rewrite Sy. field. exact Y. }
    assert (Ej : (inject_Z j == (xc - x0 T) / dx T - (1 # 2))%Q).
    { unfold xc, centre, world; simpl. rewrite Sx. field. exact Dx. }
    split; fold xc; fold yc.
    + assert (X : exists xa xb, (xa = xmin \/ xa = xmax) /\ (xb = xmin \/ xb = xmax) /\
         ((xa - x0 T) / dx T <= (xc - x0 T) / dx T <= (xb - x0 T) / dx T)%Q).
      { exists (if Qle_bool ((xmin - x0 T) / dx T) ((xmax - x0 T) / dx T) then xmin else xmax),
               (if Qle_bool ((xmin - x0 T) / dx T) ((xmax - x0 T) / dx T) then xmax else xmin).
        destruct (Qle_bool ((xmin - x0 T) / dx T) ((xmax - x0 T) / dx T)) eqn:EB;
          [apply Qle_bool_t in EB|apply Qle_bool_f in EB]; (split; [auto|]); (split; [auto|]);
          clear - EB n5 N5 Qj Ej V1' V2' V3' V4';
          destruct n5 as [n5|[n5|[n5|n5]]], N5 as [N5|[N5|[N5|N5]]]; lra. }
      destruct X as (xa & xb & Xa & Xb & X). apply between_div in X; [|exact Dx].
      clear - Xa Xb X LX. destruct Xa, Xb, X; subst; lra.
    + assert (X : exists xa xb, (xa = ymin \/ xa = ymax) /\ (xb = ymin \/ xb = ymax) /\
         ((xa - y0 T) / dy T <= (yc - y0 T) / dy T <= (xb - y0 T) / dy T)%Q).
      { exists (if Qle_bool ((ymin - y0 T) / dy T) ((ymax - y0 T) / dy T) then ymin else ymax),
               (if Qle_bool ((ymin - y0 T) / dy T) ((ymax - y0 T) / dy T) then ymax else ymin).
        destruct (Qle_bool ((ymin - y0 T) / dy T) ((ymax - y0 T) / dy T)) eqn:EB;
          [apply Qle_bool_t in EB|apply Qle_bool_f in EB]; (split; [auto|]); (split; [auto|]);
          clear - EB m5 M5 Qi Ei V1 V2 V3 V4;
          destruct m5 as [m5|[m5|[m5|m5]]], M5 as [M5|[M5|[M5|M5]]]; lra. }
      destruct X as (xa & xb & Xa & Xb & X). apply between_div in X; [|exact Y].
      clear - Xa Xb X LY. destruct Xa, Xb, X; subst; lra.
Qed.

End Ops.
