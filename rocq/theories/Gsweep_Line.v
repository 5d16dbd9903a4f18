(** Lines and rings: the sweep answers; for lines always eastward or westward it is right. *)
From Coq Require Import List ZArith Reals Bool Lra Lia Sorted Permutation Arith.
From Verif Require Import GeomR_Model Sphere_Model Sphere_Spec Sphere_Proofs Sphere_Dist Sphere_Bnd Sphere_Inter Gsweep_Model Gsweep_Spec Gsweep_Geom Gsweep_Merid Gsweep_Sweep.
Import ListNotations.
Open Scope R_scope.

(* ---- edges *)
Lemma pairs_nth : forall (l : list rpt) i e, nth_error (pairs l) i = Some e <-> nth_error l i = Some (fst e) /\ nth_error l (S i) = Some (snd e).
Proof.
  unfold pairs. induction l as [|v l IH]; intros i e.
  - cbn. destruct i; split; [discriminate|intros [H _]; discriminate|discriminate|intros [H _]; discriminate].
  - destruct l as [|w l].
    + cbn [tl combine]. destruct i as [|i]; (split; [discriminate|]); intros [_ H]; [discriminate H|destruct i; discriminate H].
    + cbn [tl combine] in *. destruct i as [|i]; cbn [nth_error].
      * split; [intros H; injection H as <-; auto|]. intros [A B]. injection A as A. injection B as B. destruct e. cbn in *. subst. reflexivity.
      * apply IH.
Qed.
Lemma sph_edges_nth : forall l ring i e, nth_error (sph_edges l ring) i = Some e <-> edge_at l ring i e.
Proof.
  intros l ring i e. unfold sph_edges, edge_at. destruct l as [|v l0].
  - destruct i; (split; [discriminate|]); intros [[H _]|(_ & H & _)]; discriminate.
  - assert (H0 : nth_error (v :: l0) 0 = Some v) by reflexivity. set (l := v :: l0) in *. clearbody l. destruct ring; [|rewrite pairs_nth; split; [auto|intros [H|(H & _)]; [exact H|discriminate]]].
    rewrite pairs_nth. destruct (Nat.lt_ge_cases (S i) (length l)) as [L|L].
    + rewrite !nth_error_app1 by lia. split; [auto|]. intros [H|(_ & H & _)]; [exact H|lia].
    + destruct (Nat.eq_dec (S i) (length l)) as [Q|Q].
      * rewrite nth_error_app1 by lia. rewrite nth_error_app2 by lia. replace (S i - length l)%nat with 0%nat by lia. change (nth_error [v] 0) with (Some v).
        assert (N0 : nth_error l (S i) = None) by (apply nth_error_None; lia). rewrite N0, H0. split.
        -- intros [A B]. right. auto.
        -- intros [[_ H]|(_ & _ & A & B)]; [discriminate|auto].
      * assert (N1 : nth_error (l ++ [v]) (S i) = None) by (apply nth_error_None; rewrite app_length; cbn [length]; lia). rewrite N1.
        assert (N0 : nth_error l (S i) = None) by (apply nth_error_None; lia). rewrite N0. split; [intros [_ H]; discriminate|]. intros [[_ H]|(_ & H & _)]; [discriminate|lia].
Qed.
Lemma in_edges : forall l ring e, In e (sph_edges l ring) <-> edge_of l ring e.
Proof.
  intros l ring e. split.
  - intros I. apply In_nth_error in I. destruct I as (i & H). exists i. apply sph_edges_nth, H.
  - intros (i & H). apply sph_edges_nth in H. eapply nth_error_In, H.
Qed.
Lemma edges_length : forall l ring, (length (sph_edges l ring) <= length l)%nat.
Proof. intros l ring. unfold sph_edges, pairs. destruct l as [|v l]; [cbn; lia|]. destruct ring; rewrite combine_length; cbn [app tl length]; rewrite ?app_length; cbn [length]; lia. Qed.
Definition segs (a : list rpt) (ra : bool) (b : list rpt) (rb : bool) : list seg :=
  map (to_seg false) (sph_edges a ra) ++ map (to_seg true) (sph_edges b rb).
Lemma reduced_congd : forall p q, reduced p = reduced q -> congd (fst p) (fst q) /\ snd p = snd q.
Proof.
  intros [x y] [x' y'] H. unfold reduced in H. cbn [fst snd] in *. injection H as H ->. split; [|reflexivity].
  destruct (reduce_degr_spec x) as [_ A]. destruct (reduce_degr_spec x') as [_ B]. rewrite H in A. apply congd_trans with (reduce_degr x'); [exact A|apply congd_sym, B].
Qed.
Lemma seg_edges_nodup : forall c l ring, no_repeat l ring -> NoDup (map (to_seg c) (sph_edges l ring)).
Proof.
  intros c l ring H. apply NoDup_nth_error. intros i j L E. rewrite map_length in L.
  rewrite !nth_error_map in E. destruct (nth_error (sph_edges l ring) i) as [e|] eqn:Ei; [|apply nth_error_None in Ei; lia].
  destruct (nth_error (sph_edges l ring) j) as [f|] eqn:Ej; [|discriminate]. apply sph_edges_nth in Ei, Ej. cbn [option_map] in E. assert (E0 : to_seg c e = to_seg c f) by congruence.
  pose proof (f_equal p0 E0) as E1. pose proof (f_equal p1 E0) as E2. unfold to_seg in E1, E2. cbn [p0 p1] in E1, E2.
  apply reduced_congd in E1, E2. destruct E1 as [A B], E2 as [C D]. apply (H i j e f); assumption.
Qed.
Lemma segs_nodup : forall a ra b rb, no_repeat a ra -> no_repeat b rb -> NoDup (segs a ra b rb).
Proof.
  intros a ra b rb A B. apply NoDup_app_intro; [apply seg_edges_nodup, A|apply seg_edges_nodup, B|].
  intros s I J. apply in_map_iff in I, J. destruct I as (e & <- & _), J as (f & E & _). discriminate.
Qed.
Lemma segs_length : forall a ra b rb, (length (segs a ra b rb) <= length a + length b)%nat.
Proof. intros. unfold segs. rewrite app_length, !map_length. pose proof (edges_length a ra). pose proof (edges_length b rb). lia. Qed.
Lemma intersects_sph_sweep : forall height a ra b rb, no_repeat a ra -> no_repeat b rb ->
  exists w, (forall fuel, (length a + length b + 1 < fuel)%nat -> intersects_sph height fuel a ra b rb = Ret w) /\
    (w = true -> exists x, hit height (segs a ra b rb) x) /\
    (w = false -> forall x, (exists e, In (eseg e) (segs a ra b rb) /\ good_event e /\ ex e = x) -> miss (segs a ra b rb) x).
Proof.
  intros height a ra b rb A B. destruct (sweep_all height (segs a ra b rb) (segs_nodup a ra b rb A B)) as (w & S & T & F).
  exists w. split; [|auto]. intros fuel L. apply S. pose proof (segs_length a ra b rb). lia.
Qed.
(** The call answers. *)
Lemma geog_answers : forall height a ra b rb, no_repeat a ra -> no_repeat b rb ->
  exists w, forall fuel, (length a + length b + 1 < fuel)%nat -> geog_intersects height fuel a ra b rb = Ret w.
Proof.
  intros height a ra b rb A B. destruct (intersects_sph_sweep height a ra b rb A B) as (w & S & _). unfold geog_intersects.
  destruct (geog_bbox a ra) as [b0|]; [|exists w; exact S]. destruct (geog_bbox b rb) as [b1|]; [|exists w; exact S].
  destruct (boxes_overlap b0 b1); [exists w; exact S|]. exists false. reflexivity.
Qed.

(* ---- boxes *)
Lemma fmin_l : forall a b, fminr a b <= a. Proof. intros a b. unfold fminr. destruct (Rle_dec a b); lra. Qed.
Lemma fmin_r : forall a b, fminr a b <= b. Proof. intros a b. unfold fminr. destruct (Rle_dec a b); lra. Qed.
Lemma fmax_l : forall a b, a <= fmaxr a b. Proof. intros a b. unfold fmaxr. destruct (Rle_dec a b); lra. Qed.
Lemma fmax_r : forall a b, b <= fmaxr a b. Proof. intros a b. unfold fmaxr. destruct (Rle_dec a b); lra. Qed.
Lemma fmin_in : forall a b (P : R -> Prop), P a -> P b -> P (fminr a b). Proof. intros a b P A B. unfold fminr. destruct (Rle_dec a b); assumption. Qed.
Lemma fmax_in : forall a b (P : R -> Prop), P a -> P b -> P (fmaxr a b). Proof. intros a b P A B. unfold fmaxr. destruct (Rle_dec a b); assumption. Qed.
Definition lonr (x : R) : Prop := -180 < x < 180.
Record BInv (s : bstate) : Prop := {
  b_rot : brot s = 0;
  b_lo : lonr (bxmin s); b_hi : lonr (bxmax s);
  b_x : bxmin s <= fst (bprev s) <= bxmax s;
  b_y : bymin s <= snd (bprev s) <= bymax s }.
Definition wider (s s' : bstate) : Prop := bxmin s' <= bxmin s /\ bxmax s <= bxmax s' /\ bymin s' <= bymin s /\ bymax s <= bymax s'.
Definition covers (s : bstate) (lon lat : R) : Prop := bxmin s <= lon <= bxmax s /\ bymin s <= lat <= bymax s.
Lemma bnd_covers : forall p q lo hi lon lat, inner p -> inner q -> one_side (p, q) -> bndlat_sph p q = Some (lo, hi) ->
  -90 <= lat <= 90 -> on_edge (p, q) (pos lon lat) -> lo <= lat <= hi.
Proof. intros p q lo hi lon lat (_ & P) (_ & Q) S E L O. exact (bnd_same p q lon lat lo hi P Q L S E O). Qed.
Lemma bstep_ok : forall s v, BInv s -> inner (bprev s) -> inner v -> -180 < fst v - fst (bprev s) < 180 -> one_side (bprev s, v) ->
  BInv (bstep s v) /\ wider s (bstep s v) /\ bprev (bstep s v) = v /\
  (forall lon lat, -90 <= lat <= 90 -> on_edge (bprev s, v) (pos lon lat) ->
     (fst (bprev s) <= lon <= fst v \/ fst v <= lon <= fst (bprev s)) -> covers (bstep s v) lon lat).
Proof.
  intros s v [RO LO HI BX BY] IP IV SP OS. destruct v as [x1 y1]. destruct (bprev s) as [x0 y0] eqn:PV. cbn [fst snd] in *.
  assert (Y : exists ymin ymax, (match bndlat_sph (x0, y0) (x1, y1) with Some (lo, hi) => (fminr (bymin s) lo, fmaxr (bymax s) hi) | None => (bymin s, bymax s) end) = (ymin, ymax) /\
    ymin <= bymin s /\ bymax s <= ymax /\ ymin <= y1 <= ymax /\ (forall lon lat, -90 <= lat <= 90 -> on_edge ((x0, y0), (x1, y1)) (pos lon lat) -> ymin <= lat <= ymax)).
  { destruct (bndlat_sph (x0, y0) (x1, y1)) as [[lo hi]|] eqn:B.
    - eexists _, _. split; [reflexivity|]. pose proof (fmin_l (bymin s) lo). pose proof (fmin_r (bymin s) lo). pose proof (fmax_l (bymax s) hi). pose proof (fmax_r (bymax s) hi).
      assert (C : forall lon lat, -90 <= lat <= 90 -> on_edge ((x0, y0), (x1, y1)) (pos lon lat) -> lo <= lat <= hi) by (intros lon lat L O; exact (bnd_covers _ _ _ _ lon lat IP IV OS B L O)).
      assert (E : lo <= y1 <= hi). { apply (C x1 y1); [destruct IV as [_ IV]; cbn [snd] in IV; lra|]. apply arc_ends; apply upos_unit. }
      split; [lra|]. split; [lra|]. split; [lra|]. intros lon lat L O. specialize (C lon lat L O). lra.
    - apply bnd_answers in B. injection B as -> ->. eexists _, _. split; [reflexivity|]. split; [lra|]. split; [lra|]. split; [lra|].
      intros lon lat L (U & c & d & C & D & E). cbn [fst snd] in E.
      assert (CD : vadd (vscale c (pos x1 y1)) (vscale d (pos x1 y1)) = vscale (c + d) (pos x1 y1)) by (unfold vadd, vscale; cbn [fst snd]; apply v3_eq; ring).
      rewrite CD in E. assert (K : c + d = 1).
      { assert (W : dot (pos lon lat) (pos lon lat) = (c + d) * (c + d) * dot (pos x1 y1) (pos x1 y1)) by (rewrite E; unfold dot, vscale; cbn [fst snd]; ring).
        rewrite !(upos_unit _ _ : dot (pos _ _) (pos _ _) = 1) in W. nra. }
      rewrite K in E. assert (SE : sin (rad lat) = sin (rad y1)). { unfold pos, upos, vscale in E. cbn [fst snd] in E. injection E as _ _ E. lra. }
      assert (lat = y1); [|lra]. apply rad_inj. destruct IV as [_ IV]. cbn [snd] in IV.
      assert (R1 : - (PI / 2) <= rad lat <= PI / 2). { unfold rad. pose proof PI_RGT_0. split; nra. }
      assert (R2 : - (PI / 2) <= rad y1 <= PI / 2). { unfold rad. pose proof PI_RGT_0. split; nra. }
      rewrite <- (asin_sin (rad lat)) by lra. rewrite <- (asin_sin (rad y1)) by lra. rewrite SE. reflexivity. }
  destruct Y as (ymin & ymax & YE & Y1 & Y2 & Y3 & Y4).
  assert (CR : crosses_datelinr x0 x1 = 0).
  { unfold crosses_datelinr. rewrite (proj2 (rlt_f 180 (Rabs (x0 - x1)))); [rewrite andb_false_r; reflexivity|]. left. apply Rabs_def1; lra. }
  unfold bstep. rewrite PV. cbn [fst snd]. rewrite YE, CR. rewrite (proj2 (req_t 0 0) eq_refl). cbn [negb].
  destruct (rlt x1 x0) eqn:L; [apply rlt_t in L|apply rlt_f in L]; unfold wider, covers; cbn [bxmin bymin bxmax bymax brot bprev fst snd].
  - pose proof (fmin_l (bxmin s) x1). pose proof (fmin_r (bxmin s) x1). split; [constructor; cbn [bxmin bymin bxmax bymax brot bprev fst snd]|split; [lra|split; [reflexivity|]]].
    + exact RO. + apply fmin_in; [exact LO|]. destruct IV as [IV _]. exact IV. + exact HI. + lra. + lra.
    + intros lon lat La O RG. split; [lra|]. exact (Y4 lon lat La O).
  - pose proof (fmax_l (bxmax s) x1). pose proof (fmax_r (bxmax s) x1). split; [constructor; cbn [bxmin bymin bxmax bymax brot bprev fst snd]|split; [lra|split; [reflexivity|]]].
    + exact RO. + exact LO. + apply fmax_in; [exact HI|]. destruct IV as [IV _]. exact IV. + lra. + lra.
    + intros lon lat La O RG. split; [lra|]. exact (Y4 lon lat La O).
Qed.
Lemma wider_covers : forall s s' lon lat, wider s s' -> covers s lon lat -> covers s' lon lat.
Proof. intros s s' lon lat (A & B & C & D) (E & F). unfold covers. lra. Qed.
Lemma fold_ok : forall l s, BInv s -> (forall p, In p (bprev s :: l) -> inner p) ->
  (forall e, In e (pairs (bprev s :: l)) -> -180 < fst (snd e) - fst (fst e) < 180 /\ one_side e) ->
  BInv (fold_left bstep l s) /\ wider s (fold_left bstep l s) /\
  (forall e lon lat, In e (pairs (bprev s :: l)) -> -90 <= lat <= 90 -> on_edge e (pos lon lat) ->
     (fst (fst e) <= lon <= fst (snd e) \/ fst (snd e) <= lon <= fst (fst e)) -> covers (fold_left bstep l s) lon lat).
Proof.
  induction l as [|v l IH]; intros s B IP IE; cbn [fold_left].
  - split; [exact B|]. split; [unfold wider; lra|]. intros e lon lat [].
  - destruct (IE (bprev s, v)) as [SP OS]; [left; reflexivity|]. cbn [fst snd] in SP.
    destruct (bstep_ok s v B) as (B' & W & PV & C); [apply IP; left; reflexivity|apply IP; right; left; reflexivity|exact SP|exact OS|].
    destruct (IH (bstep s v) B') as (B2 & W2 & C2).
    + intros p I. rewrite PV in I. apply IP. right. exact I.
    + intros e I. rewrite PV in I. apply IE. right. exact I.
    + split; [exact B2|]. split; [unfold wider in *; lra|]. intros e lon lat [<- |I] La O RG.
      * apply (wider_covers _ _ _ _ W2). apply C; assumption.
      * apply (C2 e); [rewrite PV; exact I|assumption..].
Qed.
Lemma bbox_covers : forall l ring, l <> [] -> (forall p, In p l -> inner p) ->
  (forall e, edge_of l ring e -> -180 < fst (snd e) - fst (fst e) < 180 /\ one_side e) ->
  exists xa ya xb yb, geog_bbox l ring = Some (xa, ya, xb, yb) /\
   forall e lon lat, edge_of l ring e -> -90 <= lat <= 90 -> on_edge e (pos lon lat) ->
     (fst (fst e) <= lon <= fst (snd e) \/ fst (snd e) <= lon <= fst (fst e)) -> xa <= lon <= xb /\ ya <= lat <= yb.
Proof.
  intros [|v l] ring NZ IP IE; [contradiction|]. unfold geog_bbox.
  set (s0 := mkB (fst v) (snd v) (fst v) (snd v) 0 v). set (r := if ring then (v :: l) ++ [v] else v :: l).
  assert (IV : inner v) by (apply IP; left; reflexivity).
  assert (B0 : BInv s0) by (constructor; cbn; destruct IV as [IV _]; try exact IV; try lra).
  assert (RR : exists r', r = v :: r') by (unfold r; destruct ring; cbn [app]; eauto). destruct RR as (r' & RE).
  assert (ED : forall e, In e (pairs r) <-> edge_of (v :: l) ring e).
  { intros e. rewrite <- in_edges. unfold sph_edges, r. destruct ring; reflexivity. }
  destruct (fold_ok r s0 B0) as (B & W & C).
  { intros p [<- |I]; [exact IV|]. unfold r in I. destruct ring; [|apply IP, I]. apply in_app_or in I. destruct I as [I|[<- |[]]]; [apply IP, I|exact IV]. }
  { intros e I. cbn [bprev s0] in I. rewrite RE in I. destruct I as [<- |I].
    - cbn [fst snd]. split; [lra|]. right. reflexivity.
    - apply IE, ED. rewrite RE. exact I. }
  fold s0. fold r. eexists _, _, _, _. split; [reflexivity|].
  assert (PM : forall x, lonr x -> pymod (x + 180) 360 - 180 = x) by (intros x X; unfold lonr in X; rewrite (pymod_unique (x + 180) 360 (x + 180) 0%Z); lra).
  destruct B as [RO LO HI _ _]. rewrite !PM by assumption.
  intros e lon lat I La O RG. apply (C e lon lat); [|assumption..]. apply ED in I. cbn [bprev s0]. rewrite RE in *. right. exact I.
Qed.
Lemma overlap_of : forall xa ya xb yb xc yc xd yd x y, xa <= x <= xb -> ya <= y <= yb -> xc <= x <= xd -> yc <= y <= yd ->
  boxes_overlap (xa, ya, xb, yb) (xc, yc, xd, yd) = true.
Proof.
  intros xa ya xb yb xc yc xd yd x y A B C D. unfold boxes_overlap.
  assert (X : 0 <= fminr xb xd - fmaxr xa xc) by (unfold fminr, fmaxr; destruct (Rle_dec xb xd), (Rle_dec xa xc); lra).
  assert (Y : 0 <= fminr yb yd - fmaxr ya yc) by (unfold fminr, fmaxr; destruct (Rle_dec yb yd), (Rle_dec ya yc); lra).
  set (dx := fminr xb xd - fmaxr xa xc) in *. set (dy := fminr yb yd - fmaxr ya yc) in *.
  assert (P : forall d, 0 <= d -> 0 < (if req d 0 then 1 else if rlt d 0 then 0 else d)).
  { intros d H. destruct (req d 0) eqn:E; [lra|]. apply req_f in E. rewrite (proj2 (rlt_f d 0)) by lra. lra. }
  pose proof (P dx X) as PX. pose proof (P dy Y) as PY. pose proof (Rmult_lt_0_compat _ _ PX PY).
  match goal with |- (if ?c then _ else _) = true => destruct c eqn:E end; [apply req_t in E; lra|reflexivity].
Qed.
(** Positions of regular edges have longitude and latitude in range. *)
Lemma edge_pos : forall e p, regular e -> on_edge e p -> exists x y, -180 < x < 180 /\ -90 < y < 90 /\ p = pos x y /\ (fst (fst e) <= x <= fst (snd e) \/ fst (snd e) <= x <= fst (fst e)).
Proof.
  intros e p [P|(U & I1 & I2)] O.
  - destruct (plain_pos e p P O) as (x & y & X & Y & -> & RG). exists x, y. split; [|auto]. destruct P as ((A & _) & (B & _) & _). lra.
  - destruct (upright_pos e p U I1 I2 O) as (y & Y & -> & _). exists (fst (fst e)), y. destruct I1 as [A _]. unfold upright in U. split; [exact A|]. split; [exact Y|]. split; [reflexivity|lra].
Qed.
Lemma geog_boxes : forall height fuel a ra b rb, (forall p, In p a -> inner p) -> (forall p, In p b -> inner p) ->
  (forall e, edge_of a ra e -> regular e /\ one_side e) -> (forall e, edge_of b rb e -> regular e /\ one_side e) ->
  (exists e f, edge_of a ra e /\ edge_of b rb f /\ meet e f) -> geog_intersects height fuel a ra b rb = intersects_sph height fuel a ra b rb.
Proof.
  intros height fuel a ra b rb Ia Ib Ea Eb (e & f & He & Hf & p & Oe & Of).
  assert (NA : a <> []) by (intros ->; destruct He as (i & [[H _]|(_ & H & _)]); destruct i; discriminate).
  assert (NB : b <> []) by (intros ->; destruct Hf as (i & [[H _]|(_ & H & _)]); destruct i; discriminate).
  assert (SP : forall e, regular e -> -180 < fst (snd e) - fst (fst e) < 180).
  { intros g [(_ & _ & _ & S)|(U & _)]; [exact S|]. unfold upright in U. lra. }
  destruct (bbox_covers a ra NA Ia) as (xa & ya & xb & yb & BA & CA); [intros g G; destruct (Ea g G); split; [apply SP; assumption|assumption]|].
  destruct (bbox_covers b rb NB Ib) as (xc & yc & xd & yd & BB & CB); [intros g G; destruct (Eb g G); split; [apply SP; assumption|assumption]|].
  unfold geog_intersects. rewrite BA, BB.
  destruct (edge_pos e p (proj1 (Ea e He)) Oe) as (x & y & X & Y & -> & RG).
  destruct (edge_pos f _ (proj1 (Eb f Hf)) Of) as (x' & y' & X' & Y' & PE & RG').
  assert (YY : y = y') by (apply (pos_lat x y x' y'); assumption). subst y'.
  assert (XX : x = x').
  { unfold pos, upos in PE. injection PE as P1 P2. pose proof (cos_rad_pos _ Y) as CY. apply (same_lon x x' (cos (rad y))); lra. }
  subst x'. destruct (CA e x y He ltac:(lra) Oe RG) as [A1 A2]. destruct (CB f x y Hf ltac:(lra) Of RG') as [B1 B2].
  rewrite (overlap_of _ _ _ _ _ _ _ _ x y) by assumption. reflexivity.
Qed.
