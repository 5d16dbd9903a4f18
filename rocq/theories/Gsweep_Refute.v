(** Cases in which [intersects] in geographical coordinate systems is wrong. *)
From Coq Require Import List ZArith Reals Bool Lra Lia Sorted Permutation Arith.
From Verif Require Import GeomR_Model Sphere_Model Sphere_Spec Sphere_Proofs Sphere_Dist Sphere_Bnd Sphere_Inter Gsweep_Model Gsweep_Spec Gsweep_Geom Gsweep_Merid Gsweep_Sweep Gsweep_Line Gsweep_Steady Gsweep_Examples.
Import ListNotations.
Open Scope R_scope.

(* ---- edges on the equator *)
Lemma equator_on : forall x0 x1 x, plain ((x0, 0), (x1, 0)) -> -180 < x <= 180 -> (x0 <= x <= x1 \/ x1 <= x <= x0) -> on_edge ((x0, 0), (x1, 0)) (pos x 0).
Proof.
  intros x0 x1 x P X RG. apply arc_range; [exact P|exact X|lra|]. cbn [fst snd]. split; [exact RG|].
  trig. unfold vprod, dot. cbn [fst snd]. ring.
Qed.
Lemma equator_same : forall x0 x1 x2 x3, same_circle ((x0, 0), (x1, 0)) ((x2, 0), (x3, 0)).
Proof. intros. unfold same_circle, crossing_of, crossing. cbn [fst snd]. trig. unfold vprod. cbn [fst snd]. apply v3_eq; ring. Qed.
(** Two lines of one edge each. *)
Lemma single_false : forall height e f, plain e -> plain f ->
  (forall s t, In s [seg_of false e; seg_of true f] -> In t [seg_of false e; seg_of true f] -> s <> t ->
     xlo t <= xlo s <= xhi t \/ xlo t <= xhi s <= xhi t -> intersects2 t s = false) ->
  forall fuel, (5 < fuel)%nat -> geog_intersects height fuel [fst e; snd e] false [fst f; snd f] false = Ret false.
Proof.
  intros height e f Pe Pf H fuel F. set (a := [fst e; snd e]) in *. set (b := [fst f; snd f]) in *.
  assert (Sa : steady a) by (apply one_steady, Pe). assert (Sb : steady b) by (apply one_steady, Pf).
  assert (EA : forall g, edge_of a false g <-> g = e) by (intros g; unfold a; rewrite one_edge, <- surjective_pairing; reflexivity).
  assert (EB : forall g, edge_of b false g <-> g = f) by (intros g; unfold b; rewrite one_edge, <- surjective_pairing; reflexivity).
  assert (IS : forall s, In s (segs a false b false) -> In s [seg_of false e; seg_of true f]).
  { intros s I. apply (in_ss a b Sa Sb) in I. destruct I as [(g & G & ->)|(g & G & ->)]; [apply EA in G|apply EB in G]; subst g; cbn; auto. }
  destruct (intersects_sph_sweep height a false b false (steady_norepeat a Sa) (steady_norepeat b Sb)) as (w & S & T & _).
  assert (W : w = false).
  { destruct w; [|reflexivity]. exfalso. destruct (T eq_refl) as (x & HT).
    destruct HT as [(q' & s & t & ND & IQ & Is & It & NE & XS & HH)|[(evs & q & s & r & ND & IQ & Is & IA & BE & XS & XR & HH)|(q' & s & _ & Is & NV & _)]].
    - apply IQ in Is, It. rewrite (H s t) in HH; [discriminate|apply IS, Is|apply IS, It|exact NE|left; lra].
    - assert (Ir : In r (enter height evs q)) by (destruct BE as (u & v & z & ->); apply in_or_app; right; right; apply in_or_app; right; left; reflexivity).
      apply IQ in Is. apply IA in Ir. rewrite (H s r) in HH; [discriminate|apply IS, Is|apply IS, Ir|intros ->; contradiction|right; lra].
    - apply NV. apply IS in Is. destruct Is as [<- |[<- |[]]]; apply plain_nv; assumption. }
  subst w. unfold geog_intersects. assert (FU : (length a + length b + 1 < fuel)%nat) by (cbn; lia).
  destruct (geog_bbox a false) as [ba|]; [|apply S, FU]. destruct (geog_bbox b false) as [bb|]; [|apply S, FU]. destruct (boxes_overlap ba bb); [apply S, FU|reflexivity].
Qed.

(* ---- lines along the same circle *)
Lemma plain_eq : forall x0 x1, -180 < x0 < 180 -> -180 < x1 < 180 -> x0 <> x1 -> -180 < x1 - x0 < 180 -> plain ((x0, 0), (x1, 0)).
Proof. intros x0 x1 A B C D. split; [|split; [|split]]; cbn [fst snd]; try (split; cbn [fst snd]; lra); assumption. Qed.
Lemma along : forall height fuel, (5 < fuel)%nat -> geog_intersects height fuel [(-30, 0); (30, 0)] false [(0, 0); (60, 0)] false = Ret false.
Proof.
  intros height fuel F. apply (single_false height ((-30, 0), (30, 0)) ((0, 0), (60, 0))); [apply plain_eq; lra|apply plain_eq; lra| |exact F].
  intros s t [<- |[<- |[]]] [<- |[<- |[]]] NE _; try (exfalso; apply NE; reflexivity); unfold intersects2; cbn [seg_of p0 p1 fst snd].
  - exact (two_same ((0, 0), (60, 0)) ((-30, 0), (30, 0)) (equator_same _ _ _ _)).
  - exact (two_same ((-30, 0), (30, 0)) ((0, 0), (60, 0)) (equator_same _ _ _ _)).
Qed.
Lemma along_meet : meet ((-30, 0), (30, 0)) ((0, 0), (60, 0)).
Proof. exists (pos 10 0). split; apply equator_on; try lra; apply plain_eq; lra. Qed.

(* ---- boxes over the date line *)
Lemma no_overlap_x : forall xa ya xb yb b, xb < xa -> boxes_overlap (xa, ya, xb, yb) b = false.
Proof.
  intros xa ya xb yb [[[xc yc] xd] yd] H. unfold boxes_overlap.
  assert (D : fminr xb xd - fmaxr xa xc < 0) by (unfold fminr, fmaxr; destruct (Rle_dec xb xd), (Rle_dec xa xc); lra).
  set (dx := fminr xb xd - fmaxr xa xc) in *. rewrite (proj2 (req_f dx 0)) by lra. rewrite (proj2 (rlt_t dx 0)) by exact D.
  rewrite Rmult_0_l. rewrite (proj2 (req_t 0 0)) by reflexivity. reflexivity.
Qed.
Lemma no_overlap_y : forall xa ya xb yb xc yc xd yd, yb < yc -> boxes_overlap (xa, ya, xb, yb) (xc, yc, xd, yd) = false.
Proof.
  intros xa ya xb yb xc yc xd yd H. unfold boxes_overlap.
  assert (D : fminr yb yd - fmaxr ya yc < 0) by (unfold fminr, fmaxr; destruct (Rle_dec yb yd), (Rle_dec ya yc); lra).
  set (dy := fminr yb yd - fmaxr ya yc) in *. rewrite (proj2 (req_f dy 0)) by lra. rewrite (proj2 (rlt_t dy 0)) by exact D.
  rewrite Rmult_0_r. rewrite (proj2 (req_t 0 0)) by reflexivity. reflexivity.
Qed.
(** The longitudes of a step of the box. *)
Lemma bstep_turn : forall s v, crosses_datelinr (fst (bprev s)) (fst v) <> 0 -> bxmin (bstep s v) = fminr (bxmin s) (fst v + (brot s - crosses_datelinr (fst (bprev s)) (fst v) * 360)) /\
  bxmax (bstep s v) = fmaxr (bxmax s) (fst v + (brot s - crosses_datelinr (fst (bprev s)) (fst v) * 360)).
Proof.
  intros s v H. unfold bstep. destruct (match bndlat_sph _ _ with Some _ => _ | None => _ end) as [lo hi]. rewrite (proj2 (req_f _ 0)) by exact H. split; reflexivity.
Qed.
Lemma bstep_east : forall s v, crosses_datelinr (fst (bprev s)) (fst v) = 0 -> fst (bprev s) <= fst v ->
  bxmin (bstep s v) = bxmin s /\ bxmax (bstep s v) = fmaxr (bxmax s) (fst v) /\ brot (bstep s v) = brot s.
Proof.
  intros s v H L. unfold bstep. destruct (match bndlat_sph _ _ with Some _ => _ | None => _ end) as [lo hi]. rewrite H. rewrite (proj2 (req_t 0 0)) by reflexivity. cbn [negb].
  rewrite (proj2 (rlt_f (fst v) (fst (bprev s)))) by lra. repeat split.
Qed.
Lemma bstep_prev : forall s v, bprev (bstep s v) = v.
Proof. intros s v. unfold bstep. destruct (match bndlat_sph _ _ with Some _ => _ | None => _ end) as [lo hi]. destruct (negb _); [reflexivity|]. destruct (rlt _ _); reflexivity. Qed.
Lemma stay : forall x, crosses_datelinr x x = 0.
Proof. intros x. unfold crosses_datelinr. rewrite xorb_nilpotent. reflexivity. Qed.
Lemma box_false : forall a ra xa ya xb yb, geog_bbox a ra = Some (xa, ya, xb, yb) -> xb < xa ->
  forall height fuel b rb, b <> [] -> geog_intersects height fuel a ra b rb = Ret false.
Proof.
  intros a ra xa ya xb yb E L height fuel b rb NE. unfold geog_intersects. rewrite E. destruct b as [|v b]; [contradiction|]. cbn [geog_bbox].
  rewrite no_overlap_x by exact L. reflexivity.
Qed.
Definition over_a : list rpt := [(150, 0); (-150, 0)].
Lemma over_box : exists ya yb, geog_bbox over_a false = Some (150, ya, -150, yb).
Proof.
  unfold geog_bbox, over_a. cbn [fold_left fst snd]. set (s0 := mkB 150 0 150 0 0 (150, 0)). set (s1 := bstep s0 (150, 0)).
  destruct (bstep_east s0 (150, 0)) as (A1 & A2 & A3); [apply stay|cbn [bprev s0 fst]; lra|]. fold s1 in A1, A2, A3.
  cbn [s0 bxmin bxmax brot fst] in A1, A2, A3. assert (P1 : bprev s1 = (150, 0)) by apply bstep_prev.
  assert (C : crosses_datelinr 150 (-150) = -1).
  { unfold crosses_datelinr, rsign. rewrite (proj2 (rle_t 0 150)) by lra. rewrite (proj2 (rle_f 0 (-150))) by lra. cbn [xorb andb].
    rewrite (proj2 (rlt_t 180 _)) by (rewrite Rabs_right; lra). rewrite (proj2 (rlt_f 180 _)) by lra. reflexivity. }
  destruct (bstep_turn s1 (-150, 0)) as (B1 & B2); [rewrite P1; cbn [fst]; rewrite C; lra|]. rewrite P1 in B1, B2. cbn [fst] in B1, B2. rewrite C, A3, ?A1, ?A2 in B1, B2.
  exists (bymin (bstep s1 (-150, 0))), (bymax (bstep s1 (-150, 0))). rewrite B1, B2.
  assert (M1 : fmaxr 150 150 = 150) by (unfold fmaxr; destruct (Rle_dec 150 150); reflexivity). rewrite M1 in *. rewrite A1, A2.
  replace (fminr 150 (-150 + (0 - -1 * 360))) with 150 by (unfold fminr; destruct (Rle_dec _ _); lra).
  replace (fmaxr 150 (-150 + (0 - -1 * 360))) with 210 by (unfold fmaxr; destruct (Rle_dec _ _); lra).
  rewrite (pymod_unique (150 + 180) 360 330 0) by lra. rewrite (pymod_unique (210 + 180) 360 30 1) by lra.
  match goal with |- Some (?a, _, ?b, _) = Some (?c, _, ?d, _) => replace a with c by lra; replace b with d by lra end. reflexivity.
Qed.
Lemma over_meet : meet ((150, 0), (-150, 0)) ((180, -30), (180, 30)).
Proof.
  destruct h3_spec as [B Q]. exists (pos 180 0). split; (split; [apply upos_unit|]); cbn [fst snd]; exists (/ (2 * h3)), (/ (2 * h3));
    (assert (0 <= / (2 * h3)) by (left; apply Rinv_0_lt_compat; lra)); (split; [assumption|]); (split; [assumption|]);
    trig; unfold vadd, vscale; cbn [fst snd]; apply v3_eq; field; lra.
Qed.
Definition upto_a : list rpt := [(150, 0); (180, 0)].
Lemma upto_box : exists ya yb, geog_bbox upto_a false = Some (150, ya, -180, yb).
Proof.
  unfold geog_bbox, upto_a. cbn [fold_left fst snd]. set (s0 := mkB 150 0 150 0 0 (150, 0)). set (s1 := bstep s0 (150, 0)).
  destruct (bstep_east s0 (150, 0)) as (A1 & A2 & A3); [apply stay|cbn [bprev s0 fst]; lra|]. fold s1 in A1, A2, A3.
  cbn [s0 bxmin bxmax brot fst] in A1, A2, A3. assert (P1 : bprev s1 = (150, 0)) by apply bstep_prev.
  assert (C : crosses_datelinr 150 180 = 0).
  { unfold crosses_datelinr, rsign. rewrite (proj2 (rle_t 0 150)) by lra. rewrite (proj2 (rle_t 0 180)) by lra. reflexivity. }
  destruct (bstep_east s1 (180, 0)) as (B1 & B2 & _); [rewrite P1; cbn [fst]; exact C|rewrite P1; cbn [fst]; lra|]. cbn [fst] in B1, B2. rewrite A1 in B1. rewrite A2 in B2.
  exists (bymin (bstep s1 (180, 0))), (bymax (bstep s1 (180, 0))). rewrite B1, B2.
  replace (fmaxr (fmaxr 150 150) 180) with 180 by (unfold fmaxr; destruct (Rle_dec 150 150); destruct (Rle_dec _ _); lra).
  rewrite (pymod_unique (150 + 180) 360 330 0) by lra. rewrite (pymod_unique (180 + 180) 360 0 1) by lra.
  match goal with |- Some (?a, _, ?b, _) = Some (?c, _, ?d, _) => replace a with c by lra; replace b with d by lra end. reflexivity.
Qed.
Lemma upto_meet : meet ((150, 0), (180, 0)) ((150, -30), (150, 30)).
Proof.
  destruct h3_spec as [B Q]. exists (pos 150 0). split; (split; [apply upos_unit|]); cbn [fst snd].
  - exists 1, 0. split; [lra|]. split; [lra|]. trig; unfold vadd, vscale; cbn [fst snd]; apply v3_eq; ring.
  - exists (/ (2 * h3)), (/ (2 * h3)). assert (0 <= / (2 * h3)) by (left; apply Rinv_0_lt_compat; lra). split; [assumption|]. split; [assumption|].
    trig; unfold vadd, vscale; cbn [fst snd]; apply v3_eq; field; lra.
Qed.

(* ---- boxes of edges across the equator *)
Definition across_a : list rpt := [(0, -30); (150, 60)].
Lemma across_box : exists xa ya xb yb, geog_bbox across_a false = Some (xa, ya, xb, yb) /\ yb = 60.
Proof.
  destruct bnd_across as [BA _]. unfold geog_bbox, across_a. cbn [fold_left fst snd]. set (s0 := mkB 0 (-30) 0 (-30) 0 (0, -30)).
  assert (N : bndlat_sph (0, -30) (0, -30) = None) by (apply bnd_answers; reflexivity).
  assert (Y1 : bymax (bstep s0 (0, -30)) = -30).
  { unfold bstep. cbn [bprev s0]. rewrite N. destruct (negb _); [reflexivity|]. destruct (rlt _ _); reflexivity. }
  set (s1 := bstep s0 (0, -30)) in *. assert (P1 : bprev s1 = (0, -30)) by apply bstep_prev.
  assert (Y2 : bymax (bstep s1 (150, 60)) = 60).
  { unfold bstep. rewrite P1, BA, Y1. assert (M : fmaxr (-30) 60 = 60) by (unfold fmaxr; destruct (Rle_dec _ _); lra). rewrite M.
    destruct (negb _); [reflexivity|]. destruct (rlt _ _); reflexivity. }
  do 4 eexists. split; [reflexivity|exact Y2].
Qed.
Lemma upright_box : forall x y y', y < y' -> exists xa ya xb yb, geog_bbox [(x, y); (x, y')] false = Some (xa, ya, xb, yb) /\ ya = y.
Proof.
  intros x y y' L. unfold geog_bbox. cbn [fold_left fst snd]. set (s0 := mkB x y x y 0 (x, y)).
  assert (N : bndlat_sph (x, y) (x, y) = None) by (apply bnd_answers; reflexivity).
  assert (B : bndlat_sph (x, y) (x, y') = Some (y, y')).
  { pose proof PI_RGT_0 as PP. unfold bndlat_sph. cbn [fst snd]. rewrite (proj2 (req_t ((x - x) * PI / 180) 0)) by field. cbn [andb orb].
    rewrite (proj2 (req_f _ _)) by (intros H; assert (y * PI = y' * PI) by lra; apply Rmult_eq_reg_r in H0; lra).
    unfold fminr, fmaxr. destruct (Rle_dec y y'); [reflexivity|lra]. }
  assert (Y1 : bymin (bstep s0 (x, y)) = y).
  { unfold bstep. cbn [bprev s0]. rewrite N. destruct (negb _); [reflexivity|]. destruct (rlt _ _); reflexivity. }
  set (s1 := bstep s0 (x, y)) in *. assert (P1 : bprev s1 = (x, y)) by apply bstep_prev.
  assert (Y2 : bymin (bstep s1 (x, y')) = y).
  { unfold bstep. rewrite P1, B, Y1. assert (M : fminr y y = y) by (unfold fminr; destruct (Rle_dec _ _); lra). rewrite M.
    destruct (negb _); [reflexivity|]. destruct (rlt _ _); reflexivity. }
  do 4 eexists. split; [reflexivity|exact Y2].
Qed.
Lemma across : exists x y, 0 <= x <= 150 /\ 60 < y < 90 /\ meet ((0, -30), (150, 60)) ((x, y), (x, (y + 90) / 2)) /\
  forall height fuel, geog_intersects height fuel across_a false [(x, y); (x, (y + 90) / 2)] false = Ret false.
Proof.
  destruct bnd_across as [_ (w & O & S)].
  assert (P : plain ((0, -30), (150, 60))) by (split; [|split; [|split]]; cbn [fst snd]; try (split; cbn [fst snd]; lra); lra).
  destruct (plain_pos ((0, -30), (150, 60)) w P O) as (x & y & X & Y & -> & RG). cbn [fst snd] in RG. exists x, y.
  assert (Y60 : 60 < y).
  { destruct (Rlt_le_dec 60 y) as [H|H]; [exact H|]. exfalso. unfold pos, upos in S. cbn [snd] in S. pose proof PI_RGT_0 as PP.
    assert (rad y <= rad 60) by (unfold rad; apply Rmult_le_reg_r with (180 / PI); [apply Rdiv_lt_0_compat; lra|]; field_simplify; lra).
    apply (Rlt_not_le _ _ S). apply sin_incr_1; try lra; apply rad_lat in Y; try lra; rewrite rad_60; lra. }
  split; [lra|]. split; [lra|]. split.
  - exists (pos x y). split; [exact O|]. unfold on_edge. apply arc_ends; apply upos_unit.
  - intros height fuel. destruct across_box as (xa & ya & xb & yb & E & ->). destruct (upright_box x y ((y + 90) / 2) ltac:(lra)) as (xc & yc & xd & yd & E' & ->).
    unfold geog_intersects. rewrite E, E'. rewrite no_overlap_y by lra. reflexivity.
Qed.
