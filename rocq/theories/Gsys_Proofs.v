(** Proofs for regions in other systems. *)
From Coq Require Import List ZArith QArith Lqa Psatz Bool.
From Verif Require Import Band_Model Band_Spec Band_IndexModel Band_IndexSpec Grid_Model Grid_Spec Grid_Proofs Grid_OpsProofs Gsys_Model Gsys_Spec.
Import ListNotations.
Open Scope Q_scope.

Definition min4 (p q r s : Q) : Q := qmin (qmin (qmin p q) r) s.
Definition max4 (p q r s : Q) : Q := qmax (qmax (qmax p q) r) s.
Lemma min4_le : forall p q r s, min4 p q r s <= p /\ min4 p q r s <= q /\ min4 p q r s <= r /\ min4 p q r s <= s.
Proof.
  intros; unfold min4. destruct (qmin_spec p q) as [[E1 L1]|[E1 L1]]; destruct (qmin_spec (qmin p q) r) as [[E2 L2]|[E2 L2]];
  destruct (qmin_spec (qmin (qmin p q) r) s) as [[E3 L3]|[E3 L3]]; repeat split; lra.
Qed.
Lemma max4_le : forall p q r s, p <= max4 p q r s /\ q <= max4 p q r s /\ r <= max4 p q r s /\ s <= max4 p q r s.
Proof.
  intros; unfold max4. destruct (qmax_spec p q) as [[E1 L1]|[E1 L1]]; destruct (qmax_spec (qmax p q) r) as [[E2 L2]|[E2 L2]];
  destruct (qmax_spec (qmax (qmax p q) r) s) as [[E3 L3]|[E3 L3]]; repeat split; lra.
Qed.
Lemma min4_one : forall p q r s, min4 p q r s == p \/ min4 p q r s == q \/ min4 p q r s == r \/ min4 p q r s == s.
Proof.
  intros; unfold min4. destruct (qmin_spec p q) as [[E1 L1]|[E1 L1]]; destruct (qmin_spec (qmin p q) r) as [[E2 L2]|[E2 L2]];
  destruct (qmin_spec (qmin (qmin p q) r) s) as [[E3 L3]|[E3 L3]]; lra.
Qed.
Lemma max4_one : forall p q r s, max4 p q r s == p \/ max4 p q r s == q \/ max4 p q r s == r \/ max4 p q r s == s.
Proof.
  intros; unfold max4. destruct (qmax_spec p q) as [[E1 L1]|[E1 L1]]; destruct (qmax_spec (qmax p q) r) as [[E2 L2]|[E2 L2]];
  destruct (qmax_spec (qmax (qmax p q) r) s) as [[E3 L3]|[E3 L3]]; lra.
Qed.
(** An affine function on a rectangle is between its values at the corners. *)
Lemma affine_between : forall al be ga x y a b c d m M, a <= x <= b -> c <= y <= d ->
  m <= al * a + be * c + ga -> m <= al * a + be * d + ga -> m <= al * b + be * c + ga -> m <= al * b + be * d + ga ->
  al * a + be * c + ga <= M -> al * a + be * d + ga <= M -> al * b + be * c + ga <= M -> al * b + be * d + ga <= M ->
  m <= al * x + be * y + ga <= M.
Proof.
  intros al be ga x y a b c d m M [X1 X2] [Y1 Y2] A1 A2 A3 A4 B1 B2 B3 B4.
  assert (HX : (al * a <= al * x <= al * b) \/ (al * b <= al * x <= al * a))
    by (destruct (Qlt_le_dec al 0); [right | left]; split; nra).
  assert (HY : (be * c <= be * y <= be * d) \/ (be * d <= be * y <= be * c))
    by (destruct (Qlt_le_dec be 0); [right | left]; split; nra).
  destruct HX as [[? ?] | [? ?]]; destruct HY as [[? ?] | [? ?]]; split; lra.
Qed.
Lemma around_holds : forall tr a b c d p, affine tr -> in_box a b c d p ->
  holds (around (tr (a, c)) (tr (a, d)) (tr (b, c)) (tr (b, d))) (tr p).
Proof.
  intros tr a b c d p (al & be & ga & de & ep & ze & H) [X Y]. unfold around, holds, in_box; fold (min4 (fst (tr (a, c))) (fst (tr (a, d))) (fst (tr (b, c))) (fst (tr (b, d)))).
  fold (max4 (fst (tr (a, c))) (fst (tr (a, d))) (fst (tr (b, c))) (fst (tr (b, d)))).
  fold (min4 (snd (tr (a, c))) (snd (tr (a, d))) (snd (tr (b, c))) (snd (tr (b, d)))).
  fold (max4 (snd (tr (a, c))) (snd (tr (a, d))) (snd (tr (b, c))) (snd (tr (b, d)))).
  destruct (H p) as [P1 P2]; destruct (H (a, c)) as [C1 C2]; destruct (H (a, d)) as [D1 D2]; destruct (H (b, c)) as [E1 E2]; destruct (H (b, d)) as [F1 F2].
  cbn [fst snd] in *.
  destruct (min4_le (fst (tr (a, c))) (fst (tr (a, d))) (fst (tr (b, c))) (fst (tr (b, d)))) as (m1 & m2 & m3 & m4).
  destruct (max4_le (fst (tr (a, c))) (fst (tr (a, d))) (fst (tr (b, c))) (fst (tr (b, d)))) as (M1 & M2 & M3 & M4).
  destruct (min4_le (snd (tr (a, c))) (snd (tr (a, d))) (snd (tr (b, c))) (snd (tr (b, d)))) as (n1 & n2 & n3 & n4).
  destruct (max4_le (snd (tr (a, c))) (snd (tr (a, d))) (snd (tr (b, c))) (snd (tr (b, d)))) as (N1 & N2 & N3 & N4).
  split.
  - rewrite P1. apply (affine_between al be ga (fst p) (snd p) a b c d); auto; lra.
  - rewrite P2. apply (affine_between de ep ze (fst p) (snd p) a b c d); auto; lra.
Qed.
Lemma around_tight : forall tr a b c d, affine tr -> a <= b -> c <= d ->
  tight_box (fun q => exists p, in_box a b c d p /\ q = tr p) (around (tr (a, c)) (tr (a, d)) (tr (b, c)) (tr (b, d))).
Proof.
  intros tr a b c d Ha Hab Hcd.
  pose proof (fun p => around_holds tr a b c d p Ha) as HH.
  assert (K1 : exists p, in_box a b c d p /\ tr (a, c) = tr p) by (exists (a, c); split; [unfold in_box; cbn; lra | reflexivity]).
  assert (K2 : exists p, in_box a b c d p /\ tr (a, d) = tr p) by (exists (a, d); split; [unfold in_box; cbn; lra | reflexivity]).
  assert (K3 : exists p, in_box a b c d p /\ tr (b, c) = tr p) by (exists (b, c); split; [unfold in_box; cbn; lra | reflexivity]).
  assert (K4 : exists p, in_box a b c d p /\ tr (b, d) = tr p) by (exists (b, d); split; [unfold in_box; cbn; lra | reflexivity]).
  unfold tight_box, around. split; [| split; [| split; [| split]]].
  - intros q (p & I & ->). exact (HH p I).
  - destruct (min4_one (fst (tr (a, c))) (fst (tr (a, d))) (fst (tr (b, c))) (fst (tr (b, d)))) as [E | [E | [E | E]]]; unfold min4 in E;
      [exists (tr (a, c)) | exists (tr (a, d)) | exists (tr (b, c)) | exists (tr (b, d))]; (split; [assumption | symmetry; exact E]).
  - destruct (max4_one (fst (tr (a, c))) (fst (tr (a, d))) (fst (tr (b, c))) (fst (tr (b, d)))) as [E | [E | [E | E]]]; unfold max4 in E;
      [exists (tr (a, c)) | exists (tr (a, d)) | exists (tr (b, c)) | exists (tr (b, d))]; (split; [assumption | symmetry; exact E]).
  - destruct (min4_one (snd (tr (a, c))) (snd (tr (a, d))) (snd (tr (b, c))) (snd (tr (b, d)))) as [E | [E | [E | E]]]; unfold min4 in E;
      [exists (tr (a, c)) | exists (tr (a, d)) | exists (tr (b, c)) | exists (tr (b, d))]; (split; [assumption | symmetry; exact E]).
  - destruct (max4_one (snd (tr (a, c))) (snd (tr (a, d))) (snd (tr (b, c))) (snd (tr (b, d)))) as [E | [E | [E | E]]]; unfold max4 in E;
      [exists (tr (a, c)) | exists (tr (a, d)) | exists (tr (b, c)) | exists (tr (b, d))]; (split; [assumption | symmetry; exact E]).
Qed.

Lemma extent_in_holds : forall tr T H W p, (0 <= H)%Z -> (0 <= W)%Z -> skew_agrees (dx T) (sx T) -> skew_agrees (dy T) (sy T) ->
  affine tr -> cell_point T H W p -> holds (extent_in tr T H W false) (tr p).
Proof.
  intros tr T H W p HH HW Sx Sy Ha Hp. pose proof (extent_edge T H W HH HW Sx Sy) as E.
  unfold extent_in. destruct (extent T H W false) as [[[a b] c] d]. destruct E as [E _].
  apply around_holds; [exact Ha |]. exact (E p Hp).
Qed.
Lemma centres_in_holds : forall tr T H W p, (0 < H)%Z -> (0 < W)%Z -> skew_agrees (dx T) (sx T) -> skew_agrees (dy T) (sy T) ->
  affine tr -> cell_centre T H W p -> holds (extent_in tr T H W true) (tr p).
Proof.
  intros tr T H W p HH HW Sx Sy Ha Hp. pose proof (extent_centre T H W HH HW Sx Sy) as E.
  unfold extent_in. destruct (extent T H W true) as [[[a b] c] d]. destruct E as [E _].
  apply around_holds; [exact Ha |]. exact (E p Hp).
Qed.
Lemma extent_in_tight : forall tr T H W centre, affine tr ->
  match extent T H W centre with (a, b, c, d) =>
    tight_box (fun q => exists p, in_box a b c d p /\ q = tr p) (extent_in tr T H W centre) end.
Proof.
  intros tr T H W centre Ha. unfold extent_in.
  assert (L : match extent T H W centre with (a, b, c, d) => a <= b /\ c <= d end).
  { unfold extent. destruct (if centre then center_llref T else (x0 T, y0 T)) as [xa ya].
    assert (Q : forall u v, qmin u v <= qmax u v) by (intros u v; destruct (qmin_spec u v) as [[? ?]|[? ?]]; destruct (qmax_spec u v) as [[? ?]|[? ?]]; lra).
    split; apply Q. }
  destruct (extent T H W centre) as [[[a b] c] d]. destruct L as [L1 L2]. apply around_tight; assumption.
Qed.
Lemma clip_in_keeps : forall (V : Type) (junk : Z -> Z -> V) v0 tr (g : grid V) T H W nb F nodata xmin xmax ymin ymax,
  grid_is g T H W nb F nodata -> invertible T -> ~ dy T == 0 -> xmin <= xmax -> ymin <= ymax -> affine tr ->
  (forall p, holds (around (tr (xmin, ymin)) (tr (xmin, ymax)) (tr (xmax, ymin)) (tr (xmax, ymax))) p ->
     exists u v, 0 <= u /\ 0 <= v /\ peq p (world T u v)) ->
  exists g' T' i0 j0 h w, clip_in junk v0 tr g xmin xmax ymin ymax = Ok g' /\
    grid_is g' T' h w nb (fun k i j => F k (i0 + i)%Z (j0 + j)%Z) nodata /\ same_place T' T i0 j0 /\
    forall i j q, (0 <= i < H)%Z -> (0 <= j < W)%Z -> in_box xmin xmax ymin ymax q -> peq (tr q) (centre T i j) ->
      (i0 <= i < i0 + h)%Z /\ (j0 <= j < j0 + w)%Z.
Proof.
  intros V junk v0 tr g T H W nb F nodata xmin xmax ymin ymax G Hi Hd Hx Hy Ha Hq.
  pose proof (around_tight tr xmin xmax ymin ymax Ha Hx Hy) as Ti.
  pose proof (fun p => around_holds tr xmin xmax ymin ymax p Ha) as HH.
  unfold clip_in. destruct (around (tr (xmin, ymin)) (tr (xmin, ymax)) (tr (xmax, ymin)) (tr (xmax, ymax))) as [[[a b] c] d] eqn:EA.
  assert (L : a <= b /\ c <= d).
  { pose proof (HH (xmin, ymin)) as K. assert (I : in_box xmin xmax ymin ymax (xmin, ymin)) by (unfold in_box; cbn; lra).
    destruct (K I) as [K1 K2]. lra. }
  destruct L as [L1 L2].
  destruct (clip_spec V junk v0 g T H W nb F nodata a b c d G Hi Hd L1 L2 Hq)
    as (g' & T' & i0 & j0 & h & w & E1 & E2 & E3 & _ & _ & _ & _ & _ & _ & E4 & _).
  exists g', T', i0, j0, h, w. split; [exact E1 |]. split; [exact E2 |]. split; [exact E3 |].
  intros i j q Ri Rj I [P1 P2]. apply E4; [exact Ri | exact Rj |]. pose proof (HH q I) as [K1 K2]. unfold in_box. lra.
Qed.
Lemma combine_blind : forall (V C : Type) (junk : Z -> Z -> V) v0 op (g h : grid V) (s s' : C) r,
  combine_grids junk v0 op g h = Ok r -> combine_in junk v0 op (s, g) (s', h) = Ok (s, r).
Proof. intros V C junk v0 op g h s s' r E; unfold combine_in; cbn [fst snd]; rewrite E; reflexivity. Qed.
