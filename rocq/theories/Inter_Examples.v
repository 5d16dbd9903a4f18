(** Concrete cases for the intersection properties: hypotheses met, and failures. *)
From Coq Require Import List ZArith QArith Qabs Lqa Lia Bool Arith SpecFloat.
From Verif Require Import Geom_Model Geom_Spec Geom_Proofs Inter_Model Inter_Spec Inter_Proofs Inter_Sweep Inter_Sweep2 Inter_Complete Inter_Complete2.
Import ListNotations.
Open Scope Q_scope.

Lemma edge_in : forall l ring e, In e (edges l ring) -> edge_of l ring e. Proof. intros. apply edges_spec. assumption. Qed.
Ltac on t := exists t; split; [lra|]; unfold same, along; cbn [fst snd]; split; lra.

(* ---- segments *)
Lemma seg_ok : exists p, interx ((0, 0), (2, 2)) ((0, 2), (2, 0)) = Some p /\ same p (1, 1).
Proof. eexists. split; [reflexivity|]. split; vm_compute; reflexivity. Qed.
Lemma start_vertex : exists e f p, ~ parallel e f /\ on_seg e p /\ on_seg f p /\ interx e f = None.
Proof.
  exists ((0, 0), (1, 1)), ((0, 0), (1, -1)), (0, 0). split; [unfold parallel, direction; cbn; lra|]. split; [on 0|]. split; [on 0|]. reflexivity.
Qed.
Lemma overlapping : exists e f, (exists p q, ~ same p q /\ on_seg e p /\ on_seg f p /\ on_seg e q /\ on_seg f q) /\ interx e f = None.
Proof.
  exists ((0, 0), (2, 0)), ((1, 0), (3, 0)). split; [|reflexivity]. exists (1, 0), (2, 0).
  split; [intros [H _]; cbn in H; lra|]. split; [on (1 # 2)|]. split; [on 0|]. split; [on 1|on (1 # 2)].
Qed.
Lemma missed_vertex : exists a b e f p, edge_of a false e /\ edge_of b false f /\ ~ parallel e f /\ on_seg e p /\ on_seg f p /\
  all_intersections a false b false = [].
Proof.
  exists [(0, 0); (1, 1)], [(0, 0); (1, -1)], ((0, 0), (1, 1)), ((0, 0), (1, -1)), (0, 0).
  split; [apply edge_in; left; reflexivity|]. split; [apply edge_in; left; reflexivity|]. split; [unfold parallel, direction; cbn; lra|].
  split; [on 0|]. split; [on 0|]. reflexivity.
Qed.
(** A polygon made by [Line.to_polygon] has a coordinate string that is no ring (see
    [Geom_Model]); its closing edge is not looked at. *)
Lemma open_polygon : exists poly b, all_intersections poly true b false <> [] /\ all_intersections poly false b false = [] /\
  forall fuel, (20 < fuel)%nat -> intersects fuel poly true b false = Ret true /\ intersects fuel poly false b false = Ret false.
Proof.
  exists [(2, 0); (4, 4); (0, 4)], [(0, 1); (2, 3)]. split; [discriminate|]. split; [reflexivity|].
  intros fuel F. replace fuel with (21 + (fuel - 21))%nat by lia. split; unfold intersects; apply sweep_more; vm_compute; reflexivity.
Qed.

(* ---- the sweep: general position *)
Definition tent : list pt := [(0, 0); (2, 2); (4, 0)].
Definition bar : list pt := [(0, 1); (5, 1)].
Lemma edge_cases : forall l ring i e, edge_at l ring i e -> nth_error (edges l ring) i = Some e.
Proof. intros. apply edges_nth. assumption. Qed.
Lemma tent_simple : simple_path tent false.
Proof.
  split.
  - intros i j e f p A B N (t & T & E1 & E2) (u & U & F1 & F2). apply edge_cases in A, B. unfold tent in *. cbn in A, B.
    destruct i as [|[|[|i]]]; try discriminate; destruct j as [|[|[|j]]]; try discriminate; try congruence; injection A as <-; injection B as <-;
    unfold end_of, same, along in *; cbn [fst snd] in *; split; first [left; split; lra|right; split; lra].
  - intros i j k e f g p A B C N1 N2 N3 _ _ _. apply edge_cases in A, B, C. unfold tent in *. cbn in A, B, C.
    destruct i as [|[|[|i]]]; try discriminate; destruct j as [|[|[|j]]]; try discriminate; destruct k as [|[|[|k]]]; try discriminate; congruence.
Qed.
Lemma bar_simple : simple_path bar false.
Proof.
  split.
  - intros i j e f p A B N. apply edge_cases in A, B. unfold bar in *. cbn in A, B.
    destruct i as [|[|i]]; try discriminate; destruct j as [|[|j]]; try discriminate; congruence.
  - intros i j k e f g p A B C N1 N2 N3 _ _ _. apply edge_cases in A, B, C. unfold bar in *. cbn in A, B, C.
    destruct i as [|[|i]]; try discriminate; destruct j as [|[|j]]; try discriminate; congruence.
Qed.
Lemma tent_bar : proper tent false bar false.
Proof.
  intros e f p (i & A) (j & B) (t & T & E1 & E2) (u & U & F1 & F2). apply edge_cases in A, B. unfold tent, bar in *. cbn in A, B.
  destruct i as [|[|[|i]]]; try discriminate; destruct j as [|[|j]]; try discriminate; injection A as <-; injection B as <-;
  unfold end_of, same, along in *; cbn [fst snd] in *; split; intros [[G H]|[G H]]; lra.
Qed.
Lemma tent_bar_meet : exists e f, edge_of tent false e /\ edge_of bar false f /\ meet e f.
Proof.
  exists ((0, 0), (2, 2)), ((0, 1), (5, 1)). split; [apply edge_in; left; reflexivity|]. split; [apply edge_in; left; reflexivity|].
  exists (1, 1). split; [on (1 # 2)|on (1 # 5)].
Qed.
Lemma tent_repeat : no_repeat tent false. Proof. apply simple_no_repeat, tent_simple. Qed.
Lemma tent_bar_true : forall fuel, (20 < fuel)%nat -> geom_intersects fuel tent false bar false = Ret true.
Proof. intros fuel F. replace fuel with (21 + (fuel - 21))%nat by lia. change (intersects (21 + (fuel - 21)) tent false bar false = Ret true). apply sweep_more. vm_compute. reflexivity. Qed.
Lemma vertical_ok : edge_of [(0, 0); (2, 0)] false ((0, 0), (2, 0)) /\ edge_of [(1, -1); (1, 1)] false ((1, -1), (1, 1)) /\
  upright ((1, -1), (1, 1)) /\ on_seg ((1, -1), (1, 1)) (1, 0) /\ on_seg ((0, 0), (2, 0)) (1, 0) /\
  geom_intersects 20 [(0, 0); (2, 0)] false [(1, -1); (1, 1)] false = Ret true.
Proof.
  split; [apply edge_in; left; reflexivity|]. split; [apply edge_in; left; reflexivity|]. split; [reflexivity|]. split; [on (1 # 2)|]. split; [on (1 # 2)|]. vm_compute. reflexivity.
Qed.

(* ---- the sweep: meetings missed *)
Ltac missed F := replace F with (21 + (F - 21))%nat by lia;
  match goal with |- geom_intersects ?f ?a ?ra ?b ?rb = _ => change (intersects f a ra b rb = Ret false) end; apply sweep_more; vm_compute; reflexivity.
Lemma missed_end_on_vertical : exists a b e f, edge_of a false e /\ edge_of b false f /\ meet e f /\
  forall fuel, (20 < fuel)%nat -> geom_intersects fuel a false b false = Ret false.
Proof.
  exists [(0, 0); (1, 0)], [(1, -1); (1, 1)], ((0, 0), (1, 0)), ((1, -1), (1, 1)).
  split; [apply edge_in; left; reflexivity|]. split; [apply edge_in; left; reflexivity|]. split; [exists (1, 0); split; [on 1|on (1 # 2)]|].
  intros fuel F. missed fuel.
Qed.
Lemma missed_two_verticals : exists a b e f, edge_of a false e /\ edge_of b false f /\ meet e f /\
  forall fuel, (20 < fuel)%nat -> geom_intersects fuel a false b false = Ret false.
Proof.
  exists [(0, 0); (0, 2)], [(0, 1); (0, 3)], ((0, 0), (0, 2)), ((0, 1), (0, 3)).
  split; [apply edge_in; left; reflexivity|]. split; [apply edge_in; left; reflexivity|]. split; [exists (0, 1); split; [on (1 # 2)|on 0]|].
  intros fuel F. missed fuel.
Qed.
Lemma missed_start : exists a b e f, edge_of a false e /\ edge_of b false f /\ meet e f /\ ~ upright e /\ ~ upright f /\
  forall fuel, (20 < fuel)%nat -> geom_intersects fuel a false b false = Ret false.
Proof.
  exists [(0, 0); (2, 2)], [(1, 1); (2, 0)], ((0, 0), (2, 2)), ((1, 1), (2, 0)).
  split; [apply edge_in; left; reflexivity|]. split; [apply edge_in; left; reflexivity|]. split; [exists (1, 1); split; [on (1 # 2)|on 0]|].
  split; [unfold upright; cbn; lra|]. split; [unfold upright; cbn; lra|].
  intros fuel F. missed fuel.
Qed.
(** A line that crosses itself: a proper crossing with the other line is missed. *)
Lemma missed_self_crossing : exists a b, proper a false b false /\ simple_path b false /\ no_repeat a false /\
  (forall e, edge_of a false e -> ~ upright e) /\ (forall f, edge_of b false f -> ~ upright f) /\
  (exists e f, edge_of a false e /\ edge_of b false f /\ meet e f) /\
  forall fuel, (20 < fuel)%nat -> geom_intersects fuel a false b false = Ret false.
Proof.
  exists [(0, 4); (5, 5); (1, 5); (4, 2)], [(1, 1); (5, 4)].
  split; [|split; [|split; [|split; [|split; [|split]]]]].
  - intros e f p (i & A) (j & B) (t & T & E1 & E2) (u & U & F1 & F2). apply edge_cases in A, B. cbn in A, B.
    destruct i as [|[|[|[|i]]]]; try discriminate; destruct j as [|[|j]]; try discriminate; injection A as <-; injection B as <-;
    unfold end_of, same, along in *; cbn [fst snd] in *; split; intros [[G H]|[G H]]; lra.
  - split.
    + intros i j e f p A B N. apply edge_cases in A, B. cbn in A, B.
      destruct i as [|[|i]]; try discriminate; destruct j as [|[|j]]; try discriminate; congruence.
    + intros i j k e f g p A B C N1 N2 N3 _ _ _. apply edge_cases in A, B, C. cbn in A, B, C.
      destruct i as [|[|i]]; try discriminate; destruct j as [|[|j]]; try discriminate; congruence.
  - intros i j e f A B [[S _] _] _. apply edge_cases in A, B. cbn in A, B.
    destruct i as [|[|[|[|i]]]]; try discriminate; destruct j as [|[|[|[|j]]]]; try discriminate; try reflexivity; injection A as <-; injection B as <-; cbn in S; lra.
  - intros e (i & A). apply edge_cases in A. cbn in A. destruct i as [|[|[|[|i]]]]; try discriminate; injection A as <-; unfold upright; cbn; lra.
  - intros e (i & A). apply edge_cases in A. cbn in A. destruct i as [|[|i]]; try discriminate; injection A as <-; unfold upright; cbn; lra.
  - exists ((1, 5), (4, 2)), ((1, 1), (5, 4)). split; [apply edge_in; right; right; left; reflexivity|]. split; [apply edge_in; left; reflexivity|].
    exists (23 # 7, 19 # 7). split; [on (16 # 21)|on (4 # 7)].
  - intros fuel F. missed fuel.
Qed.

(* ---- an endless loop *)
Lemma sweep_unfold : forall fuel n e queue' q evs rest q1 ending, take_same (ex e) (e :: queue') = (evs, rest) -> enter evs q = q1 ->
  map eseg (filter (of_kind Right) evs) = ending ->
  sweep fuel (S n) (e :: queue') q = obind (end_segments fuel ending ending q1) (fun p =>
      obind (check (fst p) evs (snd p)) (fun b => if b then Ret true else sweep fuel n rest (fst p))).
Proof. intros fuel n e queue' q evs rest q1 ending T E1 E2. cbn [sweep]. rewrite T. fold (enter evs q). rewrite E1, E2. reflexivity. Qed.
Definition zigzag : list pt := [(0, 0); (1, 1); (0, 0); (1, 1)].
Definition short : list pt := [(0, 1 # 2); (1, 2)].
Definition sup : seg := mkSeg 0 0 1 1 false.
Definition sdown : seg := mkSeg 1 1 0 0 false.
Definition sshort : seg := mkSeg 0 (1 # 2) 1 2 true.
Definition line1 : list seg := [sdown; sup; sup; sshort].
Definition ends1 : list seg := [sup; sup; sshort; sdown].
Lemma stuck : forall fuel, skip_ending fuel (rightof line1) ends1 (Some sup) = Loop.
Proof.
  induction fuel as [|fuel IH]; [reflexivity|]. cbn [skip_ending].
  change (existsb (seg_eqb sup) ends1) with true. cbn match.
  change (rightof line1 sup) with (Some (Some sup)). cbn match. exact IH.
Qed.
Lemma stuck_end : forall fuel, end_segments fuel ends1 ends1 line1 = Loop.
Proof.
  intros fuel. unfold ends1 at 2. cbn [end_segments]. rewrite stuck. destruct fuel as [|[|[|[|fuel]]]]; reflexivity.
Qed.
Lemma endless : forall fuel, geom_intersects fuel zigzag false short false = Loop.
Proof.
  intros fuel. change (intersects fuel zigzag false short false = Loop). unfold intersects. fold (segs zigzag false short false).
  let v := eval vm_compute in (events (segs zigzag false short false)) in change (events (segs zigzag false short false)) with v.
  cbn [length]. erewrite sweep_unfold; [|vm_compute; reflexivity|vm_compute; reflexivity|vm_compute; reflexivity].
  cbn [end_segments obind fst snd]. match goal with |- obind ?c _ = _ => let v := eval vm_compute in c in change c with v end. cbn [obind].
  erewrite sweep_unfold; [|vm_compute; reflexivity|vm_compute; reflexivity|vm_compute; reflexivity].
  match goal with |- obind ?c _ = _ => change c with (end_segments fuel ends1 ends1 line1) end. rewrite stuck_end. reflexivity.
Qed.

(* ---- C floats: the sides of the common box are C floats, and so is their product *)
(** 2^-100 *)
Definition tiny : spec_float := binary_normalize 53 1024 1 (-100) false.
Lemma float_box : exists b, let '(x0, y0, x1, y1) := b in SFltb x0 x1 = true /\ SFltb y0 y1 = true /\ bboxes_overlap_float b b = false.
Proof. exists (fzero, fzero, tiny, tiny). vm_compute. auto. Qed.
Lemma float_box_ok : bboxes_overlap_float (fzero, fzero, binary_normalize 53 1024 2 0 false, binary_normalize 53 1024 2 0 false)
  (binary_normalize 53 1024 1 0 false, fzero, binary_normalize 53 1024 3 0 false, binary_normalize 53 1024 3 0 false) = true.
Proof. vm_compute. reflexivity. Qed.
