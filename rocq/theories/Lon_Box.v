(** Proofs for bounding boxes aware of the 180th meridian. *)
From Coq Require Import List ZArith QArith Qround Qabs Bool Arith Lia Lqa.
From Verif Require Import Geom_Model Geom_Spec Geom_Proofs Inter_Model Inter_Spec Inter_Proofs Lon_Model Lon_Spec Lon_Proofs.
Import ListNotations.
Open Scope Q_scope.

Section Box.
Variable bndlat : Q * Q -> Q * Q -> option (Q * Q).
Let step := bstep bndlat.
(** Longitudes while no edge passes the 180th meridian. *)
Definition xinv (seen : list (Q * Q)) (s : bstate) : Prop :=
  In (bprev s) seen /\ (forall v, In v seen -> bxmin s <= fst v /\ fst v <= bxmax s) /\
  (exists v, In v seen /\ fst v == bxmin s) /\ (exists v, In v seen /\ fst v == bxmax s).
Lemma fmin_cases : forall a b, (fmin a b == a /\ a <= b) \/ (fmin a b == b /\ b <= a).
Proof. intros a b. unfold fmin. destruct (Qle_bool a b) eqn:E; [left; split; [reflexivity|apply Qleb_t, E]|right; split; [reflexivity|apply Qlt_le_weak, Qleb_f, E]]. Qed.
Lemma fmax_cases : forall a b, (fmax a b == b /\ a <= b) \/ (fmax a b == a /\ b <= a).
Proof. intros a b. unfold fmax. destruct (Qle_bool a b) eqn:E; [left; split; [reflexivity|apply Qleb_t, E]|right; split; [reflexivity|apply Qlt_le_weak, Qleb_f, E]]. Qed.
Lemma bstep_prev : forall s v, bprev (step s v) = v.
Proof.
  intros s v. unfold step, bstep. destruct (match bndlat (bprev s) v with Some (lo, hi) => _ | None => _ end) as [y0 y1].
  destruct (negb (crosses_dateline (fst (bprev s)) (fst v) =? 0)%Z); [reflexivity|].
  destruct (qlt (fst v) (fst (bprev s))); reflexivity.
Qed.
Lemma bstep_x : forall seen s v, lon_ok (fst (bprev s)) -> lon_ok (fst v) -> ~ passes_180 (fst (bprev s)) (fst v) ->
  xinv seen s -> xinv (seen ++ [v]) (step s v).
Proof.
  intros seen s v A B N (P & Al & (m & M1 & M2) & (w & W1 & W2)).
  destruct (Al _ P) as [L1 L2].
  assert (X : crosses_dateline (fst (bprev s)) (fst v) = 0%Z).
  { destruct (crosses_spec _ _ A B) as [(C & _)|[(C & _)|(_ & C)]]; [exfalso; apply N; left; exact C|exfalso; apply N; right; exact C|exact C]. }
  unfold xinv. rewrite bstep_prev. unfold step, bstep.
  destruct (match bndlat (bprev s) v with Some (lo, hi) => _ | None => _ end) as [y0 y1].
  rewrite X. cbn [Z.eqb negb].
  destruct (qlt (fst v) (fst (bprev s))) eqn:E; cbn [bxmin bxmax bprev].
  - apply qlt_t in E. split; [apply in_or_app; right; left; reflexivity|]. split; [|split].
    + intros u U. apply in_app_or in U. destruct (fmin_cases (bxmin s) (fst v)) as [[F G]|[F G]];
      (destruct U as [U|[<-|[]]]; [destruct (Al u U)|]); split; lra.
    + destruct (fmin_cases (bxmin s) (fst v)) as [[F G]|[F G]].
      * exists m. split; [apply in_or_app; left; exact M1|]. lra.
      * exists v. split; [apply in_or_app; right; left; reflexivity|]. lra.
    + exists w. split; [apply in_or_app; left; exact W1|exact W2].
  - apply qlt_f in E. split; [apply in_or_app; right; left; reflexivity|]. split; [|split].
    + intros u U. apply in_app_or in U. destruct (fmax_cases (bxmax s) (fst v)) as [[F G]|[F G]];
      (destruct U as [U|[<-|[]]]; [destruct (Al u U)|]); split; lra.
    + exists m. split; [apply in_or_app; left; exact M1|exact M2].
    + destruct (fmax_cases (bxmax s) (fst v)) as [[F G]|[F G]].
      * exists v. split; [apply in_or_app; right; left; reflexivity|]. lra.
      * exists w. split; [apply in_or_app; left; exact W1|]. lra.
Qed.
Lemma bfold_x : forall l seen s, xinv seen s -> (forall v, In v l -> lon_ok (fst v)) -> lon_ok (fst (bprev s)) ->
  (forall i a b, path_edge (bprev s :: l) i a b -> ~ passes_180 (fst a) (fst b)) -> xinv (seen ++ l) (fold_left step l s).
Proof.
  induction l as [|v l IH]; intros seen s I O A N; [rewrite app_nil_r; exact I|]. cbn [fold_left].
  change (seen ++ v :: l) with (seen ++ [v] ++ l). rewrite app_assoc. apply IH.
  - apply bstep_x; [exact A|apply O; left; reflexivity| |exact I]. apply (N 0%nat). split; reflexivity.
  - intros u U. apply O. right. exact U.
  - rewrite bstep_prev. apply O. left. reflexivity.
  - rewrite bstep_prev. intros i a b [E F]. apply (N (S i)). split; assumption.
Qed.
(** Latitudes. *)
Definition yinv (seen : list (Q * Q)) (s : bstate) : Prop :=
  In (bprev s) seen /\ (forall v, In v seen -> bymin s <= snd v /\ snd v <= bymax s).
Hypothesis ends : forall a b, match bndlat a b with
  | Some (lo, hi) => lo <= snd a /\ lo <= snd b /\ snd a <= hi /\ snd b <= hi | None => snd a == snd b end.
Lemma bstep_y : forall seen s v, yinv seen s -> yinv (seen ++ [v]) (step s v) /\ bymin (step s v) <= bymin s /\ bymax s <= bymax (step s v) /\
  (forall lo hi, bndlat (bprev s) v = Some (lo, hi) -> bymin (step s v) <= lo /\ hi <= bymax (step s v)).
Proof.
  intros seen s v (P & Al). destruct (Al _ P) as [L1 L2]. unfold yinv. rewrite bstep_prev. unfold step, bstep.
  pose proof (ends (bprev s) v) as K.
  destruct (match bndlat (bprev s) v with Some (lo, hi) => (fmin (bymin s) lo, fmax (bymax s) hi) | None => (bymin s, bymax s) end) as [y0 y1] eqn:Y.
  assert (Z : y0 <= bymin s /\ bymax s <= y1 /\ y0 <= snd v /\ snd v <= y1 /\
              (forall lo hi, bndlat (bprev s) v = Some (lo, hi) -> y0 <= lo /\ hi <= y1)).
  { destruct (bndlat (bprev s) v) as [[lo hi]|]; injection Y as <- <-.
    - destruct (fmin_cases (bymin s) lo) as [[F1 G1]|[F1 G1]]; destruct (fmax_cases (bymax s) hi) as [[F2 G2]|[F2 G2]];
      (split; [lra|]; split; [lra|]; split; [lra|]; split; [lra|]); intros lo' hi' E; injection E as <- <-; split; lra.
    - split; [lra|]. split; [lra|]. split; [lra|]. split; [lra|]. discriminate. }
  destruct Z as (Z1 & Z2 & Z3 & Z4 & Z5).
  assert (R : (In v (seen ++ [v]) /\ (forall u, In u (seen ++ [v]) -> y0 <= snd u /\ snd u <= y1)) /\ y0 <= bymin s /\ bymax s <= y1 /\
              (forall lo hi, bndlat (bprev s) v = Some (lo, hi) -> y0 <= lo /\ hi <= y1)).
  { split; [|split; [exact Z1|split; [exact Z2|exact Z5]]]. split; [apply in_or_app; right; left; reflexivity|].
    intros u U. apply in_app_or in U. destruct U as [U|[<-|[]]]; [destruct (Al u U)|]; split; lra. }
  destruct (negb (crosses_dateline (fst (bprev s)) (fst v) =? 0)%Z); [exact R|].
  destruct (qlt (fst v) (fst (bprev s))); exact R.
Qed.
Lemma bfold_y : forall l seen s, yinv seen s -> yinv (seen ++ l) (fold_left step l s) /\
  bymin (fold_left step l s) <= bymin s /\ bymax s <= bymax (fold_left step l s) /\
  (forall i a b lo hi, path_edge (bprev s :: l) i a b -> bndlat a b = Some (lo, hi) ->
     bymin (fold_left step l s) <= lo /\ hi <= bymax (fold_left step l s)).
Proof.
  induction l as [|v l IH]; intros seen s I.
  - rewrite app_nil_r. cbn [fold_left]. split; [exact I|]. split; [lra|]. split; [lra|]. intros i a b lo hi [_ E]. destruct i; discriminate.
  - cbn [fold_left]. change (seen ++ v :: l) with (seen ++ [v] ++ l). rewrite app_assoc.
    destruct (bstep_y seen s v I) as (J & M & N & O). destruct (IH _ _ J) as (K & M' & N' & O').
    split; [exact K|]. split; [lra|]. split; [lra|]. intros i a b lo hi [E F] B. destruct i as [|i].
    + cbn in E, F. injection E as <-. injection F as <-. destruct (O lo hi B). split; lra.
    + rewrite bstep_prev in O'. apply (O' i a b lo hi); [split; assumption|exact B].
Qed.
End Box.

(** The edges the loop runs over, of a line or a ring. *)
Definition loop_edge (l : list (Q * Q)) (ring : bool) (i : nat) (a b : Q * Q) : Prop :=
  if ring then ring_edge l i a b else path_edge l i a b.
Lemma loop_edges : forall v l (ring : bool) i a b, path_edge (v :: (if ring then (v :: l) ++ [v] else v :: l)) i a b ->
  (i = 0%nat /\ a = v /\ b = v) \/ exists j, i = S j /\ loop_edge (v :: l) ring j a b.
Proof.
  intros v l ring i a b [A B]. destruct i as [|i].
  - left. destruct ring; cbn in A, B; injection A as <-; injection B as <-; auto.
  - right. exists i. split; [reflexivity|]. unfold loop_edge. destruct ring.
    + apply ring_path. split; [exact A|exact B].
    + split; [exact A|exact B].
Qed.
Lemma edge_loop : forall v l (ring : bool) i a b, loop_edge (v :: l) ring i a b -> path_edge (v :: (if ring then (v :: l) ++ [v] else v :: l)) (S i) a b.
Proof.
  intros v l ring i a b H. unfold loop_edge in H. destruct ring.
  - apply ring_path in H. destruct H as [A B]. split; [exact A|exact B].
  - destruct H as [A B]. split; [exact A|exact B].
Qed.
Lemma loop_in : forall (v : Q * Q) l (ring : bool) u, In u (if ring then (v :: l) ++ [v] else v :: l) <-> In u (v :: l).
Proof.
  intros v l ring u. destruct ring; [|reflexivity]. split; intros H.
  - apply in_app_or in H. destruct H as [H|[<-|[]]]; [exact H|left; reflexivity].
  - apply in_or_app. left. exact H.
Qed.
Lemma not_passes_refl : forall x, ~ passes_180 x x.
Proof. intros x [H|H]; lra. Qed.
Lemma reduce_id : forall x, lon_ok x -> qmod (x + 180) 360 - 180 == x.
Proof. intros x [A B]. apply (reduce_unique x x A B), cong_refl. Qed.
Lemma box_no_crossing : forall bndlat l ring, l <> [] -> (forall v, In v l -> lon_ok (fst v)) ->
  (forall i a b, loop_edge l ring i a b -> ~ passes_180 (fst a) (fst b)) ->
  exists x0 y0 x1 y1, dateline_bbox bndlat l ring = Some (x0, y0, x1, y1) /\
  (forall v, In v l -> x0 <= fst v /\ fst v <= x1) /\ (exists v, In v l /\ fst v == x0) /\ (exists v, In v l /\ fst v == x1).
Proof.
  intros bndlat l ring N O P. destruct l as [|v l]; [congruence|]. cbn [dateline_bbox].
  set (s0 := mkB _ _ _ _ _ _). set (m := if ring then (v :: l) ++ [v] else v :: l).
  assert (I0 : xinv [v] s0).
  { split; [left; reflexivity|]. split; [intros u [<-|[]]; cbn; split; lra|]. split; exists v; (split; [left; reflexivity|reflexivity]). }
  assert (I : xinv ([v] ++ m) (fold_left (bstep bndlat) m s0)).
  { apply bfold_x; [exact I0| | |].
    - intros u U. apply O, (loop_in v l ring u), U.
    - apply O. left. reflexivity.
    - intros i a b E. apply loop_edges in E. destruct E as [(-> & -> & ->)|(j & -> & E)]; [apply not_passes_refl|apply (P _ _ _ E)]. }
  assert (IN : forall u, In u ([v] ++ m) <-> In u (v :: l)).
  { intros u. change ([v] ++ m) with (v :: m). cbn [In]. unfold m. rewrite (loop_in v l ring u). cbn [In]. tauto. }
  set (s := fold_left (bstep bndlat) m s0) in *.
  destruct I as (_ & Al & (a & A1 & A2) & (b & B1 & B2)). apply IN in A1. apply IN in B1.
  assert (R0 : qmod (bxmin s + 180) 360 - 180 == bxmin s) by (apply reduce_id; pose proof (O a A1); unfold lon_ok in *; lra).
  assert (R1 : qmod (bxmax s + 180) 360 - 180 == bxmax s) by (apply reduce_id; pose proof (O b B1); unfold lon_ok in *; lra).
  do 4 eexists. split; [reflexivity|]. split; [|split].
  - intros u U. apply IN in U. destruct (Al u U). rewrite R0, R1. split; assumption.
  - exists a. split; [exact A1|]. rewrite R0. exact A2.
  - exists b. split; [exact B1|]. rewrite R1. exact B2.
Qed.
Lemma box_latitudes : forall bndlat l ring, l <> [] ->
  (forall a b, match bndlat a b with
   | Some (lo, hi) => lo <= snd a /\ lo <= snd b /\ snd a <= hi /\ snd b <= hi | None => snd a == snd b end) ->
  exists x0 y0 x1 y1, dateline_bbox bndlat l ring = Some (x0, y0, x1, y1) /\
  (forall v, In v l -> y0 <= snd v /\ snd v <= y1) /\
  (forall i a b lo hi, loop_edge l ring i a b -> bndlat a b = Some (lo, hi) -> y0 <= lo /\ hi <= y1).
Proof.
  intros bndlat l ring N H. destruct l as [|v l]; [congruence|]. cbn [dateline_bbox].
  set (s0 := mkB _ _ _ _ _ _). set (m := if ring then (v :: l) ++ [v] else v :: l).
  assert (I0 : yinv [v] s0) by (split; [left; reflexivity|intros u [<-|[]]; cbn; split; lra]).
  destruct (bfold_y bndlat H m [v] s0 I0) as ((_ & Al) & _ & _ & E).
  do 4 eexists. split; [reflexivity|]. split.
  - intros u U. apply Al. apply in_or_app. right. apply (loop_in v l ring u), U.
  - intros i a b lo hi L B. apply (E (S i) a b lo hi); [|exact B]. apply (edge_loop v l ring i a b L).
Qed.
(** A single segment. *)
Lemma box_segment : forall bndlat a b, lon_ok (fst a) -> lon_ok (fst b) -> passes_180 (fst a) (fst b) ->
  exists x0 y0 x1 y1, dateline_bbox bndlat [a; b] false = Some (x0, y0, x1, y1) /\
  ((x0 == fst a /\ x1 == fst b) \/ (x0 == fst b /\ x1 == fst a)) /\ x1 < x0.
Proof.
  intros bndlat a b A B P. cbn [dateline_bbox fold_left].
  set (s0 := mkB _ _ _ _ _ _).
  assert (H1 : bxmin (bstep bndlat s0 a) == fst a /\ bxmax (bstep bndlat s0 a) == fst a /\ bprev (bstep bndlat s0 a) = a /\ brot (bstep bndlat s0 a) == 0).
  { unfold bstep, s0. cbn [bprev bxmin bxmax bymin bymax brot].
    destruct (match bndlat a a with Some (lo, hi) => _ | None => _ end) as [y0 y1].
    assert (crosses_dateline (fst a) (fst a) = 0%Z) as -> .
    { destruct (crosses_spec _ _ A A) as [(C & _)|[(C & _)|(_ & C)]]; [lra|lra|exact C]. }
    cbn [Z.eqb negb]. rewrite qlt_n by lra. cbn. repeat split; try reflexivity. destruct (fmax_cases (fst a) (fst a)) as [[F _]|[F _]]; exact F. }
  destruct H1 as (M & X & R & T). set (s1 := bstep bndlat s0 a) in *.
  assert (H2 : bxmin (bstep bndlat s1 b) == fmin (fst a) (fst b - inject_Z (crosses_dateline (fst a) (fst b)) * 360) /\
               bxmax (bstep bndlat s1 b) == fmax (fst a) (fst b - inject_Z (crosses_dateline (fst a) (fst b)) * 360)).
  { unfold bstep. rewrite R. destruct (match bndlat a b with Some (lo, hi) => _ | None => _ end) as [y0 y1].
    destruct (crosses_spec _ _ A B) as [(C & K)|[(C & K)|(C & K)]]; [| |contradiction]; rewrite K; cbn [Z.eqb negb bxmin bxmax];
    match goal with |- fmin ?p ?q == fmin ?r ?s /\ _ => destruct (fmin_cases p q) as [[F1 G1]|[F1 G1]]; destruct (fmin_cases r s) as [[F2 G2]|[F2 G2]] end;
    match goal with |- _ /\ fmax ?p ?q == fmax ?r ?s => destruct (fmax_cases p q) as [[F3 G3]|[F3 G3]]; destruct (fmax_cases r s) as [[F4 G4]|[F4 G4]] end; split; lra. }
  destruct H2 as [M2 X2].
  do 4 eexists. split; [reflexivity|].
  assert (Q : forall x y, cong x y -> lon_ok y -> qmod (x + 180) 360 - 180 == y) by (intros x y U V; apply (reduce_unique x y); [apply V|apply V|exact U]).
  destruct (crosses_spec _ _ A B) as [(C & K)|[(C & K)|(C & K)]]; [| |contradiction]; rewrite K in M2, X2.
  - (* westward, from a negative longitude *)
    change (inject_Z 1) with 1 in M2, X2.
    destruct (fmin_cases (fst a) (fst b - 1 * 360)) as [[F G]|[F G]]; [unfold lon_ok in *; lra|].
    destruct (fmax_cases (fst a) (fst b - 1 * 360)) as [[F' G']|[F' G']]; [unfold lon_ok in *; lra|].
    assert (E1 : qmod (bxmin (bstep bndlat s1 b) + 180) 360 - 180 == fst b) by (apply Q; [exists (-1)%Z; change (inject_Z (-1)) with (- (1)); lra|exact B]).
    assert (E2 : qmod (bxmax (bstep bndlat s1 b) + 180) 360 - 180 == fst a) by (apply Q; [apply cong_eq; lra|exact A]).
    split; [right; split; assumption|]. lra.
  - change (inject_Z (-1)) with (- (1)) in M2, X2.
    destruct (fmin_cases (fst a) (fst b - - (1) * 360)) as [[F G]|[F G]]; [|unfold lon_ok in *; lra].
    destruct (fmax_cases (fst a) (fst b - - (1) * 360)) as [[F' G']|[F' G']]; [|unfold lon_ok in *; lra].
    assert (E1 : qmod (bxmin (bstep bndlat s1 b) + 180) 360 - 180 == fst a) by (apply Q; [apply cong_eq; lra|exact A]).
    assert (E2 : qmod (bxmax (bstep bndlat s1 b) + 180) 360 - 180 == fst b) by (apply Q; [exists 1%Z; change (inject_Z 1) with 1; lra|exact B]).
    split; [left; split; assumption|]. lra.
Qed.
(** A line across the 180th meridian, and on: the last vertex is outside the box. *)
Definition flat_lat (a b : Q * Q) : option (Q * Q) := Some (fmin (snd a) (snd b), fmax (snd a) (snd b)).
Lemma flat_lat_ends : forall a b, match flat_lat a b with
   | Some (lo, hi) => lo <= snd a /\ lo <= snd b /\ snd a <= hi /\ snd b <= hi | None => snd a == snd b end.
Proof.
  intros a b. unfold flat_lat. destruct (fmin_cases (snd a) (snd b)) as [[F G]|[F G]]; destruct (fmax_cases (snd a) (snd b)) as [[F' G']|[F' G']]; lra.
Qed.
Lemma box_lost : exists l x0 y0 x1 y1 v, (forall u, In u l -> lon_ok (fst u)) /\
  dateline_bbox flat_lat l false = Some (x0, y0, x1, y1) /\ In v l /\ ~ in_range x0 x1 (fst v).
Proof.
  exists [(170, 0); (- (170), 1); (- (160), 0)]. do 4 eexists. exists (- (160), 0). split; [|split; [vm_compute; reflexivity|split; [right; right; left; reflexivity|]]].
  - intros u [<-|[<-|[<-|[]]]]; split; cbn; lra.
  - intros [(H & _)|(_ & [H|H])]; vm_compute in H; [apply H|apply H|apply H]; reflexivity.
Qed.

(* ---- witnesses *)
Lemma isbetween_antipodal : exists x0 x1, cong x1 (x0 + 180) /\ isbetween_circular x0 x0 x1 = false /\ isbetween_circular x1 x0 x1 = false.
Proof. exists 0, 180. split; [apply cong_eq; ring|]. split; reflexivity. Qed.
Lemma isbetween_all_antipodal : forall x x0 x1, cong x1 (x0 + 180) -> isbetween_circular x x0 x1 = false.
Proof.
  intros x a b H. unfold isbetween_circular.
  assert (U : unroll_deg (b - a) == 180).
  { apply unroll_unique; [lra|lra|]. destruct H as (k & H). exists k. lra. }
  rewrite qlt_n by lra.
  assert (R : reduce_deg (b - a) == - (180)).
  { apply reduce_unique; [lra|lra|]. destruct H as (k & H). exists (k + 1)%Z. rewrite inject_Z_plus. change (inject_Z 1) with 1. lra. }
  destruct (Qle_bool 0 (reduce_deg (x - a))) eqn:E1; [|reflexivity]. cbn [andb].
  destruct (Qle_bool (reduce_deg (x - a)) (reduce_deg (b - a))) eqn:E2; [|reflexivity].
  apply Qleb_t in E1. apply Qleb_t in E2. lra.
Qed.
Lemma az360_of : forall az bear v, cong (az v) (bear v) -> 0 <= bear v -> bear v < 360 -> az360 az v == bear v.
Proof.
  intros az bear v C A B. unfold az360. change (unroll_deg (az v + 360) == bear v). apply unroll_unique; [exact A|exact B|].
  destruct C as (k & C). exists (k + 1)%Z. rewrite inject_Z_plus, C. change (inject_Z 1) with 1. ring.
Qed.
Lemma contains_proj_bear : forall az bear l, l <> [] -> (forall v, cong (az v) (bear v) /\ 0 <= bear v /\ bear v < 360) ->
  exists b, contains_proj az l true = Ok b /\ (b = true <-> forall i v w, ring_edge l i v w -> bear v - bear w <= 180).
Proof.
  intros az bear l N H. destruct (contains_proj_spec az l N) as (b & E & S). exists b. split; [exact E|]. rewrite S.
  assert (Z : forall v, az360 az v == bear v) by (intros v; destruct (H v) as (C & A & B); apply az360_of; assumption).
  split; intros K i v w L; specialize (K i v w L); pose proof (Z v); pose proof (Z w); lra.
Qed.
(** Azimuths as the first coordinates of the vertices: a stand-in for a ring seen from a point. *)
Lemma proj_outside : exists az l, (forall v, In v l -> 0 <= az v /\ az v < 360) /\
  contains_proj az l true = Ok true /\ (forall i v w, ring_edge l i v w -> Qabs (az v - az w) < 180).
Proof.
  exists fst, [(80, 0); (100, 0); (90, 0)]. split; [intros v [<-|[<-|[<-|[]]]]; cbn; split; lra|]. split; [reflexivity|].
  intros i v w [A B]. destruct i as [|[|[|i]]]; cbn in A, B; try (injection A as <-; injection B as <-; reflexivity).
  destruct i; discriminate.
Qed.
Lemma proj_inside : exists az l, (forall v, In v l -> 0 <= az v /\ az v < 360) /\
  contains_proj az l true = Ok false /\ contains_proj az (rev l) true = Ok true /\
  ring_total crossing (map az l) = 1%Z /\ ring_total crossing (map az (rev l)) = (-1)%Z.
Proof.
  exists fst, [(45, 0); (135, 0); (225, 0); (315, 0)]. split; [intros v [<-|[<-|[<-|[<-|[]]]]]; cbn; split; lra|].
  repeat split; reflexivity.
Qed.
Lemma polar_right : Forall lon_ok [- (120); 0; 120] /\ ispolar [- (120); 0; 120] = Ok true /\ ring_total crossing [- (120); 0; 120] = 1%Z.
Proof. split; [repeat constructor; unfold lon_ok; lra|]. split; reflexivity. Qed.
