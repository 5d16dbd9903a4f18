(** The hull of vertices that are not on one line (proofs). *)
From Coq Require Import List Bool Arith QArith Lqa Lia Permutation Sorted.
From Verif Require Import Hull_Model Hull_Spec Hull_Scan Hull_Proofs.
Import ListNotations.
Open Scope Q_scope.

Lemma pat_in : forall vs i, (i < length vs)%nat -> In (pat vs i) vs. Proof. intros. apply nth_In. assumption. Qed.
Lemma in_pat : forall vs v, In v vs -> exists i, (i < length vs)%nat /\ pat vs i = v.
Proof. intros vs v I. apply (In_nth vs v (0, 0)) in I. exact I. Qed.
Lemma pat_nth : forall vs i, (i < length vs)%nat -> nth_error vs i = Some (pat vs i).
Proof. intros. apply nth_error_nth'. assumption. Qed.

(** All on one line through p: no area. *)
Lemma line_area : forall p s a b c, ~ same s p -> D p s a == 0 -> D p s b == 0 -> D p s c == 0 -> D a b c == 0.
Proof.
  intros p s a b c N A B C.
  assert (D p a b == 0) as AB. { rewrite D_swap23 in A. assert (D p a s == 0) as A' by lra. pose proof (D_line p a s b N A' B) as H.
    assert (D p a b == D p a s + D p s b - D a s b) as E by (unfold orient; ring). rewrite E, A', B, H. ring. }
  assert (D p b c == 0) as BC. { rewrite D_swap23 in B. assert (D p b s == 0) as B' by lra. pose proof (D_line p b s c N B' C) as H.
    assert (D p b c == D p b s + D p s c - D b s c) as E by (unfold orient; ring). rewrite E, B', C, H. ring. }
  assert (D p c a == 0) as CA. { rewrite D_swap23 in C. assert (D p c s == 0) as C' by lra. pose proof (D_line p c s a N C' A) as H.
    assert (D p c a == D p c s + D p s a - D c s a) as E by (unfold orient; ring). rewrite E, C', A, H. ring. }
  assert (D a b c == D p a b + D p b c + D p c a) as E by (unfold orient; ring). rewrite E, AB, BC, CA. ring.
Qed.
Lemma point_area : forall p a b c, same a p -> same b p -> same c p -> D a b c == 0.
Proof. intros p a b c [A A'] [B B'] [C C']. unfold orient. rewrite A, A', B, B', C, C'. ring. Qed.

(** A point on the first edge. *)
Lemma on_edge : forall p s v a b t, 0 <= t -> t <= 1 -> fst v == fst p + t * (fst s - fst p) -> snd v == snd p + t * (snd s - snd p) ->
  0 <= D a b p -> 0 <= D a b s -> 0 <= D a b v.
Proof.
  intros p s v a b t T0 T1 X Y P S. assert (D a b v == (1 - t) * D a b p + t * D a b s) as E by (unfold orient; rewrite X, Y; ring).
  rewrite E. assert (0 <= (1 - t) * D a b p) by nra. assert (0 <= t * D a b s) by nra. lra.
Qed.

Lemma sorted_next : forall vs l p s1 ne dn, p = pat vs l -> StronglySorted le2 ne ->
  Forall (fun e => fst e = angle_of p (pat vs (snd e)) /\ half p (pat vs (snd e)) /\ (same (pat vs (snd e)) p \/ 0 < D p s1 (pat vs (snd e)))) ne ->
  Forall (fun q => forall e, In e ne -> 0 <= D p q (pat vs (snd e))) dn ->
  sorted_after p s1 dn (map (pat vs) (map snd ne)).
Proof.
  intros vs l p s1 ne dn EP S F. revert dn. induction S as [| e ne S IH G]; intros dn A; [exact I |].
  inversion F as [| ? ? (K & H & C) F']; subst x l0. cbn [map]. split.
  - split; [exact H |]. split; [| exact C]. eapply Forall_impl; [| exact A]. intros q Q. apply Q. left. reflexivity.
  - apply IH; [exact F' |]. constructor.
    + intros e' I. rewrite Forall_forall in F', G. destruct (F' e' I) as (K' & H' & _). apply angle_D; auto. rewrite <- K, <- K'. apply G, I.
    + eapply Forall_impl; [| exact A]. intros q Q e' I. apply Q. right. exact I.
Qed.

Lemma match_ne : forall (A B : Type) (l : list A) (x y : B), l <> [] -> match l with [] => x | _ :: _ => y end = y.
Proof. intros A B [| a l] x y N; [congruence | reflexivity]. Qed.
Theorem hull_main : forall vs, not_collinear vs -> exists p s1 r, plane_hull vs = Ok (p :: s1 :: r) /\
  incl (p :: s1 :: r) vs /\ leftmost_of vs p /\ convex (p :: s1 :: r) /\
  (forall v, In v vs -> enclosed (p :: s1 :: r) v \/ beyond p s1 v) /\
  ((forall a b, ~ two_on_first_edge vs p a b) -> forall v, In v vs -> enclosed (p :: s1 :: r) v).
Proof.
  intros vs (ca & cb & cc & IA & IB & IC & NC).
  assert (vs <> []) as NE by (intros ->; contradiction).
  destruct (leftmost_ok vs NE) as [LL LH]. set (l := pleft vs) in *. set (p := pat vs l) in *.
  destruct (by_ok vs l) as (SS & SE & SA & SN). cbn zeta in SS, SE, SA, SN.
  destruct (pby vs l) as [| [k j] s] eqn:BY.
  { exfalso. apply NC. apply (point_area p); [destruct (in_pat vs ca IA) as (i & L & <-) | destruct (in_pat vs cb IB) as (i & L & <-) | destruct (in_pat vs cc IC) as (i & L & <-)];
    (destruct (Nat.eq_dec i l) as [-> | X]; [split; reflexivity | destruct (SA i L X)]). }
  inversion SS as [| ? ? SS' SF]; subst a l0.
  destruct (SE (k, j) (or_introl eq_refl)) as (EK & JL & JN). cbn [fst snd] in EK, JL, JN.
  destruct (split_first k s SS') as (eqs & ne & -> & FE & FN); [exact SF |].
  assert (forall v, In v vs -> half p v) as HV by (intros v I; destruct (in_pat vs v I) as (i & L & <-); apply LH, L).
  (* what the vertices are *)
  assert (forall i, (i < length vs)%nat -> i = l \/ i = j \/ (exists e, In e eqs /\ snd e = i) \/ (exists e, In e ne /\ snd e = i)) as CV.
  { intros i L. destruct (Nat.eq_dec i l) as [X | X]; [left; exact X |]. right. destruct (SA i L X) as [Y | Y]; [left; injection Y as _ Y; congruence |]. right.
    apply in_app_or in Y. destruct Y; [left | right]; (eexists; split; [eassumption | reflexivity]). }
  assert (forall e, In e eqs -> fst e = angle_of p (pat vs (snd e)) /\ (snd e < length vs)%nat /\ snd e <> l) as EE by (intros e I; apply SE; right; apply in_or_app; left; exact I).
  assert (forall e, In e ne -> fst e = angle_of p (pat vs (snd e)) /\ (snd e < length vs)%nat /\ snd e <> l) as NEe by (intros e I; apply SE; right; apply in_or_app; right; exact I).
  (* the first angle is not straight up *)
  assert (k <> Up) as KU.
  { intros KU. apply NC. assert (forall v, In v vs -> same v p) as AS.
    { intros v I. destruct (in_pat vs v I) as (i & L & <-). destruct (CV i L) as [-> | [-> | [(e & Y & <-) | (e & Y & <-)]]]; [split; reflexivity | | |].
      - apply (angle_up p); [apply LH, JL | fold p in EK; congruence].
      - destruct (EE e Y) as (E1 & E2 & _). apply (angle_up p); [apply LH, E2 |]. rewrite Forall_forall in FE. specialize (FE e Y). rewrite <- E1. rewrite KU in FE. destruct (fst e); try discriminate. reflexivity.
      - rewrite Forall_forall in FN. specialize (FN e Y). rewrite KU in FN. discriminate. }
    apply (point_area p); auto. }
  (* the second vertex *)
  destruct (drop_eq vs p eqs ne k 1 k p j []) as (i' & k' & l' & j1 & K' & J1 & DE).
  { apply ale_eq; apply angle_lt_irr. } { exact FE. }
  rewrite (drop_ne vs p ne) in DE.
  2:{ apply Forall_forall. intros e I. rewrite Forall_forall in FN. specialize (FN e I). destruct (angle_eq (fst e) k') eqn:X; [| reflexivity].
      pose proof (angle_eq_trans _ _ _ X K') as Y. apply eq_ale in Y. destruct Y as [Y _]. unfold ale in Y. congruence. }
  cbn [rev app] in DE.
  assert ((j1 < length vs)%nat /\ j1 <> l /\ angle_eq (angle_of p (pat vs j1)) k = true) as (L1 & N1 & A1).
  { destruct J1 as [<- | J1]; [repeat split; auto; fold p in EK; rewrite <- EK; apply ale_eq; apply angle_lt_irr |].
    apply in_map_iff in J1. destruct J1 as (e & <- & I). destruct (EE e I) as (E1 & E2 & E3). rewrite Forall_forall in FE. repeat split; auto. rewrite <- E1. apply FE, I. }
  set (s1 := pat vs j1) in *.
  assert (half p s1) as H1 by (apply LH, L1).
  assert (~ same s1 p) as NS1 by (intros X; apply (angle_up p s1 H1) in X; rewrite X in A1; destruct k; try discriminate; congruence).
  assert (forall e, In e ne -> half p (pat vs (snd e)) /\ (same (pat vs (snd e)) p \/ 0 < D p s1 (pat vs (snd e)))) as NP.
  { intros e I. destruct (NEe e I) as (E1 & E2 & E3). split; [apply LH, E2 |]. apply angle_D_lt; [exact H1 | apply LH, E2 |]. rewrite <- E1.
    rewrite Forall_forall in FN. specialize (FN e I). destruct (angle_lt (angle_of p s1) (fst e)) eqn:X; [reflexivity |].
    apply ale_cases in X. apply eq_ale in A1. destruct A1 as [A1 _]. pose proof (ale_trans _ _ _ X A1) as Y. unfold ale in Y. congruence. }
  (* the vertices at the first angle *)
  assert (forall v, In v vs -> (v = p \/ exists i, (i < length vs)%nat /\ i <> l /\ pat vs i = v /\ (i = j \/ In i (map snd eqs)) /\ angle_eq (angle_of p s1) (angle_of p v) = true) \/ (exists e, In e ne /\ v = pat vs (snd e))) as CW.
  { intros v I. destruct (in_pat vs v I) as (i & L & <-). destruct (CV i L) as [-> | [-> | [(e & Y & <-) | (e & Y & <-)]]].
    - left. left. reflexivity.
    - left. right. exists j. repeat split; auto. apply (angle_eq_trans _ k); [exact A1 |]. fold p in EK. rewrite <- EK. apply ale_eq; apply angle_lt_irr.
    - left. right. destruct (EE e Y) as (E1 & E2 & E3). exists (snd e). repeat split; auto; [right; apply in_map, Y |]. apply (angle_eq_trans _ k); [exact A1 |]. rewrite <- E1. apply angle_eq_sym. rewrite Forall_forall in FE. apply FE, Y.
    - right. exists e. split; [exact Y | reflexivity]. }
  assert (forall v, In v vs -> angle_eq (angle_of p s1) (angle_of p v) = true -> D p s1 v == 0) as ZR.
  { intros v I E. apply eq_ale in E. destruct E as [E1 E2]. pose proof (angle_D p s1 v H1 (HV v I) E1) as X1. pose proof (angle_D p v s1 (HV v I) H1 E2) as X2.
    rewrite D_swap23 in X2. lra. }
  (* the third vertex *)
  assert (exists e1 ne', ne = e1 :: ne' /\ 0 < D p s1 (pat vs (snd e1))) as (e1 & ne' & -> & P1).
  { assert (exists v e, In v vs /\ In e ne /\ v = pat vs (snd e) /\ 0 < D p s1 v) as (v & e & IV & IE & EV & PV).
    { destruct (Exists_dec (fun v => 0 < D p s1 v) vs) as [X | X]; [intros v; destruct (Qlt_le_dec 0 (D p s1 v)); [left; assumption | right; intros Z; lra] | |].
      - apply Exists_exists in X. destruct X as (v & IV & PV). destruct (CW v IV) as [[-> | (i & _ & _ & _ & _ & E)] | (e & IE & EV)].
        + rewrite D_same13 in PV. lra.
        + rewrite (ZR v IV E) in PV. lra.
        + exists v, e. repeat split; auto.
      - exfalso. apply NC.
        assert (forall v, In v vs -> D p s1 v == 0) as AZ.
        { intros v I. destruct (CW v I) as [[-> | (i & _ & _ & _ & _ & E)] | (e & IE & ->)]; [apply D_same13 | apply ZR; auto |].
          destruct (NP e IE) as [_ [S | S]]; [rewrite (same_D3 _ _ _ _ S); apply D_same13 |]. exfalso. apply X. apply Exists_exists. eexists. split; [exact I | exact S]. }
        apply (line_area p s1); auto. }
    destruct ne as [| e1 ne']; [contradiction |]. exists e1, ne'. split; [reflexivity |].
    destruct (NP e1 (or_introl eq_refl)) as [HE1 [S | S]]; [| exact S]. exfalso.
    destruct IE as [<- | IE]; [rewrite EV, (same_D3 _ _ _ _ S), D_same13 in PV; lra |].
    (* e1 is straight up, so is e *)
    apply (angle_up p _ HE1) in S. destruct (NEe e1 (or_introl eq_refl)) as (E1 & _). rewrite S in E1.
    assert (StronglySorted le2 (e1 :: ne')) as SO by (clear - SS'; induction eqs; [exact SS' | apply IHeqs; inversion SS'; assumption]).
    inversion SO as [| ? ? _ SG]; subst a l0. rewrite Forall_forall in SG. specialize (SG e IE). unfold le2, ale in SG. rewrite E1 in SG.
    destruct (NEe e (or_intror IE)) as (E2 & E2' & _). destruct (fst e) eqn:FX; try discriminate.
    assert (same (pat vs (snd e)) p) as SX by (apply (angle_up p); [apply LH, E2' | congruence]). rewrite EV, (same_D3 _ _ _ _ SX), D_same13 in PV. lra. }
  assert (StronglySorted le2 (e1 :: ne')) as SO by (clear - SS'; induction eqs; [exact SS' | apply IHeqs; inversion SS'; assumption]).
  set (q1 := pat vs (snd e1)) in *.
  destruct (NP e1 (or_introl eq_refl)) as [HQ1 _]. fold q1 in HQ1.
  assert (inv p s1 [q1; s1; p] [q1; s1; p]) as V0.
  { constructor.
    - exists [q1]. reflexivity.
    - split; [exact P1 | exact I].
    - split; [| split; [split; [constructor | exact I] | split; exact I]]. split; [constructor; [lra | constructor] | split; [constructor | exact I]].
    - split; [constructor; [lra | constructor; [rewrite D_same12; lra | constructor]] |]. split; [constructor; [rewrite D_same12; lra | constructor] |]. split; [constructor | exact I].
    - apply incl_refl.
    - apply Forall_forall. intros x [<- | [<- | [<- | []]]]; auto. apply half_refl.
    - apply Forall_forall. intros x X. cbn [edges_left]. destruct X as [<- | [<- | [<- | []]]]; (split; [| split; [| exact I]]); rewrite ?D_same13, ?D_same23; try lra. rewrite <- D_rot. lra.
    - apply Forall_forall. intros x [<- | [<- | [<- | []]]]; rewrite ?D_same12, ?D_same23; lra.
    - apply Forall_forall. intros x [<- | [<- | [<- | []]]]; [right; right; exact P1 | right; left; reflexivity | left; split; reflexivity].
    - exact NS1. }
  destruct (scan_ok p s1 (map (pat vs) (map snd ne')) [q1; s1; p] [q1; s1; p] V0) as (st & ES & V).
  { cbn; lia. }
  { inversion SO as [| ? ? SO' SG]; subst a l0. apply (sorted_next vs l p s1); [reflexivity | exact SO' | |].
    - apply Forall_forall. intros e I. destruct (NEe e (or_intror I)) as (E1 & _). destruct (NP e (or_intror I)) as (X & Y). repeat split; assumption.
    - constructor; [| constructor; [| constructor; [| constructor]]]; intros e I; destruct (NEe e (or_intror I)) as (E1 & E2 & _).
      + apply angle_D; [exact HQ1 | apply LH, E2 |]. destruct (NEe e1 (or_introl eq_refl)) as (E0 & _). unfold q1. rewrite <- E0, <- E1. rewrite Forall_forall in SG. apply SG, I.
      + destruct (NP e (or_intror I)) as [_ [X | X]]; [rewrite (same_D3 _ _ _ _ X), D_same13; lra | lra].
      + rewrite D_same12. lra. }
  destruct (i_bottom _ _ _ _ V) as [m EB].
  assert (rev st = p :: s1 :: rev m) as RS by (rewrite EB, rev_app_distr; reflexivity).
  (* the answer *)
  assert (plane_hull vs = Ok (rev st)) as PH.
  { unfold plane_hull, hull, hull_indices. rewrite match_ne by exact NE. cbn zeta. fold l. rewrite BY. fold p. rewrite DE. cbn [map].
    pose proof (scan_map vs (map snd ne') [snd e1; j1; l]) as SM. cbn [map] in SM. fold q1 s1 p in SM. rewrite ES in SM.
    destruct (scan qpt (0, 0) isleft_plane vs [snd e1; j1; l] (map snd ne')) as [is |]; [| discriminate]. injection SM as SM. rewrite SM. reflexivity. }
  rewrite RS in PH. exists p, s1, (rev m). split; [exact PH |].
  (* vertices treated by the scan *)
  assert (forall v, In v (rev (map (pat vs) (map snd ne')) ++ [q1; s1; p]) -> enclosed (p :: s1 :: rev m) v) as ENC.
  { intros v I. rewrite <- RS. apply (inv_enclosed p s1 st _ V).
    - pose proof (i_edges _ _ _ _ V) as X. rewrite Forall_forall in X. apply X, I.
    - pose proof (i_top _ _ _ _ V) as X. destruct st; [contradiction |]. rewrite Forall_forall in X. apply X, I. }
  assert (forall e, In e (e1 :: ne') -> enclosed (p :: s1 :: rev m) (pat vs (snd e))) as ENE.
  { intros e I. apply ENC. destruct I as [<- | I]; [apply in_or_app; right; left; reflexivity |]. apply in_or_app. left. apply -> in_rev. apply in_map, in_map, I. }
  assert (enclosed (p :: s1 :: rev m) p) as EP by (apply ENC, in_or_app; right; right; right; left; reflexivity).
  assert (enclosed (p :: s1 :: rev m) s1) as E1 by (apply ENC, in_or_app; right; right; left; reflexivity).
  split; [| split; [| split; [| split]]].
  - intros v I. rewrite <- RS in I. apply in_rev in I. apply (i_in _ _ _ _ V) in I. apply in_app_or in I. destruct I as [I | I].
    + apply in_rev in I. apply in_map_iff in I. destruct I as (i & <- & I). apply in_map_iff in I. destruct I as (e & <- & I). apply pat_in. apply NEe. right. exact I.
    + destruct I as [<- | [<- | [<- | []]]]; apply pat_in; [apply NEe; left; reflexivity | exact L1 | exact LL].
  - split; [apply pat_in, LL |]. intros v I. apply HV, I.
  - rewrite <- RS. apply triples_convex. apply V.
  - intros v I. destruct (CW v I) as [[-> | (i & L & NL & <- & IJ & E)] | (e & IE & ->)]; [left; exact EP | | left; apply ENE, IE].
    destruct (angle_ray p s1 (pat vs i) H1 (HV _ I) NS1 E) as (t & T & X & Y).
    destruct (Qlt_le_dec 1 t) as [T1 | T1]; [right; exists t; auto |]. left. intros a b AB. apply (on_edge p s1 (pat vs i) a b t); [lra | exact T1 | exact X | exact Y | apply EP, AB | apply E1, AB].
  - intros NO v I. destruct (CW v I) as [[-> | (i & L & NL & <- & IJ & E)] | (e & IE & ->)]; [exact EP | | apply ENE, IE].
    assert (same (pat vs i) s1 \/ ~ same (pat vs i) s1) as [IJ1 | IJ1].
    { destruct (Qeq_dec (fst (pat vs i)) (fst s1)); [destruct (Qeq_dec (snd (pat vs i)) (snd s1)); [left; split; assumption |] |]; right; intros [? ?]; contradiction. }
    { intros a b AB. rewrite (same_D3 _ _ _ _ IJ1). apply E1, AB. }
    exfalso. apply (NO (pat vs i) s1).
    assert (~ same (pat vs i) p) as NI by (intros X; apply (angle_up p _ (HV _ I)) in X; rewrite X in E; apply (angle_eq_sym) in E; apply (angle_eq_trans Up _ k) in E; [| exact A1]; destruct k; try discriminate; congruence).
    split; [exact I |]. split; [apply pat_in, L1 |]. split; [exact NI |]. split; [exact NS1 |]. split; [exact IJ1 |]. split.
    + pose proof (ZR _ I E) as Z. rewrite D_swap23, Z. ring.
    + intros w W. apply angle_D; [apply HV, I | apply HV, W |].
      apply angle_eq_sym in E. apply eq_ale in E. destruct E as [E _]. apply (ale_trans _ _ _ E).
      destruct (CW w W) as [[-> | (i2 & _ & _ & _ & _ & E2)] | (e & IE & ->)].
      * assert (angle_of p p = Up) as -> by (apply angle_up; [apply half_refl | split; reflexivity]). unfold ale. destruct (angle_of p s1); reflexivity.
      * apply eq_ale in E2. apply E2.
      * destruct (NEe e IE) as (X1 & _). rewrite <- X1. apply eq_ale in A1. destruct A1 as [A1 _]. apply (ale_trans _ _ _ A1). apply lt_ale. rewrite Forall_forall in FN. apply FN, IE.
Qed.

(* ---- general position *)
Lemma D_perm0 : forall a b c, D a b c == 0 -> D a c b == 0 /\ D b a c == 0 /\ D b c a == 0 /\ D c a b == 0 /\ D c b a == 0.
Proof. intros a b c H. unfold orient in *. repeat split; lra. Qed.
Lemma general_apart : forall vs, general_position vs -> forall i j k a b c, i <> j -> j <> k -> i <> k ->
  nth_error vs i = Some a -> nth_error vs j = Some b -> nth_error vs k = Some c -> ~ D a b c == 0.
Proof.
  intros vs G i j k a b c IJ JK IK A B C Z. destruct (D_perm0 _ _ _ Z) as (Z1 & Z2 & Z3 & Z4 & Z5).
  destruct (lt_dec i j), (lt_dec j k), (lt_dec i k); try lia.
  - apply (G i j k a b c); auto.
  - apply (G i k j a c b); auto; lia.
  - apply (G k i j c a b); auto; lia.
  - apply (G j i k b a c); auto; lia.
  - apply (G j k i b c a); auto; lia.
  - apply (G k j i c b a); auto; lia.
Qed.
Lemma general_clear : forall vs, general_position vs -> forall p a b, In p vs -> ~ two_on_first_edge vs p a b.
Proof.
  intros vs G p a b P (A & B & NA & NB & NAB & Z & _). apply In_nth_error in P, A, B. destruct P as [i P], A as [j A], B as [k B].
  assert (i <> j) by (intros <-; rewrite P in A; injection A as <-; apply NA; split; reflexivity).
  assert (i <> k) by (intros <-; rewrite P in B; injection B as <-; apply NB; split; reflexivity).
  assert (j <> k) by (intros <-; rewrite A in B; injection B as <-; apply NAB; split; reflexivity).
  apply (general_apart vs G i j k p a b); auto.
Qed.
Theorem hull_clear : forall vs, not_collinear vs -> (forall p a b, leftmost_of vs p -> ~ two_on_first_edge vs p a b) ->
  exists hs, plane_hull vs = Ok hs /\ incl hs vs /\ convex hs /\ forall v, In v vs -> enclosed hs v.
Proof.
  intros vs N C. destruct (hull_main vs N) as (p & s1 & r & H & I & L & X & _ & E). exists (p :: s1 :: r). repeat split; auto.
Qed.
Theorem hull_general : forall vs, (3 <= length vs)%nat -> general_position vs ->
  exists hs, plane_hull vs = Ok hs /\ incl hs vs /\ convex hs /\ forall v, In v vs -> enclosed hs v.
Proof.
  intros vs L G. apply hull_clear.
  - destruct vs as [| a [| b [| c vs]]]; cbn in L; try lia. exists a, b, c. repeat split; cbn; auto. apply (G 0 1 2)%nat; auto.
  - intros p a b [P _]. apply general_clear; assumption.
Qed.

(* ---- whatever the azimuths: only vertices of the input *)
Section Any.
Variables pt key : Type.
Variable origin : pt.
Variables xlt xeq yabove : pt -> pt -> bool.
Variable az : pt -> pt -> key.
Variables klt keq : key -> key -> bool.
Variable farther : pt -> pt -> pt -> bool.
Variable isleft : pt -> pt -> pt -> bool.
Lemma fold_pick : forall (f : nat -> nat -> nat) is l, (forall l i, f l i = i \/ f l i = l) -> In (fold_left f is l) (l :: is).
Proof.
  intros f is. induction is as [| i is IH]; intros l F; cbn [fold_left]; [left; reflexivity |].
  destruct (IH (f l i) F) as [E | E]; [| right; right; exact E]. rewrite <- E. destruct (F l i) as [-> | ->]; [right; left | left]; reflexivity.
Qed.
Lemma leftmost_any : forall vs, vs <> [] -> (leftmost pt origin xlt xeq yabove vs < length vs)%nat.
Proof.
  intros vs N. unfold leftmost. set (f := fun l i : nat => _). destruct (fold_pick f (seq 1 (length vs - 1)) 0%nat) as [E | E].
  - intros l i. unfold f. destruct (xlt _ _); [left; reflexivity |]. destruct (xeq _ _ && yabove _ _); [left | right]; reflexivity.
  - rewrite <- E. destruct vs; [congruence | cbn; lia].
  - apply in_seq in E. lia.
Qed.
Lemma insert_any : forall e x l, In x (insert key klt keq e l) -> x = e \/ In x l.
Proof.
  intros e x l. induction l as [| b l IH]; cbn [insert].
  - intros [<- | []]. left. reflexivity.
  - destruct (pair_le key klt keq e b); cbn [In]; [intuition |]. intros [<- | H]; [right; left; reflexivity |]. destruct (IH H); auto.
Qed.
Lemma sort_any : forall x l, In x (sort key klt keq l) -> In x l.
Proof. intros x l. induction l as [| b l IH]; cbn; [auto |]. intros H. apply insert_any in H. destruct H as [-> | H]; auto. Qed.
Lemma drop_any : forall vs p0 x s i kl lp prev acc, In x (drop_duplicates pt key origin keq farther vs p0 s i kl lp prev acc) -> x = prev \/ In x acc \/ In x (map snd s).
Proof.
  intros vs p0 x s. induction s as [| [k j] s IH]; intros i kl lp prev acc H; cbn [drop_duplicates] in H.
  - apply in_rev in H. destruct H as [<- | H]; auto.
  - cbn [map snd]. destruct (keq k kl); [destruct (farther p0 (at_ pt origin vs j) lp) |]; apply IH in H; cbn [In] in H |- *; intuition.
Qed.
Lemma pops_any : forall vs st i r, pops pt origin isleft vs st i = Ok r -> incl r st.
Proof.
  intros vs st. induction st as [| b st IH]; intros i r H; [discriminate |]. destruct st as [| a st]; [discriminate |].
  change ((if isleft (at_ pt origin vs a) (at_ pt origin vs b) (at_ pt origin vs i) then Ok (b :: a :: st) else pops pt origin isleft vs (a :: st) i) = Ok r) in H.
  destruct (isleft _ _ _); [injection H as <-; apply incl_refl | apply incl_tl, (IH i), H].
Qed.
Lemma scan_any : forall vs is st r, scan pt origin isleft vs st is = Ok r -> forall x, In x r -> In x st \/ In x is.
Proof.
  intros vs is. induction is as [| i is IH]; intros st r H x X; cbn [scan] in H.
  - injection H as <-. left. apply in_rev. exact X.
  - destruct (pops pt origin isleft vs st i) as [st' |] eqn:P; [| discriminate]. apply pops_any in P.
    destruct (IH _ _ H x X) as [[<- | Y] | Y]; [right; left; reflexivity | left; apply P, Y | right; right; exact Y].
Qed.
Theorem hull_any : forall vs hs, hull pt key origin xlt xeq yabove az klt keq farther isleft vs = Ok hs -> incl hs vs.
Proof.
  intros vs hs H. unfold hull in H. destruct (hull_indices pt key origin xlt xeq yabove az klt keq farther isleft vs) as [is |] eqn:HI; [| discriminate]. injection H as <-.
  assert (forall i, In i is -> (i < length vs)%nat) as B.
  { intros i I. unfold hull_indices in HI. destruct vs as [| v0 vs0] eqn:EV; [discriminate |]. rewrite <- EV in HI |- *.
    assert (leftmost pt origin xlt xeq yabove vs < length vs)%nat as LL by (apply leftmost_any; rewrite EV; discriminate).
    cbn zeta in HI. set (l := leftmost pt origin xlt xeq yabove vs) in *.
    destruct (by_azimuth pt key origin az klt keq vs l) as [| [k j] s] eqn:BY; [discriminate |].
    assert (forall i, In i (j :: map snd s) -> (i < length vs)%nat) as BB.
    { intros x X. change (In x (map snd ((k, j) :: s))) in X. rewrite <- BY in X. apply in_map_iff in X. destruct X as (e & <- & X). unfold by_azimuth in X. apply sort_any in X.
      apply in_map_iff in X. destruct X as (y & <- & Y). apply filter_In in Y. destruct Y as [Y _]. apply in_seq in Y. cbn [snd]. lia. }
    destruct (drop_duplicates _ _ _ _ _ vs (at_ pt origin vs l) s 1 k (at_ pt origin vs l) j []) as [| i0 ds] eqn:DD; [discriminate |].
    assert (forall i, In i (i0 :: ds) -> (i < length vs)%nat) as BD.
    { intros x X. rewrite <- DD in X. apply drop_any in X. destruct X as [-> | [[] | X]]; apply BB; [left; reflexivity | right; exact X]. }
    destruct ds as [| i1 ds].
    - injection HI as <-. destruct I as [<- | [<- | []]]; [exact LL | apply BD; left; reflexivity].
    - destruct (scan_any _ _ _ _ HI i I) as [[<- | [<- | [<- | []]]] | Y]; [apply BD; right; left; reflexivity | apply BD; left; reflexivity | exact LL | apply BD; right; right; exact Y]. }
  intros x X. apply in_map_iff in X. destruct X as (i & <- & I). apply nth_In, B, I.
Qed.
End Any.
