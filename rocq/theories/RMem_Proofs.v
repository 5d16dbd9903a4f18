(** Proofs about the memory of the R-tree. *)
From Coq Require Import List ZArith QArith Lia Bool Arith ListDec.
From Verif Require Import RTree_Model RTree_Spec RTree_Proofs RTree_Unsplit RMem_Model RMem_Spec.
Import ListNotations.
Open Scope nat_scope.

Lemma block_eqb_ok x y : block_eqb x y = true <-> x = y.
Proof.
  destruct x, y; cbn; try (split; congruence);
    rewrite ?Nat.eqb_eq, ?Z.eqb_eq; split; congruence.
Qed.
Lemma block_dec (x y : block) : {x = y} + {x <> y}.
Proof. decide equality; (apply Nat.eq_dec || apply Z.eq_dec). Qed.
Lemma visit_dec (x y : Z + nat) : {x = y} + {x <> y}.
Proof. decide equality; (apply Nat.eq_dec || apply Z.eq_dec). Qed.
Lemma free_ok b : forall live, NoDup live -> In b live ->
  exists r, free b live = Ret r /\ NoDup r /\ S (length r) = length live /\
    forall x, In x r <-> In x live /\ x <> b.
Proof.
  induction live as [| c live IH]; intros N I; [destruct I |]. inversion N as [| ? ? Nc N']; subst. cbn [free].
  destruct (block_eqb b c) eqn:E.
  - apply block_eqb_ok in E. subst c. exists live. repeat split; auto.
    + right; assumption.
    + intros ->; contradiction.
    + intros [[<- | H] H2]; congruence.
  - assert (b <> c) by (intros ->; rewrite (proj2 (block_eqb_ok c c) eq_refl) in E; discriminate).
    destruct I as [-> | I]; [congruence |]. destruct (IH N' I) as (r & -> & Nr & L & X). cbn [andthen].
    exists (c :: r). split; [reflexivity |]. split; [constructor; auto; rewrite X; tauto |].
    split; [cbn; congruence |]. intros x; cbn [In]. rewrite X. split; [intros [<- | []]; auto | intros [[<- | ] ]; auto].
Qed.
Lemma free_not b : forall live, ~ In b live -> free b live = Crash.
Proof.
  induction live as [| c live IH]; intros N; cbn [free]; [reflexivity |].
  destruct (block_eqb b c) eqn:E; [apply block_eqb_ok in E; subst; destruct N; left; reflexivity |].
  rewrite IH; [reflexivity | intros H; apply N; right; assumption].
Qed.
Lemma free_all_ok : forall bs live, NoDup live -> NoDup bs -> incl bs live ->
  exists r, free_all bs live = Ret r /\ NoDup r /\ length r + length bs = length live /\
    forall x, In x r <-> In x live /\ ~ In x bs.
Proof.
  induction bs as [| b bs IH]; intros live N Nb I; cbn [free_all].
  - exists live. split; [reflexivity |]. split; [assumption |]. split; [cbn; lia |]. intros x. cbn. tauto.
  - inversion Nb as [| ? ? Nc Nb']; subst. destruct (free_ok b live N (I b (or_introl eq_refl))) as (r & -> & Nr & L & X).
    cbn [andthen]. destruct (IH r Nr Nb') as (r' & -> & Nr' & L' & X').
    { intros x Hx. apply X. split; [apply I; right; assumption | intros ->; contradiction]. }
    exists r'. split; [reflexivity |]. split; [assumption |]. split; [cbn; lia |].
    intros x. rewrite X', X. cbn [In]. split; [intros [[? ?] ?]; split; auto; intros [<- | ?]; auto |].
    intros [H1 H2]. split; [split; [assumption | intros ->; apply H2; auto] | auto].
Qed.
Lemma free_all_inv : forall bs live r, NoDup live -> free_all bs live = Ret r ->
  NoDup bs /\ incl bs live /\ NoDup r /\ length r + length bs = length live /\ forall x, In x r <-> In x live /\ ~ In x bs.
Proof.
  assert (A : forall bs live r, NoDup live -> free_all bs live = Ret r -> NoDup bs /\ incl bs live).
  { induction bs as [| b bs IH]; intros live r N E; cbn [free_all] in E.
    - split; [constructor | intros x []].
    - destruct (in_dec block_dec b live) as [I | I].
      + destruct (free_ok b live N I) as (r1 & E1 & N1 & _ & X). rewrite E1 in E. cbn [andthen] in E.
        destruct (IH _ _ N1 E) as [Nb Ib]. split.
        * constructor; [| assumption]. intros H. apply Ib, X in H. tauto.
        * intros x [<- | H]; [assumption |]. apply Ib, X in H. tauto.
      + rewrite (free_not b live I) in E. discriminate. }
  intros bs live r N E. destruct (A _ _ _ N E) as [Nb I]. destruct (free_all_ok bs live N Nb I) as (r' & E' & H).
  rewrite E in E'. injection E' as <-. tauto.
Qed.
Lemma free_all_crash : forall bs live, free_all bs live <> NoFuel.
Proof.
  assert (F : forall b live, free b live <> NoFuel).
  { intros b; induction live as [| c live IH]; cbn [free]; [discriminate |].
    destruct (block_eqb b c); [discriminate |]. destruct (free b live); cbn; congruence. }
  induction bs as [| b bs IH]; intros live; cbn [free_all]; [discriminate |].
  specialize (F b live). destruct (free b live); cbn; [apply IH | discriminate | congruence].
Qed.

(** The blocks of a tree are different blocks. *)
Lemma nodup_app {A} (x y : list A) : NoDup x -> NoDup y -> (forall a, In a x -> ~ In a y) -> NoDup (x ++ y).
Proof.
  induction x as [| a x IH]; intros Nx Ny D; [assumption |]. cbn. inversion Nx; subst. constructor.
  - intros H. apply in_app_or in H as [H | H]; [contradiction |]. exact (D a (or_introl eq_refl) H).
  - apply IH; auto. intros b Hb. apply D; right; assumption.
Qed.
Lemma nodup_flat {A B} (f : A -> list B) : forall l, NoDup l -> (forall a, In a l -> NoDup (f a)) ->
  (forall a b x, In a l -> In b l -> In x (f a) -> In x (f b) -> a = b) -> NoDup (flat_map f l).
Proof.
  induction l as [| a l IH]; intros N Nf D; cbn [flat_map]; [constructor |]. inversion N as [| ? ? Na N']; subst.
  apply nodup_app.
  - apply Nf; left; reflexivity.
  - apply IH; auto; intros; [apply Nf; right; assumption |]. eapply D; eauto; right; assumption.
  - intros x Hx H. apply in_flat_map in H as (b & Hb & Hx'). assert (a = b) by (eapply D; eauto; cbn; auto).
    subst; contradiction.
Qed.
Lemma in_node_blocks b a : In b (node_blocks a) <-> b = Struct a \/ b = Children a \/ b = Indices a \/ b = Boxof a.
Proof. cbn. split; intros; repeat (destruct H as [H | H]; auto); try contradiction; subst; auto. Qed.
Lemma in_tree_blocks b h n : In b (tree_blocks h n) <->
  match b with Struct a | Children a | Indices a | Boxof a => a < fst h | Entry i => (0 <= i < Z.of_nat n)%Z | Query _ => False end.
Proof.
  unfold tree_blocks. rewrite in_app_iff, in_flat_map, in_map_iff. split.
  - intros [(a & Ha & Hb) | (i & <- & Hi)].
    + apply in_seq in Ha. apply in_node_blocks in Hb as [-> | [-> | [-> | ->]]]; lia.
    + apply in_seq in Hi. lia.
  - destruct b as [a | a | a | a | i | k]; intros H; try contradiction;
      try (left; exists a; split; [apply in_seq; lia | apply in_node_blocks; tauto]).
    right. exists (Z.to_nat i). split; [f_equal; lia | apply in_seq; lia].
Qed.
Lemma nodup_tree_blocks h n : NoDup (tree_blocks h n).
Proof.
  unfold tree_blocks. apply nodup_app.
  - apply nodup_flat; [apply seq_NoDup | |].
    + intros a _. repeat constructor; cbn; intuition discriminate.
    + intros a b x _ _ Ha Hb. apply in_node_blocks in Ha, Hb. intuition congruence.
  - apply FinFun.Injective_map_NoDup; [intros i j [= H]; lia | apply seq_NoDup].
  - intros x Hx Hy. apply in_flat_map in Hx as (a & _ & Ha). apply in_map_iff in Hy as (i & <- & _).
    apply in_node_blocks in Ha. intuition discriminate.
Qed.
Lemma length_tree_blocks h n : length (tree_blocks h n) = 4 * fst h + n.
Proof.
  unfold tree_blocks. rewrite app_length, map_length, seq_length. f_equal.
  generalize 0 at 1. generalize (fst h). induction n0 as [| k IH]; intros s; cbn [seq flat_map]; [reflexivity |].
  rewrite app_length, IH. cbn [node_blocks length]. lia.
Qed.
Lemma in_freed b x : In b (freed x) <-> match x with inl i => b = Entry i | inr a => b = Indices a \/ b = Boxof a \/ b = Struct a end.
Proof. destruct x; cbn; intuition congruence. Qed.
Lemma nodup_freed r : NoDup (flat_map freed r) <-> NoDup r.
Proof.
  split.
  - induction r as [| x r IH]; intros N; [constructor |]. cbn [flat_map] in N.
    assert (Nr : NoDup (flat_map freed r)).
    { clear IH. induction (freed x) as [| y l IH]; [assumption |]. inversion N; subst; auto. }
    constructor; [| auto]. intros H.
    destruct x as [i | a]; cbn [freed app] in N; inversion N as [| ? ? Hn]; subst; apply Hn; cbn [In];
      [| right; right]; apply in_flat_map; eexists; (split; [exact H | cbn; auto]).
  - intros N. apply nodup_flat; [assumption | |].
    + intros [i | a] _; repeat constructor; cbn; intuition discriminate.
    + intros x y b _ _ Hx Hy. apply in_freed in Hx, Hy. destruct x, y; intuition congruence.
Qed.

(** What rt_free visits in a well-formed tree. *)
Lemma rt_free_ok M boxes K lv h : wf0 M boxes K lv h -> forall fuel a, a < fst h -> lv a < fuel ->
  exists r, rt_free fuel h a = Ret r /\
    forall x, In x r -> match x with inl i => (0 <= i < Z.of_nat (length boxes))%Z | inr c => c < fst h /\ leaf (snd h c) = true end.
Proof.
  intros W. induction fuel as [| fuel IH]; intros a Ha Hf; [lia |]. cbn [rt_free]. rewrite get_ok by assumption. cbn [andthen].
  destruct (leaf (snd h a)) eqn:El.
  - eexists; split; [reflexivity |]. intros x Hx. apply in_app_or in Hx as [Hx | [<- | []]].
    + apply in_map_iff in Hx as (e & <- & He). pose proof (g_ent _ _ _ _ _ _ _ _ (W a Ha)) as G.
      rewrite Forall_forall in G. destruct (G e He) as [G1 G2].
      assert (H : Z.to_nat (snd e) < length boxes) by (apply nth_error_Some; rewrite G2; discriminate). lia.
    + auto.
  - pose proof (g_kid _ _ _ _ _ _ _ _ (W a Ha)) as Gk.
    assert (G : forall l, incl l (kids (snd h a)) -> exists r,
      (fix go (l : list nat) : out (list (Z + nat)) :=
         match l with [] => Ret [] | k :: l' => do x <- rt_free fuel h k; do y <- go l'; Ret (x ++ y) end) l = Ret r /\
      forall x, In x r -> match x with inl i => (0 <= i < Z.of_nat (length boxes))%Z | inr c => c < fst h /\ leaf (snd h c) = true end).
    { induction l as [| k l IHl]; intros I; [exists []; split; [reflexivity | intros x []] |].
      destruct (Gk k (I k (or_introl eq_refl))) as [G1 G2].
      destruct (IH k G1) as (x & -> & Hx); [lia |]. cbn [andthen].
      destruct IHl as (y & -> & Hy); [intros c Hc; apply I; right; assumption |]. cbn [andthen].
      eexists; split; [reflexivity |]. intros z Hz. apply in_app_or in Hz as [Hz | Hz]; [exact (Hx z Hz) | exact (Hy z Hz)]. }
    apply G. apply incl_refl.
Qed.

(** The constructor. *)
Lemma load_insert_all M fuel : forall l h root n post,
  load M fuel h root n (map Some l ++ post) =
  do r <- insert_all M fuel h root (Z.of_nat n) l; load M fuel (fst r) (snd r) (n + length l) post.
Proof.
  induction l as [| b l IH]; intros h root n post; cbn [map app load insert_all length].
  - cbn [andthen fst snd]. rewrite Nat.add_0_r. reflexivity.
  - destruct (insert M fuel h root (b, Z.of_nat n)) as [[h1 r1] | |]; cbn [andthen fst snd]; [| reflexivity | reflexivity].
    rewrite IH. replace (Z.of_nat (S n)) with (Z.of_nat n + 1)%Z by lia. replace (S n + length l) with (n + S (length l)) by lia.
    reflexivity.
Qed.
Lemma answers_ok fuel t : forall qs k live, (forall q, In q qs -> exists a, answer fuel t q = Ret a) ->
  NoDup live -> (forall j, In (Query j) live -> j < k) ->
  exists al live', answers fuel t k qs live = Ret (al, live') /\ map Ret al = map (answer fuel t) qs /\ NoDup live' /\
    length live' = length qs + length live /\
    forall b, In b live' <-> In b live \/ exists j, b = Query j /\ k <= j < k + length qs.
Proof.
  induction qs as [| q qs IH]; intros k live A N B; cbn [answers].
  - exists [], live. repeat split; auto. intros [H | (j & _ & H)]; [assumption | cbn in H; lia].
  - destruct (A q (or_introl eq_refl)) as (a & Ea). rewrite Ea. cbn [andthen].
    destruct (IH (S k) (Query k :: live)) as (al & live' & -> & Em & Nl & Ll & X).
    + intros; apply A; right; assumption.
    + constructor; [intros H; apply B in H; lia | assumption].
    + intros j [[= <-] | H]; [lia | apply B in H; lia].
    + cbn [andthen fst snd]. exists (a :: al), live'. split; [reflexivity |]. split; [cbn [map]; congruence |].
      split; [assumption |]. split; [cbn [length] in *; lia |]. intros b. rewrite X. cbn [In length]. split.
      * intros [[<- | H] | (j & -> & H)]; [right; exists k; split; [reflexivity | lia] | auto | right; exists j; split; [reflexivity | lia]].
      * intros [H | (j & -> & H)]; [auto |]. destruct (Nat.eq_dec j k) as [-> |]; [auto |]. right; exists j; split; [reflexivity | lia].
Qed.

Section Whole.
Variables (M : nat) (l : list bb) (fb fs ff : nat).
Hypotheses (HM : 4 <= M) (Hb : length l < fb) (Hs : S M ^ length l <= fs) (Hf : length l < ff).

Lemma session_unfold qs post h r : rtree M fb l = Ret (h, r) ->
  session M fb fs ff (map Some l ++ post) qs =
  do x <- load M fb h r (length l) post;
  let '(h, rt, n, raised) := x in
    if (raised : bool) then Ret (None, tree_blocks h n)
    else do s <- answers fs (h, rt) 0 qs (tree_blocks h n);
         do f <- rt_free ff h rt;
         do live <- free_all (flat_map freed f) (snd s);
         Ret (Some (fst s), live).
Proof.
  unfold rtree, session. destruct (M <? 4); [discriminate |]. cbn [new_node fst snd].
  intros E. rewrite load_insert_all. change (Z.of_nat 0) with 0%Z. rewrite E. cbn [andthen fst snd Nat.add]. reflexivity.
Qed.
Lemma whole qs : exists t r al, rtree M fb l = Ret t /\ rt_free ff (fst t) (snd t) = Ret r /\
  map Ret al = map (answer fs t) qs /\
  incl (flat_map freed r) (tree_blocks (fst t) (length l)) /\
  (forall a, In (inr a) r -> leaf (snd (fst t) a) = true) /\
  (NoDup r -> exists live, session M fb fs ff (map Some l) qs = Ret (Some al, live) /\ NoDup live /\
     (length live + length (flat_map freed r) = 4 * fst (fst t) + length l + length qs) /\
     forall b, In b live <-> (In b (tree_blocks (fst t) (length l)) \/ exists k, b = Query k /\ k < length qs)
                             /\ ~ In b (flat_map freed r)) /\
  (~ NoDup r -> session M fb fs ff (map Some l) qs = Crash).
Proof.
  destruct (rtree_wf M l fb HM Hb) as (h & r & K & lv & E & W & R & HK).
  assert (Hl : lv r < ff) by (pose proof (g_lv _ _ _ _ _ _ _ _ (W r R)); lia).
  destruct (rt_free_ok M l K lv h W ff r R Hl) as (fr & Ef & Hfr).
  assert (An : forall q, In q qs -> exists a, answer fs (h, r) q = Ret a).
  { intros [q m | q m] _; cbn [answer fst snd].
    - destruct (search_within_sound M l h r K lv q m fs HM W R HK Hs) as (a & -> & _); eauto.
    - destruct (search_overlapping_sound M l h r K lv q m fs HM W R HK Hs) as (a & -> & _); eauto. }
  destruct (answers_ok fs (h, r) qs 0 (tree_blocks h (length l)) An (nodup_tree_blocks _ _)) as (al & lv' & Ea & Em & Nl & Ll & X).
  { intros j H. apply in_tree_blocks in H. destruct H. }
  assert (I : incl (flat_map freed fr) (tree_blocks h (length l))).
  { intros b H. apply in_flat_map in H as (x & Hx & H). apply in_freed in H. specialize (Hfr x Hx). apply in_tree_blocks.
    destruct x as [i | a]; [subst b; assumption |]. destruct Hfr as [Hfr _]. destruct H as [-> | [-> | ->]]; assumption. }
  pose proof (session_unfold qs [] h r E) as S0. rewrite app_nil_r in S0. cbn [load andthen] in S0.
  rewrite Ea in S0. cbn [andthen fst snd] in S0. rewrite Ef in S0. cbn [andthen] in S0.
  assert (I' : incl (flat_map freed fr) lv') by (intros b H; apply X; left; auto).
  exists (h, r), fr, al. cbn [fst snd]. split; [assumption |]. split; [assumption |]. split; [assumption |]. split; [assumption |].
  split; [intros a Ha; apply (Hfr (inr a) Ha) |]. split.
  - intros Nr. destruct (free_all_ok (flat_map freed fr) lv' Nl (proj2 (nodup_freed fr) Nr) I') as (v & Ev & Nv & Lv & Xv).
    rewrite Ev in S0. cbn [andthen] in S0. exists v. split; [assumption |]. split; [assumption |].
    split; [rewrite Lv, Ll, length_tree_blocks; lia |].
    intros b. rewrite Xv, X. cbn [Nat.add]. split; intros [[H1 | (k & -> & H1)] H2]; split; auto; right; exists k; split; auto; lia.
  - intros Nr. destruct (free_all (flat_map freed fr) lv') as [v | |] eqn:Ev; [| assumption | destruct (free_all_crash _ _ Ev)].
    destruct (free_all_inv _ _ _ Nl Ev) as [N _]. apply nodup_freed in N. contradiction.
Qed.
End Whole.

(** An index that was never split. *)
Lemma unsplit_left M l fb fs ff qs : 4 <= M -> length l <= M -> length l < fb -> S M ^ length l <= fs -> length l < ff ->
  exists al live, session M fb fs ff (map Some l) qs = Ret (Some al, live) /\ NoDup live /\
    forall b, In b live <-> b = Children 0 \/ exists k, b = Query k /\ k < length qs.
Proof.
  intros HM Hl Hb Hs Hf. destruct (whole M l fb fs ff HM Hb Hs Hf qs) as (t & r & al & Et & Er & Ea & I & _ & Y & _).
  destruct (rtree_one M fb l HM) as (h & E & O); [lia | assumption |]. rewrite Et in E. injection E as ->. cbn [fst snd] in *.
  destruct (rt_free_one ff h l) as (r' & Er' & N); [lia | assumption |]. rewrite Er in Er'. injection Er' as <-.
  destruct (Y N) as (live & Es & Nl & _ & X). exists al, live. split; [assumption |]. split; [assumption |].
  assert (R : forall x, In x r <-> x = inr 0 \/ exists i, x = inl i /\ (0 <= i < Z.of_nat (length l))%Z).
  { destruct O as (F & L & P & En). destruct ff as [| ff']; [lia |]. cbn [rt_free] in Er.
    rewrite get_ok in Er by lia. cbn [andthen] in Er. rewrite L, En in Er. injection Er as <-. intros x.
    rewrite in_app_iff, in_map_iff. cbn [In]. split.
    - intros [((b & i) & <- & H) | [<- | []]]; [| auto]. right. exists i. split; [reflexivity |].
      apply in_indexed0 in H as [H1 H2]. assert (Z.to_nat i < length l) by (apply nth_error_Some; congruence). lia.
    - intros [-> | (i & -> & H)]; [auto |]. left. destruct (nth_error l (Z.to_nat i)) as [b |] eqn:Eb.
      + exists (b, i). split; [reflexivity |]. apply in_indexed0. split; [lia | assumption].
      + apply nth_error_None in Eb. lia. }
  assert (F : fst h = 1) by (destruct O; assumption).
  intros b. rewrite X. assert (Fr : In b (flat_map freed r) <-> match b with Struct a | Indices a | Boxof a => a = 0
    | Entry i => (0 <= i < Z.of_nat (length l))%Z | Children _ | Query _ => False end).
  { rewrite in_flat_map. split.
    - intros (x & Hx & H). apply R in Hx. apply in_freed in H. destruct Hx as [-> | (i & -> & Hi)].
      + intuition (subst; auto).
      + subst; assumption.
    - intros H. destruct b as [a | a | a | a | i | k]; try contradiction; subst.
      1, 2, 3: (exists (inr 0); split; [apply R; auto | cbn; auto]).
      exists (inl i). split; [apply R; right; eauto | cbn; auto]. }
  rewrite Fr, in_tree_blocks, F. destruct b as [a | a | a | a | i | k]; split.
  all: try (intros [[H | (k' & H1 & H2)] H']; [exfalso; lia | discriminate]).
  all: try (intros [H | (k' & H1 & H2)]; discriminate).
  - intros [[H | (k' & H1 & H2)] H']; [left; f_equal; lia | discriminate].
  - intros [[= ->] | (k' & H1 & H2)]; [split; [left; lia | auto] | discriminate].
  - intros [[[] | H] H']; auto.
  - intros [H | H]; [discriminate |]. auto.
Qed.

(** However large, a dropped index leaves the array of children of every node,
    all four blocks of every inner node, and the box of every query. *)
Lemma left_over M l fb fs ff qs t ans live : 4 <= M -> length l < fb -> S M ^ length l <= fs -> length l < ff ->
  rtree M fb l = Ret t -> session M fb fs ff (map Some l) qs = Ret (ans, live) ->
  fst (fst t) + 3 * inner_nodes (fst t) + length qs <= length live /\ 1 <= fst (fst t).
Proof.
  intros HM Hb Hs Hf Et Es. destruct (whole M l fb fs ff HM Hb Hs Hf qs) as (t' & r & al & Et' & Er & Ea & I & Lf & Y & Cr).
  rewrite Et in Et'. injection Et' as <-.
  assert (N : NoDup r).
  { destruct (ListDec.NoDup_dec visit_dec r) as [N | N]; [assumption |].
    rewrite (Cr N) in Es. discriminate. }
  destruct (Y N) as (live' & Es' & Nl & _ & X). rewrite Es in Es'. injection Es' as _ <-.
  set (h := fst t) in *. split.
  - set (must := map Children (seq 0 (fst h)) ++
       flat_map (fun a => [Struct a; Indices a; Boxof a]) (filter (fun a => negb (leaf (snd h a))) (seq 0 (fst h))) ++
       map Query (seq 0 (length qs))).
    assert (Lm : length must = fst h + 3 * inner_nodes h + length qs).
    { unfold must, inner_nodes. rewrite !app_length, !map_length, !seq_length.
      assert (E : forall m, length (flat_map (fun a => [Struct a; Indices a; Boxof a]) m) = 3 * length m).
      { induction m as [| a m IH]; [reflexivity |]. cbn [flat_map]. rewrite app_length, IH. cbn [length]. lia. }
      rewrite E. lia. }
    rewrite <- Lm. apply NoDup_incl_length.
    + unfold must. apply nodup_app; [| apply nodup_app |].
      * apply FinFun.Injective_map_NoDup; [intros i j [= H]; assumption | apply seq_NoDup].
      * apply nodup_flat; [apply NoDup_filter, seq_NoDup | |].
        -- intros a _. repeat constructor; cbn; intuition discriminate.
        -- intros a b x _ _ Ha Hb'. cbn in Ha, Hb'. intuition congruence.
      * apply FinFun.Injective_map_NoDup; [intros i j [= H]; assumption | apply seq_NoDup].
      * intros b H1 H2. apply in_flat_map in H1 as (a & _ & H1). apply in_map_iff in H2 as (k & <- & _). cbn in H1. intuition discriminate.
      * intros b H1 H2. apply in_map_iff in H1 as (k & <- & _). apply in_app_or in H2 as [H2 | H2].
        -- apply in_flat_map in H2 as (a & _ & H2). cbn in H2. intuition discriminate.
        -- apply in_map_iff in H2 as (j & H2 & _). discriminate.
    + assert (NF : forall b, In b (flat_map freed r) -> match b with Struct a | Indices a | Boxof a => leaf (snd h a) = true
                | Entry _ => True | _ => False end).
      { intros b H. apply in_flat_map in H as (x & Hx & H). apply in_freed in H. destruct x as [i | a]; [subst; exact Logic.I |].
        specialize (Lf a Hx). destruct H as [-> | [-> | ->]]; assumption. }
      intros b H. apply X. unfold must in H. apply in_app_or in H as [H | H]; [| apply in_app_or in H as [H | H]].
      * apply in_map_iff in H as (a & <- & H). apply in_seq in H. split; [left; apply in_tree_blocks; lia | intros Hx; exact (NF _ Hx)].
      * apply in_flat_map in H as (a & Ha & H). apply filter_In in Ha as [Ha Hn]. apply in_seq in Ha.
        apply negb_true_iff in Hn. split.
        -- left. apply in_tree_blocks. cbn in H. destruct H as [<- | [<- | [<- | []]]]; lia.
        -- intros Hx. apply NF in Hx. cbn in H. destruct H as [<- | [<- | [<- | []]]]; congruence.
      * apply in_map_iff in H as (k & <- & H). apply in_seq in H. split; [right; exists k; split; [reflexivity | lia] | intros Hx; exact (NF _ Hx)].
  - destruct (rtree_wf M l fb HM Hb) as (h' & r' & K & lv & E & W & R & HK). rewrite Et in E. injection E as E.
    unfold h. rewrite E. cbn [fst]. lia.
Qed.

(** A geometry without a bbox: all that was made before stays. *)
Lemma raised_left M pre post fb fs ff qs : 4 <= M -> length pre < fb ->
  exists t live, rtree M fb pre = Ret t /\ session M fb fs ff (map Some pre ++ None :: post) qs = Ret (None, live) /\
    length live = 4 * fst (fst t) + length pre /\ 1 <= fst (fst t).
Proof.
  intros HM Hb. destruct (rtree_wf M pre fb HM Hb) as (h & r & K & lv & E & W & R & HK).
  exists (h, r), (tree_blocks h (length pre)). split; [assumption |].
  rewrite (session_unfold M pre fb fs ff qs (None :: post) h r E). cbn [load andthen]. split; [reflexivity |].
  cbn [fst]. rewrite length_tree_blocks. lia.
Qed.
