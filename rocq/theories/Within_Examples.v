(** Concrete members and queries for the selection properties. *)
From Coq Require Import String List ZArith QArith Qfield Lqa Bool Arith Lia.
From Verif Require Import Table_Model Table_Spec Multi_Model Multi_Spec RTree_Model Geom_Model Geom_Spec Inter_Model Inter_Spec Inter_Proofs Contains_Model
  Contains_Spec Contains_Proofs Contains_Winding Within_Winding Within_Spec Within_Proofs Within_Model Within_Main.
Import ListNotations.
Local Open Scope list_scope.
Open Scope Q_scope.

(** A multipart geometry with one field "n" that numbers the parts. *)
Definition numbered {P} (ps : list P) : multi P nat := mkMulti ps (mkT ["n"%string] (map (fun i => [i]) (seq 0 (length ps)))) [] [].
Definition path := list (Q * Q).
Definition outl (l : path) : path := l.
Definition Within (m : multi path nat) g := within path nat outl unit unit unit 100 100 ["n"%string] m g.
Definition Touching (m : multi path nat) g := touching path nat outl unit unit unit 100 100 ["n"%string] m g.
Definition line (l : path) : geom unit unit unit := make_line unit unit unit (V2 l) tt tt.
Definition poly (l : path) : geom unit unit unit := make_polygon unit unit unit (V2 l) [] tt tt.
Lemma numbered_ok : forall {P} (ps : list P), one_record_each (numbered ps) /\ fields (tbl (numbered ps)) ++ map fst (props (numbered ps)) <> [] /\
  set_order ["n"%string] (fields (tbl (numbered ps)) ++ map fst (props (numbered ps))).
Proof.
  intros P ps. split; [|split].
  - split; [unfold tlen; cbn; rewrite map_length, seq_length; reflexivity|]. split; [|split; [repeat constructor; intros []|reflexivity]].
    apply Forall_forall. intros r Hr. cbn in Hr. apply in_map_iff in Hr. destruct Hr as (i & <- & _). reflexivity.
  - discriminate.
  - split; [repeat constructor; intros []|]. intros f. reflexivity.
Qed.

(** Linear arithmetic on the edges of concrete paths. *)
Lemma edge_num : forall l ring i e, edge_at l ring i e -> nth_error (edges l ring) i = Some e.
Proof. intros. apply edges_nth. assumption. Qed.
Ltac pick H i := apply edge_num in H; cbn in H; repeat (destruct i as [|i]; [injection H as <-|]); try (destruct i; discriminate).
Ltac nums := unfold end_of, same, along in *; cbn [fst snd] in *.

Definition sq : geom unit unit unit := square 0 4 [].
Definition slash : geom unit unit unit := line [(3, 3); (5, 1)].
Definition three : list path := [[(1, 1); (2, 3); (3, 2)]; [(3, 1); (5, 2)]; [(6, 1); (7, 2)]].
Lemma edge3 : forall a b c i e, edge_at [a; b; c] false i e -> (i = 0%nat /\ e = (a, b)) \/ (i = 1%nat /\ e = (b, c)).
Proof. intros a b c i e H. apply edge_num in H. destruct i as [|[|[|i]]]; cbn in H; try discriminate; injection H as <-; auto. Qed.
Lemma edge2 : forall a b i e, edge_at [a; b] false i e -> i = 0%nat /\ e = (a, b).
Proof. intros a b i e H. apply edge_num in H. destruct i as [|[|i]]; cbn in H; try discriminate; injection H as <-; auto. Qed.
Lemma edge4 : forall a b c d i e, edge_at [a; b; c; d] false i e -> (i = 0%nat /\ e = (a, b)) \/ (i = 1%nat /\ e = (b, c)) \/ (i = 2%nat /\ e = (c, d)).
Proof. intros a b c d i e H. apply edge_num in H. destruct i as [|[|[|[|i]]]]; cbn in H; try discriminate; injection H as <-; auto. Qed.
Lemma ring4 : forall a b c d i e, edge_at [a; b; c; d] true i e ->
  (i = 0%nat /\ e = (a, b)) \/ (i = 1%nat /\ e = (b, c)) \/ (i = 2%nat /\ e = (c, d)) \/ (i = 3%nat /\ e = (d, a)).
Proof. intros a b c d i e H. apply edge_num in H. destruct i as [|[|[|[|[|i]]]]]; cbn in H; try discriminate; injection H as <-; auto. Qed.
Lemma two_simple : forall a b, simple_path [a; b] false.
Proof.
  intros a b. split.
  - intros i j e f p A B N. apply edge2 in A, B. destruct A, B. congruence.
  - intros i j k e f g p A B _ N. apply edge2 in A, B. destruct A, B. congruence.
Qed.
Lemma sq_simple : simple_path (xys (gverts unit unit unit sq)) true.
Proof.
  split.
  - intros i j e f p A B N (t & T & E1 & E2) (u & U & F1 & F2). apply ring4 in A, B.
    destruct A as [[-> ->]|[[-> ->]|[[-> ->]|[-> ->]]]]; destruct B as [[-> ->]|[[-> ->]|[[-> ->]|[-> ->]]]]; try congruence; nums;
      first [exfalso; lra|split; first [left; split; lra|right; split; lra]].
  - intros i j k e f g p A B C N1 N2 N3 X Y Z. apply ring4 in A, B, C.
    destruct A as [[-> ->]|[[-> ->]|[[-> ->]|[-> ->]]]]; destruct B as [[-> ->]|[[-> ->]|[[-> ->]|[-> ->]]]]; try congruence;
    destruct C as [[-> ->]|[[-> ->]|[[-> ->]|[-> ->]]]]; try congruence; nums; destruct X as [[X1 X2]|[X1 X2]]; destruct Y as [[Y1 Y2]|[Y1 Y2]]; destruct Z as [[Z1 Z2]|[Z1 Z2]]; lra.
Qed.
Lemma three_simple : forall p, In p three -> simple_path p false.
Proof.
  intros p [<-|[<-|[<-|[]]]]; try apply two_simple. split.
  - intros i j e f p A B N (t & T & E1 & E2) (u & U & F1 & F2). apply edge3 in A, B.
    destruct A as [[-> ->]|[-> ->]]; destruct B as [[-> ->]|[-> ->]]; try congruence; nums; split; first [left; split; lra|right; split; lra].
  - intros i j k e f g p A B C N1 N2 N3 _ _ _. apply edge3 in A, B, C. destruct A as [[-> ->]|[-> ->]]; destruct B as [[-> ->]|[-> ->]]; try congruence; destruct C as [[-> ->]|[-> ->]]; congruence.
Qed.
Lemma three_proper : forall p, In p three -> proper (xys (gverts unit unit unit sq)) true p false.
Proof.
  intros p Hp e f z (i & He) (j & Hf) (t & T & E1 & E2) (u & U & F1 & F2). apply ring4 in He.
  destruct Hp as [<-|[<-|[<-|[]]]].
  - apply edge3 in Hf. destruct Hf as [[-> ->]|[-> ->]]; destruct He as [[-> ->]|[[-> ->]|[[-> ->]|[-> ->]]]]; nums; exfalso; lra.
  - apply edge2 in Hf. destruct Hf as [-> ->]; destruct He as [[-> ->]|[[-> ->]|[[-> ->]|[-> ->]]]]; nums; try (exfalso; lra); split; intros [[X Y]|[X Y]]; lra.
  - apply edge2 in Hf. destruct Hf as [-> ->]; destruct He as [[-> ->]|[[-> ->]|[[-> ->]|[-> ->]]]]; nums; exfalso; lra.
Qed.
Lemma three_area : forall p, In p three -> has_area p.
Proof.
  intros p [<-|[<-|[<-|[]]]]; split.
  - exists (1, 1), (3, 2). cbn. repeat split; auto.
  - exists (1, 1), (3, 2). cbn. repeat split; auto.
  - exists (3, 1), (5, 2). cbn. repeat split; auto.
  - exists (3, 1), (5, 2). cbn. repeat split; auto.
  - exists (6, 1), (7, 2). cbn. repeat split; auto.
  - exists (6, 1), (7, 2). cbn. repeat split; auto.
Qed.
Lemma sq_area : has_area (xys (gverts unit unit unit sq)).
Proof. split; exists (0, 0), (4, 4); cbn; repeat split; auto. Qed.
Definition ids_of (r : outcome (multi path nat)) : outcome (list path) := next r (fun r => Done (parts r)).
Lemma three_found : ids_of (Within (numbered three) sq) = Done [[(1, 1); (2, 3); (3, 2)]] /\
  ids_of (Touching (numbered three) sq) = Done [[(3, 1); (5, 2)]; [(1, 1); (2, 3); (3, 2)]] /\
  ids_of (Touching (numbered three) slash) = Done [[(3, 1); (5, 2)]].
Proof. split; [|split]; vm_compute; reflexivity. Qed.

Lemma slash_general : has_area (xys (gverts unit unit unit slash)) /\ forall p, In p three -> general unit unit unit slash p false.
Proof.
  split.
  - split; [exists (3, 3), (5, 1)|exists (5, 1), (3, 3)]; cbn; repeat split; auto.
  - intros p Hp. split; [apply two_simple|]. split; [apply three_simple, Hp|]. intros e f z (i & He) (j & Hf) (t & T & E1 & E2) (u & U & F1 & F2). apply edge2 in He. destruct He as [-> ->].
    destruct Hp as [<-|[<-|[<-|[]]]].
    + apply edge3 in Hf. destruct Hf as [[-> ->]|[-> ->]]; nums; exfalso; lra.
    + apply edge2 in Hf. destruct Hf as [-> ->]; nums. split; intros [[X Y]|[X Y]]; lra.
    + apply edge2 in Hf. destruct Hf as [-> ->]; nums; exfalso; lra.
Qed.
Lemma sq_general : has_area (xys (gverts unit unit unit sq)) /\ forall p, In p three -> general unit unit unit sq p false.
Proof. split; [exact sq_area|]. intros p Hp. split; [apply sq_simple|]. split; [apply three_simple, Hp|apply three_proper, Hp]. Qed.

(* ---- a path off the boundary of a polygon *)
(** Within a polygon without holes: from the start of the path and its points off the boundary. *)
Lemma within_by : forall g l ring v, rings unit unit unit g -> (forall z, point_of l ring z -> off_edges unit unit unit z g) -> point_of l ring v ->
  contains unit unit unit g v = Ok true -> lies_within unit unit unit l ring g.
Proof.
  intros g l ring v R O V C z Z. split; [apply O, Z|]. apply (region_path unit unit unit g l ring v z R O V Z).
  apply (contains_region unit unit unit g v R (O v V)), C.
Qed.
Lemma sq_off : forall z, off_edges unit unit unit z sq <-> off z [(0, 0); (4, 0); (4, 4); (0, 4)].
Proof. intros z. cbn. tauto. Qed.

(** A straight level line inside a square. *)
Definition bar : path := [(1, 1); (3, 1)].
Lemma straight : lies_within unit unit unit bar false sq /\ ids_of (Within (numbered [bar]) sq) = Done [] /\ ids_of (Touching (numbered [bar]) sq) = Done [].
Proof.
  split; [|split; vm_compute; reflexivity]. apply (within_by sq bar false (1, 1)).
  - split; [reflexivity|exact Logic.I].
  - intros z (f & (j & Hf) & (u & U & F1 & F2)). apply sq_off. intros e (i & He) (t & T & E1 & E2). apply ring4 in He. apply edge2 in Hf. destruct Hf as [-> ->].
    destruct He as [[-> ->]|[[-> ->]|[[-> ->]|[-> ->]]]]; nums; lra.
  - apply first_point.
  - vm_compute; reflexivity.
Qed.

(** A line through the hole of a polygon. *)
Definition through : path := [(1 # 2, 1 # 3); (7 # 2, 11 # 3)].
Lemma in_hole : ~ region unit unit unit (2, 2) donut.
Proof.
  intros H. assert (C : contains unit unit unit donut (2, 2) = Ok true).
  { apply (contains_region unit unit unit donut (2, 2)); [cbn; tauto| |exact H].
    cbn [off_edges]. split; [|split; [split; [|exact Logic.I]|exact Logic.I]]; intros e (i & He) (t & T & E1 & E2); apply ring4 in He;
      destruct He as [[-> ->]|[[-> ->]|[[-> ->]|[-> ->]]]]; nums; lra. }
  vm_compute in C. discriminate.
Qed.
Lemma hole_within : exists r z, Within (numbered [through]) donut = Done r /\ parts r = [through] /\ point_of through false z /\ ~ interior unit unit unit donut z.
Proof.
  eexists. exists (2, 2). split; [vm_compute; reflexivity|]. split; [reflexivity|]. split.
  - exists ((1 # 2, 1 # 3), (7 # 2, 11 # 3)). split; [exists 0%nat; left; split; reflexivity|]. exists (1 # 2). split; [lra|split; reflexivity].
  - intros [_ H]. exact (in_hole H).
Qed.
(** A line from the hole into the polygon. *)
Definition out_of : path := [(2, 2); (7 # 2, 11 # 3)].
Lemma hole_touching : touches unit unit unit out_of false donut /\ ids_of (Touching (numbered [out_of]) donut) = Done [].
Proof.
  split; [|vm_compute; reflexivity]. exists (7 # 2, 11 # 3). split.
  - exists ((2, 2), (7 # 2, 11 # 3)). split; [exists 0%nat; left; split; reflexivity|apply second_on].
  - left. assert (O : off_edges unit unit unit (7 # 2, 11 # 3) donut).
    { cbn [off_edges]. split; [|split; [split; [|exact Logic.I]|exact Logic.I]]; intros e (i & He) (t & T & E1 & E2); apply ring4 in He;
        destruct He as [[-> ->]|[[-> ->]|[[-> ->]|[-> ->]]]]; nums; lra. }
    split; [exact O|]. apply (contains_region unit unit unit donut); [cbn; tauto|exact O|vm_compute; reflexivity].
Qed.

(** A member of a Multipolygon whose last side crosses the notch of the query. *)
Definition ushape : geom unit unit unit := poly [(0, 0); (6, 0); (6, 4); (4, 4); (4, 1); (2, 1); (2, 4); (0, 4)].
Definition over : path := [(1, 3); (1, 1 # 2); (5, 1 # 2); (5, 3)].
Lemma closing_within : exists r z, Within (numbered [over]) ushape = Done r /\ parts r = [over] /\ point_of over true z /\ ~ interior unit unit unit ushape z.
Proof.
  eexists. exists (3, 3). split; [vm_compute; reflexivity|]. split; [reflexivity|]. split.
  - exists ((5, 3), (1, 3)). split; [exists 3%nat; right; repeat split; reflexivity|]. exists (1 # 2). split; [lra|split; reflexivity].
  - intros [O H]. apply (contains_region unit unit unit ushape (3, 3)) in H; [|cbn; tauto|exact O]. vm_compute in H. discriminate.
Qed.
(** A line that crosses only the last side of a member. *)
Definition block : path := [(0, 0); (0, 4); (4, 4); (4, 0)].
Definition pin : geom unit unit unit := line [(2, -1); (3, 1)].
Lemma closing_touching : crosses unit unit unit block true pin /\ ids_of (Touching (numbered [block]) pin) = Done [].
Proof.
  split; [|vm_compute; reflexivity]. exists (5 # 2, 0). split.
  - exists ((4, 0), (0, 0)). split; [exists 3%nat; right; repeat split; reflexivity|]. exists (3 # 8). split; [lra|split; reflexivity].
  - exists ((2, -1), (3, 1)). split; [exists 0%nat; left; split; reflexivity|]. exists (1 # 2). split; [lra|split; reflexivity].
Qed.

(** Fifty-one members. *)
Definition dash (i : nat) : path := [(inject_Z (2 * Z.of_nat i), 0); (inject_Z (2 * Z.of_nat i + 1), 1)].
Definition dashes : list path := rev (map dash (seq 0 51)).
Definition frame : geom unit unit unit := poly [(3 # 2, -1); (7 # 2, -1); (7 # 2, 2); (3 # 2, 2)].
Lemma fifty_one : nth_error dashes 49 = Some (dash 1) /\ lies_within unit unit unit (dash 1) false frame /\
  ids_of (Within (numbered dashes) frame) = Done [] /\ ids_of (Within (numbered (firstn 50 dashes)) frame) = Done [dash 1].
Proof.
  split; [vm_compute; reflexivity|]. split; [|split; vm_compute; reflexivity].
  replace (dash 1) with [(2, 0); (3, 1)] by reflexivity. apply (within_by frame [(2, 0); (3, 1)] false (2, 0)).
  - split; [reflexivity|exact Logic.I].
  - intros z (f & (j & Hf) & (u & U & F1 & F2)). split; [|exact Logic.I]. intros e (i & He) (t & T & E1 & E2). apply ring4 in He. apply edge2 in Hf. destruct Hf as [-> ->].
    destruct He as [[-> ->]|[[-> ->]|[[-> ->]|[-> ->]]]]; nums; lra.
  - apply first_point.
  - vm_compute; reflexivity.
Qed.
(** Without data the result has members that cannot be read. *)
Definition plain : multi path nat := mkMulti three (table_sized [] 3) [] [].
Lemma no_data : one_record_each plain /\ exists r, within path nat outl unit unit unit 100 100 [] plain sq = Done r /\ parts r = [[(1, 1); (2, 3); (3, 2)]] /\
  getitem r 0 = Table_Model.Err Table_Model.IndexError.
Proof.
  split.
  - split; [reflexivity|]. split; [|split; [constructor|reflexivity]]. repeat constructor.
  - eexists. split; [vm_compute; reflexivity|]. split; reflexivity.
Qed.
