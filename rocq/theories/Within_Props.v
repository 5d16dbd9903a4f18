(** C81, C82: polygons along paths; members of a multipart geometry within or touching a
    line or polygon. *)
From Coq Require Import String List ZArith QArith Lqa.
From Verif Require Import Table_Model Table_Spec Multi_Model Multi_Spec Geom_Model Geom_Spec Inter_Spec Contains_Model Contains_Spec Contains_Winding
  Within_Spec Within_Winding Within_Cross Within_Proofs Within_Model Within_Main Within_Examples.
Import ListNotations.
Local Open Scope list_scope.

(** C81.  Points joined by a path that stays off the boundary, holes included, are both
    contained or both not. *)
Theorem C81_path : forall (P D C : Type) (g : geom P D C) path ring z z', (forall z, point_of path ring z -> off_edges P D C z g) ->
  point_of path ring z -> point_of path ring z' -> contains P D C g z = contains P D C g z'.
Proof. exact contains_path. Qed.
Print Assumptions C81_path.
Example C81_path_example : (forall z, point_of [(1 # 2, 1 # 3); (7 # 2, 1 # 2); (18 # 5, 7 # 2)] false z -> off_edges unit unit unit z donut) /\
  contains unit unit unit donut (1 # 2, 1 # 3) = Ok true.
Proof.
  split; [|vm_compute; reflexivity]. intros z (f & (j & Hf) & (u & U & F1 & F2)). apply edge3 in Hf.
  cbn [off_edges]. split; [|split; [split; [|exact Logic.I]|exact Logic.I]]; intros e (i & He) (t & T & E1 & E2); apply ring4 in He;
    destruct Hf as [[-> ->]|[-> ->]]; destruct He as [[-> ->]|[[-> ->]|[[-> ->]|[-> ->]]]]; nums; lra.
Qed.
(** Across one edge of the boundary the winding number changes by one; so at least one of
    two points on its two sides is contained. *)
Theorem C81_across : forall (p q : pt) l k e, edge_at l true k e ->
  (exists t, (0 <= t <= 1)%Q /\ on_seg (p, q) (along (fst e) (snd e) t) /\
     forall z, on_seg (fst e, snd e) z -> on_seg (p, q) z -> ~ end_of (p, q) z /\ ~ end_of (fst e, snd e) z) ->
  (forall i f, edge_at l true i f -> i <> k -> forall z, on_seg (fst f, snd f) z -> ~ on_seg (p, q) z) ->
  forall w w', winding p l w -> winding q l w' -> (w - w' = 1 \/ w - w' = -1)%Z.
Proof. exact winding_crossed. Qed.
Print Assumptions C81_across.
Theorem C81_sides : forall (P D C : Type) (g : geom P D C) (p q : pt) k e, rings P D C g -> gsubs P D C g = [] ->
  edge_at (xys (gverts P D C g)) true k e ->
  (exists t, (0 <= t <= 1)%Q /\ on_seg (p, q) (along (fst e) (snd e) t) /\
     forall z, on_seg (fst e, snd e) z -> on_seg (p, q) z -> ~ end_of (p, q) z /\ ~ end_of (fst e, snd e) z) ->
  (forall i f, edge_at (xys (gverts P D C g)) true i f -> i <> k -> forall z, on_seg (fst f, snd f) z -> ~ on_seg (p, q) z) ->
  contains P D C g p = Ok true \/ contains P D C g q = Ok true.
Proof. exact contains_crossed. Qed.
Print Assumptions C81_sides.
Example C81_sides_example : exists e, edge_at (xys (gverts unit unit unit sq)) true 1 e /\ cross_at (1, 1)%Q (6, 2)%Q (fst e) (snd e) /\
  (forall i f, edge_at (xys (gverts unit unit unit sq)) true i f -> i <> 1%nat -> apart (1, 1)%Q (6, 2)%Q (fst f) (snd f)) /\
  contains unit unit unit sq (1, 1)%Q = Ok true /\ contains unit unit unit sq (6, 2)%Q = Ok false.
Proof.
  exists ((4, 0), (4, 4))%Q. split; [left; split; reflexivity|]. split; [|split; [|split; vm_compute; reflexivity]].
  - exists (2 # 5)%Q. split; [lra|]. split; [exists (3 # 5)%Q; split; [lra|split; reflexivity]|].
    intros z (t & T & E1 & E2) (u & U & F1 & F2). nums. split; intros [[X Y]|[X Y]]; lra.
  - intros i f Hf N z (t & T & E1 & E2) (u & U & F1 & F2). apply ring4 in Hf. destruct Hf as [[-> ->]|[[-> ->]|[[-> ->]|[-> ->]]]]; nums; try congruence; lra.
Qed.

Local Open Scope nat_scope.
(** C82.  Members in general position to the query, none of them straight along an axis,
    up to 50 of them, and a polygon without holes. *)
Theorem C82_within_partial : forall (P val : Type) (vnone : val) (outer : P -> list (Q * Q)) (GP GD GC : Type) fs fi
    (m : multi P val) (g : geom GP GD GC) ord,
  gkind GP GD GC g = KPolygon -> gring GP GD GC g = true -> gsubs GP GD GC g = [] -> one_record_each m ->
  fields (tbl m) ++ map fst (props m) <> [] /\ set_order ord (fields (tbl m) ++ map fst (props m)) ->
  has_area (xys (gverts GP GD GC g)) /\ (forall p, In p (parts m) ->
    general GP GD GC g (outer p) false /\ has_area (outer p) /\ 2 * (length (xys (gverts GP GD GC g)) + length (outer p)) + 1 < fi) ->
  length (parts m) <= 50 -> 0 < fs ->
  exists ids r, within P val outer GP GD GC fs fi ord m g = Done r /\ restricted m r ids /\ NoDup ids /\
  forall i, In i ids <-> exists p, nth_error (parts m) i = Some p /\ lies_within GP GD GC (outer p) false g.
Proof. exact within_ok. Qed.
Print Assumptions C82_within_partial.
Theorem C82_touching_partial : forall (P val : Type) (vnone : val) (outer : P -> list (Q * Q)) (GP GD GC : Type) fs fi
    (m : multi P val) (g : geom GP GD GC) ord,
  gkind GP GD GC g = KPolygon -> gring GP GD GC g = true -> gsubs GP GD GC g = [] -> one_record_each m ->
  fields (tbl m) ++ map fst (props m) <> [] /\ set_order ord (fields (tbl m) ++ map fst (props m)) ->
  has_area (xys (gverts GP GD GC g)) /\ (forall p, In p (parts m) ->
    general GP GD GC g (outer p) false /\ has_area (outer p) /\ 2 * (length (xys (gverts GP GD GC g)) + length (outer p)) + 1 < fi) ->
  length (parts m) <= 50 -> 0 < fs ->
  exists ids r, touching P val outer GP GD GC fs fi ord m g = Done r /\ restricted m r ids /\ NoDup ids /\
  forall i, In i ids <-> exists p, nth_error (parts m) i = Some p /\ touches GP GD GC (outer p) false g.
Proof. exact touching_ok. Qed.
Print Assumptions C82_touching_partial.
Theorem C82_touching_line_partial : forall (P val : Type) (vnone : val) (outer : P -> list (Q * Q)) (GP GD GC : Type) fs fi
    (m : multi P val) (g : geom GP GD GC) ord,
  gkind GP GD GC g = KLine -> one_record_each m ->
  fields (tbl m) ++ map fst (props m) <> [] /\ set_order ord (fields (tbl m) ++ map fst (props m)) ->
  has_area (xys (gverts GP GD GC g)) /\ (forall p, In p (parts m) ->
    general GP GD GC g (outer p) false /\ has_area (outer p) /\ 2 * (length (xys (gverts GP GD GC g)) + length (outer p)) + 1 < fi) ->
  length (parts m) <= 50 -> 0 < fs ->
  exists ids r, touching P val outer GP GD GC fs fi ord m g = Done r /\ restricted m r ids /\ NoDup ids /\
  forall i, In i ids <-> exists p, nth_error (parts m) i = Some p /\ crosses GP GD GC (outer p) false g.
Proof. exact touching_line_ok. Qed.
Print Assumptions C82_touching_line_partial.
Example C82_example : (one_record_each (numbered three) /\ fields (tbl (numbered three)) ++ map fst (props (numbered three)) <> [] /\
    set_order ["n"%string] (fields (tbl (numbered three)) ++ map fst (props (numbered three)))) /\
  (has_area (xys (gverts unit unit unit sq)) /\ forall p, In p three -> general unit unit unit sq p false) /\
  (has_area (xys (gverts unit unit unit slash)) /\ forall p, In p three -> general unit unit unit slash p false) /\
  (forall p, In p three -> has_area p) /\
  ids_of (Within (numbered three) sq) = Done [[(1, 1); (2, 3); (3, 2)]]%Q /\
  ids_of (Touching (numbered three) sq) = Done [[(3, 1); (5, 2)]; [(1, 1); (2, 3); (3, 2)]]%Q /\
  ids_of (Touching (numbered three) slash) = Done [[(3, 1); (5, 2)]]%Q.
Proof. exact (conj (numbered_ok three) (conj sq_general (conj slash_general (conj three_area three_found)))). Qed.

(** With any number of members, those found are right. *)
Theorem C82_sound_partial : forall (P val : Type) (vnone : val) (outer : P -> list (Q * Q)) (GP GD GC : Type) fs fi
    (m : multi P val) (g : geom GP GD GC) ord,
  gkind GP GD GC g = KPolygon -> gring GP GD GC g = true -> gsubs GP GD GC g = [] -> one_record_each m ->
  fields (tbl m) ++ map fst (props m) <> [] /\ set_order ord (fields (tbl m) ++ map fst (props m)) ->
  has_area (xys (gverts GP GD GC g)) /\ (forall p, In p (parts m) ->
    general GP GD GC g (outer p) false /\ has_area (outer p) /\ 2 * (length (xys (gverts GP GD GC g)) + length (outer p)) + 1 < fi) ->
  51 ^ length (parts m) <= fs ->
  (exists ids r, within P val outer GP GD GC fs fi ord m g = Done r /\ restricted m r ids /\
   forall i, In i ids -> exists p, nth_error (parts m) i = Some p /\ lies_within GP GD GC (outer p) false g) /\
  (exists ids r, touching P val outer GP GD GC fs fi ord m g = Done r /\ restricted m r ids /\
   forall i, In i ids -> exists p, nth_error (parts m) i = Some p /\ touches GP GD GC (outer p) false g).
Proof.
  exact (fun P val vnone outer GP GD GC fs fi m g ord K R S W F U L =>
    conj (within_sound P val vnone outer GP GD GC fs fi m g ord K R S W F U L) (touching_sound P val vnone outer GP GD GC fs fi m g ord K R S W F U L)).
Qed.
Print Assumptions C82_sound_partial.
(** Other queries are refused. *)
Theorem C82_query_type : forall (P val : Type) (outer : P -> list (Q * Q)) (GP GD GC : Type) fs fi (m : multi P val) (g : geom GP GD GC) ord,
  (gkind GP GD GC g <> KPolygon -> within P val outer GP GD GC fs fi ord m g = TypeErr) /\
  (gkind GP GD GC g = KMultipoint -> length (parts m) <= 50 -> 0 < fs -> (forall p, In p (parts m) -> outer p <> []) -> xys (gverts GP GD GC g) <> [] ->
   touching P val outer GP GD GC fs fi ord m g = TypeErr).
Proof. exact wrong_kind. Qed.
Print Assumptions C82_query_type.
Example C82_query_type_example : Within (numbered three) slash = TypeErr.
Proof. reflexivity. Qed.

(** A straight level line inside the polygon is not found. *)
Theorem C82_straight_refuted : exists l g, lies_within unit unit unit l false g /\ ids_of (Within (numbered [l]) g) = Done [] /\ ids_of (Touching (numbered [l]) g) = Done [].
Proof. exact (ex_intro _ bar (ex_intro _ sq straight)). Qed.
Print Assumptions C82_straight_refuted.
(** A line through a hole counts as within; *)
Theorem C82_hole_within_refuted : exists l r z, Within (numbered [l]) donut = Done r /\ parts r = [l] /\ point_of l false z /\ ~ interior unit unit unit donut z.
Proof. exact (ex_intro _ through hole_within). Qed.
Print Assumptions C82_hole_within_refuted.
(** one that starts in a hole and ends in the polygon does not touch it. *)
Theorem C82_hole_touching_refuted : exists l, touches unit unit unit l false donut /\ ids_of (Touching (numbered [l]) donut) = Done [].
Proof. exact (ex_intro _ out_of hole_touching). Qed.
Print Assumptions C82_hole_touching_refuted.
(** The last side of the members of a Multipolygon is not looked at. *)
Theorem C82_closing_within_refuted : exists l g r z, Within (numbered [l]) g = Done r /\ parts r = [l] /\ point_of l true z /\ ~ interior unit unit unit g z.
Proof. exact (ex_intro _ over (ex_intro _ ushape closing_within)). Qed.
Print Assumptions C82_closing_within_refuted.
(** A line that crosses only the last side of such a member does not touch it. *)
Theorem C82_closing_touching_refuted : exists l g, crosses unit unit unit l true g /\ ids_of (Touching (numbered [l]) g) = Done [].
Proof. exact (ex_intro _ block (ex_intro _ pin closing_touching)). Qed.
Print Assumptions C82_closing_touching_refuted.
(** Of 51 lines the one within the polygon is missed; of the first 50 it is found. *)
Theorem C82_many_refuted : exists ls l g, length ls = 51 /\ nth_error ls 49 = Some l /\ lies_within unit unit unit l false g /\
  ids_of (Within (numbered ls) g) = Done [] /\ ids_of (Within (numbered (firstn 50 ls)) g) = Done [l].
Proof. exact (ex_intro _ dashes (ex_intro _ (dash 1) (ex_intro _ frame (conj eq_refl fifty_one)))). Qed.
Print Assumptions C82_many_refuted.
(** Without data and properties the members of the result cannot be read. *)
Theorem C82_bare_refuted : exists m g, one_record_each m /\ exists r l, within path nat outl unit unit unit 100 100 [] m g = Done r /\ parts r = [l] /\
  getitem r 0 = Table_Model.Err Table_Model.IndexError.
Proof. destruct no_data as [A (r & B)]. exact (ex_intro _ plain (ex_intro _ sq (conj A (ex_intro _ r (ex_intro _ _ B))))). Qed.
Print Assumptions C82_bare_refuted.
