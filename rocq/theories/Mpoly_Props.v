(** C83, C84, C85: the parts of multilines and multipolygons: members, merging, affine
    transformations. *)
From Coq Require Import String List ZArith QArith Arith Lia.
From Verif Require Import Table_Model Table_Spec Multi_Model Multi_Spec Geom_Model Contains_Model Inter_Model Mpoly_Model Mpoly_Spec Mpoly_Proofs Mpoly_More.
Import ListNotations.
Local Open Scope string_scope.
Local Open Scope list_scope.

(** Examples: a square with a hole, an island in the hole, a triangle. *)
Definition box (a b : Q) : verts := V2 [(a, a); (a, b); (b, b); (b, a)].
Definition solid (v : verts) (subs : list (geom (list (string * nat)) unit unit)) (n : nat) := make_polygon (list (string * nat)) unit unit v subs [("n", n)] tt.
Definition holed := solid (box 0 4) [solid (box 1 3) [] 0] 1.
Definition island := solid (box 0 10) [solid (box 1 9) [solid (box 2 8) [] 0] 0] 2.
Definition triangle := solid (V2 [(5, 0); (6, 0); (5, 1)]) [] 3.
Definition three_d := solid (V3 [(5, 0, 1); (6, 0, 1); (5, 1, 2)]) [] 4.
Definition pin : list (Q * Q) := [(2, -1); (3, 1)].
Lemma named (gs : list (geom (list (string * nat)) unit unit)) : gs <> [] -> (forall g, In g gs -> map fst (gprops _ _ _ g) = ["n"]) -> forall k, In k ["n"] <-> shared nat unit unit gs k.
Proof.
  intros N H k. split.
  - intros I g Ig. rewrite (H g Ig). exact I.
  - destruct gs as [|g gs]; [congruence|]. intros S. rewrite <- (H g (or_introl eq_refl)). exact (S g (or_introl eq_refl)).
Qed.

(** The area of a polygon is [a]. *)
Definition has_size (g : geom (list (string * nat)) unit unit) (a : Q) : Prop := exists q, area _ _ _ g = Ok q /\ q == a.
Local Open Scope nat_scope.
(** C83.  A multipolygon made of polygons has them as members: the same vertices and holes,
    and so the same box, centroid, orientation and segments, and the same area if the holes
    have no holes; their values of the properties common to all. *)
Theorem C83_polygons_partial : forall (val D C : Type) (vnone : val) ord (gs : list (geom (list (string * val)) D C)) pr c,
  gs <> [] -> ord <> [] -> NoDup ord -> (forall k, In k ord <-> shared val D C gs k) ->
  exists m, of_polygons val D C ord [] gs Absent pr = Table_Model.Ok m /\ length (parts m) = length gs /\
    forall i g, nth_error gs i = Some g -> exists h, getpoly val D C c m i = Table_Model.Ok h /\ same_rings val D C g h /\ gcrs _ _ _ h = c /\
      (flat val D C g -> area _ _ _ h = area _ _ _ g) /\
      (gkind _ _ _ g = KPolygon -> bbox _ _ _ h = bbox _ _ _ g /\ centroid _ _ _ h = centroid _ _ _ g /\ isclockwise _ _ _ h = isclockwise _ _ _ g /\ segment_tuples _ _ _ h = segment_tuples _ _ _ g) /\
      forall k, dict_get pr k = None ->
        (shared val D C gs k -> dict_get (gprops _ _ _ h) k = dict_get (gprops _ _ _ g) k) /\ (~ shared val D C gs k -> dict_get (gprops _ _ _ h) k = None).
Proof. exact from_polygons. Qed.
Print Assumptions C83_polygons_partial.
Example C83_polygons_example : (forall k, In k ["n"] <-> shared nat unit unit [holed; triangle] k) /\ flat nat unit unit holed /\ has_size holed 12%Q /\
  exists m h, of_polygons nat unit unit ["n"] [] [holed; triangle] Absent [] = Table_Model.Ok m /\ getpoly nat unit unit tt m 0 = Table_Model.Ok h /\ has_size h 12%Q.
Proof.
  split; [apply named; [discriminate|intros g [<-|[<-|[]]]; reflexivity]|]. split; [intros s [<-|[]]; reflexivity|]. split; [eexists; split; vm_compute; reflexivity|].
  do 2 eexists. split; [reflexivity|]. split; [reflexivity|eexists; split; vm_compute; reflexivity].
Qed.
(** Made of lists of rings: the first ring is the outline, the others are holes. *)
Theorem C83_rings : forall (val D C : Type) (vnone : val) (l : list (list verts)) (d : data val) pr (m : mpoly val D C) c, (forall r, In r l -> r <> []) ->
  of_rings val D C l d pr = Table_Model.Ok m -> one_record_each m -> length (parts m) = length l /\
  forall i r rs, nth_error l i = Some (r :: rs) -> exists h, getpoly val D C c m i = Table_Model.Ok h /\
    gkind _ _ _ h = KPolygon /\ gverts _ _ _ h = r /\ map (gverts _ _ _) (gsubs _ _ _ h) = rs /\
    forall k, exists v, cell m i k v /\ dict_get (gprops _ _ _ h) k = match dict_get pr k with Some w => Some w | None => v end.
Proof. exact from_rings. Qed.
Print Assumptions C83_rings.
Example C83_rings_example : exists m : mpoly nat unit unit, of_rings nat unit unit [[box 0 4; box 1 3]; [box 5 6]] (DDict [("n", [1; 2])]) [] = Table_Model.Ok m /\ one_record_each m.
Proof.
  eexists. split; [reflexivity|]. split; [reflexivity|]. split; [repeat constructor|]. split; [repeat constructor; intros []|reflexivity].
Qed.
(** No member can be asked whether it contains a point: TypeError. *)
Theorem C83_contains_refuted : forall (val D C : Type) (m : mpoly val D C) i c h,
  (exists gs ord ords d pr, of_polygons val D C ord ords gs d pr = Table_Model.Ok m) \/ (exists l d pr, of_rings val D C l d pr = Table_Model.Ok m) ->
  getpoly val D C c m i = Table_Model.Ok h -> forall pt, contains _ _ _ h pt = Err TypeError.
Proof. exact no_contains. Qed.
Print Assumptions C83_contains_refuted.
Example C83_contains_example : exists m h, of_polygons nat unit unit ["n"] [] [holed; triangle] Absent [] = Table_Model.Ok m /\ getpoly nat unit unit tt m 0 = Table_Model.Ok h /\
  contains _ _ _ holed (1 # 2, 1 # 2) = Ok true.
Proof. do 2 eexists. split; [reflexivity|]. split; [reflexivity|vm_compute; reflexivity]. Qed.
(** A line that crosses a polygon on its closing side does not intersect the member. *)
Theorem C83_intersects_refuted : exists gs m g h l, of_polygons nat unit unit ["n"] [] gs Absent [] = Table_Model.Ok m /\
  nth_error gs 0 = Some g /\ getpoly nat unit unit tt m 0 = Table_Model.Ok h /\
  geom_intersects 100 (xys (gverts _ _ _ g)) (gring _ _ _ g) l false = Ret true /\
  geom_intersects 100 (xys (gverts _ _ _ h)) (gring _ _ _ h) l false = Ret false.
Proof.
  exists [holed; triangle]. do 2 eexists. eexists. exists pin. split; [reflexivity|]. split; [reflexivity|]. split; [reflexivity|]. split; vm_compute; reflexivity.
Qed.
Print Assumptions C83_intersects_refuted.
(** An island in a hole is lost, and with it its area. *)
Theorem C83_nested_refuted : exists gs m g h, of_polygons nat unit unit ["n"] [] gs Absent [] = Table_Model.Ok m /\
  nth_error gs 0 = Some g /\ getpoly nat unit unit tt m 0 = Table_Model.Ok h /\ has_size g 72%Q /\ has_size h 36%Q.
Proof. exists [island]. do 3 eexists. split; [reflexivity|]. split; [reflexivity|]. split; [reflexivity|]. split; eexists; split; vm_compute; reflexivity. Qed.
Print Assumptions C83_nested_refuted.

(** C84.  Merging lines and multilines: all the parts in order, without the third coordinate
    if not all of them have one, with their values of the fields and properties common to
    all. *)
Theorem C84_lines : forall (val D C : Type) (vnone : val) ord (xs : list (litem val D C)), Forall (lgood val D C) xs -> flat_map (lparts val D C) xs <> [] ->
  NoDup ord -> (forall k, In k ord <-> forall x, In x xs -> lhas val D C x k) ->
  exists r, merge_lines val D C vnone ord xs = Got r /\ one_record_each r /\
    (one_rank (flat_map (lparts val D C) xs) -> parts r = flat_map (lparts val D C) xs) /\
    (~ one_rank (flat_map (lparts val D C) xs) -> parts r = map plane (flat_map (lparts val D C) xs)) /\
    forall pre x post, xs = pre ++ x :: post -> forall i, i < length (lparts val D C x) ->
    exists q, getitem r (length (flat_map (lparts val D C) pre) + i) = Table_Model.Ok q /\ forall k,
      (In k ord -> lvalue val D C x i k (dict_get (mprops q) k)) /\ (~ In k ord -> dict_get (mprops q) k = None).
Proof. exact merge_lines_ok. Qed.
Print Assumptions C84_lines.
Definition two_lines : multi verts nat := mkMulti [V2 [(0, 0); (1, 1)]%Q; V2 [(2, 0); (3, 1)]%Q] (mkT ["n"; "w"] [[1; 5]; [2; 6]]) [] [].
Definition high_line := make_line (list (string * nat)) unit unit (V3 [(4, 0, 7); (5, 1, 8)]%Q) [("n", 3)] tt.
Example C84_lines_example : Forall (lgood nat unit unit) [LMulti _ _ _ two_lines; LLine _ _ _ high_line] /\
  (forall k, In k ["n"] <-> forall x, In x [LMulti nat unit unit two_lines; LLine _ _ _ high_line] -> lhas nat unit unit x k) /\
  exists r, merge_lines nat unit unit 0 ["n"] [LMulti _ _ _ two_lines; LLine _ _ _ high_line] = Got r /\
    getitem r 2 = Table_Model.Ok (mkM (V2 [(4, 0); (5, 1)]%Q) [("n", 3)]).
Proof.
  split; [|split].
  - constructor; [|constructor; [exact Logic.I|constructor]]. split; [reflexivity|]. split; [repeat constructor|]. split; [|reflexivity]. repeat constructor; cbn; intuition discriminate.
  - intros k. split.
    + intros [<-|[]] x [<-|[<-|[]]]; cbn; tauto.
    + intros H. specialize (H _ (or_intror (or_introl eq_refl))). exact H.
  - eexists. split; [reflexivity|vm_compute; reflexivity].
Qed.
(** Geometries of other types are passed over without a word. *)
Theorem C84_other_types : forall (val D C : Type) (vnone : val) ord (xs : list (litem val D C)),
  merge_lines val D C vnone ord xs = merge_lines val D C vnone ord (filter (fun x => match x with LOther _ _ _ => false | _ => true end) xs).
Proof. exact merge_lines_other. Qed.
Print Assumptions C84_other_types.
Example C84_other_example : exists r, merge_lines nat unit unit 0 ["n"; "w"] [LOther _ _ _; LMulti _ _ _ two_lines] = Got r /\ parts r = parts two_lines.
Proof. eexists. split; reflexivity. Qed.
(** Merging polygons and multipolygons of one rank, the multipolygons made of rings. *)
Theorem C84_polygons_partial : forall (val D C : Type) (vnone : val) ord (xs : list (pitem val D C)) ls,
  Forall (pgood val D C) xs -> Forall2 (pparts val D C) xs ls -> concat (concat ls) <> [] -> one_rank (concat (concat ls)) ->
  NoDup ord -> (forall k, In k ord <-> forall x, In x xs -> phas val D C x k) ->
  exists r, merge_polygons val D C vnone ord xs = Got r /\ one_record_each r /\ parts r = map (map (Coords val D C)) (concat ls) /\
    forall j x l, nth_error xs j = Some x -> nth_error ls j = Some l -> forall i, i < length l ->
    exists q, getitem r (length (concat (firstn j ls)) + i) = Table_Model.Ok q /\ forall k,
      (In k ord -> pvalue val D C x i k (dict_get (mprops q) k)) /\ (~ In k ord -> dict_get (mprops q) k = None).
Proof. exact merge_polygons_ok. Qed.
Print Assumptions C84_polygons_partial.
Definition two_rings : mpoly nat unit unit := mkMulti [[Coords _ _ _ (box 0 4); Coords _ _ _ (box 1 3)]; [Coords _ _ _ (box 5 6)]] (mkT ["n"] [[1]; [2]]) [] [].
Example C84_polygons_example : Forall (pgood nat unit unit) [PMulti _ _ _ two_rings; PPoly _ _ _ holed] /\
  Forall2 (pparts nat unit unit) [PMulti _ _ _ two_rings; PPoly _ _ _ holed] [[[box 0 4; box 1 3]; [box 5 6]]; [[box 0 4; box 1 3]]] /\
  one_rank (concat (concat [[[box 0 4; box 1 3]; [box 5 6]]; [[box 0 4; box 1 3]]])) /\
  (forall k, In k ["n"] <-> forall x, In x [PMulti _ _ _ two_rings; PPoly _ _ _ holed] -> phas nat unit unit x k).
Proof.
  split; [|split; [|split]].
  - constructor; [|constructor; [exact Logic.I|constructor]]. split; [reflexivity|]. split; [repeat constructor|]. split; [|reflexivity]. repeat constructor; intros [].
  - constructor; [reflexivity|]. constructor; [reflexivity|constructor].
  - left. intros v I. cbn in I. repeat (destruct I as [<-|I]; [eexists; reflexivity|]). destruct I.
  - intros k. split; [intros [<-|[]] x [<-|[<-|[]]]; cbn; tauto|]. intros H. exact (H _ (or_introl eq_refl)).
Qed.
(** Polygons of different ranks cannot be merged: NameError. *)
Theorem C84_mixed_refuted : forall (val D C : Type) (vnone : val) ord (xs : list (pitem val D C)) ls,
  Forall2 (pparts val D C) xs ls -> concat (concat ls) <> [] -> ~ one_rank (concat (concat ls)) -> merge_polygons val D C vnone ord xs = Raised NameError.
Proof. exact merge_polygons_mixed. Qed.
Print Assumptions C84_mixed_refuted.
Example C84_mixed_example : merge_polygons nat unit unit 0 ["n"] [PPoly _ _ _ triangle; PPoly _ _ _ three_d] = Raised NameError.
Proof. reflexivity. Qed.
(** A multipolygon made of polygons one of which has a hole has no vertices and cannot be
    merged: AttributeError. *)
Theorem C84_holes_refuted : forall (val D C : Type) (vnone : val) ord (xs : list (pitem val D C)) m p g,
  In (PMulti val D C m) xs -> In p (parts m) -> In (Poly val D C g) p ->
  mvertices val D C m = Raised AttributeError /\ merge_polygons val D C vnone ord xs = Raised AttributeError.
Proof. exact merge_polygons_holes. Qed.
Print Assumptions C84_holes_refuted.
Example C84_holes_example : exists m p g, of_polygons nat unit unit ["n"] [] [holed; triangle] Absent [] = Table_Model.Ok m /\ In p (parts m) /\ In (Poly nat unit unit g) p.
Proof. do 3 eexists. split; [reflexivity|]. split; [left; reflexivity|right; left; reflexivity]. Qed.

(** C85.  An affine transformation moves every vertex of every line and keeps the values of
    every line. *)
Theorem C85_lines : forall (val D C : Type) (vnone : val) ord ords c (m : multi verts val) M N, one_record_each m -> complete M = Ok N ->
  (forall v, In v (parts m) -> xys v <> []) -> set_order ord (fields (tbl m) ++ map fst (props m)) -> set_order ords (fields (tbl m)) ->
  exists r, transform_lines val D C ord ords c m M = Got r /\ one_record_each r /\ parts r = map (moved N) (parts m) /\ props r = props m /\
    forall i p, getitem m i = Table_Model.Ok p -> exists q, getitem r i = Table_Model.Ok q /\ mpart q = moved N (mpart p) /\ same_entries (mprops p) (mprops q).
Proof. exact transform_lines_ok. Qed.
Print Assumptions C85_lines.
Definition tagged : multi verts nat := mkMulti (parts two_lines) (tbl two_lines) [("c", 9)] [].
Definition east : matrix := M23 1 0 10 0 1 0.
Example C85_lines_example : one_record_each tagged /\ complete east = Ok (M34 1 0 0 10 0 1 0 0 0 0 1 0) /\
  set_order ["c"; "w"; "n"] (fields (tbl tagged) ++ map fst (props tagged)).
Proof.
  split; [|split; [reflexivity|]].
  - split; [reflexivity|]. split; [repeat constructor|]. split; [|reflexivity]. repeat constructor; cbn; intuition discriminate.
  - split; [repeat constructor; cbn; intuition discriminate|]. intros f. cbn. tauto.
Qed.
(** Of polygons, the outlines. *)
Theorem C85_polygons_partial : forall (val D C : Type) (vnone : val) ord ords c (m : mpoly val D C) M N, one_record_each m -> complete M = Ok N ->
  (forall i h, i < length (parts m) -> getpoly val D C c m i = Table_Model.Ok h -> xys (gverts _ _ _ h) <> []) -> (forall p, In p (parts m) -> p <> []) ->
  set_order ord (fields (tbl m) ++ map fst (props m)) -> set_order ords (fields (tbl m)) ->
  exists r, transform_polygons val D C ord ords c m M = Got r /\ one_record_each r /\ length (parts r) = length (parts m) /\ props r = props m /\
    forall i h, getpoly val D C c m i = Table_Model.Ok h -> exists h', getpoly val D C c r i = Table_Model.Ok h' /\
      gverts _ _ _ h' = moved N (gverts _ _ _ h) /\ gsubs _ _ _ h' = [] /\ same_entries (gprops _ _ _ h) (gprops _ _ _ h').
Proof. exact transform_polygons_ok. Qed.
Print Assumptions C85_polygons_partial.
Example C85_polygons_example : one_record_each two_rings /\ (forall p, In p (parts two_rings) -> p <> []) /\
  forall i h, i < 2 -> getpoly nat unit unit tt two_rings i = Table_Model.Ok h -> xys (gverts _ _ _ h) <> [].
Proof.
  split; [split; [reflexivity|split; [repeat constructor|split; [repeat constructor; intros []|reflexivity]]]|]. split; [intros p [<-|[<-|[]]]; discriminate|].
  intros [|[|i]] h L E; [| |lia]; injection E as <-; discriminate.
Qed.
(** The holes are lost: the area grows although the transformation is a shift. *)
Theorem C85_holes_refuted : exists m M r h h', transform_polygons nat unit unit ["n"] ["n"] tt m M = Got r /\ M = M23 1 0 10 0 1 0 /\
  getpoly nat unit unit tt m 0 = Table_Model.Ok h /\ getpoly nat unit unit tt r 0 = Table_Model.Ok h' /\ has_size h 12%Q /\ has_size h' 16%Q.
Proof. exists two_rings, east. do 3 eexists. split; [reflexivity|]. split; [reflexivity|]. split; [reflexivity|]. split; [reflexivity|]. split; eexists; split; vm_compute; reflexivity. Qed.
Print Assumptions C85_holes_refuted.
(** The properties of the multiline become fields of its data. *)
Theorem C85_data_refuted : exists m M r, transform_lines nat unit unit ["n"; "w"; "c"] ["n"; "w"] tt m M = Got r /\ fields (tbl m) = ["n"; "w"] /\ fields (tbl r) = ["n"; "w"; "c"].
Proof. exists tagged, east. eexists. split; [reflexivity|]. split; reflexivity. Qed.
Print Assumptions C85_data_refuted.
