(** Property C106: what geometries have in common. *)
From Coq Require Import String.
From Coq Require Import List Arith Bool Lia.
From Verif Require Import Share_Model Share_Spec Share_Proofs Share2_Proofs.
Import ListNotations.
Open Scope string_scope.
Open Scope list_scope.
Open Scope nat_scope.

(** Values and coordinates as numbers (0 for None), sets iterated in order of insertion. *)
Definition history := list (op nat nat).
Definition keep (l : list string) : list string := l.
Definition after (os : history) : state nat nat := run 0 keep start os.

(** A line 0, its vertex 1, the line moved 2, its convex hull 3; a multipoint 4
    with data, the multipoint moved 5, its first point 6. *)
Definition tour : history :=
  [Make Line [[1; 2; 3]] (NewProps [("name", 7)]) NoData; Member 0 1; Move 0 (map S); Hull 0 (fun c => c);
   Make Multipoint [[10; 20]] NoProps (NewData (["a"; "b"], [[1; 2]; [3; 4]])); Move 4 (map S); Member 4 0].

(** C106.  In any history, a method that returns a geometry (or raises) changes
    nothing of the geometries that exist: class, coordinates, properties, data. *)
Theorem C106_methods : forall (V : Type) (none : V) (C : Type) order (os : list (op V C)) o j,
  let s := run none order start os in
  receiver o = None -> j < length (geoms s) ->
  look (fst (step none order s o)) j = look s j.
Proof. intros V none C order os o j s. exact (methods V none C order os o j). Qed.
Print Assumptions C106_methods.
Example C106_methods_not_vacuous :
  snd (step 0 keep (after tour) (Merge [0; 2])) = true /\
  look (fst (step 0 keep (after tour) (Merge [0; 2]))) 7 =
    Some (Multiline, [[1; 2; 3]; [2; 3; 4]], [], Some (["name"], [[7]; [7]])) /\
  look (after tour) 0 = Some (Line, [[1; 2; 3]], [("name", 7)], None) /\
  look (after tour) 5 = Some (Multipoint, [[11; 21]], [], Some (["a"; "b"], [[1; 2]; [3; 4]])).
Proof. vm_compute. auto. Qed.

(** C106.  The coordinates of a geometry change only by an assignment to it. *)
Theorem C106_coordinates : forall (V : Type) (none : V) (C : Type) order (os : list (op V C)) o j,
  let s := run none order start os in
  receiver o <> Some j -> j < length (geoms s) ->
  coords_at (fst (step none order s o)) j = coords_at s j.
Proof. intros V none C order os o j s. exact (coordinates V none C order os o j). Qed.
Print Assumptions C106_coordinates.
Example C106_coordinates_not_vacuous :
  coords_at (after tour) 4 = Some [[10; 20]] /\
  coords_at (fst (step 0 keep (after tour) (SetItem 4 1 1))) 4 = Some [[10; 2]] /\
  coords_at (fst (step 0 keep (after tour) (SetItem 4 1 1))) 5 = Some [[11; 21]].
Proof. vm_compute. auto. Qed.

(** C106.  g.properties[k] = v changes the properties of exactly the geometries of
    the same family, and in the same way. *)
Theorem C106_properties : forall (V : Type) (none : V) (C : Type) order (os : list (op V C)) i j k v,
  let s := run none order start os in let F := property_families none order os in
  i < length (geoms s) -> j < length (geoms s) ->
  props_at (fst (step none order s (SetProp i k v))) j =
  option_map (fun d => if nth i F 0 =? nth j F 0 then dset d k v else d) (props_at s j).
Proof. intros V none C order os i j k v. exact (properties_set V none C order os i j k v). Qed.
Print Assumptions C106_properties.
Example C106_properties_not_vacuous :
  property_families 0 keep tour = [0; 0; 0; 3; 4; 4; 6] /\
  map (props_at (fst (step 0 keep (after tour) (SetProp 1 "name" 9)))) [0; 1; 2; 3] =
    [Some [("name", 9)]; Some [("name", 9)]; Some [("name", 9)]; Some []].
Proof. vm_compute. auto. Qed.

(** C106.  Geometries of one family have the same properties throughout; those
    that hold one Table have the same data. *)
Theorem C106_in_common : forall (V : Type) (none : V) (C : Type) order (os : list (op V C)) i j,
  let s := run none order start os in i < length (geoms s) -> j < length (geoms s) ->
  (nth i (property_families none order os) 0 = nth j (property_families none order os) 0 -> props_at s i = props_at s j) /\
  (nth i (table_families none order os) 0 = nth j (table_families none order os) 0 -> data_at s i = data_at s j).
Proof. intros V none C order os i j. exact (in_common V none C order os i j). Qed.
Print Assumptions C106_in_common.
Example C106_in_common_not_vacuous :
  table_families 0 keep tour = [0; 1; 2; 3; 4; 4; 6] /\
  map (data_at (after (tour ++ [SetField 5 "c" [8; 9]; SetRow 4 0 [0; 0; 0]]))) [4; 5] =
  [Some (Some (["a"; "b"; "c"], [[0; 0; 0]; [3; 4; 9]])); Some (Some (["a"; "b"; "c"], [[0; 0; 0]; [3; 4; 9]]))].
Proof. vm_compute. auto. Qed.

(** C106.  An assignment to one geometry changes the data only of geometries of
    its family of data.  Not said: which of the assignments a geometry made with
    data=Table(g.data) has in common with [g]; see the last findings. *)
Theorem C106_data_partial : forall (V : Type) (none : V) (C : Type) order (os : list (op V C)) o i j,
  let s := run none order start os in let G := data_families none order os in
  receiver o = Some i -> j <> i -> nth i G 0 <> nth j G 0 ->
  data_at (fst (step none order s o)) j = data_at s j.
Proof. intros V none C order os o i j. exact (data_kept V none C order os o i j). Qed.
Print Assumptions C106_data_partial.
Example C106_data_not_vacuous :
  let os := tour ++ [Subset 4 [0; 1]] in
  data_families 0 keep os = [0; 1; 2; 3; 4; 4; 6; 7] /\
  map (data_at (fst (step 0 keep (after os) (DelRow 7 0)))) [4; 5; 7] =
  [Some (Some (["a"; "b"], [[1; 2]; [3; 4]])); Some (Some (["a"; "b"], [[1; 2]; [3; 4]])); Some (Some (["a"; "b"], [[3; 4]]))].
Proof. vm_compute. auto. Qed.

(** C106.  Geometries of different families do not see each other's assignments. *)
Theorem C106_independent : forall (V : Type) (none : V) (C : Type) order (os : list (op V C)) o i j,
  let s := run none order start os in
  receiver o = Some i -> j <> i ->
  nth i (property_families none order os) 0 <> nth j (property_families none order os) 0 ->
  nth i (data_families none order os) 0 <> nth j (data_families none order os) 0 ->
  look (fst (step none order s o)) j = look s j.
Proof. intros V none C order os o i j. exact (independent V none C order os o i j). Qed.
Print Assumptions C106_independent.
Example C106_independent_not_vacuous :
  receiver (SetProp (V := nat) (C := nat) 6 "a" 5) = Some 6 /\
  look (fst (step 0 keep (after tour) (SetProp 6 "a" 5))) 6 = Some (Point, [[10]], [("a", 5); ("b", 2)], None) /\
  look (fst (step 0 keep (after tour) (SetProp 6 "a" 5))) 4 = look (after tour) 4.
Proof. vm_compute. auto. Qed.

(** C106.  Members of multiparts, convex hulls, merged geometries, collections and
    geometries made of literals are copies: an assignment to the new geometry is
    not seen in the older ones, and one to an older geometry not in the new one. *)
Theorem C106_copies : forall (V : Type) (none : V) (C : Type) order (os : list (op V C)) o u i j,
  let s := run none order start os in let n := length (geoms s) in
  let s1 := fst (step none order s o) in
  n < length (geoms s1) ->
  match o with
  | Make _ _ NoProps (NoData | NewData _) | Make _ _ (NewProps _) (NoData | NewData _) => True
  | Member m _ => exists k, kind_at s m = Some k /\ multi k = true
  | Hull _ _ | Merge _ | Collect _ NoProps | Collect _ (NewProps _) => True
  | _ => False
  end ->
  receiver u = Some i -> (i = n /\ j < n) \/ (i < n /\ j = n) ->
  look (fst (step none order s1 u)) j = look s1 j.
Proof.
  intros V none C order os o u i j s n s1 L K. apply (copies V none C order os o u i j L).
  - fold s. destruct o as [k cs [| |] [| | |] | | | m x | | | | | is [| |] | | | | | | | | | ]; try contradiction; try reflexivity.
    destruct K as (k & E & M). cbn. rewrite E, M. reflexivity.
  - fold s. destruct o as [k cs [| |] [| | |] | | | m x | | | | | is [| |] | | | | | | | | | ]; try contradiction; reflexivity.
Qed.
Print Assumptions C106_copies.
Example C106_copies_not_vacuous :
  let s := after tour in let s1 := fst (step 0 keep s (Member 5 1)) in
  length (geoms s) = 7 /\ length (geoms s1) = 8 /\ kind_at s 5 = Some Multipoint /\
  look s1 7 = Some (Point, [[21]], [("a", 3); ("b", 4)], None) /\
  look (fst (step 0 keep s1 (SetField 5 "a" [0; 0]))) 7 = look s1 7.
Proof. vm_compute. auto. Qed.

(** C106.  The family of a geometry is settled when it is made. *)
Theorem C106_settled : forall (V : Type) (none : V) (C : Type) order (os os' : list (op V C)) i,
  i < length (geoms (run none order start os)) ->
  nth i (property_families none order (os ++ os')) 0 = nth i (property_families none order os) 0 /\
  nth i (data_families none order (os ++ os')) 0 = nth i (data_families none order os) 0.
Proof. intros V none C order os os' i. exact (stable V none C order os os' i). Qed.
Print Assumptions C106_settled.
Example C106_settled_not_vacuous :
  property_families 0 keep (firstn 2 tour) = [0; 0] /\ length (geoms (after (firstn 2 tour))) = 2.
Proof. vm_compute. auto. Qed.

(** C106.  What an assignment to the data of a geometry does, to it and to every
    geometry that holds the same Table: g.data[k] = r puts r in the place of the row
    k, del g.data[k] leaves that row out, and setfield with a new name appends a
    value to each row.  They raise, and change nothing there, for a row that does
    not exist and for another number of values. *)
Theorem C106_rows : forall (V : Type) (none : V) (C : Type) order (os : list (op V C)) i j fs rs,
  let s := run none order start os in let T := table_families none order os in
  nth i T 0 = nth j T 0 -> j < length (geoms s) -> data_at s i = Some (Some (fs, rs)) ->
  (forall k r, snd (step none order s (SetRow i k r)) = (k <? length rs) /\
     (k < length rs ->
      data_at (fst (step none order s (SetRow i k r))) j = Some (Some (fs, firstn k rs ++ r :: skipn (S k) rs)))) /\
  (forall k, snd (step none order s (DelRow i k)) = (k <? length rs) /\
     (k < length rs ->
      data_at (fst (step none order s (DelRow i k))) j = Some (Some (fs, firstn k rs ++ skipn (S k) rs)))) /\
  (forall f vs, rs <> [] -> ~ In f fs ->
     snd (step none order s (SetField i f vs)) = (length vs =? length rs) /\
     (length vs = length rs ->
      data_at (fst (step none order s (SetField i f vs))) j =
      Some (Some (fs ++ [f], map (fun rv => fst rv ++ [snd rv]) (combine rs vs))))).
Proof. intros V none C order os i j fs rs. exact (rows_own V none C order os i j fs rs). Qed.
Print Assumptions C106_rows.
Example C106_rows_not_vacuous :
  data_at (after tour) 4 = Some (Some (["a"; "b"], [[1; 2]; [3; 4]])) /\
  nth 4 (table_families 0 keep tour) 0 = nth 5 (table_families 0 keep tour) 0 /\
  data_at (fst (step 0 keep (after tour) (SetRow 4 1 [8; 9]))) 5 = Some (Some (["a"; "b"], [[1; 2]; [8; 9]])) /\
  data_at (fst (step 0 keep (after tour) (DelRow 4 0))) 5 = Some (Some (["a"; "b"], [[3; 4]])) /\
  data_at (fst (step 0 keep (after tour) (SetField 4 "c" [8; 9]))) 5 = Some (Some (["a"; "b"; "c"], [[1; 2; 8]; [3; 4; 9]])).
Proof. vm_compute. auto 10. Qed.

(** C106.  What an assignment to the vertices of a geometry does to it: m[k] = point
    and m[k] = (x, y) replace the vertex k of a multipoint and no other, and
    g.extend(h) appends the vertices of the line h to those of the line g, also
    when they are the same line. *)
Theorem C106_vertices : forall (V : Type) (none : V) (C : Type) order (os : list (op V C)) i cs,
  let s := run none order start os in
  coords_at s i = Some [cs] ->
  (kind_at s i = Some Multipoint ->
   (forall k j c, kind_at s j = Some Point -> coords_at s j = Some [[c]] -> k < length cs ->
      coords_at (fst (step none order s (SetItem i k j))) i = Some [firstn k cs ++ c :: skipn (S k) cs]) /\
   (forall k c, k < length cs ->
      coords_at (fst (step none order s (SetCoord i k c))) i = Some [firstn k cs ++ c :: skipn (S k) cs])) /\
  (kind_at s i = Some Line -> forall j cs', kind_at s j = Some Line -> coords_at s j = Some [cs'] ->
      snd (step none order s (ExtendLine i j)) = true /\
      coords_at (fst (step none order s (ExtendLine i j))) i = Some [cs ++ cs']).
Proof. intros V none C order os i cs. exact (vertices_own V none C order os i cs). Qed.
Print Assumptions C106_vertices.
Example C106_vertices_not_vacuous :
  coords_at (after tour) 4 = Some [[10; 20]] /\ kind_at (after tour) 4 = Some Multipoint /\
  kind_at (after tour) 1 = Some Point /\ coords_at (after tour) 1 = Some [[2]] /\
  kind_at (after tour) 0 = Some Line /\ coords_at (after tour) 0 = Some [[1; 2; 3]] /\
  coords_at (fst (step 0 keep (after tour) (SetItem 4 1 1))) 4 = Some [[10; 2]] /\
  coords_at (fst (step 0 keep (after tour) (SetCoord 4 0 7))) 4 = Some [[7; 20]] /\
  coords_at (fst (step 0 keep (after tour) (ExtendLine 0 0))) 0 = Some [[1; 2; 3; 1; 2; 3]].
Proof. vm_compute. auto 20. Qed.

(** Finding: a moved multipoint is not a copy.  After m2 = m.shift(v), the
    assignment m2[0] = point gives m2 the new vertex, and replaces the data of
    the first point of m, whose vertex stays. *)
Theorem C106_moved_refuted : exists (os : history) o,
  receiver o = Some 2 /\ snd (step 0 keep (after os) o) = true /\
  look (after os) 0 = Some (Multipoint, [[10; 20]], [], Some (["a"], [[1]; [2]])) /\
  look (fst (step 0 keep (after os) o)) 0 = Some (Multipoint, [[10; 20]], [], Some (["a"], [[9]; [2]])) /\
  look (fst (step 0 keep (after os) o)) 2 = Some (Multipoint, [[30; 21]], [], Some (["a"], [[9]; [2]])).
Proof.
  exists [Make Multipoint [[10; 20]] NoProps (NewData (["a"], [[1]; [2]])); Make Point [[30]] (NewProps [("a", 9)]) NoData; Move 0 (map S)].
  exists (SetItem 2 0 1). vm_compute. auto.
Qed.
Print Assumptions C106_moved_refuted.

(** Finding: naming one vertex of a line names the line and all its vertices
    (line[0].properties is line.properties), while the points of a multipoint
    have properties of their own. *)
Theorem C106_vertex_refuted : exists (os os' : history) o,
  snd (step 0 keep (after os) o) = true /\ snd (step 0 keep (after os') o) = true /\ receiver o = Some 1 /\
  kind_at (after os) 0 = Some Line /\ kind_at (after os) 1 = Some Point /\
  kind_at (after os') 0 = Some Multipoint /\ kind_at (after os') 1 = Some Point /\
  props_at (after os) 0 = Some [] /\ props_at (after os') 0 = Some [] /\
  props_at (fst (step 0 keep (after os) o)) 0 = Some [("name", 5)] /\
  props_at (fst (step 0 keep (after os') o)) 0 = Some [].
Proof.
  exists [Make Line [[1; 2]] NoProps NoData; Member 0 0], [Make Multipoint [[1; 2]] NoProps NoData; Member 0 0], (SetProp 1 "name" 5).
  vm_compute. auto 20.
Qed.
Print Assumptions C106_vertex_refuted.

(** Finding: Table(t) is not a copy of [t].  Deleting a row of it deletes the row
    of the other geometry, which then has a point more than it has rows, and
    raises when that point is asked for. *)
Theorem C106_table_refuted : exists (os : history) o,
  receiver o = Some 1 /\ snd (step 0 keep (after os) o) = true /\
  snd (step 0 keep (after os) (Member 0 1)) = true /\
  snd (step 0 keep (fst (step 0 keep (after os) o)) (Member 0 1)) = false /\
  look (fst (step 0 keep (after os) o)) 0 = Some (Multipoint, [[10; 20]], [], Some (["a"], [[2]])).
Proof.
  exists [Make Multipoint [[10; 20]] NoProps (NewData (["a"], [[1]; [2]])); Make Multipoint [[30; 40]] NoProps (TableOf 0)], (DelRow 1 0).
  vm_compute. auto 20.
Qed.
Print Assumptions C106_table_refuted.

(** Finding: and it does not stay the same table either.  After a field is set,
    the two no longer have rows in common. *)
Theorem C106_table_parts_refuted : exists (os : history) o u,
  data_at (after os) 0 = data_at (after os) 1 /\ receiver o = Some 1 /\ receiver u = Some 1 /\
  data_at (fst (step 0 keep (after os) u)) 0 = data_at (fst (step 0 keep (after os) u)) 1 /\
  data_at (after (os ++ [o])) 0 = data_at (after os) 0 /\
  data_at (fst (step 0 keep (after (os ++ [o])) u)) 0 = data_at (after os) 0 /\
  data_at (fst (step 0 keep (after (os ++ [o])) u)) 1 <> data_at (after (os ++ [o])) 1.
Proof.
  exists [Make Multipoint [[10; 20]] NoProps (NewData (["a"], [[1]; [2]])); Make Multipoint [[30; 40]] NoProps (TableOf 0)],
    (SetField 1 "a" [5; 6]), (SetRow 1 0 [7]).
  vm_compute. repeat (split; [reflexivity |]). discriminate.
Qed.
Print Assumptions C106_table_parts_refuted.

(** Finding: m[k] = point raises when the row is missing, and has moved the
    vertex then. *)
Theorem C106_half_refuted : exists (os : history) o,
  snd (step 0 keep (after os) o) = false /\
  coords_at (after os) 0 = Some [[10; 20]] /\ coords_at (fst (step 0 keep (after os) o)) 0 = Some [[10; 30]].
Proof.
  exists [Make Multipoint [[10; 20]] NoProps (NewData (["a"], [[1]; [2]])); Make Point [[30]] NoProps NoData; DelRow 0 0], (SetItem 0 1 1).
  vm_compute. auto 20.
Qed.
Print Assumptions C106_half_refuted.
