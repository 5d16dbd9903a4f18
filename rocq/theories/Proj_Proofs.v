(** Proofs about coordinates in other systems. *)
From Coq Require Import List QArith Bool.
From Verif Require Geom_Model.
From Verif Require Import Proj_Model Proj_Spec.
Import ListNotations.

Lemma each_ok : forall {A B} (f : A -> outcome B) l m, each f l = Ok m -> Forall2 (fun x y => f x = Ok y) l m.
Proof.
  induction l as [|x l IH]; intros m E; cbn [each] in E.
  - injection E as <-. constructor.
  - destruct (f x) as [y|e] eqn:F; cbn [andthen] in E; [|discriminate].
    destruct (each f l) as [ys|e] eqn:G; cbn [andthen] in E; [|discriminate].
    injection E as <-. constructor; [exact F | apply IH; reflexivity].
Qed.
Lemma each_total : forall {A B} (f : A -> outcome B) l, (forall x, In x l -> exists y, f x = Ok y) -> exists m, each f l = Ok m.
Proof.
  induction l as [|x l IH]; intros H; cbn [each].
  - exists []. reflexivity.
  - destruct (H x (or_introl eq_refl)) as [y F]. rewrite F. cbn [andthen].
    destruct IH as [ys G]; [intros z Z; apply H; right; exact Z|]. rewrite G. exists (y :: ys). reflexivity.
Qed.
Lemma string2_ok : forall l u, string2 l = Some u -> map xy l = u /\ Forall flat_point l.
Proof.
  induction l as [|[x y|x y z] l IH]; intros u E; cbn [string2] in E.
  - injection E as <-. split; constructor.
  - destruct (string2 l) as [w|]; [|discriminate]. cbn [option_map] in E. injection E as <-.
    destruct (IH _ eq_refl) as [H1 H2]. split; [cbn [map xy]; rewrite H1; reflexivity | constructor; [exact I | exact H2]].
  - discriminate.
Qed.
Lemma string2_total : forall l, Forall flat_point l -> exists u, string2 l = Some u.
Proof.
  induction 1 as [|[x y|x y z] l F _ IH]; cbn [string2].
  - exists []. reflexivity.
  - destruct IH as [u ->]. exists ((x, y) :: u). reflexivity.
  - destruct F.
Qed.
Lemma string3_ok : forall l u, string3 l = Some u -> map xy l = map fst u.
Proof.
  induction l as [|[x y|x y z] l IH]; intros u E; cbn [string3] in E.
  - injection E as <-. reflexivity.
  - discriminate.
  - destruct (string3 l) as [w|]; [|discriminate]. cbn [option_map] in E. injection E as <-.
    cbn [map xy fst]. rewrite (IH _ eq_refl). reflexivity.
Qed.
Lemma string_ok : forall l v, string l = Ok v -> Geom_Model.xys v = map xy l.
Proof.
  intros l v E. unfold string in E. destruct (string2 l) as [u|] eqn:E2.
  - injection E as <-. cbn [Geom_Model.xys]. symmetry. apply (string2_ok _ _ E2).
  - destruct (string3 l) as [u|] eqn:E3; [|discriminate]. injection E as <-. cbn [Geom_Model.xys].
    symmetry. apply string3_ok. exact E3.
Qed.
Lemma string_total : forall l, Forall flat_point l -> exists v, string l = Ok v.
Proof. intros l F. destruct (string2_total l F) as [u E]. exists (Geom_Model.V2 u). unfold string. rewrite E. reflexivity. Qed.

Lemma line_of_ok : forall {C W} (place : C -> Q * Q -> W) p pts crs, asked (snd p) crs = snd p ->
  (forall q, In q (p :: pts) -> snd q = snd p /\ flat_point (fst q)) ->
  exists v, line_of_points C (p :: pts) crs = Ok (v, snd p) /\
    places place (snd p) v = map (point_place place) (p :: pts).
Proof.
  intros C W place [q0 c0] pts crs A H. cbn [snd] in A, H |- *. unfold line_of_points.
  change (match crs with Some c => c | None => c0 end) with (asked c0 crs). rewrite A.
  destruct (string_total (map fst ((q0, c0) :: pts))) as [v E].
  { apply Forall_forall. intros z Z. apply in_map_iff in Z. destruct Z as [q [<- I]]. apply (H q I). }
  rewrite E. cbn [andthen]. exists v. split; [reflexivity|]. unfold places. rewrite (string_ok _ _ E), !map_map.
  apply map_ext_in. intros q I. unfold point_place. rewrite (proj1 (H q I)). reflexivity.
Qed.

Section Places.
Context {C W : Type} (place : C -> Q * Q -> W) (is_same eqb : C -> C -> bool)
  (transform : C -> C -> outcome (Q * Q -> Q * Q)).
Hypothesis Fa : faithful place is_same eqb transform.

Lemma moved_places : forall c d f l, transform c d = Ok f -> map (place d) (map f l) = map (place c) l.
Proof.
  intros c d f l T. rewrite map_map. apply map_ext. intros p. apply (f_transform _ _ _ _ Fa _ _ _ T).
Qed.
Lemma equal_places : forall c d l, eqb c d = true -> map (place c) l = map (place d) l.
Proof. intros c d l E. apply map_ext. apply (f_equal_places _ _ _ _ Fa _ _ E). Qed.

Lemma vertex_place : forall p own crs q, vertex C eqb transform p own crs = Ok q ->
  place (asked own crs) (xy q) = place own (xy p).
Proof.
  intros p own crs q E. destruct crs as [c|]; cbn [asked].
  - unfold vertex in E. destruct (eqb c own) eqn:Eq.
    + injection E as <-. apply (f_equal_places _ _ _ _ Fa _ _ Eq).
    + destruct (transform own c) as [f|e] eqn:T; cbn [andthen] in E; [|discriminate].
      rewrite <- (f_transform _ _ _ _ Fa _ _ _ T). destruct (f (xy p)) as [x y]. injection E as <-. reflexivity.
  - injection E as <-. reflexivity.
Qed.
Lemma vertex_total : forall p own crs, reachable eqb transform own crs -> exists q, vertex C eqb transform p own crs = Ok q.
Proof.
  intros p own [c|] H; [|exists p; reflexivity]. unfold vertex. destruct (eqb c own) eqn:Eq; [exists p; reflexivity|].
  destruct H as [H|[f H]]; [congruence|]. rewrite H. cbn [andthen]. destruct (f (xy p)) as [x y]. eexists. reflexivity.
Qed.
Lemma vertex_flat : forall p own crs q, flat_point p -> vertex C eqb transform p own crs = Ok q -> flat_point q.
Proof.
  intros p own [c|] q F E; unfold vertex in E; [|injection E as <-; exact F].
  destruct (eqb c own); [injection E as <-; exact F|].
  destruct (transform own c) as [f|e]; cbn [andthen] in E; [|discriminate]. destruct (f (xy p)) as [x y]. injection E as <-. exact Logic.I.
Qed.

Lemma point_ok : forall p own crs, reachable eqb transform own crs ->
  exists q, vertex C eqb transform p own crs = Ok q /\ place (asked own crs) (xy q) = place own (xy p) /\
    (crs = None \/ crs = Some own /\ eqb own own = true -> q = p).
Proof.
  intros p own crs H. destruct (vertex_total p own crs H) as [q E]. exists q. split; [exact E|].
  split; [apply (vertex_place _ _ _ _ E)|]. intros [-> | [-> O]]; cbn [vertex] in E; [|rewrite O in E]; injection E as <-; reflexivity.
Qed.

Lemma combine_fst_snd : forall {A B} (l : list (A * B)), combine (map fst l) (map snd l) = l.
Proof. induction l as [|[a b] l IH]; [reflexivity | cbn [map combine fst snd]; rewrite IH; reflexivity]. Qed.

Lemma coords_ok : forall v own crs, reachable eqb transform own crs ->
  exists xs ys, coords C eqb transform v own crs = Ok (xs, ys) /\ length xs = length ys /\
    map (place (asked own crs)) (combine xs ys) = places place own v.
Proof.
  intros v own crs H. unfold places. set (l := Geom_Model.xys v).
  assert (D : forall m : list (Q * Q), length (map fst m) = length (map snd m)) by (intros m; rewrite !map_length; reflexivity).
  destruct crs as [c|]; unfold coords; fold l; cbn [asked].
  - destruct (eqb c own) eqn:Eq; cbn [negb].
    + exists (map fst l), (map snd l). split; [reflexivity|]. split; [apply D|]. rewrite combine_fst_snd. apply equal_places. exact Eq.
    + destruct H as [H|[f H]]; [congruence|]. rewrite H. cbn [andthen].
      exists (map fst (map f l)), (map snd (map f l)). split; [reflexivity|]. split; [apply D|].
      rewrite combine_fst_snd. apply moved_places. exact H.
  - exists (map fst l), (map snd l). split; [reflexivity|]. split; [apply D|]. rewrite combine_fst_snd. reflexivity.
Qed.

Lemma vertices_places : forall v own crs dz u, vertices C is_same transform v own crs dz = Ok u ->
  places place (asked own crs) u = places place own v.
Proof.
  intros v own crs dz u E. unfold places. unfold vertices in E.
  set (w := if dz then Geom_Model.V2 (Geom_Model.xys v) else v) in E.
  assert (Wx : Geom_Model.xys w = Geom_Model.xys v) by (unfold w; destruct dz; reflexivity).
  destruct crs as [c|]; cbn [asked].
  - destruct (is_same c own) eqn:S.
    + injection E as <-. rewrite Wx. apply equal_places. apply (f_identical _ _ _ _ Fa). exact S.
    + destruct (transform own c) as [f|e] eqn:T; cbn [andthen] in E; [|discriminate].
      destruct w as [l|l]; [|discriminate]. injection E as <-. cbn [Geom_Model.xys] in Wx |- *. rewrite <- Wx.
      apply moved_places. exact T.
  - injection E as <-. rewrite Wx. reflexivity.
Qed.
Lemma vertices_total : forall v own crs dz, reachable is_same transform own crs -> flat v \/ dz = true \/ crs = None ->
  exists u, vertices C is_same transform v own crs dz = Ok u.
Proof.
  intros v own crs dz H F. unfold vertices.
  destruct crs as [c|]; [|eexists; reflexivity].
  destruct (is_same c own) eqn:S; [eexists; reflexivity|].
  destruct H as [H|[f H]]; [congruence|]. rewrite H. cbn [andthen].
  destruct dz; [eexists; reflexivity|]. destruct v as [l|l]; [eexists; reflexivity|].
  destruct F as [F|[F|F]]; [destruct F | discriminate | discriminate].
Qed.
Lemma vertices_ok : forall v own crs dz, reachable is_same transform own crs -> flat v \/ dz = true \/ crs = None ->
  exists u, vertices C is_same transform v own crs dz = Ok u /\ places place (asked own crs) u = places place own v /\
    (crs = None \/ crs = Some own /\ is_same own own = true -> dz = false -> u = v).
Proof.
  intros v own crs dz H F. destruct (vertices_total v own crs dz H F) as [u E]. exists u. split; [exact E|].
  split; [apply (vertices_places _ _ _ _ _ E)|]. intros [-> | [-> O]] ->; cbn [vertices] in E; [|rewrite O in E]; injection E as <-; reflexivity.
Qed.

Lemma part_ok : forall c own f l, transform own c = Ok f ->
  each (fun p => andthen (transform own c) (fun f => Ok (f p))) l = Ok (map f l).
Proof.
  intros c own f l T. induction l as [|p l IH]; [reflexivity|]. cbn [each map]. rewrite IH, T. reflexivity.
Qed.
Lemma parts_ok : forall c own f parts, transform own c = Ok f ->
  each (fun v => andthen (each (fun p => andthen (transform own c) (fun f => Ok (f p))) (Geom_Model.xys v))
                         (fun l => Ok (Geom_Model.V2 l))) parts = Ok (map (fun v => Geom_Model.V2 (map f (Geom_Model.xys v))) parts).
Proof.
  intros c own f parts T. induction parts as [|v parts IH]; [reflexivity|]. cbn [each map]. rewrite (part_ok _ _ _ _ T). cbn [andthen].
  rewrite IH. reflexivity.
Qed.
Lemma multiline_ok : forall parts own crs, reachable eqb transform own crs ->
  exists us, multiline_vertices C eqb transform parts own crs = Ok us /\
    map (places place (asked own crs)) us = map (places place own) parts.
Proof.
  intros parts own [c|] H; cbn [asked]; [|exists parts; split; reflexivity].
  unfold multiline_vertices. destruct (eqb c own) eqn:Eq.
  - exists parts. split; [reflexivity|]. apply map_ext. intros v. apply equal_places. exact Eq.
  - destruct H as [H|[f H]]; [congruence|]. rewrite (parts_ok _ _ _ _ H). eexists. split; [reflexivity|].
    rewrite map_map. apply map_ext. intros v. unfold places. cbn [Geom_Model.xys]. apply moved_places. exact H.
Qed.
Lemma multipolygon_ok : forall polys own crs, reachable eqb transform own crs ->
  exists us, multipolygon_vertices C eqb transform polys own crs = Ok us /\
    map (map (places place (asked own crs))) us = map (map (places place own)) polys.
Proof.
  intros polys own [c|] H; cbn [asked]; [|exists polys; split; reflexivity].
  unfold multipolygon_vertices. destruct (eqb c own) eqn:Eq.
  - exists polys. split; [reflexivity|]. apply map_ext. intros l. apply map_ext. intros v. apply equal_places. exact Eq.
  - induction polys as [|p polys IH]; [exists []; split; reflexivity|].
    destruct (multiline_ok p own (Some c) H) as [u [E1 E2]]. destruct IH as [us [I1 I2]]. cbn [each]. rewrite E1. cbn [andthen]. rewrite I1.
    exists (u :: us). split; [reflexivity|]. cbn [map]. rewrite I2. cbn [asked] in E2. rewrite E2. reflexivity.
Qed.
Lemma transposed_places : forall c v, map (place c) (combine (nth 0 (transposed v) []) (nth 1 (transposed v) [])) = places place c v.
Proof.
  intros c [l|l]; unfold places; cbn [transposed nth Geom_Model.xys].
  - rewrite combine_fst_snd. reflexivity.
  - rewrite <- (map_map fst fst), <- (map_map fst snd). rewrite combine_fst_snd. reflexivity.
Qed.
Lemma multiline_coords_ok : forall parts own crs, reachable eqb transform own crs ->
  exists us, multiline_coords C eqb transform parts own crs = Ok us /\
    map (fun t => map (place (asked own crs)) (combine (nth 0 t []) (nth 1 t []))) us = map (places place own) parts.
Proof.
  intros parts own crs H. destruct (multiline_ok parts own crs H) as [us [E1 E2]]. unfold multiline_coords. rewrite E1. cbn [andthen].
  eexists. split; [reflexivity|]. rewrite map_map. rewrite <- E2. apply map_ext. intros v. apply transposed_places.
Qed.
Lemma multipolygon_coords_ok : forall polys own crs, reachable eqb transform own crs ->
  exists us, multipolygon_coords C eqb transform polys own crs = Ok us /\
    map (map (fun t => map (place (asked own crs)) (combine (nth 0 t []) (nth 1 t [])))) us = map (map (places place own)) polys.
Proof.
  intros polys own crs H. destruct (multipolygon_ok polys own crs H) as [us [E1 E2]]. unfold multipolygon_coords. rewrite E1. cbn [andthen].
  eexists. split; [reflexivity|]. rewrite map_map. rewrite <- E2. apply map_ext. intros l. rewrite map_map. apply map_ext. intros v. apply transposed_places.
Qed.

Lemma Forall2_map : forall {A B T} (f : A -> T) (g : B -> T) l m, Forall2 (fun x y => g y = f x) l m -> map g m = map f l.
Proof. induction 1 as [|x y l m E _ IH]; [reflexivity | cbn [map]; rewrite E, IH; reflexivity]. Qed.

Lemma multipoint_ok : forall p pts crs, let c := asked (snd p) crs in
  (forall q, In q (p :: pts) -> reachable eqb transform (snd q) (Some c) /\ flat_point (fst q)) ->
  exists v, multipoint_of_points C eqb transform (p :: pts) crs = Ok (v, c) /\
    places place c v = map (point_place place) (p :: pts).
Proof.
  intros [q0 c0] pts crs c H. cbn [snd] in c. unfold multipoint_of_points.
  change (match crs with Some c => c | None => c0 end) with c.
  destruct (each_total (fun p => vertex C eqb transform (fst p) (snd p) (Some c)) ((q0, c0) :: pts)) as [l E].
  { intros q I. apply vertex_total. apply (H q I). }
  rewrite E. cbn [andthen]. pose proof (each_ok _ _ _ E) as F.
  assert (Fl : Forall flat_point l).
  { clear E. revert H. generalize ((q0, c0) :: pts) F. clear F. intros m F. induction F as [|x y m l E _ IH]; intros H; constructor.
    - apply (vertex_flat _ _ _ _ (proj2 (H x (or_introl eq_refl))) E).
    - apply IH. intros z Z. apply H. right. exact Z. }
  destruct (string_total l Fl) as [v Ev]. rewrite Ev. cbn [andthen]. exists v. split; [reflexivity|].
  unfold places. rewrite (string_ok _ _ Ev). rewrite map_map. apply Forall2_map.
  clear - F Fa. induction F as [|x y m l E _ IH]; constructor; [|exact IH].
  pose proof (vertex_place _ _ _ _ E) as P. cbn [asked] in P. unfold point_place. exact P.
Qed.
Lemma multiline_of_ok : forall p lines crs, let c := asked (snd p) crs in
  (forall q, In q (p :: lines) -> reachable is_same transform (snd q) (Some c) /\ flat (fst q)) ->
  exists vs, multiline_of_lines C is_same transform (p :: lines) crs = Ok (vs, c) /\
    map (places place c) vs = map (fun q => places place (snd q) (fst q)) (p :: lines).
Proof.
  intros [q0 c0] lines crs c H. cbn [snd] in c. unfold multiline_of_lines.
  change (match crs with Some c => c | None => c0 end) with c.
  destruct (each_total (fun l => vertices C is_same transform (fst l) (snd l) (Some c) false) ((q0, c0) :: lines)) as [l E].
  { intros q I. destruct (H q I) as [R F]. apply vertices_total; [exact R | left; exact F]. }
  rewrite E. cbn [andthen]. exists l. split; [reflexivity|]. apply Forall2_map.
  pose proof (each_ok _ _ _ E) as F. clear - F Fa. induction F as [|x y m l E _ IH]; constructor; [|exact IH].
  pose proof (vertices_places _ _ _ _ _ E) as P. cbn [asked] in P. exact P.
Qed.
Lemma add_points_ok : forall p q, reachable eqb transform (snd q) (Some (snd p)) -> flat_point (fst p) -> flat_point (fst q) ->
  exists v, add_points C eqb transform p q = Ok (v, snd p) /\ places place (snd p) v = map (point_place place) [p; q].
Proof.
  intros p q R F G. unfold add_points. destruct (vertex_total (fst q) (snd q) (Some (snd p)) R) as [u E]. rewrite E. cbn [andthen].
  destruct (string_total [fst p; u]) as [v Ev].
  { constructor; [exact F|]. constructor; [apply (vertex_flat _ _ _ _ G E) | constructor]. }
  rewrite Ev. cbn [andthen]. exists v. split; [reflexivity|]. unfold places. rewrite (string_ok _ _ Ev). cbn [map].
  pose proof (vertex_place _ _ _ _ E) as P. cbn [asked] in P. unfold point_place. rewrite P. reflexivity.
Qed.
Lemma add_lines_ok : forall a b, reachable is_same transform (snd b) (Some (snd a)) -> flat (fst b) ->
  exists vs, add_lines C is_same transform a b = Ok (vs, snd a) /\
    map (places place (snd a)) vs = map (fun q => places place (snd q) (fst q)) [a; b].
Proof.
  intros a b R F. unfold add_lines. destruct (vertices_total (fst b) (snd b) (Some (snd a)) false R (or_introl F)) as [v E].
  rewrite E. cbn [andthen]. eexists. split; [reflexivity|]. cbn [map]. pose proof (vertices_places _ _ _ _ _ E) as P. cbn [asked] in P. rewrite P. reflexivity.
Qed.
Lemma add_polygons_ok : forall a b : polygon C, reachable is_same transform (psystem C b) (Some (psystem C a)) -> flat (outline C b) ->
  exists vs, add_polygons C is_same transform a b = Ok (vs, psystem C a) /\
    map (map (places place (psystem C a))) vs = [[places place (psystem C a) (outline C a)]; [places place (psystem C b) (outline C b)]].
Proof.
  intros a b R F. unfold add_polygons. destruct (vertices_total (outline C b) (psystem C b) (Some (psystem C a)) false R (or_introl F)) as [v E].
  rewrite E. cbn [andthen]. eexists. split; [reflexivity|]. cbn [map]. pose proof (vertices_places _ _ _ _ _ E) as P. cbn [asked] in P. rewrite P. reflexivity.
Qed.
Lemma cell_ok : forall own out p, reachable (fun a b => eqb b a) transform own (Some out) ->
  exists q, cell_coords C eqb transform own out p = Ok q /\ place out q = place own p.
Proof.
  intros own out p H. unfold cell_coords. destruct (eqb own out) eqn:Eq.
  - exists p. split; [reflexivity|]. symmetry. apply (f_equal_places _ _ _ _ Fa _ _ Eq).
  - destruct H as [H|[f H]]; [congruence|]. rewrite H. cbn [andthen]. exists (f p). split; [reflexivity|]. apply (f_transform _ _ _ _ Fa _ _ _ H).
Qed.
End Places.
