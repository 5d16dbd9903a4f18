From Coq Require Import String Ascii List Bool Arith Lia QArith.
From Verif Require Geom_Model Geom_Spec Crs_Model Crs_Spec Crs_Proofs.
From Verif Require Import Ogr_Model Ogr_Spec.
Import ListNotations.
Local Open Scope nat_scope.
Local Open Scope list_scope.

Lemma each_ok : forall A B (f : A -> outcome B) l (g : A -> B), (forall x, In x l -> f x = Ok (g x)) -> each f l = Ok (map g l).
Proof.
  induction l as [|x l IH]; intros g E; [reflexivity|]. cbn [each map]. rewrite (E x (or_introl eq_refl)). cbn [andthen].
  rewrite (IH g); [reflexivity|]. intros y Hy. apply E. right. exact Hy.
Qed.
Lemma each_inv : forall A B (f : A -> outcome B) l l', each f l = Ok l' -> Forall2 (fun x y => f x = Ok y) l l'.
Proof.
  induction l as [|x l IH]; intros l' E; cbn [each] in E; [injection E as <-; constructor|].
  destruct (f x) as [y|] eqn:F; [|discriminate]. cbn [andthen] in E.
  destruct (each f l) as [ys|] eqn:G; [|discriminate]. cbn [andthen] in E. injection E as <-. constructor; [exact F|apply IH; reflexivity].
Qed.

Lemma close_closes : forall r r', close r = Ok r' <-> closes r r'.
Proof.
  intros [|v l] r'; cbn [close]; split.
  - discriminate.
  - intros (v & l & E & _). discriminate.
  - intros E. injection E as <-. exists v, l. split; reflexivity.
  - intros (w & m & E & ->). injection E as <- <-. reflexivity.
Qed.
Lemma close_ok : forall r, r <> [] -> exists r', close r = Ok r'.
Proof. intros [|v l] H; [congruence|]. eexists. reflexivity. Qed.
Lemma each_close : forall l, Forall (fun r => r <> []) l -> exists l', each close l = Ok l' /\ Forall2 closes l l'.
Proof.
  induction 1 as [|r l H F IH]; [exists []; split; [reflexivity|constructor]|].
  destruct (close_ok r H) as (r' & E). destruct IH as (l' & E' & F'). exists (r' :: l'). cbn [each]. rewrite E. cbn [andthen]. rewrite E'. cbn [andthen].
  split; [reflexivity|]. constructor; [apply close_closes; exact E|exact F'].
Qed.
Lemma each_nested : forall (A : Type) (l : list (list A)), Forall (fun r => r <> []) l -> each nested l = Ok l.
Proof. intros A l F. rewrite <- (map_id l) at 2. apply each_ok. intros x Hx. rewrite Forall_forall in F. specialize (F x Hx). destruct x; [congruence|reflexivity]. Qed.
Lemma each_each_close : forall l, Forall (fun p => p <> [] /\ Forall (fun r => r <> []) p) l ->
  exists l', each (each close) l = Ok l' /\ Forall2 (Forall2 closes) l l' /\ each nested l' = Ok l'.
Proof.
  intros l0 H0. enough (exists l', each (each close) l0 = Ok l' /\ Forall2 (Forall2 closes) l0 l' /\ Forall (fun r => r <> []) l') as (l' & A & B & D).
  { exists l'. split; [exact A|]. split; [exact B|]. apply each_nested. exact D. }
  induction H0 as [|p l (N & H) F IH]; [exists []; split; [reflexivity|split; constructor]|].
  destruct (each_close p H) as (p' & E & C'). destruct IH as (l' & E' & F' & D). exists (p' :: l'). cbn [each]. rewrite E. cbn [andthen]. rewrite E'. cbn [andthen].
  split; [reflexivity|]. split; constructor; try assumption. intros ->. inversion C'; subst. congruence.
Qed.

Lemma closed_area : forall r r', closes r r' -> same_area r r'.
Proof.
  intros r r' (v & l & -> & ->) o. unfold Geom_Spec.signed_area, Geom_Spec.ring_sum. rewrite !map_cons, map_app. cbn [map].
  set (p := (vx v, vy v)). set (m := map _ l). clearbody m p.
  generalize p at 1 4. induction m as [|c m IH]; intros b; cbn [app Geom_Spec.path_sum].
  - unfold Geom_Spec.tri. ring.
  - rewrite (IH c). reflexivity.
Qed.
Lemma closed_areas : forall l l', Forall2 closes l l' -> Forall2 same_area l l'.
Proof. induction 1 as [|r r' l l' H F IH]; constructor; [apply closed_area; exact H|exact IH]. Qed.

Section Interface.
Context {val data : Type} (vtext : string -> val).
Notation geo := (geo val data).
Implicit Types g h : geo.

Lemma get_set_same : forall k v (d : dict val), get k (set k v d) = Some v.
Proof.
  induction d as [|(k', v') d IH]; cbn [set get]; [rewrite String.eqb_refl; reflexivity|].
  destruct (String.eqb k k') eqn:E; cbn [get]; [rewrite String.eqb_refl; reflexivity|]. rewrite E. exact IH.
Qed.
Lemma get_set_other : forall k k' v (d : dict val), k' <> k -> get k' (set k v d) = get k' d.
Proof.
  intros k k' v d N. apply String.eqb_neq in N. induction d as [|(k0, v0) d IH]; cbn [set get]; [rewrite N; reflexivity|].
  destruct (String.eqb k k0) eqn:E; cbn [get].
  - apply String.eqb_eq in E. subst k0. rewrite N. reflexivity.
  - rewrite IH. reflexivity.
Qed.

Lemma interface_ok : forall g, filled (gshape g) -> exists d p, geo_interface vtext g = Ok (d, p) /\ geomdict (gshape g) = Ok d.
Proof.
  intros (s, p, x, t) F. unfold geo_interface. cbn [gshape gprops gproj4] in *. destruct s as [v|vs|r subs|vs|l|l]; cbn [filled geomdict] in *.
  - eexists; eexists; split; reflexivity.
  - eexists; eexists; split; reflexivity.
  - inversion F as [|? ? N F']; subst. destruct (close_ok r N) as (r' & E). destruct (each_close subs F') as (l' & E' & _).
    rewrite E. cbn [andthen]. rewrite E'. cbn [andthen]. eexists; eexists; split; reflexivity.
  - eexists; eexists; split; reflexivity.
  - destruct F as (_ & F). rewrite (each_nested _ l F). eexists; eexists; split; reflexivity.
  - destruct F as (_ & F). destruct (each_each_close l F) as (l' & E & _ & E3). rewrite E. cbn [andthen]. rewrite E3. eexists; eexists; split; reflexivity.
Qed.

Lemma from_inv : forall g q h, from_shape vtext g q = Ok h -> exists d,
  geomdict (gshape g) = Ok d /\ from_gi (data := data) d (set "_karta_proj4"%string (vtext (gproj4 g)) (match gshape g with MLn _ | MPg _ => [] | _ => gprops g end)) = Ok h.
Proof.
  intros g q h E. unfold from_shape, geo_interface in E. destruct (geomdict (gshape g)) as [d|] eqn:D; [|discriminate].
  cbn [andthen fst snd] in E. exists d. split; [reflexivity|exact E].
Qed.
Lemma from_gi_parts : forall d p h, from_gi (val := val) (data := data) d p = Ok h -> gprops h = p /\ gdata h = None /\ gproj4 h = ""%string.
Proof.
  intros d p h E. destruct d as [v|vs|[|c cs]|vs|l|l]; cbn [from_gi] in E; first [discriminate|injection E as <-; split; [|split]; reflexivity].
Qed.

Lemma from_kept : forall g q, without_rings (gshape g) -> filled (gshape g) -> exists h, from_shape vtext g q = Ok h /\ gshape h = gshape g.
Proof.
  intros (s, p, x, t) q W F. unfold from_shape, geo_interface. cbn [gshape gprops gproj4] in *.
  destruct s as [v|vs|r subs|vs|l|l]; cbn [without_rings filled geomdict] in *; try contradiction.
  - eexists. split; reflexivity.
  - eexists. split; reflexivity.
  - eexists. split; reflexivity.
  - destruct F as (_ & F). rewrite (each_nested _ l F). eexists. split; reflexivity.
Qed.
Lemma from_properties : forall g q h, with_properties (gshape g) -> from_shape vtext g q = Ok h ->
  get "_karta_proj4" (gprops h) = Some (vtext (gproj4 g)) /\ forall k, k <> "_karta_proj4"%string -> get k (gprops h) = get k (gprops g).
Proof.
  intros g q h W E. destruct (from_inv g q h E) as (d & D & E'). destruct (from_gi_parts _ _ _ E') as (P & _). rewrite P.
  destruct (gshape g); cbn [with_properties] in W; try contradiction; (split; [apply get_set_same|intros k N; apply get_set_other; exact N]).
Qed.
Lemma from_polygon : forall g q r subs, gshape g = Pg r subs -> filled (gshape g) -> exists h r' subs',
  from_shape vtext g q = Ok h /\ gshape h = Pg r' subs' /\ closes r r' /\ same_area r r' /\ Forall2 closes subs subs' /\ Forall2 same_area subs subs'.
Proof.
  intros (s, p, x, t) q r subs E F. unfold from_shape, geo_interface. cbn [gshape gprops gproj4] in *. subst s. cbn [filled geomdict] in *.
  inversion F as [|? ? N F']; subst. destruct (close_ok r N) as (r' & E1). destruct (each_close subs F') as (l' & E2 & C2).
  rewrite E1. cbn [andthen]. rewrite E2. cbn [andthen fst snd from_gi]. exists (mkGeo (Pg r' l') (set "_karta_proj4"%string (vtext t) p) None ""%string), r', l'.
  apply close_closes in E1. split; [reflexivity|]. split; [reflexivity|]. split; [exact E1|]. split; [apply closed_area; exact E1|].
  split; [exact C2|apply closed_areas; exact C2].
Qed.
Lemma from_multipolygon : forall g q l, gshape g = MPg l -> filled (gshape g) -> exists h l',
  from_shape vtext g q = Ok h /\ gshape h = MPg l' /\ Forall2 (Forall2 closes) l l' /\ Forall2 (Forall2 same_area) l l'.
Proof.
  intros (s, p, x, t) q l E F. unfold from_shape, geo_interface. cbn [gshape gprops gproj4] in *. subst s. cbn [filled geomdict] in *.
  destruct F as (_ & F). destruct (each_each_close l F) as (l' & E2 & C2 & E3). rewrite E2. cbn [andthen]. rewrite E3. cbn [andthen fst snd from_gi].
  eexists; exists l'. split; [reflexivity|]. split; [reflexivity|]. split; [exact C2|].
  clear -C2. induction C2 as [|a b l l' H F IH]; constructor; [apply closed_areas; exact H|exact IH].
Qed.
Lemma closes_length : forall r r', closes r r' -> length r' = S (length r).
Proof. intros r r' (v & l & -> & ->). cbn [length]. rewrite app_length. cbn [length]. lia. Qed.
Lemma from_grows : forall g q h r subs, gshape g = Pg r subs -> from_shape vtext g q = Ok h ->
  exists r' subs', gshape h = Pg r' subs' /\ length r' = S (length r).
Proof.
  intros g q h r subs S E. destruct (from_inv g q h E) as (d & D & E'). rewrite S in *. cbn [geomdict] in D.
  destruct (close r) as [r'|] eqn:C1; [|discriminate]. cbn [andthen] in D. destruct (each close subs) as [l'|] eqn:C2; [|discriminate]. cbn [andthen] in D.
  injection D as <-. cbn [from_gi] in E'. injection E' as <-. exists r', l'. split; [reflexivity|]. apply closes_length, close_closes. exact C1.
Qed.
Lemma from_lost : forall g q h, from_shape vtext g q = Ok h -> gproj4 h = ""%string /\ gdata h = None.
Proof. intros g q h E. destruct (from_inv g q h E) as (d & D & E'). destruct (from_gi_parts _ _ _ E') as (_ & A & B). split; assumption. Qed.
Lemma from_multi_props : forall g q h, ~ with_properties (gshape g) -> from_shape vtext g q = Ok h ->
  gprops h = [("_karta_proj4"%string, vtext (gproj4 g))].
Proof.
  intros g q h W E. destruct (from_inv g q h E) as (d & D & E'). destruct (from_gi_parts _ _ _ E') as (A & _). rewrite A.
  destruct (gshape g); cbn [with_properties] in W; first [reflexivity|exfalso; apply W; exact Logic.I].
Qed.
Lemma from_argument : forall g q, from_shape vtext g q = from_shape vtext g None.
Proof. reflexivity. Qed.

(* ---- shapefiles *)
Lemma Qeq_bool_refl : forall q, Qeq_bool q q = true.
Proof. intros. apply Qeq_bool_iff. reflexivity. Qed.
Lemma triple_refl : forall t, triple_eqb t t = true.
Proof. intros ((x, y), z). unfold triple_eqb. rewrite !Qeq_bool_refl. reflexivity. Qed.
Lemma last_snoc : forall A (l : list A) v d, last (l ++ [v]) d = v.
Proof. induction l as [|a l IH]; intros v d; [reflexivity|]. cbn [app last]. destruct (l ++ [v]) eqn:E; [destruct l; discriminate|]. rewrite <- E. apply IH. Qed.
Lemma close_ring_closed : forall t l, close_ring (t :: l ++ [t]) = t :: l ++ [t].
Proof.
  intros t l. unfold close_ring. replace (last (t :: l ++ [t]) t) with t; [rewrite triple_refl; reflexivity|].
  rewrite app_comm_cons. symmetry. apply last_snoc.
Qed.
Lemma removelast_snoc : forall A (l : list A) v, removelast (l ++ [v]) = l.
Proof. intros. rewrite removelast_app; [|discriminate]. cbn [removelast]. apply app_nil_r. Qed.
Lemma pair_flat : forall v, pair (flat v) = level v.
Proof. reflexivity. Qed.
Lemma pairs_flat : forall l, map pair (map flat l) = map level l.
Proof. intros. rewrite map_map. reflexivity. Qed.
Lemma ring_back : forall r r', closes r r' -> removelast (map pair (close_ring (map flat r'))) = map level r.
Proof.
  intros r r' (v & l & -> & ->). rewrite map_cons, map_app. cbn [map]. rewrite close_ring_closed. rewrite map_cons, map_app. cbn [map].
  rewrite app_comm_cons, removelast_snoc. rewrite pairs_flat. reflexivity.
Qed.
Lemma rings_back : forall l l', Forall2 closes l l' -> polygon_points (map close_ring (map (map flat) l')) = map (map level) l.
Proof.
  induction 1 as [|r r' l l' H F IH]; [reflexivity|]. unfold polygon_points in *. cbn [map]. rewrite IH. f_equal. apply ring_back. exact H.
Qed.
Lemma collect : forall t parts acc, (forall o, In o parts -> takes t o = true) -> fold_left add_geometry parts (OMulti t acc) = OMulti t (acc ++ parts).
Proof.
  intros t. induction parts as [|g parts IH]; intros acc T; cbn [fold_left]; [rewrite app_nil_r; reflexivity|].
  cbn [add_geometry]. rewrite (T g (or_introl eq_refl)). rewrite IH; [rewrite <- app_assoc; reflexivity|]. intros x Hx. apply T. right. exact Hx.
Qed.
Lemma refuse : forall t parts acc, (forall o, In o parts -> takes t o = false) -> fold_left add_geometry parts (OMulti t acc) = OMulti t acc.
Proof.
  intros t. induction parts as [|g parts IH]; intros acc T; cbn [fold_left]; [reflexivity|].
  cbn [add_geometry]. rewrite (T g (or_introl eq_refl)). apply IH. intros x Hx. apply T. right. exact Hx.
Qed.
Lemma points_back : forall vs, each (fun q => match line_of q with [] => Raise IndexError | v :: _ => Ok v end) (map (fun v => OPoint (flat v)) vs) = Ok (map level vs).
Proof. induction vs as [|v vs IH]; [reflexivity|]. cbn [map each line_of andthen]. rewrite IH. reflexivity. Qed.
Lemma lines_back : forall l, map line_of (map as_line l) = map (map level) l.
Proof. intros. rewrite map_map. apply map_ext. intros vs. unfold as_line. cbn [line_of]. apply pairs_flat. Qed.

(** One geometry, written and read. *)
Lemma geometry_back : forall s, storable s -> filled s -> exists d d', geomdict s = Ok d /\ read_geometry (as_ogr d) = Ok d' /\
  forall p, from_gi (val := val) (data := data) d' p = Ok (mkGeo (level_shape s) p None ""%string).
Proof.
  intros s S F. destruct s as [v|vs|r subs|vs|l|l]; cbn [storable filled geomdict] in *; try contradiction.
  - eexists; eexists. split; [reflexivity|]. split; [reflexivity|]. intros p. cbn [from_gi level_shape]. rewrite pairs_flat. reflexivity.
  - inversion F as [|? ? N F']; subst. destruct (close_ok r N) as (r' & E1). destruct (each_close subs F') as (l' & E2 & C2). rewrite E1. cbn [andthen].
    rewrite E2. cbn [andthen]. apply close_closes in E1. eexists; eexists. split; [reflexivity|]. split; [reflexivity|]. intros p.
    rewrite (rings_back (r :: subs) (r' :: l')); [reflexivity|]. constructor; assumption.
  - eexists; exists (GMultiPoint (map level vs)). split; [reflexivity|]. split; [|intros p; reflexivity]. cbn [as_ogr]. rewrite collect.
    + cbn [app read_geometry]. rewrite points_back. reflexivity.
    + intros g Hg. apply in_map_iff in Hg. destruct Hg as (v & <- & _). reflexivity.
  - destruct F as (_ & F). rewrite (each_nested _ l F). cbn [andthen]. eexists; exists (GMultiLineString (map (map level) l)). split; [reflexivity|]. split; [|intros p; reflexivity].
    cbn [as_ogr]. rewrite collect.
    + cbn [app read_geometry]. rewrite lines_back. reflexivity.
    + intros g Hg. apply in_map_iff in Hg. destruct Hg as (v & <- & _). reflexivity.
Qed.

Lemma each_write : forall gs f, each (geo_interface vtext) gs = Ok f ->
  Forall2 (fun g x => geomdict (gshape g) = Ok (fst x)) gs f.
Proof.
  intros gs f E. apply each_inv in E. induction E as [|g x gs f H F IH]; constructor; [|exact IH].
  unfold geo_interface in H. destruct (geomdict (gshape g)) as [d|]; [|discriminate]. cbn [andthen] in H. injection H as <-. reflexivity.
Qed.
Lemma write_inv : forall g gs f, write_shapefile vtext (g :: gs) = Ok f -> ftext f = layer_text (gproj4 g) /\
  Forall2 (fun h o => exists d, geomdict (gshape h) = Ok d /\ o = as_ogr d) (g :: gs) (ffeatures f).
Proof.
  intros g gs f E. unfold write_shapefile in E. destruct (each (geo_interface vtext) (g :: gs)) as [fs|] eqn:W; [|discriminate].
  cbn [andthen] in E. injection E as <-. cbn [ftext ffeatures]. split; [reflexivity|]. apply each_write in W.
  induction W as [|h x hs fs H F IH]; constructor; [|exact IH]. exists (fst x). split; [exact H|reflexivity].
Qed.
Lemma write_ok : forall gs, gs <> [] -> (forall g, In g gs -> filled (gshape g)) -> exists f, write_shapefile vtext gs = Ok f.
Proof.
  intros gs N F. unfold write_shapefile. assert (exists fs, each (geo_interface vtext) gs = Ok fs) as (fs & ->).
  { clear N. induction gs as [|g gs IH]; [exists []; reflexivity|]. destruct (interface_ok g (F g (or_introl eq_refl))) as (d & p & E & _).
    destruct (IH (fun x Hx => F x (or_intror Hx))) as (fs & E'). eexists. cbn [each]. rewrite E. cbn [andthen]. rewrite E'. reflexivity. }
  cbn [andthen]. destruct gs; [congruence|]. eexists. reflexivity.
Qed.

Lemma shapefile_back : forall gs p, gs <> [] -> (forall g, In g gs -> storable (gshape g) /\ filled (gshape g)) -> exists f (hs : list geo),
  write_shapefile vtext gs = Ok f /\ read_shapefile (data := data) p f = Ok hs /\ map gshape hs = map (fun g => level_shape (gshape g)) gs.
Proof.
  intros gs p N F. destruct (write_ok gs N (fun g H => proj2 (F g H))) as (f & W). exists f.
  destruct gs as [|g0 gs0]; [congruence|]. destruct (write_inv g0 gs0 f W) as (_ & Fe). clear N. unfold read_shapefile.
  assert (forall gs os, Forall2 (fun h o => exists d, geomdict (gshape h) = Ok d /\ o = as_ogr d) gs os -> (forall g, In g gs -> storable (gshape g) /\ filled (gshape g)) ->
    exists hs : list geo, each (fun o => andthen (read_geometry o) (fun d => andthen (from_gi (data := data) d p) (fun g => Ok (mkGeo (gshape g) (gprops g) (gdata g) (ftext f))))) os = Ok hs /\
    map gshape hs = map (fun g => level_shape (gshape g)) gs) as L.
  { clear. intros gs os H. induction H as [|g o gs os (d & D & ->) H IH]; intros F; [exists []; split; reflexivity|].
    destruct (F g (or_introl eq_refl)) as (S & L). destruct (geometry_back (gshape g) S L) as (d0 & d' & D' & R & Fr).
    rewrite D in D'. injection D' as <-. destruct (IH (fun x Hx => F x (or_intror Hx))) as (hs & E & M). cbn [each]. rewrite R. cbn [andthen]. rewrite Fr.
    cbn [andthen]. rewrite E. cbn [andthen]. eexists. split; [reflexivity|]. cbn [map gshape]. rewrite M. reflexivity. }
  destruct (L _ _ Fe F) as (hs & E & M). exists hs. split; [exact W|]. split; assumption.
Qed.

Lemma point_back : forall g p v, gshape g = Pt v -> exists f (h : geo), write_shapefile vtext [g] = Ok f /\ read_shapefile (data := data) p f = Ok [h] /\
  gshape h = Pt (Geom_Model.C3 (vx v) (vy v) 0).
Proof. intros (s, q, x, t) p v E. cbn [gshape] in E. subst s. eexists; eexists. split; [reflexivity|]. split; reflexivity. Qed.
Lemma multipolygon_lost : forall g p l, gshape g = MPg l -> filled (gshape g) -> exists f (h : geo), write_shapefile vtext [g] = Ok f /\ read_shapefile (data := data) p f = Ok [h] /\
  gshape h = MLn [].
Proof.
  intros (s, q, x, t) p l E F. cbn [gshape] in *. subst s. destruct F as (_ & F). destruct (each_each_close l F) as (l' & E & _ & E3).
  unfold write_shapefile, geo_interface. cbn [each gshape geomdict gproj4]. rewrite E. cbn [andthen]. rewrite E3. cbn [andthen map fst as_ogr]. rewrite refuse.
  - eexists; eexists. split; [reflexivity|]. split; reflexivity.
  - intros g Hg. apply in_map_iff in Hg. destruct Hg as (v & <- & _). reflexivity.
Qed.
Lemma read_text : forall p f hs h, read_shapefile (val := val) (data := data) p f = Ok hs -> In h hs -> gproj4 h = ftext f /\ gdata h = None.
Proof.
  intros p f hs h E I. unfold read_shapefile in E. apply each_inv in E. induction E as [|o y os hs H F IH]; [contradiction|].
  destruct I as [<-|I]; [|apply IH; exact I]. destruct (read_geometry o) as [d|]; [|discriminate]. cbn [andthen] in H.
  destruct (from_gi d p) as [k|] eqn:K; [|discriminate]. cbn [andthen] in H. injection H as <-. split; [reflexivity|]. exact (proj1 (proj2 (from_gi_parts _ _ _ K))).
Qed.
Lemma system_of_first : forall g gs p f hs h, write_shapefile vtext (g :: gs) = Ok f -> read_shapefile (data := data) p f = Ok hs -> In h hs ->
  gproj4 h = layer_text (gproj4 g).
Proof. intros g gs p f hs h W R I. destruct (write_inv g gs f W) as (T & _). rewrite <- T. apply (read_text p f hs h R I). Qed.
End Interface.
