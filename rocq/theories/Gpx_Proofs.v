(** Proofs about GPX. *)
From Coq Require Import String Ascii.
From Coq Require Import List Bool Arith ZArith QArith Qabs Lia Lqa.
From Verif Require Import Gjs_Model Gjs_Spec Gjs_Proofs Gpx_Model Gpx_Spec.
Import ListNotations.
Open Scope list_scope.
Open Scope string_scope.

(* ---- rounding *)
Lemma round_spec : forall q, (Qabs ((round_half_even q # 1) - q) <= 1 # 2)%Q.
Proof.
  intros [n d]. unfold round_half_even. cbn [Qnum Qden].
  pose proof (Z.div_mod n (Zpos d) ltac:(lia)) as E. pose proof (Z.mod_pos_bound n (Zpos d) ltac:(lia)) as B.
  set (f := (n / Z.pos d)%Z) in *. set (r := (n mod Z.pos d)%Z) in *. clearbody f r.
  apply Qabs_Qle_condition.
  destruct (2 * r <? Z.pos d)%Z eqn:A; [| destruct (Z.pos d <? 2 * r)%Z eqn:A2; [| destruct (Z.even f)]];
    apply Z.ltb_lt in A || apply Z.ltb_ge in A; try (apply Z.ltb_lt in A2 || apply Z.ltb_ge in A2);
    unfold Qle, Qminus, Qplus, Qopp; cbn [Qnum Qden]; subst n; split; lia.
Qed.
Lemma round_int : forall z, round_half_even (z # 1) = z.
Proof.
  intros z. unfold round_half_even. cbn [Qnum Qden]. rewrite Z.mod_1_r, Z.div_1_r. reflexivity.
Qed.
Lemma round_proper : forall a b, (a == b)%Q -> round_half_even a = round_half_even b.
Proof.
  intros [n d] [m e] H. unfold Qeq in H. cbn [Qnum Qden] in H. unfold round_half_even. cbn [Qnum Qden].
  assert (n / Z.pos d = m / Z.pos e)%Z as F.
  { rewrite <- (Z.div_mul_cancel_r n (Z.pos d) (Z.pos e)) by lia.
    rewrite <- (Z.div_mul_cancel_r m (Z.pos e) (Z.pos d)) by lia. rewrite H. f_equal. lia. }
  pose proof (Z.div_mod n (Zpos d) ltac:(lia)) as E1. pose proof (Z.div_mod m (Zpos e) ltac:(lia)) as E2.
  rewrite <- F in *. set (f := (n / Z.pos d)%Z) in *. set (r := (n mod Z.pos d)%Z) in *. set (s := (m mod Z.pos e)%Z) in *. clearbody f r s.
  assert (r * Z.pos e = s * Z.pos d)%Z as G by (subst n m; nia).
  assert ((2 * r <? Z.pos d)%Z = (2 * s <? Z.pos e)%Z) as ->.
  { apply eq_true_iff_eq. rewrite !Z.ltb_lt. split; intros; nia. }
  assert ((Z.pos d <? 2 * r)%Z = (Z.pos e <? 2 * s)%Z) as ->; [| reflexivity].
  apply eq_true_iff_eq. rewrite !Z.ltb_lt. split; intros; nia.
Qed.
Theorem round6_close : forall q, (Qabs (round6 q - q) <= 1 # 2000000)%Q.
Proof.
  intros q. pose proof (round_spec (q * (1000000 # 1))) as H. unfold round6.
  set (z := round_half_even (q * (1000000 # 1))) in *. clearbody z.
  apply Qabs_Qle_condition in H. apply Qabs_Qle_condition.
  assert ((z # 1000000) == (z # 1) * (1 # 1000000))%Q as E by (unfold Qeq; cbn; lia).
  rewrite E. split; lra.
Qed.
Theorem round6_exact : forall z, (round6 (z # 1000000) == z # 1000000)%Q.
Proof.
  intros z. unfold round6. rewrite (round_proper _ (z # 1)).
  - rewrite round_int. reflexivity.
  - unfold Qeq. cbn. lia.
Qed.

(* ---- dictionaries as elements *)
Lemma normal_tag : forall x, tag (normal x) = tag x.
Proof. intros [t p s k]. reflexivity. Qed.
Definition back (kv : string * text) : string * text := (fst kv, text_read (snd kv)).
Lemma dict_normal : forall d, map normal (dict2gpx d) = map (fun kv => Node (fst (back kv)) None (snd (back kv)) []) d.
Proof.
  intros d. unfold dict2gpx. rewrite map_map. apply map_ext. intros [k [[| c s] |]]; reflexivity.
Qed.
Lemma back_keys : forall d, map fst (map back d) = map fst d.
Proof. intros. rewrite map_map. reflexivity. Qed.
Lemma get_back : forall d, read_back d (map back d).
Proof.
  intros d k. induction d as [| [k' v] d IH]; cbn; [reflexivity |]. destruct (String.eqb k k'); [reflexivity | exact IH].
Qed.
Lemma fold_dict : forall d acc, NoDup (map fst acc ++ map fst d)%list ->
  fold_left (fun d k => set (tag k) (txt_of k) d) (map normal (dict2gpx d)) acc = (acc ++ map back d)%list.
Proof.
  intros d. rewrite dict_normal. induction d as [| [k v] d IH]; intros acc N; cbn [map fold_left].
  - rewrite app_nil_r. reflexivity.
  - cbn [tag txt_of]. rewrite set_fresh.
    + rewrite IH.
      * rewrite <- app_assoc. reflexivity.
      * rewrite map_app, <- app_assoc. exact N.
    + cbn in N. apply NoDup_remove_2 in N. intros I. apply N. apply in_app_iff. auto.
Qed.
Lemma fold_skip : forall excl (l : list xml) acc, Forall (fun x => tag x = excl) l ->
  fold_left (fun d k => if String.eqb (tag k) excl then d else set (tag k) (txt_of k) d) l acc = acc.
Proof.
  intros excl l acc F. revert acc. induction F as [| x l E F IH]; intros acc; cbn; [reflexivity |]. rewrite E, String.eqb_refl. apply IH.
Qed.
Lemma fold_noskip : forall excl (l : list xml) acc, Forall (fun x => tag x <> excl) l ->
  fold_left (fun d k => if String.eqb (tag k) excl then d else set (tag k) (txt_of k) d) l acc = fold_left (fun d k => set (tag k) (txt_of k) d) l acc.
Proof.
  intros excl l acc F. revert acc. induction F as [| x l E F IH]; intros acc; cbn; [reflexivity |].
  destruct (String.eqb (tag x) excl) eqn:Q; [apply String.eqb_eq in Q; contradiction | apply IH].
Qed.
Lemma dict_tags : forall d, map tag (map normal (dict2gpx d)) = map fst d.
Proof. intros. rewrite dict_normal, map_map. reflexivity. Qed.
Lemma dict_no_tag : forall d x, ~ In x (map fst d) -> Forall (fun k => tag k <> x) (map normal (dict2gpx d)).
Proof.
  intros d x N. apply Forall_forall. intros k I E. apply N. rewrite <- (dict_tags d). apply in_map_iff. exists k. auto.
Qed.

(** The children of an element that was written: properties, extensions, others. *)
Definition body (props exts : tdict) (rest : list xml) : list xml := (dict2gpx props ++ [extensions2gpx exts] ++ rest)%list.
Lemma body_normal : forall props exts rest, map normal (body props exts rest) =
  (map normal (dict2gpx props) ++ [Node "extensions" None None (map normal (dict2gpx exts))] ++ map normal rest)%list.
Proof. intros. unfold body. rewrite !map_app. reflexivity. Qed.
Lemma rest_tags : forall child rest, Forall (fun x => tag x = child) rest -> Forall (fun x => tag x = child) (map normal rest).
Proof. intros child rest F. apply Forall_map. revert F. apply Forall_impl. intros x E. rewrite normal_tag. exact E. Qed.
Lemma filter_none : forall (A : Type) (f : A -> bool) l, Forall (fun x => f x = false) l -> filter f l = [].
Proof. intros A f l F. induction F as [| x l E F IH]; cbn; [reflexivity |]. rewrite E. exact IH. Qed.
Lemma filter_all : forall (A : Type) (f : A -> bool) l, Forall (fun x => f x = true) l -> filter f l = l.
Proof. intros A f l F. induction F as [| x l E F IH]; cbn; [reflexivity |]. rewrite E, IH. reflexivity. Qed.
Lemma neq_false : forall a b : string, a <> b -> String.eqb a b = false.
Proof. intros a b H. apply String.eqb_neq. exact H. Qed.
Lemma body_ext : forall t p s props exts rest, ~ In "extensions" (map fst props) -> is_dict exts ->
  readextensions (Node t p s (map normal (body props exts rest))) = map back exts.
Proof.
  intros t p s props exts rest N D. unfold readextensions, find, findall. cbn [kids]. rewrite body_normal, filter_app.
  rewrite (filter_none _ _ (map normal (dict2gpx props))).
  - cbn [app filter tag]. rewrite String.eqb_refl. cbn [nth_error kids]. rewrite fold_dict; [reflexivity | exact D].
  - apply (Forall_impl _ (P := fun k => tag k <> "extensions")); [intros x; apply neq_false |]. apply dict_no_tag. exact N.
Qed.
Lemma body_props_ext : forall t p s props exts, is_dict props -> ~ In "extensions" (map fst props) ->
  readproperties (Node t p s (map normal (body props exts []))) "extensions" = map back props.
Proof.
  intros t p s props exts D N. unfold readproperties. cbn [kids]. rewrite body_normal, !fold_left_app.
  rewrite (fold_noskip _ (map normal (dict2gpx props))) by (apply dict_no_tag; exact N). rewrite fold_dict by exact D.
  cbn [map fold_left tag]. rewrite String.eqb_refl. reflexivity.
Qed.
Lemma body_props : forall t p s props exts rest child, child <> "extensions" -> is_dict props -> ~ In "extensions" (map fst props) -> ~ In child (map fst props) ->
  Forall (fun x => tag x = child) rest ->
  read_back_ext props (readproperties (Node t p s (map normal (body props exts rest))) child).
Proof.
  intros t p s props exts rest child CE D N C R. unfold readproperties. cbn [kids]. rewrite body_normal, !fold_left_app.
  rewrite (fold_noskip _ (map normal (dict2gpx props))) by (apply dict_no_tag; exact C). rewrite fold_dict by exact D.
  cbn [fold_left]. rewrite (fold_skip child (map normal rest)) by (apply rest_tags; exact R).
  cbn [tag]. rewrite (neq_false "extensions" child) by congruence. cbn [txt_of app].
  split.
  - intros k K. rewrite get_set. rewrite (neq_false k "extensions") by exact K. apply get_back.
  - rewrite get_set, String.eqb_refl. reflexivity.
Qed.
Lemma body_children : forall t p s props exts rest child, child <> "extensions" -> ~ In child (map fst props) ->
  Forall (fun x => tag x = child) rest ->
  findall child (Node t p s (map normal (body props exts rest))) = map normal rest.
Proof.
  intros t p s props exts rest child CE C R. unfold findall. cbn [kids]. rewrite body_normal, !filter_app.
  rewrite (filter_none _ _ (map normal (dict2gpx props))).
  - cbn [filter tag app]. rewrite (neq_false "extensions" child) by congruence. apply filter_all.
    apply (Forall_impl _ (P := fun x => tag x = child)); [intros x ->; apply String.eqb_refl |]. apply rest_tags. exact R.
  - apply (Forall_impl _ (P := fun k => tag k <> child)); [intros x; apply neq_false |]. apply dict_no_tag. exact C.
Qed.

(* ---- points, segments, tracks, routes *)
Lemma wpt_back : forall t p, good_point p -> exists p', readwpt (normal (build_wpt t p)) = GOk p' /\ point_back p p'.
Proof.
  intros t p (D & E & N & _). unfold build_wpt. cbn [normal].
  change (dict2gpx (pprops p) ++ [extensions2gpx (pexts p)])%list with (body (pprops p) (pexts p) []).
  unfold readwpt. cbn [at_of]. destruct (lonlat p) as [lon lat] eqn:L. eexists. split; [reflexivity |].
  unfold point_back. rewrite L. cbn [lonlat pprops pexts fst snd]. split; [reflexivity |].
  rewrite body_props_ext by assumption. rewrite body_ext by assumption. split; apply get_back.
Qed.
Lemma mapG_back : forall (A B : Type) (f : A -> gout B) (W : A -> A) (R : A -> B -> Prop) (G : A -> Prop),
  forall l, Forall G l -> (forall x, G x -> exists y, f (W x) = GOk y /\ R x y) -> exists ys, mapG f (map W l) = GOk ys /\ Forall2 R l ys.
Proof.
  intros A B f W R G l F H. induction F as [| x l X F IH]; cbn [map mapG]; [exists []; auto |].
  destruct (H x X) as (y & E & Y). destruct IH as (ys & E2 & Y2). rewrite E, E2. exists (y :: ys). auto.
Qed.
Lemma mapG_back' : forall (A B X : Type) (f : X -> gout B) (W : A -> X) (R : A -> B -> Prop) (G : A -> Prop),
  forall l, Forall G l -> (forall x, G x -> exists y, f (W x) = GOk y /\ R x y) -> exists ys, mapG f (map W l) = GOk ys /\ Forall2 R l ys.
Proof.
  intros A B X f W R G l F H. induction F as [| x l Y F IH]; cbn [map mapG]; [exists []; auto |].
  destruct (H x Y) as (y & E & Z). destruct IH as (ys & E2 & Y2). rewrite E, E2. exists (y :: ys). auto.
Qed.
Lemma build_tags : forall t ps, Forall (fun x => tag x = t) (map (build_wpt t) ps).
Proof. intros t ps. apply Forall_map. apply Forall_forall. reflexivity. Qed.
Lemma seg_back_ok : forall s, good_seg s -> exists s', parse_seg (normal (build_seg s)) = GOk s' /\ seg_back s s'.
Proof.
  intros s ((D & E & N & C) & P). unfold build_seg. cbn [normal].
  change (dict2gpx (sprops s) ++ [extensions2gpx (sexts s)] ++ map (build_wpt "trkpt") (trkpts s))%list with (body (sprops s) (sexts s) (map (build_wpt "trkpt") (trkpts s))).
  unfold parse_seg. rewrite body_children by (try discriminate; auto using build_tags). rewrite map_map.
  destruct (mapG_back' _ _ _ readwpt (fun p => normal (build_wpt "trkpt" p)) point_back good_point (trkpts s) P) as (ps & M & F).
  { intros p. apply wpt_back. }
  rewrite M. eexists. split; [reflexivity |]. unfold seg_back. cbn [trkpts sprops sexts]. split; [exact F |]. split.
  - apply body_props; try discriminate; auto using build_tags.
  - rewrite body_ext by assumption. apply get_back.
Qed.
Lemma track_back_ok : forall t, good_track t -> exists t', parse_trk (normal (build_trk t)) = GOk t' /\ track_back t t'.
Proof.
  intros t ((D & E & N & C) & P). unfold build_trk. cbn [normal].
  change (dict2gpx (tprops t) ++ [extensions2gpx (texts t)] ++ map build_seg (trksegs t))%list with (body (tprops t) (texts t) (map build_seg (trksegs t))).
  assert (Forall (fun x => tag x = "trkseg") (map build_seg (trksegs t))) as T by (apply Forall_map, Forall_forall; reflexivity).
  unfold parse_trk. rewrite body_children by (try discriminate; auto). rewrite map_map.
  destruct (mapG_back' _ _ _ parse_seg (fun p => normal (build_seg p)) seg_back good_seg (trksegs t) P) as (ps & M & F).
  { intros p. apply seg_back_ok. }
  rewrite M. eexists. split; [reflexivity |]. unfold track_back. cbn [trksegs tprops texts]. split; [exact F |]. split.
  - apply body_props; try discriminate; auto.
  - rewrite body_ext by assumption. apply get_back.
Qed.
Lemma route_back_ok : forall r, good_route r -> exists r', parse_rte (normal (build_rte r)) = GOk r' /\ route_back r r'.
Proof.
  intros s ((D & E & N & C) & P). unfold build_rte. cbn [normal].
  change (dict2gpx (rprops s) ++ [extensions2gpx (rexts s)] ++ map (build_wpt "rtept") (rtepts s))%list with (body (rprops s) (rexts s) (map (build_wpt "rtept") (rtepts s))).
  unfold parse_rte. rewrite body_children by (try discriminate; auto using build_tags). rewrite map_map.
  destruct (mapG_back' _ _ _ readwpt (fun p => normal (build_wpt "rtept" p)) point_back good_point (rtepts s) P) as (ps & M & F).
  { intros p. apply wpt_back. }
  rewrite M. eexists. split; [reflexivity |]. unfold route_back. cbn [rtepts rprops rexts]. split; [exact F |]. split.
  - apply body_props; try discriminate; auto using build_tags.
  - rewrite body_ext by assumption. apply get_back.
Qed.
Lemma document_find : forall g,
  findall "wpt" (normal (document true true true g)) = map (fun p => normal (build_wpt "wpt" p)) (waypts g) /\
  findall "trk" (normal (document true true true g)) = map (fun p => normal (build_trk p)) (tracks g) /\
  findall "rte" (normal (document true true true g)) = map (fun p => normal (build_rte p)) (routes g).
Proof.
  intros g. unfold findall, document. cbn [normal kids]. rewrite !map_app, !map_map, !filter_app.
  assert (forall (A : Type) (f : A -> xml) t l, (forall x, tag (f x) = t) -> forall u, filter (fun k => String.eqb (tag k) u) (map f l) = if String.eqb t u then map f l else []) as H.
  { intros A f t l T u. destruct (String.eqb t u) eqn:E.
    - apply filter_all, Forall_map, Forall_forall. intros x _. rewrite T. exact E.
    - apply filter_none, Forall_map, Forall_forall. intros x _. rewrite T. exact E. }
  rewrite !(H _ (fun p => normal (build_wpt "wpt" p)) "wpt") by reflexivity.
  rewrite !(H _ (fun p => normal (build_trk p)) "trk") by reflexivity.
  rewrite !(H _ (fun p => normal (build_rte p)) "rte") by reflexivity.
  cbn [String.eqb Ascii.eqb Bool.eqb]. rewrite !app_nil_r. repeat split; reflexivity.
Qed.
Theorem rewritten_ok : forall g, waypts g = [] -> Forall good_track (tracks g) -> Forall good_route (routes g) ->
  exists g', rewritten g = GOk g' /\ waypts g' = [] /\ Forall2 track_back (tracks g) (tracks g') /\ Forall2 route_back (routes g) (routes g').
Proof.
  intros g W T R. unfold rewritten, fromfile. destruct (document_find g) as (A & B & C). rewrite A, B, C, W. cbn [map mapG].
  destruct (mapG_back' _ _ _ parse_trk (fun p => normal (build_trk p)) track_back good_track (tracks g) T) as (ts & M & F).
  { intros t. apply track_back_ok. }
  destruct (mapG_back' _ _ _ parse_rte (fun p => normal (build_rte p)) route_back good_route (routes g) R) as (rs & M2 & F2).
  { intros t. apply route_back_ok. }
  rewrite M, M2. eexists. split; [reflexivity |]. auto.
Qed.

(* ---- waypoints *)
Theorem waypoints_unreadable : forall g, waypts g <> [] -> rewritten g = GRaise GAttributeError.
Proof.
  intros g W. unfold rewritten, fromfile. destruct (document_find g) as (A & _ & _). rewrite A.
  destruct (waypts g) as [| p ps]; [congruence |]. cbn [map mapG]. unfold parse_wpt at 1, readwpt, build_wpt. cbn [normal at_of].
  destruct (lonlat p). reflexivity.
Qed.
Theorem waypoints_never_read : forall x ps, read_gpx_waypts x = GOk ps -> ps = [] /\ findall "wpt" x = [].
Proof.
  intros x ps H. unfold read_gpx_waypts, fromfile in H.
  destruct (mapG parse_wpt (findall "wpt" x)) as [u | e] eqn:E; [| discriminate].
  assert (findall "wpt" x = []) as W.
  { destruct (findall "wpt" x) as [| y ys]; [reflexivity |]. cbn [mapG] in E. unfold parse_wpt at 1 in E. destruct (readwpt y); discriminate. }
  destruct (mapG parse_trk _); [| discriminate]. destruct (mapG parse_rte _); [| discriminate].
  injection H as <-. auto.
Qed.
Definition vstep (pe : tdict * tdict) (kv : string * text) : tdict * tdict :=
  if valid (fst kv) then (set (fst kv) (Some (pystr (snd kv))) (fst pe), snd pe) else (fst pe, set (fst kv) (Some (pystr (snd kv))) (snd pe)).
Lemma vstep_eq : forall d, split_valid d = fold_left vstep d (@pair tdict tdict [] []).
Proof. reflexivity. Qed.
Lemma vstep_v : forall k t a b, valid k = true -> vstep (a, b) (k, t) = @pair tdict tdict (@set text k (Some (pystr t)) a) b.
Proof. intros k t a b V. unfold vstep. cbn [fst snd]. rewrite V. reflexivity. Qed.
Lemma vstep_i : forall k t a b, valid k = false -> vstep (a, b) (k, t) = @pair tdict tdict a (@set text k (Some (pystr t)) b).
Proof. intros k t a b V. unfold vstep. cbn [fst snd]. rewrite V. reflexivity. Qed.
Theorem add_waypoint_ok : forall v props g, is_dict props -> exists p, waypts (add_waypoint v props g) = (waypts g ++ [p])%list /\
  tracks (add_waypoint v props g) = tracks g /\ routes (add_waypoint v props g) = routes g /\ lonlat p = v /\
  forall k, get k (pprops p) = (if valid k then option_map (fun t => Some (pystr t)) (get k props) else None) /\
            get k (pexts p) = (if valid k then None else option_map (fun t => Some (pystr t)) (get k props)).
Proof.
  intros v props g D. eexists. split; [reflexivity |]. split; [reflexivity |]. split; [reflexivity |]. split; [reflexivity |].
  cbn [pprops pexts].
  assert (forall d (a b : tdict), NoDup (map fst d) -> forall k,
    get k (fst (fold_left vstep d (a, b))) =
      (match (if valid k then option_map (fun t => Some (pystr t)) (get k d) else None) with Some t => Some t | None => get k a end) /\
    get k (snd (fold_left vstep d (a, b))) =
      (match (if valid k then None else option_map (fun t => Some (pystr t)) (get k d)) with Some t => Some t | None => get k b end)) as G.
  { induction d as [| [k' t] d IH]; intros a b N k.
    - cbn [fold_left fst snd get option_map]. destruct (valid k); auto.
    - inversion N as [| ? ? N1 N2]; subst. cbn [fold_left]. destruct (valid k') eqn:V.
      + rewrite (vstep_v k' t a b V). destruct (IH (@set text k' (Some (pystr t)) a) b N2 k) as [-> ->]. cbn [get]. destruct (String.eqb k k') eqn:E.
        * apply String.eqb_eq in E. subst. rewrite V. apply get_notin in N1. rewrite N1. cbn [option_map]. rewrite get_set, String.eqb_refl. auto.
        * rewrite get_set, E. destruct (valid k); auto.
      + rewrite (vstep_i k' t a b V). destruct (IH a (@set text k' (Some (pystr t)) b) N2 k) as [-> ->]. cbn [get]. destruct (String.eqb k k') eqn:E.
        * apply String.eqb_eq in E. subst. rewrite V. apply get_notin in N1. rewrite N1. cbn [option_map]. rewrite get_set, String.eqb_refl. auto.
        * rewrite get_set, E. destruct (valid k); auto. }
  intros k. pose proof (G props [] [] D k) as [G1 G2]. rewrite <- vstep_eq in G1, G2.
  match goal with |- ?a = _ /\ ?b = _ => change a with (get k (fst (split_valid props))); change b with (get k (snd (split_valid props))) end.
  rewrite G1, G2.
  destruct (valid k); cbn [get]; [destruct (get k props); auto | destruct (get k props); auto].
Qed.

(* ---- the second time *)
Lemma ext_lost : forall props exts rest t p s, In "extensions" (map fst props) ->
  readextensions (Node t p s (map normal (body props exts rest))) = [].
Proof.
  intros props exts rest t p s I. unfold readextensions, find, findall. cbn [kids]. rewrite body_normal, filter_app, dict_normal.
  induction props as [| [k v] props IH]; [contradiction |]. cbn [map filter tag fst back].
  destruct (String.eqb k "extensions") eqn:E; [reflexivity |]. apply IH. cbn in I. destruct I as [-> | I]; [| exact I].
  rewrite String.eqb_refl in E. discriminate.
Qed.
Lemma fold_keeps : forall excl l (acc : tdict) k, get k acc <> None -> get k (fold_left (fun d x => if String.eqb (tag x) excl then d else set (tag x) (txt_of x) d) l acc) <> None.
Proof.
  induction l as [| x l IH]; intros acc k H; cbn; [exact H |]. apply IH. destruct (String.eqb (tag x) excl); [exact H |].
  rewrite get_set. destruct (String.eqb k (tag x)); [discriminate | exact H].
Qed.
Lemma ext_key : forall props exts rest t p s child, child <> "extensions" -> In "extensions" (map fst (readproperties (Node t p s (map normal (body props exts rest))) child)).
Proof.
  intros props exts rest t p s child C. unfold readproperties. cbn [kids]. rewrite body_normal, !fold_left_app.
  match goal with |- In _ (map fst ?d) => destruct (in_dec string_dec "extensions" (map fst d)) as [I | I]; [exact I |] end.
  apply get_notin in I. exfalso. revert I. apply fold_keeps. cbn [fold_left tag]. rewrite (neq_false "extensions" child) by congruence.
  rewrite get_set, String.eqb_refl. discriminate.
Qed.
Lemma mapG_in : forall (A B : Type) (f : A -> gout B) l ys, mapG f l = GOk ys -> forall y, In y ys -> exists x, In x l /\ f x = GOk y.
Proof.
  induction l as [| x l IH]; intros ys H y Y; cbn in H; [injection H as <-; contradiction |].
  destruct (f x) as [z | e] eqn:E; [| discriminate]. destruct (mapG f l) as [zs | e]; [| discriminate]. injection H as <-.
  destruct Y as [<- | Y]; [exists x; cbn; auto |]. destruct (IH zs eq_refl y Y) as (x' & I & F). exists x'. cbn. auto.
Qed.
Theorem twice_loses : forall g g1 g2, rewritten g = GOk g1 -> rewritten g1 = GOk g2 ->
  (forall t, In t (tracks g2) -> texts t = []) /\ (forall r, In r (routes g2) -> rexts r = []).
Proof.
  intros g g1 g2 H1 H2.
  assert (forall h h', rewritten h = GOk h' ->
    (forall t, In t (tracks h') -> exists t0, In t0 (tracks h) /\ parse_trk (normal (build_trk t0)) = GOk t) /\
    (forall r, In r (routes h') -> exists r0, In r0 (routes h) /\ parse_rte (normal (build_rte r0)) = GOk r)) as P.
  { intros h h' H. unfold rewritten, fromfile in H. destruct (document_find h) as (A & B & C). rewrite A, B, C in H.
    destruct (mapG parse_wpt _); [| discriminate].
    destruct (mapG parse_trk _) as [ts |] eqn:T; [| discriminate]. destruct (mapG parse_rte _) as [rs |] eqn:R; [| discriminate].
    injection H as <-. cbn [tracks routes]. split.
    - intros t I. destruct (mapG_in _ _ _ _ _ T t I) as (x & X & E). apply in_map_iff in X. destruct X as (t0 & <- & X). exists t0. auto.
    - intros t I. destruct (mapG_in _ _ _ _ _ R t I) as (x & X & E). apply in_map_iff in X. destruct X as (t0 & <- & X). exists t0. auto. }
  destruct (P _ _ H1) as [T1 R1]. destruct (P _ _ H2) as [T2 R2]. split.
  - intros t I. destruct (T2 t I) as (t1 & I1 & E1). destruct (T1 t1 I1) as (t0 & _ & E0).
    assert (In "extensions" (map fst (tprops t1))) as K.
    { unfold parse_trk in E0. destruct (mapG parse_seg _); [| discriminate]. injection E0 as <-. cbn [tprops]. unfold build_trk. cbn [normal].
      apply (ext_key (tprops t0) (texts t0) (map build_seg (trksegs t0))). discriminate. }
    unfold parse_trk in E1. destruct (mapG parse_seg _); [| discriminate]. injection E1 as <-. cbn [texts]. unfold build_trk. cbn [normal].
    apply (ext_lost (tprops t1) (texts t1) (map build_seg (trksegs t1))). exact K.
  - intros t I. destruct (R2 t I) as (t1 & I1 & E1). destruct (R1 t1 I1) as (t0 & _ & E0).
    assert (In "extensions" (map fst (rprops t1))) as K.
    { unfold parse_rte in E0. destruct (mapG readwpt _); [| discriminate]. injection E0 as <-. cbn [rprops]. unfold build_rte. cbn [normal].
      apply (ext_key (rprops t0) (rexts t0) (map (build_wpt "rtept") (rtepts t0))). discriminate. }
    unfold parse_rte in E1. destruct (mapG readwpt _); [| discriminate]. injection E1 as <-. cbn [rexts]. unfold build_rte. cbn [normal].
    apply (ext_lost (rprops t1) (rexts t1) (map (build_wpt "rtept") (rtepts t1))). exact K.
Qed.

(* ---- adding geometries *)
Lemma numbered_map : forall (A B C : Type) (f : nat -> A -> B) (h : B -> C) (k : A -> C) l i, (forall i x, h (f i x) = k x) -> map h (numbered f i l) = map k l.
Proof. induction l as [| x l IH]; intros i H; cbn; [reflexivity |]. rewrite H, IH by exact H. reflexivity. Qed.
Lemma numbered_forall : forall (A B : Type) (f : nat -> A -> B) (P : B -> Prop) l i, (forall i x, P (f i x)) -> Forall P (numbered f i l).
Proof. induction l as [| x l IH]; intros i H; cbn; constructor; auto. Qed.
Lemma valid_not_ext : valid "extensions" = false /\ valid "trkpt" = false /\ valid "trkseg" = false.
Proof. repeat split; reflexivity. Qed.
Lemma fold_set_dict : forall (A : Type) (f : tdict -> A -> tdict) l acc, (forall d x, is_dict d -> is_dict (f d x)) -> is_dict acc -> is_dict (fold_left f l acc).
Proof. induction l as [| x l IH]; intros acc H D; cbn; [exact D |]. apply IH; auto. Qed.
Lemma fold_keys : forall (A : Type) (f : tdict -> A -> tdict) (P : string -> Prop) l acc,
  (forall d x k, In x l -> In k (map fst (f d x)) -> P k \/ In k (map fst d)) -> (forall k, In k (map fst acc) -> P k) ->
  forall k, In k (map fst (fold_left f l acc)) -> P k.
Proof.
  induction l as [| x l IH]; intros acc H A0 k I; cbn in I; [auto |]. revert k I. apply (IH (f acc x)).
  - intros d y k Y. apply H. right. exact Y.
  - intros k I. destruct (H acc x k (or_introl eq_refl) I) as [Q | Q]; auto.
Qed.
Lemma split_valid_good : forall d child, is_dict d -> valid child = false -> good (fst (split_valid d)) (snd (split_valid d)) child.
Proof.
  intros d child D C.
  destruct (add_waypoint_ok (0, 0)%Q d (mkGpx [] [] []) D) as (p & W & _ & _ & _ & G).
  cbn [add_waypoint waypts app] in W. injection W as W.
  assert (pprops p = fst (split_valid d) /\ pexts p = snd (split_valid d)) as [E1 E2] by (rewrite <- W; split; reflexivity).
  rewrite E1, E2 in G.
  assert (forall (a b : tdict), is_dict a -> is_dict b ->
    is_dict (fst (fold_left vstep d (a, b))) /\
    is_dict (snd (fold_left vstep d (a, b)))) as ND.
  { clear. induction d as [| [k t] d IH]; intros a b A B; cbn [fold_left]; [auto |].
    destruct (valid k) eqn:V; [rewrite (vstep_v k t a b V) | rewrite (vstep_i k t a b V)]; apply IH; auto using set_dict. }
  destruct (ND [] [] (NoDup_nil _) (NoDup_nil _)) as [N1 N2].
  split; [exact N1 |]. split; [exact N2 |]. split; apply get_notin; rewrite (proj1 (G _)); [| rewrite C; reflexivity].
  reflexivity.
Qed.
(** Multipoints added as a track, written and read. *)
Lemma source_seg_good : forall show s seg, is_dict (sproperties s) -> track_seg show s = GOk seg -> good_seg seg.
Proof.
  intros show s seg D H. unfold track_seg in H. destruct (sdata s) as [cols |]; [| discriminate]. injection H as <-. split.
  - apply split_valid_good; [exact D | reflexivity].
  - apply numbered_forall. intros i [[x y] z]. unfold good_point, good, track_point. cbn [pprops pexts].
    assert (forall k, In k (map fst (fold_left (fun (d : tdict) (k0 : string) => let d' := set k0 (cell cols i k0) d in
        match z with Some h => set "ele" (Some (show h)) d' | None => d' end) (filter valid (map fst cols)) [])) -> valid k = true) as K.
    { apply fold_keys; [| cbn; contradiction]. intros d k0 k I J. apply filter_In in I. cbn zeta in J.
      destruct z as [h |]; rewrite ?set_keys in J; [destruct J as [-> | [-> | J]]; [left; reflexivity | left; apply I | auto] | destruct J as [-> | J]; [left; apply I | auto]]. }
    repeat split.
    + apply fold_set_dict; [| constructor]. intros d k I. cbn zeta. destruct z; auto using set_dict.
    + apply fold_set_dict; [| constructor]. intros d k I. auto using set_dict.
    + intros I. apply K in I. discriminate.
    + intros I. apply K in I. discriminate.
Qed.
Lemma source_seg_read : forall show s seg seg', is_dict (sproperties s) -> track_seg show s = GOk seg -> seg_back seg seg' ->
  source_read s (map lonlat (trkpts seg'), sprops seg').
Proof.
  intros show s seg seg' D H (PB & (PR & _) & _). unfold track_seg in H. destruct (sdata s) as [cols |]; [| discriminate]. injection H as <-.
  cbn [trkpts sprops] in PB, PR. split; [| split]; cbn [fst snd].
  - transitivity (map (fun p => (round6 (fst (lonlat p)), round6 (snd (lonlat p)))) (numbered (track_point cols show) 0 (svertices s))).
    + clear - PB. induction PB as [| p p' ps ps' (L & _) F IH]; cbn [map]; [reflexivity |]. rewrite L, IH. reflexivity.
    + apply numbered_map. intros i [[x y] z]. reflexivity.
  - intros k t K V G NE. rewrite (PR k K).
    destruct (add_waypoint_ok (0, 0)%Q (sproperties s) (mkGpx [] [] []) D) as (p & W & _ & _ & _ & X).
    cbn [add_waypoint waypts app] in W. injection W as W. destruct (X k) as [X1 _]. rewrite <- W in X1. cbn [pprops] in X1.
    rewrite X1, V, G. cbn. destruct t; [congruence | reflexivity].
  - intros k K V. rewrite (PR k K).
    destruct (add_waypoint_ok (0, 0)%Q (sproperties s) (mkGpx [] [] []) D) as (p & W & _ & _ & _ & X).
    cbn [add_waypoint waypts app] in W. injection W as W. destruct (X k) as [X1 _]. rewrite <- W in X1. cbn [pprops] in X1.
    rewrite X1, V. reflexivity.
Qed.
Lemma mapG_forall2 : forall (A B : Type) (f : A -> gout B) l ys, mapG f l = GOk ys -> Forall2 (fun x y => f x = GOk y) l ys.
Proof.
  intros A B f l. induction l as [| x l IH]; cbn [mapG]; intros ys H; [injection H as <-; constructor |].
  destruct (f x) as [y |] eqn:E; [| discriminate]. destruct (mapG f l) as [zs |]; [| discriminate]. injection H as <-. constructor; auto.
Qed.
Theorem track_round_trip : forall show ss g', Forall (fun s => is_dict (sproperties s)) ss ->
  add_track show ss [] (mkGpx [] [] []) = GOk g' ->
  exists lines, read_gpx_tracks (normal (document true true true g')) = GOk [lines] /\ Forall2 source_read ss lines.
Proof.
  intros show ss g' D H. unfold add_track in H. destruct (mapG (track_seg show) ss) as [segs |] eqn:M; [| discriminate].
  injection H as <-. cbn [fold_left tracks waypts routes app]. apply mapG_forall2 in M.
  assert (Forall good_seg segs) as GS.
  { clear - D M. induction M as [| s seg ss segs E F IH]; [constructor |]. inversion D; subst. constructor; [eapply source_seg_good; eassumption | auto]. }
  destruct (rewritten_ok (mkGpx [] [mkTrack segs [] []] [])) as (g1 & R & _ & T & _).
  { reflexivity. }
  { constructor; [| constructor]. split; [| exact GS]. repeat split; cbn; try constructor; auto. }
  { constructor. }
  unfold rewritten in R. unfold read_gpx_tracks.
  match goal with |- exists lines, match fromfile ?x with _ => _ end = _ /\ _ => change x with (normal (document true true true (mkGpx [] [mkTrack segs [] []] []))) end. rewrite R.
  destruct g1 as [w1 ts1 r1]. cbn [tracks] in T |- *. inversion T as [| ? t1 ? ts2 TB TN E1 E2]. inversion TN. subst. clear T TN.
  destruct t1 as [sl tp tx]. destruct TB as (SB & _ & _). cbn [trksegs] in SB.
  eexists. split; [reflexivity |]. cbn [trksegs].
  clear - D M SB. revert sl SB. induction M as [| s seg ss segs E F IH]; intros sl SB.
  - inversion SB. constructor.
  - inversion SB as [| ? s1 ? sl1 SG SN]; subst. inversion D; subst. cbn [map]. constructor; [eapply source_seg_read; eassumption | auto].
Qed.
(** Lines cannot be added. *)
Theorem lines_rejected : forall show s rest attrs g, sdata s = None -> add_track show (s :: rest) attrs g = GRaise GAttributeError.
Proof. intros show s rest attrs g H. unfold add_track. cbn [mapG]. unfold track_seg at 1. rewrite H. reflexivity. Qed.
(** Routes with data cannot be added. *)
Theorem routes_rejected : forall s f fs v vs g, sdata s = Some (f :: fs) -> svertices s = v :: vs -> add_route s g = GRaise GTypeError.
Proof. intros s f fs v vs g H E. unfold add_route. rewrite H, E. reflexivity. Qed.
(** An attribute that GPX does not know is not made an extension. *)
Theorem attributes_not_extensions : forall show, exists attrs g' t, valid "color" = false /\ attrs = [("color", Some "red")] /\
  add_track show [] attrs (mkGpx [] [] []) = GOk g' /\ tracks g' = [t] /\ get "color" (tprops t) = Some (Some "red") /\ get "color" (texts t) = None.
Proof.
  intros show. exists [("color", Some "red")]. eexists. eexists. split; [reflexivity |]. split; [reflexivity |]. split; [reflexivity |]. repeat split; reflexivity.
Qed.
(** Elevations of a track without other data are lost. *)
Theorem elevation_lost : forall show s g', (forall c, In c (map fst match sdata s with Some c => c | None => [] end) -> valid c = false) ->
  add_track show [s] [] (mkGpx [] [] []) = GOk g' ->
  forall t sg p, In t (tracks g') -> In sg (trksegs t) -> In p (trkpts sg) -> get "ele" (pprops p) = None.
Proof.
  intros show s g' NV H t sg p T S P. unfold add_track in H. cbn [mapG] in H. unfold track_seg in H.
  destruct (sdata s) as [cols |]; [| discriminate]. injection H as <-. cbn [tracks] in T. destruct T as [<- | []].
  cbn [trksegs] in S. destruct S as [<- | []]. cbn [trkpts] in P.
  assert (filter valid (map fst cols) = []) as F. { apply filter_none, Forall_forall. exact NV. }
  revert P. generalize 0%nat. generalize (svertices s). induction l as [| v l IH]; intros i P; cbn in P; [contradiction |].
  destruct P as [<- | P]; [| exact (IH _ P)]. destruct v as [[x y] z]. unfold track_point. rewrite F. reflexivity.
Qed.
