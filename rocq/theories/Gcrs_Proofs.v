(** Proofs for the coordinate systems of GeoJSON text. *)
From Coq Require Import String List Bool.
From Verif Require Import Gjs_Model Gjs_Spec Gjs_Proofs Gcrs_Model Gcrs_Spec.
Import ListNotations.

Lemma mapO_concat : forall A B (f : A -> outcome (list B)) (h : A -> list B), (forall a b, f a = Ok b -> forall x, In x b -> In x (h a)) ->
  forall l r, mapO f l = Ok r -> forall x, In x (concat r) -> In x (concat (map h l)).
Proof.
  intros A B f h Hf l; induction l as [| a l IH]; intros r E x I; cbn in E.
  - injection E as <-; destruct I.
  - destruct (f a) as [b |] eqn:Ea; [| discriminate]. destruct (mapO f l) as [q |] eqn:El; [| discriminate].
    injection E as <-. cbn in I |- *. apply in_app_or in I; apply in_or_app. destruct I as [I | I].
    + left; exact (Hf a b Ea x I).
    + right; exact (IH q eq_refl x I).
Qed.
Lemma nested_same : forall A (l r : list (list A)), nested l = Ok r -> r = l.
Proof.
  unfold nested; intros A l; induction l as [| a l IH]; intros r E; cbn in E; [congruence |].
  destruct a as [| v a]; [discriminate |].
  destruct (mapO _ l) as [q |] eqn:El; [| discriminate]. injection E as <-. rewrite (IH q eq_refl); reflexivity.
Qed.
Lemma close_in : forall V (r q : list V), close r = Ok q -> forall x, In x q -> In x r.
Proof.
  intros V [| v r] q E x I; [discriminate |]. injection E as <-.
  change (In x ((v :: r) ++ [v])) in I. apply in_app_or in I. destruct I as [I | [<- | []]]; [exact I | left; reflexivity].
Qed.
Lemma sub_in : forall V (s : sub V) q, sub_vertices s = Ok q -> forall x, In x q -> In x (of_sub s).
Proof. intros V [r | r] q E x I; cbn in E; [injection E as <-; exact I | discriminate]. Qed.
Lemma map_id' : forall A (l : list A), map (fun x => x) l = l.
Proof. intros; apply map_id. Qed.
Lemma coords_in : forall V (s : shape V) c, gj_coords s = Ok c -> forall x, In x (positions c) -> In x (vertices s).
Proof.
  intros V s c E x I; destruct s as [v | l | r subs | l | ll | lll]; unfold gj_coords in E.
  - injection E as <-; exact I.
  - injection E as <-; exact I.
  - destruct (close r) as [r' |] eqn:Er; [| discriminate].
    destruct (mapO (sub_vertices (V := V)) subs) as [ss |] eqn:Es; [| discriminate]. injection E as <-.
    cbn in I |- *. apply in_app_or in I; apply in_or_app. destruct I as [I | I].
    + left; exact (close_in _ _ _ Er x I).
    + right; exact (mapO_concat _ _ _ _ (sub_in V) _ _ Es x I).
  - injection E as <-; exact I.
  - destruct (nested ll) as [q |] eqn:Eq; [| discriminate]. injection E as <-. rewrite (nested_same _ _ _ Eq) in I; exact I.
  - destruct (mapO (mapO (close (V := V))) lll) as [q |] eqn:Eq; [| discriminate].
    destruct (nested q) as [q' |] eqn:En; [| discriminate]. injection E as <-. rewrite (nested_same _ _ _ En) in I. cbn in I |- *.
    assert (H : forall l r, mapO (mapO (close (V := V))) l = Ok r -> forall x, In x (concat (map (@concat V) r)) -> In x (concat (map (@concat V) l))).
    { clear; intros l; induction l as [| a l IH]; intros r E x I; cbn in E.
      - injection E as <-; destruct I.
      - destruct (mapO (close (V := V)) a) as [b |] eqn:Ea; [| discriminate].
        destruct (mapO (mapO (close (V := V))) l) as [s |] eqn:El; [| discriminate]. injection E as <-.
        cbn in I |- *. apply in_app_or in I; apply in_or_app. destruct I as [I | I].
        + left. pose proof (mapO_concat _ _ _ (fun z => z) (close_in V) _ _ Ea x I) as J. rewrite map_id in J; exact J.
        + right; exact (IH s eq_refl x I). }
    exact (H _ _ Eq x I).
Qed.
Lemma reproject_in : forall V (f : V -> V) (s : shape V) x, In x (vertices (reproject f s)) -> exists v, In v (vertices s) /\ x = f v.
Proof.
  assert (M : forall V (f : V -> V) l x, In x (map f l) -> exists v, In v l /\ x = f v).
  { intros V f l x I; apply in_map_iff in I; destruct I as [v [<- I]]; exists v; split; [exact I | reflexivity]. }
  intros V f s x I; destruct s as [v | l | r subs | l | ll | lll]; cbn in I |- *.
  - destruct I as [<- | []]; exists v; split; [left; reflexivity | reflexivity].
  - exact (M _ _ _ _ I).
  - rewrite app_nil_r in I. destruct (M _ _ _ _ I) as [v [J ->]]. exists v; split; [apply in_or_app; left; exact J | reflexivity].
  - exact (M _ _ _ _ I).
  - rewrite <- concat_map in I. exact (M _ _ _ _ I).
  - rewrite map_map in I. apply in_concat in I. destruct I as [l [Il I]]. apply in_map_iff in Il. destruct Il as [ll [<- Il]].
    rewrite <- concat_map in I. destruct (M _ _ _ _ I) as [v [J ->]]. exists v; split; [| reflexivity].
    apply in_concat. exists (concat ll); split; [apply in_map; exact Il | exact J].
Qed.

Lemma mapO_concat_all : forall A B (f : A -> outcome (list B)) (h : A -> list B), (forall a b, f a = Ok b -> forall x, In x (h a) -> In x b) ->
  forall l r, mapO f l = Ok r -> forall x, In x (concat (map h l)) -> In x (concat r).
Proof.
  intros A B f h Hf l; induction l as [| a l IH]; intros r E x I; cbn in E.
  - destruct I.
  - destruct (f a) as [b |] eqn:Ea; [| discriminate]. destruct (mapO f l) as [q |] eqn:El; [| discriminate].
    injection E as <-. cbn in I |- *. apply in_app_or in I; apply in_or_app. destruct I as [I | I].
    + left; exact (Hf a b Ea x I).
    + right; exact (IH q eq_refl x I).
Qed.
Lemma close_all : forall V (r q : list V), close r = Ok q -> forall x, In x r -> In x q.
Proof.
  intros V [| v r] q E x I; [discriminate |]. injection E as <-.
  change (In x ((v :: r) ++ [v])). apply in_or_app; left; exact I.
Qed.
Lemma sub_all : forall V (s : sub V) q, sub_vertices s = Ok q -> forall x, In x (of_sub s) -> In x q.
Proof. intros V [r | r] q E x I; cbn in E; [injection E as <-; exact I | discriminate]. Qed.
Lemma coords_all : forall V (s : shape V) c, gj_coords s = Ok c -> forall x, In x (vertices s) -> In x (positions c).
Proof.
  intros V s c E x I; destruct s as [v | l | r subs | l | ll | lll]; unfold gj_coords in E.
  - injection E as <-; exact I.
  - injection E as <-; exact I.
  - destruct (close r) as [r' |] eqn:Er; [| discriminate].
    destruct (mapO (sub_vertices (V := V)) subs) as [ss |] eqn:Es; [| discriminate]. injection E as <-.
    cbn in I |- *. apply in_app_or in I; apply in_or_app. destruct I as [I | I].
    + left; exact (close_all _ _ _ Er x I).
    + right; exact (mapO_concat_all _ _ _ _ (sub_all V) _ _ Es x I).
  - injection E as <-; exact I.
  - destruct (nested ll) as [q |] eqn:Eq; [| discriminate]. injection E as <-. rewrite (nested_same _ _ _ Eq); exact I.
  - destruct (mapO (mapO (close (V := V))) lll) as [q |] eqn:Eq; [| discriminate].
    destruct (nested q) as [q' |] eqn:En; [| discriminate]. injection E as <-. rewrite (nested_same _ _ _ En). cbn in I |- *.
    assert (H : forall l r, mapO (mapO (close (V := V))) l = Ok r -> forall x, In x (concat (map (@concat V) l)) -> In x (concat (map (@concat V) r))).
    { clear; intros l; induction l as [| a l IH]; intros r E x I; cbn in E.
      - destruct I.
      - destruct (mapO (close (V := V)) a) as [b |] eqn:Ea; [| discriminate].
        destruct (mapO (mapO (close (V := V))) l) as [s |] eqn:El; [| discriminate]. injection E as <-.
        cbn in I |- *. apply in_app_or in I; apply in_or_app. destruct I as [I | I].
        + left. apply (mapO_concat_all _ _ _ (fun z => z) (close_all V) _ _ Ea x). rewrite map_id; exact I.
        + right; exact (IH s eq_refl x I). }
    exact (H _ _ Eq x I).
Qed.
Lemma reproject_all : forall V (f : V -> V) (s : shape V) x, (forall r subs, s = Pg r subs -> subs = []) ->
  In x (vertices s) -> In (f x) (vertices (reproject f s)).
Proof.
  intros V f s x Hs I; destruct s as [v | l | r subs | l | ll | lll]; cbn in I |- *.
  - destruct I as [<- | []]; left; reflexivity.
  - apply in_map; exact I.
  - rewrite (Hs r subs eq_refl) in I; cbn in I. rewrite app_nil_r in *. apply in_map; exact I.
  - apply in_map; exact I.
  - rewrite <- concat_map. apply in_map; exact I.
  - apply in_concat in I. destruct I as [l [Il I]]. apply in_map_iff in Il. destruct Il as [ll [<- Il]].
    rewrite map_map. apply in_concat. exists (concat (map (map f) ll)). split.
    + apply in_map_iff; exists ll; split; [reflexivity | exact Il].
    + rewrite <- concat_map; apply in_map; exact I.
Qed.

Section Systems.
Variables V C : Type.
Variable ceq : C -> C -> bool.
Variable wgs84 : C.
Variable tr : C -> C -> V -> V.

Lemma text_inv : forall urn force (g : placed V C) t g', as_geojson_text ceq wgs84 tr urn force g = Ok (t, g') ->
  exists u, urn_used urn force = Some u /\ label t = Named u /\ system g' = system g /\
    gj_coords (if force && negb (ceq (system g) wgs84) then reproject (tr (system g) wgs84) (verts (what g)) else verts (what g)) = Ok (coordinates t).
Proof.
  intros urn force [s g] t g' E; unfold as_geojson_text, as_geojson in E; cbn [system what] in *.
  assert (U : (if force then match urn with None => Some "urn:ogc:def:crs:OGC:1.3:CRS84"%string | _ => urn end else urn) = urn_used urn force)
    by (destruct force, urn; reflexivity).
  rewrite U in E. unfold as_named_tuple in E. destruct (urn_used urn force) as [u |]; [| discriminate].
  destruct (force && negb (ceq s wgs84)); cbn [verts props data] in E;
    (destruct (gj_coords _) as [c |] eqn:Ec; [| discriminate]);
    (destruct (gj_data _) as [d |]; [| discriminate]);
    injection E as <- <-; exists u; repeat split; exact Ec.
Qed.

Lemma default_truthful : forall (denotes : string -> option C) (g : placed V C) t g',
  (forall a b, ceq a b = true -> a = b) -> (forall c v, tr c c v = v) ->
  denotes "urn:ogc:def:crs:OGC:1.3:CRS84"%string = Some wgs84 ->
  as_geojson_text ceq wgs84 tr None true g = Ok (t, g') -> truthful denotes tr g t.
Proof.
  intros denotes g t g' Hc Ht Hd E. destruct (text_inv _ _ _ _ _ E) as [u [Hu [Hl [_ Hx]]]].
  cbn in Hu. injection Hu as <-. exists "urn:ogc:def:crs:OGC:1.3:CRS84"%string, wgs84. split; [exact Hl |]. split; [exact Hd |].
  intros x I. destruct (ceq (system g) wgs84) eqn:Es; cbn [andb negb] in Hx; pose proof (coords_in _ _ _ Hx x I) as J.
  - exists x; split; [exact J |]. rewrite (Hc _ _ Es), Ht; reflexivity.
  - exact (reproject_in _ _ _ _ J).
Qed.
Lemma own_truthful : forall (denotes : string -> option C) u (g : placed V C) t g',
  (forall c v, tr c c v = v) -> denotes u = Some (system g) ->
  as_geojson_text ceq wgs84 tr (Some u) false g = Ok (t, g') -> truthful denotes tr g t.
Proof.
  intros denotes u g t g' Ht Hd E. destruct (text_inv _ _ _ _ _ E) as [u' [Hu [Hl [_ Hx]]]].
  cbn in Hu. injection Hu as <-. exists u, (system g). split; [exact Hl |]. split; [exact Hd |].
  intros x I. cbn [andb] in Hx. exists x; split; [exact (coords_in _ _ _ Hx x I) | rewrite Ht; reflexivity].
Qed.
Lemma urn_mislabels : forall u (g : placed V C) t g', ceq (system g) wgs84 = false ->
  as_geojson_text ceq wgs84 tr (Some u) true g = Ok (t, g') ->
  label t = Named u /\ shows (tr (system g) wgs84) (coordinates t) (verts (what g)).
Proof.
  intros u g t g' Es E. destruct (text_inv _ _ _ _ _ E) as [u' [Hu [Hl [_ Hx]]]].
  cbn in Hu. injection Hu as <-. split; [exact Hl |]. rewrite Es in Hx; cbn [andb negb] in Hx.
  intros x I. exact (reproject_in _ _ _ _ (coords_in _ _ _ Hx x I)).
Qed.
Lemma urn_untrue : forall (denotes : string -> option C) u c v p, ceq c wgs84 = false -> denotes u = Some c ->
  tr c wgs84 v <> tr c c v ->
  exists t g', as_geojson_text ceq wgs84 tr (Some u) true (mkPlaced c (mkGeo (Pt v) p None)) = Ok (t, g') /\
    ~ truthful denotes tr (mkPlaced c (mkGeo (Pt v) p None)) t.
Proof.
  intros denotes u c v p Ec Hd Hv.
  unfold as_geojson_text, as_geojson, as_named_tuple; cbn [system what]. rewrite Ec; cbn.
  eexists; eexists; split; [reflexivity |].
  intros [u' [c' [Hl [Hd' Hs]]]]. cbn in Hl, Hs. unfold crs_from_urn in Hl. injection Hl as <-.
  rewrite Hd in Hd'; injection Hd' as <-. destruct (Hs (tr c wgs84 v) (or_introl eq_refl)) as [w [[<- | []] E]]. exact (Hv E).
Qed.
Lemma no_urn : forall g : placed V C, as_geojson_text ceq wgs84 tr None false g = Raise NameError.
Proof. intros; unfold as_geojson_text, as_geojson; reflexivity. Qed.

Lemma text_all : forall urn force (g : placed V C) t g',
  (forall a b, ceq a b = true -> a = b) -> (forall c v, tr c c v = v) ->
  (forall r subs, verts (what g) = Pg r subs -> subs = []) ->
  as_geojson_text ceq wgs84 tr urn force g = Ok (t, g') ->
  shows_all (tr (system g) (if force then wgs84 else system g)) (coordinates t) (verts (what g)).
Proof.
  intros urn force g t g' Hc Ht Hs E v I. destruct (text_inv _ _ _ _ _ E) as [u [_ [_ [_ Hx]]]].
  apply (coords_all _ _ _ Hx). destruct force; cbn [andb]; [| rewrite Ht; exact I].
  destruct (ceq (system g) wgs84) eqn:Es; cbn [negb].
  - rewrite (Hc _ _ Es), Ht; exact I.
  - apply reproject_all; [exact Hs | exact I].
Qed.
Lemma text_unchanged : forall urn force (g : placed V C) t g', as_geojson_text ceq wgs84 tr urn force g = Ok (t, g') ->
  system g' = system g /\ verts (what g') = verts (what g) /\ data (what g') = data (what g).
Proof.
  intros urn force [s g] t g' E; unfold as_geojson_text, as_geojson in E; cbn [system what] in *.
  destruct (as_named_tuple _ _) as [[[c p] q] |]; [| discriminate].
  destruct (urn_used urn force); [| discriminate]. injection E as <- <-. repeat split.
Qed.
Lemma with_system_placed : forall (crs : C) (r : result V), placed_in crs r (with_system crs r).
Proof.
  intros crs. fix IH 1. intros [g | l]; cbn; constructor.
  induction l as [| a l IHl]; cbn; constructor; [exact (IH a) | exact IHl].
Qed.
Lemma read_placed : forall (crs : C) (d : document V), match read_geojson (snd d) with
  | Ok r => exists f, read_geojson_in crs d = Ok f /\ placed_in crs r f
  | Raise e => read_geojson_in crs d = Raise e
  end.
Proof.
  intros crs d; unfold read_geojson_in. destruct (read_geojson (snd d)) as [r |]; [| reflexivity].
  exists (with_system crs r); split; [reflexivity | exact (with_system_placed crs r)].
Qed.
Lemma with_system_among : forall (crs : C) (r : result V) (p : placed V C), among p (with_system crs r) -> system p = crs.
Proof.
  intros crs. fix IH 1. intros [g | l] p A; cbn in A.
  - inversion A; reflexivity.
  - inversion A as [| l' r I B]; subst l'. clear A. revert I. induction l as [| a l IHl]; intros I; [destruct I |].
    destruct I as [<- | I]; [exact (IH a p B) | exact (IHl I)].
Qed.
Lemma read_system : forall (crs : C) (d : document V) r p, read_geojson_in crs d = Ok r -> among p r -> system p = crs.
Proof.
  intros crs d r p E A; unfold read_geojson_in in E. destruct (read_geojson (snd d)) as [q |]; [| discriminate].
  injection E as <-. exact (with_system_among _ _ _ A).
Qed.
Lemma read_unlabelled : forall (crs : C) m m' (d : gjdoc V), read_geojson_in crs (m, d) = read_geojson_in crs (m', d).
Proof. reflexivity. Qed.

Lemma line_text : forall wind urn force c vs p t g', is_dict p -> as_geojson_text ceq wgs84 tr urn force (mkPlaced c (mkGeo (@Ln V vs) p None)) = Ok (t, g') ->
  forall crs : C, read_geojson_in crs (document_of wind t) =
    Ok (Several [Found (mkPlaced crs (mkGeo (Ln (if force && negb (ceq c wgs84) then map (tr c wgs84) vs else vs)) p None))]).
Proof.
  intros wind urn force c vs p t g' Hp E crs.
  assert (R : forall l : list V, read_geojson (DFeature (DGeometry (GLineString l)) p) = Ok (RList [RGeo (mkGeo (Ln l) p None)]))
    by (intros l; exact (rewrite_line V (fun _ r => r) l p Hp)).
  unfold as_geojson_text, as_geojson in E; cbn [system what] in E.
  assert (U : (if force then match urn with None => Some "urn:ogc:def:crs:OGC:1.3:CRS84"%string | _ => urn end else urn) = urn_used urn force)
    by (destruct force, urn; reflexivity).
  rewrite U in E. unfold as_named_tuple in E. destruct (urn_used urn force) as [u |]; [| discriminate].
  unfold read_geojson_in, document_of; destruct (force && negb (ceq c wgs84)); injection E as <- <-; cbn [coordinates properties label snd written].
  - rewrite R; reflexivity.
  - rewrite R; reflexivity.
Qed.
End Systems.
