From Coq Require Import String Ascii List Bool Arith Lia QArith.
From Verif Require Crs_Model Crs_Spec Crs_Proofs.
From Verif Require Import Ogr_Model Ogr_Spec.
Import ListNotations.
Local Open Scope nat_scope.
Local Open Scope string_scope.

Lemma replace_absent : forall old new s, Crs_Model.has_substring old s = false -> replace old new s = s.
Proof.
  intros old new. unfold replace. induction s as [|c s IH]; intros H; [reflexivity|]. cbn [Crs_Model.has_substring] in H. apply orb_false_iff in H. destruct H as (H1 & H2).
  cbn [replace_from]. rewrite H1, IH by exact H2. reflexivity.
Qed.
Lemma absent_iff : forall p s, Crs_Model.has_substring p s = false <-> ~ Crs_Spec.occurs p s.
Proof.
  intros p s. rewrite <- (Crs_Proofs.substring_iff p s). destruct (Crs_Model.has_substring p s); split; intros H; first [discriminate|reflexivity|congruence].
Qed.
Lemma text_unchanged : forall s, s <> "" -> ~ Crs_Spec.occurs "lonlat" s -> ~ Crs_Spec.occurs "latlon" s -> layer_text s = s /\ wkt_source s = s.
Proof.
  intros s N A B. apply absent_iff in A, B. unfold layer_text, wkt_source. rewrite (replace_absent _ _ s A), (replace_absent _ _ s B).
  rewrite (replace_absent _ _ s A). split; [|reflexivity]. destruct s; [congruence|reflexivity].
Qed.
Lemma text_geographical : forall rest, ~ Crs_Spec.occurs "lonlat" rest -> ~ Crs_Spec.occurs "latlon" rest ->
  layer_text ("+proj=lonlat " ++ rest) = "+proj=longlat " ++ rest /\ wkt_source ("+proj=lonlat " ++ rest) = "+proj=longlat " ++ rest /\
  layer_text ("+proj=latlon " ++ rest) = "+proj=latlong " ++ rest /\ wkt_source ("+proj=latlon " ++ rest) = "+proj=latlong " ++ rest.
Proof.
  intros s A B. apply absent_iff in A, B. pose proof (replace_absent "lonlat" "longlat" s A) as A'. pose proof (replace_absent "latlon" "latlong" s B) as B'.
  unfold layer_text, wkt_source, replace in *.
  repeat match goal with |- _ /\ _ => split end.
  - cbn. rewrite A'. cbn. rewrite B'. reflexivity.
  - cbn. rewrite B'. cbn. rewrite A'. reflexivity.
  - cbn. rewrite A'. cbn. rewrite B'. reflexivity.
  - cbn. rewrite B'. cbn. rewrite A'. reflexivity.
Qed.
Lemma text_latlong : forall rest, ~ Crs_Spec.occurs "lonlat" rest -> ~ Crs_Spec.occurs "latlon" rest ->
  layer_text ("+proj=latlong " ++ rest) = "+proj=latlongg " ++ rest /\ wkt_source ("+proj=latlong " ++ rest) = "+proj=latlongg " ++ rest.
Proof.
  intros s A B. apply absent_iff in A, B. pose proof (replace_absent "lonlat" "longlat" s A) as A'. pose proof (replace_absent "latlon" "latlong" s B) as B'.
  unfold layer_text, wkt_source, replace in *. split.
  - cbn. rewrite A'. cbn. rewrite B'. reflexivity.
  - cbn. rewrite B'. cbn. rewrite A'. reflexivity.
Qed.
Lemma text_cartesian : layer_text "" = "+proj=longlat +datum=WGS84".
Proof. reflexivity. Qed.

(* ---- systems of layers *)
Lemma srs_sphere : forall float show r, is_geographic r = true -> (inv_flattening r == 0)%Q -> parse_srs float show r = Crs_Model.Raise Crs_Model.ZeroDivisionError.
Proof. intros float show r G Z. unfold parse_srs. rewrite G. apply Qeq_bool_iff in Z. rewrite Z. reflexivity. Qed.

Lemma keyed_show : forall float show key q, readable float show q -> ~ (q == 0)%Q -> Crs_Spec.keyed float key (key ++ "=" ++ show q) q.
Proof. intros float show key q (V & E & D & F) N. exists (show q). split; [reflexivity|]. split; [exact V|]. split; [exact E|]. split; [exact D|]. split; assumption. Qed.
Lemma srs_geographic : forall float show r, is_geographic r = true -> ~ (semi_major r == 0)%Q -> ~ (inv_flattening r == 0)%Q ->
  readable float show (semi_major r) -> readable float show (1 / inv_flattening r) -> exists e t,
  parse_srs float show r = Crs_Model.Ok (e, t, projcs r) /\ Crs_Model.el_a e = semi_major r /\
  exists f, Crs_Model.el_f e = Some f /\ (f == 1 / inv_flattening r)%Q.
Proof.
  intros float show r G NA NF RA RF. unfold parse_srs. rewrite G. destruct (Qeq_bool (inv_flattening r) 0) eqn:Z; [apply Qeq_bool_iff in Z; contradiction|].
  assert (~ (1 / inv_flattening r == 0)%Q) as NI. { intros H. apply NF. assert (inv_flattening r * (1 / inv_flattening r) == 1)%Q as K by (field; exact NF). rewrite H in K. exfalso. revert K. rewrite Qmult_0_r. discriminate. }
  destruct (Crs_Proofs.parse_af float [] _ [] _ [] _ _ (List.Forall_nil _) (List.Forall_nil _) (List.Forall_nil _)
    (keyed_show float show "+a" _ RA NA) (keyed_show float show "+f" _ RF NI)) as (e & E & _ & Ea & b & f & Eb & Ef & _ & Hf).
  cbn [app Crs_Spec.unwords] in E. unfold Crs_Model.geographical_crs.
  replace ("+a=" ++ show (semi_major r) ++ " +f=" ++ show (1 / inv_flattening r)%Q) with (("+a" ++ "=" ++ show (semi_major r)) ++ " " ++ "+f" ++ "=" ++ show (1 / inv_flattening r)%Q).
  - rewrite E. eexists; eexists. split; [reflexivity|]. split; [exact Ea|]. exists f. split; assumption.
  - rewrite !Crs_Proofs.app_assoc_s. reflexivity.
Qed.
Lemma srs_projected : forall float show r e, is_geographic r = false -> Crs_Model.parse_ellipsoid float (export r) = Crs_Model.Ok e ->
  exists n, parse_srs float show r = Crs_Model.Ok (e, export r, Some n) /\ (forall m, projcs r = Some m -> n = m).
Proof.
  intros float show r e G E. unfold parse_srs. rewrite G, E. destruct (projcs r) as [m|].
  - exists m. split; [reflexivity|]. intros m' H. injection H as ->. reflexivity.
  - exists (export r). split; [reflexivity|]. intros m H. discriminate.
Qed.
