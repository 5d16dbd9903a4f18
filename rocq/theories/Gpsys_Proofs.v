(** Proofs for the coordinate systems of GPX documents. *)
From Coq Require Import String List QArith Qabs Lqa.
From Verif Require Import Gjs_Model Gjs_Spec Gpx_Model Gpx_Spec Gpx_Proofs Gpsys_Model Gpsys_Spec.
Import ListNotations.

Lemma rounded_near : forall v : pos, near (round6 (fst v), round6 (snd v)) v.
Proof. intros v; split; cbn [fst snd]; apply round6_close. Qed.
Lemma rounded_all : forall vs : list (Q * Q * option Q),
  as_they_are vs (map (fun v => (round6 (fst (fst v)), round6 (snd (fst v)))) vs).
Proof. induction vs as [| v vs IH]; cbn; constructor; [exact (rounded_near (fst v)) | exact IH]. Qed.

Section Systems.
Variable C : Type.
Variable wgs84 : C.

Lemma tracks_as_they_are : forall show (ss : list (C * source)) g', Forall (fun s => is_dict (sproperties (snd s))) ss ->
  add_track_of show ss [] (mkGpx [] [] []) = GOk g' ->
  exists lines, read_tracks_of wgs84 (normal (document true true true g')) = GOk [lines] /\
    Forall2 (fun s line => fst line = wgs84 /\ as_they_are (svertices (snd s)) (fst (snd line))) ss lines.
Proof.
  intros show ss g' Hd E; unfold add_track_of in E.
  assert (Hd' : Forall (fun s => is_dict (sproperties s)) (map snd ss)).
  { clear E; induction Hd; cbn; constructor; assumption. }
  destruct (track_round_trip show _ _ Hd' E) as [lines [R F]].
  exists (map (fun line => (wgs84, line)) lines). split; [unfold read_tracks_of; rewrite R; reflexivity |].
  clear - F. revert lines F; induction ss as [| s ss IH]; intros lines F; cbn in F; inversion F as [| a b la lb [H _] G]; subst; cbn; constructor.
  - cbn [fst snd]; split; [reflexivity |]. rewrite H; apply rounded_all.
  - exact (IH lb G).
Qed.
Lemma tracks_located : forall tr show (ss : list (C * source)) g', (forall v, tr wgs84 wgs84 v = v) -> Forall (fun s => fst s = wgs84) ss ->
  Forall (fun s => is_dict (sproperties (snd s))) ss -> add_track_of show ss [] (mkGpx [] [] []) = GOk g' ->
  exists lines, read_tracks_of wgs84 (normal (document true true true g')) = GOk [lines] /\
    Forall2 (fun s line => fst line = wgs84 /\ located tr wgs84 (fst s) (svertices (snd s)) (fst (snd line))) ss lines.
Proof.
  intros tr show ss g' Ht Hw Hd E. destruct (tracks_as_they_are _ _ _ Hd E) as [lines [R F]]. exists lines; split; [exact R |].
  clear - Ht Hw F. induction F as [| s line ss lines [H1 H2] F IH]; constructor.
  - split; [exact H1 |]. inversion Hw as [| ? ? Hs _]; subst. rewrite Hs. unfold located. unfold as_they_are in H2.
    induction H2 as [| v p vs l N H IHn]; constructor; [rewrite Ht; exact N | exact IHn].
  - apply IH; inversion Hw; assumption.
Qed.
Lemma near_apart : forall p q r : pos, near p q -> (1 # 1000000 < Qabs (fst q - fst r) \/ 1 # 1000000 < Qabs (snd q - snd r))%Q -> ~ near p r.
Proof.
  assert (T : forall a b c : Q, (Qabs (a - b) <= 1 # 2000000 -> Qabs (a - c) <= 1 # 2000000 -> Qabs (b - c) <= 1 # 1000000)%Q).
  { intros a b c H1 H2. apply Qabs_Qle_condition in H1; apply Qabs_Qle_condition in H2. apply Qabs_Qle_condition. split; lra. }
  intros p q r [N1 N2] H [M1 M2]. destruct H as [H | H].
  - pose proof (T _ _ _ N1 M1) as L. lra.
  - pose proof (T _ _ _ N2 M2) as L. lra.
Qed.
Lemma tracks_astray : forall tr show s (src : source) g', is_dict (sproperties src) ->
  (exists v, In v (svertices src) /\ (1 # 1000000 < Qabs (fst (fst v) - fst (tr s wgs84 (fst v))) \/ 1 # 1000000 < Qabs (snd (fst v) - snd (tr s wgs84 (fst v))))%Q) ->
  add_track_of show [(s, src)] [] (mkGpx [] [] []) = GOk g' ->
  exists line, read_tracks_of wgs84 (normal (document true true true g')) = GOk [[(wgs84, line)]] /\
    as_they_are (svertices src) (fst line) /\ ~ located tr wgs84 s (svertices src) (fst line).
Proof.
  intros tr show s src g' Hd [v [I H]] E.
  assert (Hd' : Forall (fun z : C * source => is_dict (sproperties (snd z))) [(s, src)]) by (constructor; [exact Hd | constructor]).
  destruct (tracks_as_they_are _ _ _ Hd' E) as [lines [R F]].
  destruct lines as [| [w line] lines]; [inversion F |]. 
  assert (HG : (w = wgs84 /\ as_they_are (svertices src) (fst line)) /\ Forall2 (fun (z : C * source) (l0 : C * (list pos * tdict)) => fst l0 = wgs84 /\ as_they_are (svertices (snd z)) (fst (snd l0))) [] lines)
    by (inversion F; split; assumption).
  destruct HG as [[H1 H2] G].
  destruct lines as [| ? ?]; [| inversion G]. cbn [fst snd] in H1, H2. rewrite H1 in R.
  exists line. split; [exact R |]. split; [exact H2 |]. intros L.
  clear - I H H2 L. unfold as_they_are, located in *. revert I. induction H2 as [| x p vs l N F IH]; intros I; [destruct I |].
  inversion L as [| ? ? ? ? N' L']; subst. destruct I as [-> | I].
  - exact (near_apart _ _ _ N H N').
  - exact (IH L' I).
Qed.
Lemma waypoint_as_is : forall (s : C) v props g, is_dict props ->
  exists p, waypts (add_waypoint_of s v props g) = (waypts g ++ [p])%list /\ lonlat p = v.
Proof. intros s v props g Hd; destruct (add_waypoint_ok v props g Hd) as [p [H [_ [_ [L _]]]]]. exists p; split; [exact H | exact L]. Qed.
Lemma route_as_is : forall (s : C * source) g g', add_route_of s g = GOk g' ->
  exists r, routes g' = (routes g ++ [r])%list /\ map lonlat (rtepts r) = map fst (svertices (snd s)).
Proof.
  intros [c [vs ps d]] g g' E; unfold add_route_of, add_route in E; cbn [snd sdata svertices sproperties] in *.
  assert (M : forall l : list (Q * Q * option Q), map lonlat (map (fun v => mkPoint (fst v) [] []) l) = map fst l)
    by (intros l; rewrite map_map; apply map_ext; reflexivity).
  destruct d as [[| f fs] |].
  - injection E as <-. eexists; split; [reflexivity | exact (M vs)].
  - destruct vs; [| discriminate]. injection E as <-. eexists; split; reflexivity.
  - destruct vs; [| discriminate]. injection E as <-. eexists; split; reflexivity.
Qed.
End Systems.
