(** C47, C77, C78: ellipsoids, proj.4 strings and equality of reference systems. *)
From Coq Require Import List ZArith QArith Bool String Ascii Lqa.
From Verif Require Import Crs_Model Crs_Spec Crs_Proofs.
Import ListNotations.
Open Scope string_scope.
Open Scope Q_scope.

(** C47: an ellipsoid made from any two parameters is consistent; what is given is kept. *)
Theorem C47_consistent : forall name a b f rf e, make_ellipsoid name a b f rf = Ok e ->
  (consistent e <-> b <> None \/ f <> None \/ rf <> None) /\ a = Some (el_a e) /\ el_name e = name.
Proof. exact make_consistent. Qed.
Print Assumptions C47_consistent.
Theorem C47_given : forall name a, ~ a == 0 ->
  (forall b f rf, exists e, make_ellipsoid name (Some a) (Some b) f rf = Ok e /\ el_a e = a /\ el_b e = Some b) /\
  (forall f rf, exists e, make_ellipsoid name (Some a) None (Some f) rf = Ok e /\ el_a e = a /\ el_f e = Some f) /\
  (forall rf, ~ rf == 0 -> exists e f, make_ellipsoid name (Some a) None None (Some rf) = Ok e /\ el_a e = a /\ el_f e = Some f /\ f * rf == 1).
Proof. exact make_values. Qed.
Print Assumptions C47_given.
(** Whatever the text, an answer is consistent or has neither semi-minor axis nor
    flattening. *)
Theorem C47_parse_partial : forall float s e, parse_ellipsoid float s = Ok e -> consistent e \/ (el_b e = None /\ el_f e = None).
Proof. exact parse_any. Qed.
Print Assumptions C47_parse_partial.
Theorem C47_named : forall float l1 k l2, Forall word l1 -> Forall word l2 -> value k ->
  (forall w, In w l1 -> ~ begins "+ellps" w) -> In k (map fst ellipsoid_data) -> exists e,
  parse_ellipsoid float (unwords (l1 ++ ("+ellps=" ++ k) :: l2)) = Ok e /\ from_table k = Ok e /\ consistent e /\ earthlike e.
Proof.
  exact (fun float l1 k l2 W1 W2 K N I => match table_ok k I with ex_intro _ e (conj E C) =>
    ex_intro _ e (conj (eq_trans (parse_ellps float l1 k l2 W1 W2 K N) E) (conj E C)) end).
Qed.
Print Assumptions C47_named.
Theorem C47_axes : forall float l1 wa l2 wb l3 a b, Forall unrelated l1 -> Forall unrelated l2 -> Forall quiet l3 ->
  keyed float "+a" wa a -> keyed float "+b" wb b ->
  let e := Ellipsoid (Some "Unknown") a (Some b) (Some ((a - b) / a)) in
  parse_ellipsoid float (unwords (l1 ++ wa :: l2 ++ wb :: l3)) = Ok e /\
  parse_ellipsoid float (unwords (l1 ++ wb :: l2 ++ wa :: l3)) = Ok e.
Proof. exact parse_ab. Qed.
Print Assumptions C47_axes.
Theorem C47_flattening : forall float l1 wa l2 wf l3 a f, Forall unrelated l1 -> Forall unrelated l2 -> Forall quiet l3 ->
  keyed float "+a" wa a -> keyed float "+f" wf f -> exists e,
  parse_ellipsoid float (unwords (l1 ++ wa :: l2 ++ wf :: l3)) = Ok e /\
  parse_ellipsoid float (unwords (l1 ++ wf :: l2 ++ wa :: l3)) = Ok e /\
  el_a e = a /\ exists b f', el_b e = Some b /\ el_f e = Some f' /\ b == a * (1 - f) /\ f' == f.
Proof. exact parse_af. Qed.
Print Assumptions C47_flattening.
Example C47_example : let float s := if String.eqb s "2" then Some 2 else if String.eqb s "1" then Some 1 else None in
  Forall unrelated ["+proj=merc"; "+lon_0=10"] /\ keyed float "+a" "+a=2" 2 /\ keyed float "+b" "+b=1" 1.
Proof.
  cbv zeta. assert (forall w, String.eqb w "" = false -> forallb (fun c => negb (is_space c)) (chars w) = true ->
    has_substring "+ellps" w = false -> has_substring "+datum" w = false -> String.prefix "+a" w = false -> String.prefix "+b" w = false ->
    String.prefix "+f" w = false -> unrelated w) as U.
  { intros w A B C D E F G. split; [apply word_lit; assumption|].
    repeat split; intros H; first [apply substring_iff in H | apply prefix_iff in H]; congruence. }
  assert (forall v, forallb (fun c => negb (is_space c) && negb (Ascii.eqb c "=")) (chars v) = true -> value v) as V.
  { intros v H c C. rewrite forallb_forall in H. specialize (H c C). rewrite andb_true_iff, !negb_true_iff in H. destruct H as (H1 & H2).
    split; [intros S; apply is_space_iff in S; congruence|intros ->; discriminate]. }
  split; [|split].
  - repeat constructor; apply U; reflexivity.
  - exists "2". split; [reflexivity|]. split; [apply V; reflexivity|]. split; [intros H; apply substring_iff in H; discriminate|].
    split; [intros H; apply substring_iff in H; discriminate|]. split; [reflexivity|]. intros H; discriminate H.
  - exists "1". split; [reflexivity|]. split; [apply V; reflexivity|]. split; [intros H; apply substring_iff in H; discriminate|].
    split; [intros H; apply substring_iff in H; discriminate|]. split; [reflexivity|]. intros H; discriminate H.
Qed.
(** Every datum but one resolves; a Carthage datum raises KeyError. *)
Theorem C47_datum_partial : forall float d k, In (d, k) datum_ellipsoids -> d <> "carthage" -> exists e,
  parse_ellipsoid float ("+proj=longlat +datum=" ++ d) = Ok e /\ from_table k = Ok e /\ consistent e /\ earthlike e.
Proof. exact datum_parse. Qed.
Print Assumptions C47_datum_partial.
Theorem C47_datum_refuted : In "carthage" (map fst datum_ellipsoids) /\
  forall float, parse_ellipsoid float "+proj=longlat +datum=carthage" = Raise KeyError.
Proof. exact (conj carthage_known carthage). Qed.
Print Assumptions C47_datum_refuted.
(** The azimuth of an oblique projection is taken for the semi-major axis. *)
Theorem C47_alpha_refuted : forall float, float "6378137" = Some 6378137 -> float "30" = Some 30 -> float "6356752" = Some 6356752 ->
  exists e, parse_ellipsoid float "+proj=omerc +a=6378137 +alpha=30 +b=6356752" = Ok e /\ el_a e = 30 /\ el_b e = Some 6356752.
Proof. exact alpha_axis. Qed.
Print Assumptions C47_alpha_refuted.
(** An inverse flattening is not understood, and a flattening of zero (a sphere) divides by
    zero. *)
Theorem C47_inverse_flattening_refuted : forall float, parse_ellipsoid float "+proj=longlat +a=6378137 +rf=298.257" = Raise CRSError.
Proof. exact inverse_flattening. Qed.
Print Assumptions C47_inverse_flattening_refuted.
Theorem C47_sphere_refuted : forall float, float "6371000" = Some 6371000 -> float "0" = Some 0 ->
  parse_ellipsoid float "+proj=longlat +a=6371000 +f=0" = Raise ZeroDivisionError.
Proof. exact zero_flattening. Qed.
Print Assumptions C47_sphere_refuted.

(** C77: the proj.4 text of a geographical system describes its own ellipsoid: so when it
    was given by name, not when it was given by its axes and the datum left as it is. *)
Theorem C77_named_partial : forall float k datum e text, value k ->
  datum = "" \/ (exists l, l <> [] /\ datum = unwords l /\ Forall word l) ->
  geographical_crs float ("+ellps=" ++ k) datum = Ok (e, text) -> parse_ellipsoid float text = Ok e.
Proof. exact geographic_named. Qed.
Print Assumptions C77_named_partial.
Example C77_example : forall float, exists e text, geographical_crs float "+ellps=sphere" "+datum=WGS84" = Ok (e, text) /\ el_a e = 6370997.
Proof. intros float. eexists. eexists. split; [vm_compute; reflexivity|reflexivity]. Qed.
Theorem C77_axes_refuted : forall float l1 wa l2 wb a b, Forall unrelated l1 -> Forall unrelated l2 ->
  keyed float "+a" wa a -> keyed float "+b" wb b -> exists e text e',
  geographical_crs float (unwords (l1 ++ wa :: l2 ++ [wb])) "+datum=WGS84" = Ok (e, text) /\ el_a e = a /\ el_b e = Some b /\
  parse_ellipsoid float text = Ok e' /\ from_table "WGS84" = Ok e'.
Proof. exact geographic_axes. Qed.
Print Assumptions C77_axes_refuted.

(** C78: equality of projected systems. *)
Theorem C78_equal : forall x y, crs_eqb x y = true <->
  has_proj y = true /\ has_geod y = true /\ (exists s, srs x = Some s /\ srs y = Some s) /\ (exists i, initstring x = Some i /\ initstring y = Some i).
Proof. exact crs_eqb_iff. Qed.
Print Assumptions C78_equal.
Theorem C78_equivalence : (forall x, complete_crs x -> crs_eqb x x = true) /\
  (forall x y, complete_crs x -> crs_eqb x y = true -> crs_eqb y x = true) /\
  (forall x y z, crs_eqb x y = true -> crs_eqb y z = true -> crs_eqb x z = true).
Proof. exact crs_equiv. Qed.
Print Assumptions C78_equivalence.
Example C78_example : let x := CrsObject true true (Some "+proj=merc") (Some "+a=2 +b=1") in
  complete_crs x /\ crs_eqb x (CrsObject true true (Some "+proj=merc") (Some "+a=2 +b=2")) = false.
Proof. vm_compute. repeat split; discriminate. Qed.
