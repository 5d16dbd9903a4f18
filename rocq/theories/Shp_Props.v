(** C44: the attribute table of a shapefile. *)
From Coq Require Import String Ascii.
From Coq Require Import List Bool Arith ZArith.
From Verif Require Import Shp_Model Shp_Spec Shp_Proofs.
Import ListNotations.
Open Scope string_scope.

Definition ex_objs : list dict :=
  [[("temperature_a", VInt 1); ("temperature_b", VReal 5 0); ("_karta_proj4", VStr "+proj=longlat"); ("note", VOther 0); ("extra", VInt 3)];
   [("note", VStr "x"); ("temperature_b", VReal 7 0); ("temperature_a", VInt 2); ("_karta_proj4", VStr "+proj=longlat")]].
Definition ex_keys : list string := ["temperature_b"; "note"; "temperature_a"].
Lemma ex_order : key_order ex_objs ex_keys.
Proof.
  split; [repeat constructor; cbn; intuition discriminate |]. intros k. split.
  - intros [<- | [<- | [<- | []]]]; (split; [intros o [<- | [<- | []]]; cbn; auto 10 | reflexivity]).
  - intros [A P]. pose proof (A _ (or_introl eq_refl)) as B. pose proof (A _ (or_intror (or_introl eq_refl))) as D. cbn in B, D.
    destruct B as [<- | [<- | [<- | [<- | [<- | []]]]]]; cbn; auto; [discriminate |]. intuition discriminate.
Qed.
Lemma ex_no_empty : no_empty ex_objs.
Proof.
  intros o k v [<- | [<- | []]] I; cbn in I; repeat (destruct I as [[= <- <-] | I]; [reflexivity |]); contradiction.
Qed.

(** C44: the renaming loop ends, whatever names are taken and whatever name it begins with. *)
Theorem C44_terminates : forall used name, exists n out, forall fuel, n <= fuel -> rename fuel used name 2 = Some out.
Proof. exact rename_terminates. Qed.
Print Assumptions C44_terminates.
Example C44_terminates_ex : rename 50 ["AB1X"; "AB12"; "AB13"; "AB14"; "AB15"; "AB16"; "AB17"; "AB18"; "AB19"; "AB10"] "AB1X" 2 = Some "AB11".
Proof. reflexivity. Qed.

(** C44: field names are at most ten characters long and pairwise different, also when
    case does not count. *)
Theorem C44_names : forall objs keys fields rows, key_order objs keys -> write_table objs keys = Ok (fields, rows) ->
  NoDup (map (fun f => upper (fst (fst f))) fields) /\
  ((Z.of_nat (List.length keys) < 800000000)%Z -> forall name t k, In (name, t, k) fields -> String.length name <= 10).
Proof. exact table_names. Qed.
Print Assumptions C44_names.
Example C44_names_ex : exists rows, write_table ex_objs ex_keys =
  Ok ([("TEMPERATUR", OFTReal, "temperature_b"); ("NOTE", OFTString, "note"); ("TEMPERATU2", OFTInteger, "temperature_a")], rows).
Proof. eexists. vm_compute. reflexivity. Qed.

(** C44: every attribute that all objects have, that is not karta's own and that has a
    storable value in one of the first hundred objects, gets exactly one field; no other does. *)
Theorem C44_fields : forall objs keys fields rows, key_order objs keys -> write_table objs keys = Ok (fields, rows) ->
  NoDup (map snd fields) /\
  forall k, In k (map snd fields) <-> exported objs k /\ exists i o v, i < 100 /\ nth_error objs i = Some o /\ has o k v /\ typed v.
Proof. exact table_fields. Qed.
Print Assumptions C44_fields.
Example C44_fields_ex : key_order ex_objs ex_keys /\ no_empty ex_objs /\ exists f r, write_table ex_objs ex_keys = Ok (f, r).
Proof. split; [exact ex_order |]. split; [exact ex_no_empty |]. eexists. eexists. vm_compute. reflexivity. Qed.

(** C44: there is one row for each object, in order; under each field it has that object's
    value of the attribute the field was made from. *)
Theorem C44_values : forall objs keys fields rows, key_order objs keys -> write_table objs keys = Ok (fields, rows) ->
  List.length rows = List.length objs /\
  forall i o, nth_error objs i = Some o -> exists row, nth_error rows i = Some row /\
    map fst row = "id" :: map (fun f => fst (fst f)) fields /\ NoDup (map fst row) /\
    In ("id", VInt (Z.of_nat i)) row /\
    forall name t k, In (name, t, k) fields -> exists v, has o k v /\ In (name, v) row.
Proof. exact table_values. Qed.
Print Assumptions C44_values.
Example C44_values_ex : exists fields r1, write_table ex_objs ex_keys = Ok (fields, [r1;
  [("id", VInt 1); ("TEMPERATUR", VReal 7 0); ("NOTE", VStr "x"); ("TEMPERATU2", VInt 2)]]).
Proof. eexists. eexists. vm_compute. reflexivity. Qed.

(** C44: attributes whose names differ in the first ten letters are stored under those. *)
Theorem C44_plain : forall objs keys fields rows, key_order objs keys -> write_table objs keys = Ok (fields, rows) ->
  NoDup (map (fun k => upper (substring 0 10 k)) keys) ->
  forall name t k, In (name, t, k) fields -> name = upper (substring 0 10 k).
Proof. exact table_plain. Qed.
Print Assumptions C44_plain.
Example C44_plain_ex : NoDup (map (fun k => upper (substring 0 10 k)) ["temperature"; "note"; "Depth"]).
Proof. repeat constructor; cbn; intuition discriminate. Qed.

(** C44: writing succeeds if no value is an empty list. *)
Theorem C44_written_partial : forall objs keys, key_order objs keys -> no_empty objs -> exists fields rows, write_table objs keys = Ok (fields, rows).
Proof. exact table_ok. Qed.
Print Assumptions C44_written_partial.
Example C44_written_partial_ex : key_order ex_objs ex_keys /\ no_empty ex_objs.
Proof. exact (conj ex_order ex_no_empty). Qed.

(** C44, refuted: an empty list as value makes the export fail with an IndexError. *)
Theorem C44_written_refuted : exists objs keys, key_order objs keys /\ (forall o, In o objs -> In "name" (map fst o)) /\ write_table objs keys = Raise IndexError.
Proof. exact empty_list_raises. Qed.
Print Assumptions C44_written_refuted.

(** C44, refuted: a field may have the name of the "id" field that the export adds, up to
    case, which is all dBase compares. *)
Theorem C44_id_refuted : exists objs keys fields rows, key_order objs keys /\ write_table objs keys = Ok (fields, rows) /\
  exists name t k, In (name, t, k) fields /\ upper name = upper "id".
Proof. exact id_clash. Qed.
Print Assumptions C44_id_refuted.

(** C44, refuted: an attribute is dropped when only objects after the hundredth have a
    storable value of it. *)
Theorem C44_late_refuted : exists objs keys fields rows o k v, key_order objs keys /\ write_table objs keys = Ok (fields, rows) /\
  In o objs /\ exported objs k /\ has o k v /\ typed v /\ ~ In k (map snd fields).
Proof. exact late_value_lost. Qed.
Print Assumptions C44_late_refuted.

(** C44, refuted: the names do not depend on the attributes alone; of two attributes that
    clash either may keep the name. *)
Theorem C44_order_refuted : exists objs keys1 keys2 f1 r1 f2 r2, key_order objs keys1 /\ key_order objs keys2 /\
  write_table objs keys1 = Ok (f1, r1) /\ write_table objs keys2 = Ok (f2, r2) /\
  In ("TEMPERATUR", OFTInteger, "temperature_a") f1 /\ In ("TEMPERATUR", OFTInteger, "temperature_b") f2 /\
  In ("TEMPERATU2", OFTInteger, "temperature_b") f1 /\ In ("TEMPERATU2", OFTInteger, "temperature_a") f2.
Proof. exact order_matters. Qed.
Print Assumptions C44_order_refuted.
