(** Proofs about ellipsoids, proj.4 strings and equality of reference systems. *)
From Coq Require Import List ZArith QArith Qabs Bool Arith String Ascii Lia Lqa.
From Verif Require Import Crs_Model Crs_Spec.
Import ListNotations.
Open Scope string_scope.
Open Scope Q_scope.

(* ---- ellipsoids *)
Lemma Qeqb_f : forall a b, Qeq_bool a b = false -> ~ a == b.
Proof. intros a b H E. apply Qeq_bool_iff in E. congruence. Qed.
Lemma make_consistent : forall name a b f rf e, make_ellipsoid name a b f rf = Ok e ->
  (consistent e <-> b <> None \/ f <> None \/ rf <> None) /\ a = Some (el_a e) /\ el_name e = name.
Proof.
  intros name a b f rf e H. unfold make_ellipsoid in H. destruct a as [a|]; [|discriminate].
  destruct b as [b|].
  { destruct (Qeq_bool a 0) eqn:E; [discriminate|]. injection H as <-. cbn [el_a el_name]. split; [|auto]. apply Qeqb_f in E.
    split; [intros _; left; discriminate|]. intros _. exists b, ((a - b) / a). cbn [el_b el_f el_a].
    split; [reflexivity|]. split; [reflexivity|]. field. exact E. }
  destruct f as [f|].
  { injection H as <-. cbn [el_a el_name]. split; [|auto]. split; [intros _; right; left; discriminate|]. intros _.
    exists (a - a * f), f. cbn [el_b el_f el_a]. split; [reflexivity|]. split; [reflexivity|]. ring. }
  destruct rf as [rf|].
  { destruct (Qeq_bool rf 0); [discriminate|]. injection H as <-. cbn [el_a el_name]. split; [|auto].
    split; [intros _; right; right; discriminate|]. intros _.
    exists (a - a * (1 / rf)), (1 / rf). cbn [el_b el_f el_a]. split; [reflexivity|]. split; [reflexivity|]. ring. }
  injection H as <-. cbn [el_a el_name]. split; [|auto]. split; [|intros [K|[K|K]]; contradiction].
  intros (b & f & B & _). discriminate.
Qed.
Lemma make_values : forall name a, ~ a == 0 ->
  (forall b f rf, exists e, make_ellipsoid name (Some a) (Some b) f rf = Ok e /\ el_a e = a /\ el_b e = Some b) /\
  (forall f rf, exists e, make_ellipsoid name (Some a) None (Some f) rf = Ok e /\ el_a e = a /\ el_f e = Some f) /\
  (forall rf, ~ rf == 0 -> exists e f, make_ellipsoid name (Some a) None None (Some rf) = Ok e /\ el_a e = a /\ el_f e = Some f /\ f * rf == 1).
Proof.
  intros name a A. split; [|split].
  - intros b f rf. eexists. unfold make_ellipsoid. destruct (Qeq_bool a 0) eqn:E; [apply Qeq_bool_iff in E; contradiction|].
    split; [reflexivity|]. auto.
  - intros f rf. eexists. split; [reflexivity|]. auto.
  - intros rf R0. unfold make_ellipsoid. destruct (Qeq_bool rf 0) eqn:E; [apply Qeq_bool_iff in E; contradiction|].
    eexists. exists (1 / rf). split; [reflexivity|]. split; [reflexivity|]. split; [reflexivity|]. field. exact R0.
Qed.

(* ---- strings *)
Lemma app_assoc_s : forall a b c : string, (a ++ b) ++ c = a ++ b ++ c.
Proof. induction a as [|x a IH]; intros b c; cbn; [reflexivity|]. rewrite IH. reflexivity. Qed.
Lemma app_nil_s : forall a : string, a ++ "" = a.
Proof. induction a as [|x a IH]; cbn; [reflexivity|]. rewrite IH. reflexivity. Qed.
Lemma chars_app : forall a b, chars (a ++ b) = (chars a ++ chars b)%list.
Proof. induction a as [|x a IH]; intros b; cbn; [reflexivity|]. rewrite IH. reflexivity. Qed.
Lemma prefix_iff : forall p s, String.prefix p s = true <-> begins p s.
Proof.
  induction p as [|x p IH]; intros s.
  - split; [intros _; exists s; reflexivity|]. intros _. destruct s; reflexivity.
  - destruct s as [|y s]; cbn [String.prefix].
    + split; [discriminate|]. intros (v & V). discriminate.
    + destruct (ascii_dec x y) as [->|N].
      * rewrite IH. split; intros (v & V); exists v; [rewrite V; reflexivity|injection V as ->; reflexivity].
      * split; [discriminate|]. intros (v & V). injection V as -> _. contradiction.
Qed.
Lemma prefix_f : forall p s, ~ begins p s -> String.prefix p s = false.
Proof. intros p s H. destruct (String.prefix p s) eqn:E; [|reflexivity]. apply prefix_iff in E. contradiction. Qed.
Lemma substring_iff : forall p s, has_substring p s = true <-> occurs p s.
Proof.
  intros p. induction s as [|x s IH]; cbn [has_substring]; rewrite orb_true_iff, prefix_iff.
  - split.
    + intros [(v & V)|]; [|discriminate]. exists "", v. exact V.
    + intros (u & v & V). left. exists v. destruct u; [exact V|discriminate].
  - rewrite IH. split.
    + intros [(v & V)|(u & v & V)]; [exists "", v; exact V|]. exists (String x u), v. rewrite V. reflexivity.
    + intros (u & v & V). destruct u as [|y u]; [left; exists v; exact V|]. injection V as -> ->. right. exists u, v. reflexivity.
Qed.
Lemma substring_f : forall p s, ~ occurs p s -> has_substring p s = false.
Proof. intros p s H. destruct (has_substring p s) eqn:E; [|reflexivity]. apply substring_iff in E. contradiction. Qed.
Lemma is_space_iff : forall c, is_space c = true <-> space c.
Proof.
  intros c. unfold is_space, space. generalize (nat_of_ascii c). intros n.
  rewrite !orb_true_iff, !andb_true_iff, Nat.eqb_eq, !Nat.leb_le. cbn [In]. lia.
Qed.
Lemma is_space_f : forall c, ~ space c -> is_space c = false.
Proof. intros c H. destruct (is_space c) eqn:E; [|reflexivity]. apply is_space_iff in E. contradiction. Qed.
Lemma eqb_nonempty : forall w, w <> "" -> String.eqb w "" = false.
Proof. intros w H. apply String.eqb_neq. exact H. Qed.
Lemma split_run : forall w acc s, (forall c, In c (chars w) -> ~ space c) -> split_ws (w ++ s) acc = split_ws s (acc ++ w).
Proof.
  induction w as [|x w IH]; intros acc s H.
  - rewrite app_nil_s. reflexivity.
  - cbn [append split_ws]. rewrite is_space_f by (apply H; left; reflexivity).
    rewrite IH by (intros c C; apply H; right; exact C). rewrite app_assoc_s. reflexivity.
Qed.
Lemma split_unwords : forall l, List.Forall word l -> split_ws (unwords l) "" = l.
Proof.
  induction l as [|w l IH]; intros H; [reflexivity|]. inversion H as [|? ? (N & W) H']; subst.
  destruct l as [|w2 l].
  - cbn [unwords]. rewrite <- (app_nil_s w) at 1. rewrite split_run by exact W. cbn. rewrite eqb_nonempty by exact N. reflexivity.
  - change (unwords (w :: w2 :: l)) with (w ++ " " ++ unwords (w2 :: l)). rewrite split_run by exact W.
    cbn [append]. change (split_ws (String " " (unwords (w2 :: l))) w) with (if String.eqb w "" then split_ws (unwords (w2 :: l)) "" else w :: split_ws (unwords (w2 :: l)) "").
    rewrite eqb_nonempty by exact N. rewrite IH by exact H'. reflexivity.
Qed.
Lemma begins_space : forall p w r, (forall c, In c (chars p) -> ~ space c) -> begins p (w ++ " " ++ r) -> begins p w.
Proof.
  induction p as [|x p IH]; intros w r H (v & V); [exists w; reflexivity|].
  destruct w as [|y w]; cbn [append] in V.
  - injection V as E _. exfalso. apply (H x); [left; reflexivity|]. subst x. unfold space. cbn. intuition.
  - injection V as -> V. destruct (IH w r) as (v' & V').
    + intros c C. apply H. right. exact C.
    + exists v. exact V.
    + exists v'. cbn. rewrite V'. reflexivity.
Qed.
Lemma occurs_space : forall p r w, word p -> occurs p (w ++ " " ++ r) -> occurs p w \/ occurs p r.
Proof.
  intros p r w (N & H). induction w as [|x w IH]; intros O; apply substring_iff in O.
  - change ("" ++ " " ++ r) with (String " " r) in O. cbn [has_substring] in O. apply orb_true_iff in O. destruct O as [O|O].
    + exfalso. apply prefix_iff in O. destruct O as (v & V). destruct p as [|y p]; [contradiction|].
      injection V as <- _. apply (H " "%char); [left; reflexivity|]. unfold space. cbn. intuition.
    + right. apply substring_iff. exact O.
  - cbn [append] in O. cbn [has_substring] in O. apply orb_true_iff in O. destruct O as [O|O].
    + left. apply prefix_iff in O. change (String x (w ++ String " " r)) with (String x w ++ " " ++ r) in O.
      apply begins_space in O; [|exact H]. destruct O as (v & V). exists "", v. exact V.
    + apply substring_iff in O. destruct (IH O) as [(u & v & V)|O']; [left|right; exact O'].
      exists (String x u), v. rewrite V. reflexivity.
Qed.
Lemma occurs_unwords : forall p l, word p -> (occurs p (unwords l) <-> exists w, In w l /\ occurs p w).
Proof.
  intros p l P. induction l as [|w l IH].
  - split; [|intros (w & [] & _)]. intros (u & v & V). exfalso. destruct u; [|discriminate]. destruct p; [destruct P; contradiction|discriminate].
  - destruct l as [|w2 l].
    + split; [intros O; exists w; split; [left; reflexivity|exact O]|]. intros (w' & [<-|[]] & O). exact O.
    + change (unwords (w :: w2 :: l)) with (w ++ " " ++ unwords (w2 :: l)). split.
      * intros O. apply occurs_space in O; [|exact P]. destruct O as [O|O]; [exists w; split; [left; reflexivity|exact O]|].
        apply IH in O. destruct O as (w' & W & O). exists w'. split; [right; exact W|exact O].
      * intros (w' & [<-|W] & (u & v & V)).
        -- exists u, (v ++ " " ++ unwords (w2 :: l)). rewrite V, !app_assoc_s. reflexivity.
        -- assert (occurs p (unwords (w2 :: l))) as (u' & v' & V') by (apply IH; exists w'; split; [exact W|exists u, v; exact V]).
           exists (w ++ " " ++ u'), v'. rewrite V', !app_assoc_s. reflexivity.
Qed.
Lemma split_eq_run : forall w acc s, (forall c, In c (chars w) -> c <> "="%char) -> split_eq (w ++ s) acc = split_eq s (acc ++ w).
Proof.
  induction w as [|x w IH]; intros acc s H.
  - rewrite app_nil_s. reflexivity.
  - cbn [append split_eq]. destruct (Ascii.eqb x "=") eqn:E; [apply Ascii.eqb_eq in E; exfalso; apply (H x); [left; reflexivity|exact E]|].
    rewrite IH by (intros c C; apply H; right; exact C). rewrite app_assoc_s. reflexivity.
Qed.
Lemma value_of_spec : forall k v, (forall c, In c (chars k) -> c <> "="%char) -> value v -> value_of (k ++ "=" ++ v) = Ok v.
Proof.
  intros k v K V. unfold value_of. rewrite split_eq_run by exact K. cbn [append].
  change (split_eq (String "=" v) k) with (k :: split_eq v ""). rewrite <- (app_nil_s v) at 1.
  rewrite split_eq_run by (intros c C; apply (proj2 (V c C))). reflexivity.
Qed.
Lemma word_kv : forall k v, word k -> value v -> word (k ++ "=" ++ v).
Proof.
  intros k v (N & K) V. split; [destruct k; [contradiction|discriminate]|].
  intros c C. rewrite !chars_app, !in_app_iff in C. destruct C as [C|[C|C]]; [exact (K c C)| |exact (proj1 (V c C))].
  destruct C as [<-|[]]. intros S. apply is_space_iff in S. discriminate.
Qed.

(* ---- parsing *)
Ltac chk := let c := fresh in let C := fresh in intros c C; cbn in C;
  repeat (destruct C as [<-|C]; [first [discriminate | intros S; apply is_space_iff in S; discriminate]|]); destruct C.
Lemma word_lit : forall s, String.eqb s "" = false -> forallb (fun c => negb (is_space c)) (chars s) = true -> word s.
Proof.
  intros s N H. split; [apply String.eqb_neq; exact N|]. intros c C S. rewrite forallb_forall in H. specialize (H c C).
  apply is_space_iff in S. rewrite S in H. discriminate.
Qed.
Lemma first_word_spec : forall key l1 w l2, (forall x, In x l1 -> ~ begins key x) -> begins key w -> first_word key (l1 ++ w :: l2) = Some w.
Proof.
  intros key l1 w l2 H B. induction l1 as [|x l1 IH]; cbn [app first_word].
  - rewrite (proj2 (prefix_iff _ _) B). reflexivity.
  - rewrite prefix_f by (apply H; left; reflexivity). apply IH. intros y Y. apply H. right. exact Y.
Qed.
Lemma parse_ellps : forall float l1 k l2, List.Forall word l1 -> List.Forall word l2 -> value k ->
  (forall w, In w l1 -> ~ begins "+ellps" w) ->
  parse_ellipsoid float (unwords (l1 ++ ("+ellps=" ++ k) :: l2)) = from_table k.
Proof.
  intros float l1 k l2 W1 W2 K N. unfold parse_ellipsoid.
  assert (word ("+ellps=" ++ k)) as Wk.
  { apply (word_kv "+ellps" k); [apply word_lit; reflexivity|exact K]. }
  rewrite split_unwords by (apply Forall_app; split; [exact W1|constructor; assumption]).
  rewrite (proj2 (substring_iff _ _)).
  - rewrite first_word_spec; [|exact N|exists ("=" ++ k); reflexivity].
    change (value_of ("+ellps=" ++ k)) with (value_of ("+ellps" ++ "=" ++ k)). rewrite (value_of_spec "+ellps" k); [reflexivity| |exact K].
    chk.
  - apply occurs_unwords; [apply word_lit; reflexivity|]. exists ("+ellps=" ++ k). split; [apply in_app_iff; right; left; reflexivity|].
    exists "", ("=" ++ k). reflexivity.
Qed.
Lemma parse_datum : forall float l1 k l2, List.Forall word l1 -> List.Forall word l2 -> value k ->
  (forall w, In w (l1 ++ l2) -> ~ occurs "+ellps" w) -> ~ occurs "+ellps" k -> (forall w, In w l1 -> ~ begins "+datum" w) ->
  parse_ellipsoid float (unwords (l1 ++ ("+datum=" ++ k) :: l2)) =
  match lookup k datum_ellipsoids with None => Raise KeyError | Some e => from_table e end.
Proof.
  intros float l1 k l2 W1 W2 K N Nk N1. unfold parse_ellipsoid.
  assert (word ("+datum=" ++ k)) as Wk.
  { apply (word_kv "+datum" k); [apply word_lit; reflexivity|exact K]. }
  rewrite split_unwords by (apply Forall_app; split; [exact W1|constructor; assumption]).
  rewrite substring_f.
  2:{ intros O. apply occurs_unwords in O; [|apply word_lit; reflexivity]. destruct O as (w & I & O). apply in_app_iff in I.
      destruct I as [I|[<-|I]]; [apply (N w); [apply in_app_iff; auto|exact O]| |apply (N w); [apply in_app_iff; auto|exact O]].
      apply substring_iff in O. cbn [append] in O.
      repeat (cbn [has_substring] in O; apply orb_true_iff in O; destruct O as [O|O]; [cbn in O; discriminate|]).
      apply Nk, substring_iff. exact O. }
  rewrite (proj2 (substring_iff _ _)).
  - rewrite first_word_spec; [|exact N1|exists ("=" ++ k); reflexivity].
    change (value_of ("+datum=" ++ k)) with (value_of ("+datum" ++ "=" ++ k)). rewrite (value_of_spec "+datum" k); [reflexivity| |exact K]. chk.
  - apply occurs_unwords; [apply word_lit; reflexivity|]. exists ("+datum=" ++ k). split; [apply in_app_iff; right; left; reflexivity|].
    exists "", ("=" ++ k). reflexivity.
Qed.

Lemma scan_skip : forall float l rest a b r, List.Forall unrelated l -> truthy a && (truthy b || truthy r) = false ->
  scan_axes float (l ++ rest) a b r = scan_axes float rest a b r.
Proof.
  intros float l rest a b r H T. induction H as [|w l (_ & _ & _ & A & B & F) _ IH]; [reflexivity|].
  cbn [app scan_axes]. rewrite (prefix_f "+a" w A), (prefix_f "+b" w B), (prefix_f "+f" w F), T. exact IH.
Qed.
Lemma value_a : forall v, value v -> value_of ("+a=" ++ v) = Ok v.
Proof. intros v V. apply (value_of_spec "+a" v); [chk|exact V]. Qed.
Lemma value_b : forall v, value v -> value_of ("+b=" ++ v) = Ok v.
Proof. intros v V. apply (value_of_spec "+b" v); [chk|exact V]. Qed.
Lemma value_f : forall v, value v -> value_of ("+f=" ++ v) = Ok v.
Proof. intros v V. apply (value_of_spec "+f" v); [chk|exact V]. Qed.
Lemma truthy_some : forall x, ~ x == 0 -> truthy (Some x) = true.
Proof. intros x H. unfold truthy. destruct (Qeq_bool x 0) eqn:E; [apply Qeq_bool_iff in E; contradiction|reflexivity]. Qed.
Lemma inv_nonzero : forall f, ~ f == 0 -> ~ 1 / f == 0.
Proof. intros f F E. assert (f * (1 / f) == 1) as X by (field; exact F). rewrite E in X. lra. Qed.
Lemma scan_ab : forall float l1 wa l2 wb l3 a b, List.Forall unrelated l1 -> List.Forall unrelated l2 -> keyed float "+a" wa a -> keyed float "+b" wb b ->
  scan_axes float (l1 ++ wa :: l2 ++ wb :: l3) None None None = Ok (Some a, Some b, None) /\
  scan_axes float (l1 ++ wb :: l2 ++ wa :: l3) None None None = Ok (Some a, Some b, None).
Proof.
  intros float l1 wa l2 wb l3 a b H1 H2 (va & -> & Va & _ & _ & Fa & Na) (vb & -> & Vb & _ & _ & Fb & Nb). split.
  - rewrite scan_skip by (exact H1 || reflexivity). cbn [scan_axes]. change (String.prefix "+a" ("+a" ++ "=" ++ va)) with true.
    change (value_of ("+a" ++ "=" ++ va)) with (value_of ("+a=" ++ va)). rewrite value_a, Fa by exact Va. cbv beta iota zeta. rewrite (truthy_some a Na). cbn [truthy orb andb].
    rewrite scan_skip by (exact H2 || (cbn; apply andb_false_r)). cbn [scan_axes].
    change (String.prefix "+a" ("+b" ++ "=" ++ vb)) with false. change (String.prefix "+b" ("+b" ++ "=" ++ vb)) with true.
    change (value_of ("+b" ++ "=" ++ vb)) with (value_of ("+b=" ++ vb)). rewrite value_b, Fb by exact Vb. cbv beta iota zeta. rewrite (truthy_some a Na), (truthy_some b Nb). reflexivity.
  - rewrite scan_skip by (exact H1 || reflexivity). cbn [scan_axes].
    change (String.prefix "+a" ("+b" ++ "=" ++ vb)) with false. change (String.prefix "+b" ("+b" ++ "=" ++ vb)) with true.
    change (value_of ("+b" ++ "=" ++ vb)) with (value_of ("+b=" ++ vb)). rewrite value_b, Fb by exact Vb. cbv beta iota zeta. cbn [truthy andb].
    rewrite scan_skip by (exact H2 || reflexivity). cbn [scan_axes].
    change (String.prefix "+a" ("+a" ++ "=" ++ va)) with true.
    change (value_of ("+a" ++ "=" ++ va)) with (value_of ("+a=" ++ va)). rewrite value_a, Fa by exact Va. cbv beta iota zeta. rewrite (truthy_some a Na), (truthy_some b Nb). reflexivity.
Qed.
Lemma scan_af : forall float l1 wa l2 wf l3 a f, List.Forall unrelated l1 -> List.Forall unrelated l2 -> keyed float "+a" wa a -> keyed float "+f" wf f ->
  scan_axes float (l1 ++ wa :: l2 ++ wf :: l3) None None None = Ok (Some a, None, Some (1 / f)) /\
  scan_axes float (l1 ++ wf :: l2 ++ wa :: l3) None None None = Ok (Some a, None, Some (1 / f)).
Proof.
  intros float l1 wa l2 wf l3 a f H1 H2 (va & -> & Va & _ & _ & Fa & Na) (vf & -> & Vf & _ & _ & Ff & Nf).
  assert (Qeq_bool f 0 = false) as E by (destruct (Qeq_bool f 0) eqn:E; [apply Qeq_bool_iff in E; contradiction|reflexivity]).
  pose proof (truthy_some _ (inv_nonzero f Nf)) as T. split.
  - rewrite scan_skip by (exact H1 || reflexivity). cbn [scan_axes]. change (String.prefix "+a" ("+a" ++ "=" ++ va)) with true.
    change (value_of ("+a" ++ "=" ++ va)) with (value_of ("+a=" ++ va)). rewrite value_a, Fa by exact Va. cbv beta iota zeta. rewrite (truthy_some a Na). cbn [truthy orb andb].
    rewrite scan_skip by (exact H2 || (cbn; apply andb_false_r)). cbn [scan_axes].
    change (String.prefix "+a" ("+f" ++ "=" ++ vf)) with false. change (String.prefix "+b" ("+f" ++ "=" ++ vf)) with false.
    change (String.prefix "+f" ("+f" ++ "=" ++ vf)) with true.
    change (value_of ("+f" ++ "=" ++ vf)) with (value_of ("+f=" ++ vf)). rewrite value_f, Ff by exact Vf. cbv beta iota zeta. rewrite E, (truthy_some a Na), T. rewrite orb_true_r. reflexivity.
  - rewrite scan_skip by (exact H1 || reflexivity). cbn [scan_axes].
    change (String.prefix "+a" ("+f" ++ "=" ++ vf)) with false. change (String.prefix "+b" ("+f" ++ "=" ++ vf)) with false.
    change (String.prefix "+f" ("+f" ++ "=" ++ vf)) with true.
    change (value_of ("+f" ++ "=" ++ vf)) with (value_of ("+f=" ++ vf)). rewrite value_f, Ff, E by exact Vf. cbv beta iota zeta. cbn [truthy andb].
    rewrite scan_skip by (exact H2 || reflexivity). cbn [scan_axes].
    change (String.prefix "+a" ("+a" ++ "=" ++ va)) with true.
    change (value_of ("+a" ++ "=" ++ va)) with (value_of ("+a=" ++ va)). rewrite value_a, Fa by exact Va. cbv beta iota zeta. rewrite (truthy_some a Na), T. rewrite orb_true_r. reflexivity.
Qed.

Lemma keyed_quiet : forall float key w x, keyed float key w x -> In key ["+a"; "+b"; "+f"] -> quiet w.
Proof.
  intros float key w x (v & -> & V & E & D & _ & _) K. split; [|split].
  - apply word_kv; [|exact V]. cbn [In] in K. destruct K as [<-|[<-|[<-|[]]]]; apply word_lit; reflexivity.
  - intros O. apply substring_iff in O. cbn [In] in K. destruct K as [<-|[<-|[<-|[]]]]; cbn [append] in O;
      repeat (cbn [has_substring] in O; apply orb_true_iff in O; destruct O as [O|O]; [cbn in O; discriminate|]);
      apply E, substring_iff; exact O.
  - intros O. apply substring_iff in O. cbn [In] in K. destruct K as [<-|[<-|[<-|[]]]]; cbn [append] in O;
      repeat (cbn [has_substring] in O; apply orb_true_iff in O; destruct O as [O|O]; [cbn in O; discriminate|]);
      apply D, substring_iff; exact O.
Qed.
Lemma parse_scan : forall float l wa wx, List.Forall quiet l -> In wa l -> In wx l -> begins "+a" wa -> begins "+b" wx \/ begins "+f" wx ->
  parse_ellipsoid float (unwords l) =
  match scan_axes float l None None None with
  | Raise e => Raise e
  | Ok (ela, elb, elrf) => make_ellipsoid (Some "Unknown") ela elb None elrf
  end.
Proof.
  intros float l wa wx Q Ia Ix Ba Bx. unfold parse_ellipsoid.
  assert (List.Forall word l) as W by (eapply Forall_impl; [|exact Q]; intros w H; exact (proj1 H)).
  rewrite split_unwords by exact W. rewrite Forall_forall in Q.
  rewrite (substring_f "+ellps"), (substring_f "+datum").
  2:{ intros O. apply occurs_unwords in O; [|apply word_lit; reflexivity]. destruct O as (w & I & O). destruct (Q w I) as (_ & Q1 & Q2). tauto. }
  2:{ intros O. apply occurs_unwords in O; [|apply word_lit; reflexivity]. destruct O as (w & I & O). destruct (Q w I) as (_ & Q1 & Q2). tauto. }
  assert (forall p w, word p -> In w l -> begins p w -> has_substring p (unwords l) = true) as H.
  { intros p w P I (v & V). apply substring_iff, occurs_unwords; [exact P|]. exists w. split; [exact I|]. exists "", v. exact V. }
  rewrite (H "+a" wa) by (assumption || (apply word_lit; reflexivity)).
  destruct Bx as [Bx|Bx]; [rewrite (H "+b" wx)|rewrite (H "+f" wx)]; try assumption; try (apply word_lit; reflexivity).
  - reflexivity.
  - rewrite orb_true_r. reflexivity.
Qed.
Lemma keyed_begins : forall float key w x, keyed float key w x -> begins key w.
Proof. intros float key w x (v & -> & _). exists ("=" ++ v). reflexivity. Qed.
Lemma unrelated_quiet : forall w, unrelated w -> quiet w.
Proof. intros w (A & B & C & _). repeat split; auto; apply A. Qed.
Lemma quiet_list : forall l1 w l2 w' l3, List.Forall unrelated l1 -> List.Forall unrelated l2 -> List.Forall quiet l3 -> quiet w -> quiet w' ->
  List.Forall quiet (l1 ++ w :: l2 ++ w' :: l3).
Proof.
  intros l1 w l2 w' l3 H1 H2 H3 Q Q'. assert (forall l, List.Forall unrelated l -> List.Forall quiet l) as K.
  { intros l H. eapply Forall_impl; [|exact H]. exact unrelated_quiet. }
  apply Forall_app. split; [auto|]. constructor; [exact Q|]. apply Forall_app. split; [auto|]. constructor; auto.
Qed.
Lemma parse_ab : forall float l1 wa l2 wb l3 a b, List.Forall unrelated l1 -> List.Forall unrelated l2 -> List.Forall quiet l3 ->
  keyed float "+a" wa a -> keyed float "+b" wb b ->
  let e := Ellipsoid (Some "Unknown") a (Some b) (Some ((a - b) / a)) in
  parse_ellipsoid float (unwords (l1 ++ wa :: l2 ++ wb :: l3)) = Ok e /\
  parse_ellipsoid float (unwords (l1 ++ wb :: l2 ++ wa :: l3)) = Ok e.
Proof.
  intros float l1 wa l2 wb l3 a b H1 H2 H3 A B e. destruct (scan_ab float l1 wa l2 wb l3 a b H1 H2 A B) as (S1 & S2).
  pose proof (keyed_quiet _ _ _ _ A ltac:(cbn; auto)) as Qa. pose proof (keyed_quiet _ _ _ _ B ltac:(cbn; auto)) as Qb.
  pose proof (keyed_begins _ _ _ _ A) as Ba. pose proof (keyed_begins _ _ _ _ B) as Bb.
  destruct A as (va & _ & _ & _ & _ & _ & Na).
  split; rewrite (parse_scan float _ wa wb); auto; try (apply quiet_list; assumption);
    try (rewrite !in_app_iff; cbn [In]; rewrite !in_app_iff; cbn [In]; tauto); rewrite ?S1, ?S2; unfold make_ellipsoid, e;
    (destruct (Qeq_bool a 0) eqn:E; [apply Qeq_bool_iff in E; contradiction|reflexivity]).
Qed.
Lemma parse_af : forall float l1 wa l2 wf l3 a f, List.Forall unrelated l1 -> List.Forall unrelated l2 -> List.Forall quiet l3 ->
  keyed float "+a" wa a -> keyed float "+f" wf f -> exists e,
  parse_ellipsoid float (unwords (l1 ++ wa :: l2 ++ wf :: l3)) = Ok e /\
  parse_ellipsoid float (unwords (l1 ++ wf :: l2 ++ wa :: l3)) = Ok e /\
  el_a e = a /\ exists b f', el_b e = Some b /\ el_f e = Some f' /\ b == a * (1 - f) /\ f' == f.
Proof.
  intros float l1 wa l2 wf l3 a f H1 H2 H3 A B. destruct (scan_af float l1 wa l2 wf l3 a f H1 H2 A B) as (S1 & S2).
  pose proof (keyed_quiet _ _ _ _ A ltac:(cbn; auto)) as Qa. pose proof (keyed_quiet _ _ _ _ B ltac:(cbn; auto)) as Qb.
  pose proof (keyed_begins _ _ _ _ A) as Ba. pose proof (keyed_begins _ _ _ _ B) as Bb.
  destruct B as (vf & _ & _ & _ & _ & _ & Nf).
  assert (Qeq_bool (1 / f) 0 = false) as E by (destruct (Qeq_bool (1 / f) 0) eqn:E; [apply Qeq_bool_iff in E; destruct (inv_nonzero f Nf E)|reflexivity]).
  eexists. split; [|split].
  - rewrite (parse_scan float _ wa wf); auto; try (apply quiet_list; assumption);
    try (rewrite !in_app_iff; cbn [In]; rewrite !in_app_iff; cbn [In]; tauto). rewrite S1. unfold make_ellipsoid. rewrite E. reflexivity.
  - rewrite (parse_scan float _ wa wf); auto; try (apply quiet_list; assumption);
    try (rewrite !in_app_iff; cbn [In]; rewrite !in_app_iff; cbn [In]; tauto). rewrite S2. unfold make_ellipsoid. rewrite E. reflexivity.
  - cbn [el_a el_b el_f]. split; [reflexivity|]. eexists. eexists. split; [reflexivity|]. split; [reflexivity|]. split; field; exact Nf.
Qed.
(* ---- what is always true of an answer *)
Lemma parse_any : forall float s e, parse_ellipsoid float s = Ok e -> consistent e \/ (el_b e = None /\ el_f e = None).
Proof.
  assert (forall name a b rf e, make_ellipsoid name a b None rf = Ok e -> consistent e \/ (el_b e = None /\ el_f e = None)) as M.
  { intros name a b rf e H. destruct (make_consistent _ _ _ _ _ _ H) as (C & A & _). destruct b as [b|]; [left; apply C; left; discriminate|].
    destruct rf as [rf|]; [left; apply C; right; right; discriminate|]. right. subst a. injection H as <-. auto. }
  intros float s e H. unfold parse_ellipsoid in H.
  assert (forall k, from_table k = Ok e -> consistent e \/ (el_b e = None /\ el_f e = None)) as T.
  { intros k K. unfold from_table in K. destruct (lookup k ellipsoid_data) as [[[[a b] rf] name]|]; [|discriminate]. eapply M. exact K. }
  destruct (has_substring "+ellps" s).
  { destruct (first_word _ _); [|discriminate]. destruct (value_of _); [|discriminate]. eapply T. exact H. }
  destruct (has_substring "+datum" s).
  { destruct (first_word _ _); [|discriminate]. destruct (value_of _); [|discriminate]. destruct (lookup _ datum_ellipsoids); [|discriminate]. eapply T. exact H. }
  destruct (has_substring "+a" s && _); [|discriminate].
  destruct (scan_axes _ _ _ _ _) as [[[a b] rf]|]; [|discriminate]. eapply M. exact H.
Qed.

(* ---- the tables *)
Lemma lookup_in : forall (A : Type) k (l : list (string * A)) v, lookup k l = Some v -> In (k, v) l.
Proof.
  intros A k l v. induction l as [|(k', v') l IH]; cbn [lookup]; [discriminate|].
  destruct (String.eqb k k') eqn:E; [|intros H; right; auto]. apply String.eqb_eq in E. intros H. injection H as <-. subst. left. reflexivity.
Qed.
Definition row_ok (row : string * (Q * option Q * option Q * string)) : bool :=
  let '(_, (a, b, rf, name)) := row in
  match make_ellipsoid (Some name) (Some a) b None rf with
  | Ok (Ellipsoid _ a (Some b) (Some f)) => negb (Qle_bool b 0) && Qle_bool b a && Qle_bool 0 f && negb (Qle_bool 1 f)
  | _ => false
  end.
Lemma rows_ok : forallb row_ok ellipsoid_data = true.
Proof. vm_compute. reflexivity. Qed.
Lemma qle_f : forall a b, Qle_bool a b = false -> b < a.
Proof. intros a b H. apply Qnot_le_lt. intros L. apply Qle_bool_iff in L. congruence. Qed.
Lemma table_ok : forall k, In k (map fst ellipsoid_data) -> exists e, from_table k = Ok e /\ consistent e /\ earthlike e.
Proof.
  intros k H. unfold from_table.
  assert (exists v, lookup k ellipsoid_data = Some v) as (row & L).
  { clear - H. revert H. generalize ellipsoid_data as l. induction l as [|(k', v) l IH]; intros H; [destruct H|].
    cbn [lookup]. destruct (String.eqb k k') eqn:E; [eauto|]. apply IH. destruct H as [H|H]; [|exact H]. cbn in H. subst.
    rewrite String.eqb_refl in E. discriminate. }
  rewrite L. apply lookup_in in L. pose proof rows_ok as R. rewrite forallb_forall in R. specialize (R _ L).
  destruct row as [[[a b] rf] name]. unfold row_ok in R.
  destruct (make_ellipsoid (Some name) (Some a) b None rf) as [[n a' [b'|] [f'|]]|e] eqn:M; try discriminate R.
  eexists. split; [reflexivity|]. rewrite !andb_true_iff, !negb_true_iff in R. destruct R as (((R1 & R2) & R3) & R4).
  apply qle_f in R1. apply Qle_bool_iff in R2. apply Qle_bool_iff in R3. apply qle_f in R4. split.
  - destruct (make_consistent _ _ _ _ _ _ M) as (C & _). apply C.
    destruct b; [left; discriminate|]. destruct rf; [right; right; discriminate|]. discriminate M.
  - exists b', f'. cbn [el_b el_f el_a]. repeat split; assumption.
Qed.
Lemma datum_ok : forall d k, In (d, k) datum_ellipsoids -> d <> "carthage" -> In k (map fst ellipsoid_data).
Proof.
  intros d k H N. assert (forallb (fun p => String.eqb (fst p) "carthage" || existsb (String.eqb (snd p)) (map fst ellipsoid_data)) datum_ellipsoids = true) as C by (vm_compute; reflexivity).
  rewrite forallb_forall in C. specialize (C _ H). apply orb_true_iff in C. destruct C as [C|C]; [apply String.eqb_eq in C; contradiction|].
  apply existsb_exists in C. destruct C as (x & X & E). apply String.eqb_eq in E. cbn in E. subst. exact X.
Qed.
Lemma datum_lookup : forall d k, In (d, k) datum_ellipsoids -> lookup d datum_ellipsoids = Some k.
Proof. intros d k H. cbn [datum_ellipsoids In] in H. repeat (destruct H as [H|H]; [injection H as <- <-; reflexivity|]). destruct H. Qed.
Lemma carthage : forall float, parse_ellipsoid float "+proj=longlat +datum=carthage" = Raise KeyError.
Proof. intros float. vm_compute. reflexivity. Qed.
Lemma datum_parse : forall float d k, In (d, k) datum_ellipsoids -> d <> "carthage" -> exists e,
  parse_ellipsoid float ("+proj=longlat +datum=" ++ d) = Ok e /\ from_table k = Ok e /\ consistent e /\ earthlike e.
Proof.
  intros float d k H N. destruct (table_ok k (datum_ok d k H N)) as (e & E & C & X). exists e. split; [|auto]. rewrite <- E.
  cbn [datum_ellipsoids In] in H. repeat (destruct H as [H|H]; [injection H as <- <-; try reflexivity; contradiction|]). destruct H.
Qed.

(* ---- strings that go wrong *)
Lemma alpha_axis : forall float, float "6378137" = Some 6378137 -> float "30" = Some 30 -> float "6356752" = Some 6356752 ->
  exists e, parse_ellipsoid float "+proj=omerc +a=6378137 +alpha=30 +b=6356752" = Ok e /\ el_a e = 30 /\ el_b e = Some 6356752.
Proof.
  intros float A B C. eexists. split.
  - unfold parse_ellipsoid.
    change (split_ws "+proj=omerc +a=6378137 +alpha=30 +b=6356752" "") with ["+proj=omerc"; "+a=6378137"; "+alpha=30"; "+b=6356752"].
    change (has_substring "+ellps" "+proj=omerc +a=6378137 +alpha=30 +b=6356752") with false.
    change (has_substring "+datum" "+proj=omerc +a=6378137 +alpha=30 +b=6356752") with false.
    change (has_substring "+a" "+proj=omerc +a=6378137 +alpha=30 +b=6356752") with true.
    change (has_substring "+b" "+proj=omerc +a=6378137 +alpha=30 +b=6356752") with true.
    cbn -[Qdiv Qminus Qmult Qeq_bool]. rewrite A, B, C. cbn -[Qdiv Qminus Qmult Qeq_bool]. change (Qeq_bool 6378137 0) with false.
    change (Qeq_bool 30 0) with false. change (Qeq_bool 6356752 0) with false. cbn -[Qdiv Qminus Qmult Qeq_bool]. reflexivity.
  - split; reflexivity.
Qed.
Lemma inverse_flattening : forall float, parse_ellipsoid float "+proj=longlat +a=6378137 +rf=298.257" = Raise CRSError.
Proof. intros float. vm_compute. reflexivity. Qed.
Lemma zero_flattening : forall float, float "6371000" = Some 6371000 -> float "0" = Some 0 ->
  parse_ellipsoid float "+proj=longlat +a=6371000 +f=0" = Raise ZeroDivisionError.
Proof.
  intros float A B. unfold parse_ellipsoid.
  change (split_ws "+proj=longlat +a=6371000 +f=0" "") with ["+proj=longlat"; "+a=6371000"; "+f=0"].
  change (has_substring "+ellps" "+proj=longlat +a=6371000 +f=0") with false.
  change (has_substring "+datum" "+proj=longlat +a=6371000 +f=0") with false.
  change (has_substring "+a" "+proj=longlat +a=6371000 +f=0") with true.
  change (has_substring "+b" "+proj=longlat +a=6371000 +f=0") with false.
  change (has_substring "+f" "+proj=longlat +a=6371000 +f=0") with true.
  cbn -[Qdiv Qminus Qmult Qeq_bool]. rewrite A, B. cbn -[Qdiv Qminus Qmult Qeq_bool]. change (Qeq_bool 6371000 0) with false. reflexivity.
Qed.

(* ---- geographical systems *)
Lemma begins_app : forall p s t, begins p s -> begins p (s ++ t).
Proof. intros p s t (v & ->). exists (v ++ t). apply app_assoc_s. Qed.
Lemma unwords_app : forall l1 l2, l1 <> [] -> l2 <> [] -> unwords (l1 ++ l2) = unwords l1 ++ " " ++ unwords l2.
Proof.
  induction l1 as [|w l1 IH]; intros l2 N1 N2; [contradiction|]. destruct l1 as [|w2 l1].
  - destruct l2 as [|w3 l2]; [contradiction|]. reflexivity.
  - change (unwords ((w :: w2 :: l1) ++ l2)) with (w ++ " " ++ unwords ((w2 :: l1) ++ l2)). rewrite IH by (assumption || discriminate).
    change (unwords (w :: w2 :: l1)) with (w ++ " " ++ unwords (w2 :: l1)). rewrite !app_assoc_s. reflexivity.
Qed.
(** Given by name, the text describes the same ellipsoid whatever the datum. *)
Lemma geographic_named : forall float k datum e text, value k -> datum = "" \/ (exists l, l <> [] /\ datum = unwords l /\ List.Forall word l) ->
  geographical_crs float ("+ellps=" ++ k) datum = Ok (e, text) -> parse_ellipsoid float text = Ok e.
Proof.
  intros float k datum e text K D H. unfold geographical_crs in H.
  change ("+ellps=" ++ k) with (unwords ([] ++ ["+ellps=" ++ k])) in H at 1.
  rewrite (parse_ellps float [] k [] (Forall_nil _) (Forall_nil _) K (fun w (F : In w []) => match F with end)) in H.
  destruct (from_table k) as [e'|] eqn:F; [|discriminate].
  assert (forall (x y : ellipsoid * string), Ok x = Ok y -> x = y) as OkI by (intros x y X; congruence). apply OkI in H.
  pose proof (f_equal fst H) as H1. pose proof (f_equal snd H) as H2. cbn [fst] in H1. unfold snd in H2. clear H. subst e' text.
  destruct D as [-> | (l & N & -> & W)].
  - replace ("+proj=lonlat " ++ ("+ellps=" ++ k) ++ (if String.eqb "" "" then "" else " " ++ "")) with (unwords (["+proj=lonlat"] ++ ("+ellps=" ++ k) :: [])).
    2:{ cbn [String.eqb]. rewrite app_nil_s. reflexivity. }
    rewrite parse_ellps; [exact F|repeat constructor; discriminate || (apply word_lit; reflexivity)|constructor|exact K|].
    intros w [<-|[]] (v & V). discriminate.
  - replace (String.eqb (unwords l) "") with false.
    2:{ symmetry. apply String.eqb_neq. destruct l as [|w [|w2 l]]; [contradiction| |]; inversion W as [|? ? (Nw & _) _]; subst; [exact Nw|].
        change (unwords (w :: w2 :: l)) with (w ++ " " ++ unwords (w2 :: l)). destruct w; [contradiction|discriminate]. }
    replace ("+proj=lonlat " ++ ("+ellps=" ++ k) ++ " " ++ unwords l) with (unwords (["+proj=lonlat"] ++ ("+ellps=" ++ k) :: l)).
    + rewrite parse_ellps; [exact F|repeat constructor; discriminate || (apply word_lit; reflexivity)|exact W|exact K|].
      intros w [<-|[]] (v & V). discriminate.
    + destruct l as [|w l]; [contradiction|]. cbn [app]. change (unwords ("+proj=lonlat" :: ("+ellps=" ++ k) :: w :: l)) with ("+proj=lonlat" ++ " " ++ (("+ellps=" ++ k) ++ " " ++ unwords (w :: l))).
      reflexivity.
Qed.
(** Given by its axes and with the default datum, the text describes WGS84. *)
Lemma geographic_axes : forall float l1 wa l2 wb a b, List.Forall unrelated l1 -> List.Forall unrelated l2 -> 
  keyed float "+a" wa a -> keyed float "+b" wb b -> exists e text e',
  geographical_crs float (unwords (l1 ++ wa :: l2 ++ [wb])) "+datum=WGS84" = Ok (e, text) /\ el_a e = a /\ el_b e = Some b /\
  parse_ellipsoid float text = Ok e' /\ from_table "WGS84" = Ok e'.
Proof.
  intros float l1 wa l2 wb a b H1 H2 A B. destruct (parse_ab float l1 wa l2 wb [] a b H1 H2 ltac:(constructor) A B) as (P & _).
  eexists. eexists. eexists. unfold geographical_crs. rewrite P. split; [reflexivity|]. split; [reflexivity|]. split; [reflexivity|].
  split; [|reflexivity].
  assert (List.Forall quiet (l1 ++ wa :: l2 ++ [wb])) as Q.
  { apply quiet_list; auto; [eapply keyed_quiet; [exact A|cbn; auto]|eapply keyed_quiet; [exact B|cbn; auto]]. }
  set (l := (l1 ++ wa :: l2 ++ [wb])%list) in *. assert (l <> []) as N by (unfold l; destruct l1; discriminate).
  replace ("+proj=lonlat " ++ unwords l ++ (if String.eqb "+datum=WGS84" "" then "" else " " ++ "+datum=WGS84")) with (unwords (("+proj=lonlat" :: l) ++ ("+datum=" ++ "WGS84") :: [])).
  - rewrite (parse_datum float ("+proj=lonlat" :: l) "WGS84" []).
    + reflexivity.
    + constructor; [apply word_lit; reflexivity|]. eapply Forall_impl; [|exact Q]. intros w W. exact (proj1 W).
    + constructor.
    + intros c C. cbn in C. repeat (destruct C as [<-|C]; [split; [intros S; apply is_space_iff in S|]; discriminate|]). destruct C.
    + rewrite app_nil_r. intros w [<-|I]; [intros O; apply substring_iff in O; discriminate|]. rewrite Forall_forall in Q. apply (Q w I).
    + intros O. apply substring_iff in O. discriminate.
    + intros w [<-|I] Bg; [apply prefix_iff in Bg; discriminate|]. rewrite Forall_forall in Q. destruct (Q w I) as (_ & _ & Q2). apply Q2.
      destruct Bg as (v & ->). exists "", v. reflexivity.
  - rewrite unwords_app by discriminate. destruct l as [|w l]; [contradiction|].
    change (unwords ("+proj=lonlat" :: w :: l)) with ("+proj=lonlat" ++ " " ++ unwords (w :: l)). rewrite !app_assoc_s. reflexivity.
Qed.

(* ---- equality *)
Lemma crs_eqb_iff : forall x y, crs_eqb x y = true <->
  has_proj y = true /\ has_geod y = true /\ (exists s, srs x = Some s /\ srs y = Some s) /\ (exists i, initstring x = Some i /\ initstring y = Some i).
Proof.
  intros x y. unfold crs_eqb. split.
  - rewrite !andb_true_iff. intros (((P & G) & E1) & E2).
    destruct (srs x), (srs y); try discriminate. destruct (initstring x), (initstring y); try discriminate.
    apply String.eqb_eq in E1. apply String.eqb_eq in E2. subst. eauto 8.
  - intros (P & G & (s & S1 & S2) & (i & I1 & I2)). rewrite P, G, S1, S2, I1, I2, !String.eqb_refl. reflexivity.
Qed.
Lemma crs_equiv : (forall x, complete_crs x -> crs_eqb x x = true) /\
  (forall x y, complete_crs x -> crs_eqb x y = true -> crs_eqb y x = true) /\
  (forall x y z, crs_eqb x y = true -> crs_eqb y z = true -> crs_eqb x z = true).
Proof.
  split; [|split].
  - intros x (P & G & S & I). apply crs_eqb_iff. split; [exact P|]. split; [exact G|].
    destruct (srs x); [|contradiction]. destruct (initstring x); [|contradiction]. split; eauto.
  - intros x y (P & G & _) H. apply crs_eqb_iff in H. destruct H as (_ & _ & (s & S1 & S2) & (i & I1 & I2)).
    apply crs_eqb_iff. split; [exact P|]. split; [exact G|]. split; eauto.
  - intros x y z H1 H2. apply crs_eqb_iff in H1. apply crs_eqb_iff in H2. apply crs_eqb_iff.
    destruct H1 as (_ & _ & (s & S1 & S2) & (i & I1 & I2)). destruct H2 as (P & G & (s' & S1' & S2') & (i' & I1' & I2')).
    split; [exact P|]. split; [exact G|]. rewrite S2 in S1'. rewrite I2 in I1'. injection S1' as <-. injection I1' as <-. split; eauto.
Qed.
Lemma carthage_known : In "carthage" (map fst datum_ellipsoids).
Proof. cbn [map fst datum_ellipsoids In]. auto 20. Qed.
