(** Proofs about the files written by exports. *)
From Coq Require Import String.
From Coq Require Import List Arith Bool Lia.
From Verif Require Aai_Model.
From Verif Require Import File_Model File_Spec.
Import ListNotations.

Section Proofs.
Context {A : Type}.
Variable fault : nat -> option error.
Variable flushed : nat -> nat.
Notation world := (world A).

Lemma put_same (d : disk_t A) p c : put d p c p = c.
Proof. unfold put. now rewrite String.eqb_refl. Qed.
Lemma put_only (d : disk_t A) p c : only p d (put d p c).
Proof. intros q Hq. unfold put. destruct (String.eqb_spec q p); congruence. Qed.
Lemma only_trans p (d d1 d2 : disk_t A) : only p d d1 -> only p d1 d2 -> only p d d2.
Proof. intros H1 H2 q Hq. rewrite (H2 q Hq). apply H1, Hq. Qed.
Lemma only_refl p (d : disk_t A) : only p d d. Proof. intros q _. reflexivity. Qed.
Lemma nth_last {B} (l : list B) x : nth_error (l ++ [x]) (length l) = Some x.
Proof. induction l; cbn; auto. Qed.
Lemma set_last {B} (l : list B) x y : set_nth (l ++ [x]) (length l) y = l ++ [y].
Proof. induction l as [|a l IH]; cbn; [reflexivity|now rewrite IH]. Qed.
Lemma beginning_refl (t : list A) : beginning t t. Proof. exists []. now rewrite app_nil_r. Qed.
Lemma beginning_nil (t : list A) : beginning [] t. Proof. now exists t. Qed.
Lemma gaps_refl (t : list A) : gaps t t. Proof. induction t; constructor; auto. Qed.
Lemma gaps_app (s t s' t' : list A) : gaps s t -> gaps s' t' -> gaps (s ++ s') (t ++ t').
Proof. intros H; induction H; cbn; intros; [auto| |]; constructor; auto. Qed.
Lemma gaps_none (t : list A) : gaps [] t. Proof. induction t; constructor; auto. Qed.
Lemma gaps_firstn (t : list A) k : gaps (firstn k t) t.
Proof. rewrite <- (firstn_skipn k t) at 2. rewrite <- (app_nil_r (firstn k t)) at 1. apply gaps_app; [apply gaps_refl|apply gaps_none]. Qed.
Lemma gaps_app_l (s s' t : list A) : gaps (s ++ s') t -> gaps s t.
Proof.
  remember (s ++ s') as u eqn:E. intros H. revert s s' E. induction H; intros s0 s' E.
  - destruct s0; [constructor|discriminate].
  - destruct s0; cbn in E; [apply gaps_none|]. injection E as -> E. constructor. eapply IHgaps; eauto.
  - constructor. eapply IHgaps; eauto.
Qed.

(** Disks in which [p] is in one of the states [base] or holds something in [P]. *)
Definition point (base : option (list A) -> Prop) (P : list A -> Prop) p (d0 d : disk_t A) : Prop :=
  only p d0 d /\ (base (d p) \/ exists s, d p = Some s /\ P s).
Definition recently (base : option (list A) -> Prop) P p (w0 w : world) : Prop :=
  exists recent, past w = recent ++ past w0 /\ Forall (point base P p (disk w0)) recent.
(** Before the file is opened. *)
Definition before (base : option (list A) -> Prop) P p (w0 w : world) : Prop :=
  handles w = handles w0 /\ only p (disk w0) (disk w) /\ base (disk w p) /\ streams w = streams w0 /\ recently base P p w0 w.
(** The file is open; [t] has been given to it. *)
Definition during base P p (w0 : world) (t : list A) (w : world) : Prop :=
  exists buf c, handles w = handles w0 ++ [mkHandle p buf true] /\ disk w p = Some c /\ c ++ buf = t /\
  only p (disk w0) (disk w) /\ streams w = streams w0 /\ recently base P p w0 w.
(** The file has been closed. *)
Definition after base P p (w0 : world) (t : list A) (w : world) : Prop :=
  exists c, handles w = handles w0 ++ [mkHandle p [] false] /\ disk w p = Some c /\ beginning c t /\
  only p (disk w0) (disk w) /\ streams w = streams w0 /\ recently base P p w0 w.
Definition closed_under (P : list A -> Prop) : Prop := forall s r, P (s ++ r) -> P s.

Section Inv.
Variables (base : option (list A) -> Prop) (P : list A -> Prop) (p : string) (w0 : world).
Hypothesis HP : closed_under P.

Lemma recently_tick w : recently base P p w0 w -> point base P p (disk w0) (disk w) -> recently base P p w0 (tick w).
Proof. intros (r & E & H) Hp. exists (disk w :: r). cbn. now rewrite E; split; [reflexivity|constructor]. Qed.

Lemma before_point w : before base P p w0 w -> point base P p (disk w0) (disk w).
Proof. intros (_ & H & B & _). split; auto. Qed.
Lemma during_point t w : P t -> during base P p w0 t w -> point base P p (disk w0) (disk w).
Proof.
  intros Pt (buf & c & _ & Ec & Et & H & _). split; [assumption|right]. exists c. split; [assumption|].
  apply HP with buf. now rewrite Et.
Qed.

Lemma open_spec w : before base P p w0 w ->
  match open_w fault p w with
  | (Ok i, w') => i = length (handles w0) /\ during base P p w0 [] w'
  | (Raise e, w') => before base P p w0 w' /\ fault (clock w) = Some e
  end.
Proof.
  intros B. pose proof (before_point _ B) as Hp. destruct B as (Eh & Ho & Hb & Es & Hr).
  pose proof (recently_tick w Hr Hp) as Hr'. unfold open_w. cbn [tick clock pred].
  destruct (fault (clock w)) eqn:F.
  - split; [|reflexivity]. repeat split; try assumption.
  - cbn. split; [now rewrite Eh|]. exists [], []. cbn. rewrite Eh. split; [reflexivity|]. split; [apply put_same|].
    split; [reflexivity|]. split; [eapply only_trans; [exact Ho|apply put_only]|]. split; [assumption|].
    destruct Hr' as (r & E & H). exists r. split; assumption.
Qed.

Lemma write_spec t s w : P (t ++ s) -> during base P p w0 t w ->
  match write fault flushed (length (handles w0)) s w with
  | (Ok _, w') => during base P p w0 (t ++ s) w' /\ fault (clock w) = None
  | (Raise e, w') => (exists k, during base P p w0 (t ++ firstn k s) w') /\ fault (clock w) = Some e
  end.
Proof.
  intros Pts D. assert (Pt : P t) by (eapply HP; eauto). pose proof (during_point t w Pt D) as Hp.
  destruct D as (buf & c & Eh & Ec & Et & Ho & Es & Hr). pose proof (recently_tick w Hr Hp) as Hr'.
  unfold write. cbn [tick handles clock]. rewrite Eh, nth_last. cbn [hopen hpath hbuf].
  set (s' := match fault (clock w) with Some _ => firstn (flushed (clock w)) s | None => s end).
  set (m := flushed (clock w)) in *.
  match goal with |- context[flush m ?i ?x] => set (w1 := flush m i x) end.
  assert (D1 : during base P p w0 (t ++ s') w1).
  { unfold w1, flush. cbn [handles disk streams past tick]. rewrite set_last, nth_last. cbn [hpath hbuf hopen].
    rewrite Ec. exists (skipn m (buf ++ s')), (c ++ firstn m (buf ++ s')). cbn. rewrite set_last.
    split; [reflexivity|]. split; [apply put_same|]. split; [rewrite <- app_assoc, firstn_skipn, app_assoc, Et; reflexivity|].
    split; [eapply only_trans; [exact Ho|apply put_only]|]. split; [assumption|].
    destruct Hr' as (r & E & H). exists r. split; assumption. }
  unfold s' in D1. destruct (fault (clock w)) as [e|]; split; try reflexivity; [exists m; exact D1|exact D1].
Qed.

Lemma close_spec t w : P t -> during base P p w0 t w ->
  match close fault flushed (length (handles w0)) w with
  | (Ok _, w') => after base P p w0 t w' /\ fault (clock w) = None /\ disk w' p = Some t
  | (Raise e, w') => after base P p w0 t w' /\ fault (clock w) = Some e
  end.
Proof.
  intros Pt D. pose proof (during_point t w Pt D) as Hp.
  destruct D as (buf & c & Eh & Ec & Et & Ho & Es & Hr). pose proof (recently_tick w Hr Hp) as Hr'.
  unfold close. cbn [tick handles clock]. rewrite Eh, nth_last. cbn [hbuf hpath].
  set (m := match fault (clock w) with Some _ => flushed (clock w) | None => length buf end).
  unfold flush. cbn [handles disk streams past tick]. rewrite Eh, nth_last. cbn [hpath hbuf hopen].
  rewrite Ec, !set_last. cbn [handles disk streams past clock].
  match goal with |- context[(Raise _, ?x)] => set (w1 := x) end.
  assert (D1 : after base P p w0 t w1 /\ disk w1 p = Some (c ++ firstn m buf)).
  { split; [|unfold w1; cbn; apply put_same]. exists (c ++ firstn m buf). unfold w1; cbn. rewrite set_last.
    split; [reflexivity|]. split; [apply put_same|].
    split; [exists (skipn m buf); now rewrite <- app_assoc, firstn_skipn|].
    split; [eapply only_trans; [exact Ho|apply put_only]|]. split; [assumption|].
    destruct Hr' as (r & E & H). exists r. split; assumption. }
  unfold m in D1. destruct (fault (clock w)) as [e|]; [tauto|]. rewrite firstn_all, Et in D1. tauto.
Qed.

(** What a statement working on the open file may do. *)
Definition works (t T : list A) (m : stm unit) : Prop :=
  forall w, during base P p w0 t w ->
  match m w with
  | (Ok _, w') => during base P p w0 T w'
  | (Raise e, w') => exists u, P u /\ during base P p w0 u w'
  end.
Lemma works_ret t : works t t (ret tt). Proof. intros w D. exact D. Qed.
Lemma works_given {B} t T (r : outcome B) (f : B -> stm unit) : P t ->
  (forall b, r = Ok b -> works t T (f b)) -> works t T (seq_ (given r) f).
Proof. intros Pt H w D. unfold seq_, given, ret, raise. destruct r; [apply H; auto|]. eauto. Qed.
Lemma works_seq t T U (m n : stm unit) : works t T m -> works T U n -> works t U (seq_ m (fun _ => n)).
Proof.
  intros H1 H2 w D. unfold seq_. specialize (H1 w D). destruct (m w) as [[[]|e] w']; [apply H2, H1|exact H1].
Qed.
Lemma works_write t s : P (t ++ s) -> works t (t ++ s) (write fault flushed (length (handles w0)) s).
Proof.
  intros Pts w D. pose proof (write_spec t s w Pts D) as H.
  destruct (write _ _ _ _ w) as [[[]|e] w']; [tauto|]. destruct H as ((k & H) & _). exists (t ++ firstn k s).
  split; [|exact H]. apply HP with (skipn k s). now rewrite <- app_assoc, firstn_skipn.
Qed.
Lemma works_writes ls : forall t, P (t ++ concat ls) -> works t (t ++ concat ls) (writes (write fault flushed (length (handles w0))) ls).
Proof.
  induction ls as [|l ls IH]; intros t Pt; cbn [writes concat] in *.
  - rewrite app_nil_r. apply works_ret.
  - rewrite app_assoc in *. apply works_seq with (t ++ l); [apply works_write; eapply HP; eauto|apply IH, Pt].
Qed.
Lemma works_each ls : forall t, P (t ++ together ls) -> works t (t ++ together ls) (writes_each (write fault flushed (length (handles w0))) ls).
Proof.
  induction ls as [|l ls IH]; intros t Pt; cbn [writes_each together] in *.
  - rewrite app_nil_r. apply works_ret.
  - destruct l as [s|e].
    + apply works_given; [eapply HP; eauto|]. intros b [= <-]. rewrite app_assoc in *.
      apply works_seq with (t ++ s); [apply works_write; eapply HP; eauto|apply IH, Pt].
    + rewrite app_nil_r in *. apply works_given; [exact Pt|discriminate].
Qed.

(** The results of the statement and of the closing. *)
Lemma finally_spec t T m w : works t T m -> P T -> during base P p w0 t w ->
  match try_finally m (close fault flushed (length (handles w0))) w with
  | (Ok _, w') => after base P p w0 T w' /\ disk w' p = Some T
  | (Raise e, w') => exists u, P u /\ after base P p w0 u w'
  end.
Proof.
  intros W PT D. unfold try_finally. specialize (W w D). destruct (m w) as [[[]|e] w1].
  - pose proof (close_spec T w1 PT W) as H. destruct (close _ _ _ w1) as [[[]|e'] w2]; [tauto|].
    exists T. tauto.
  - destruct W as (u & Pu & W). pose proof (close_spec u w1 Pu W) as H. destruct (close _ _ _ w1) as [[[]|e'] w2]; exists u; tauto.
Qed.
Lemma dropping_spec t T m w : works t T m -> P T -> during base P p w0 t w ->
  match dropping fault flushed (length (handles w0)) m w with
  | (Ok _, w') => after base P p w0 T w' /\ (quiet fault -> disk w' p = Some T)
  | (Raise e, w') => exists u, P u /\ after base P p w0 u w'
  end.
Proof.
  intros W PT D. unfold dropping. specialize (W w D). destruct (m w) as [[[]|e] w1].
  - pose proof (close_spec T w1 PT W) as H. destruct (close _ _ _ w1) as [[[]|e'] w2]; [tauto|].
    split; [tauto|]. intros Q. destruct H as (_ & H). now rewrite Q in H.
  - destruct W as (u & Pu & W). pose proof (close_spec u w1 Pu W) as H. destruct (close _ _ _ w1) as [[[]|e'] w2]; exists u; tauto.
Qed.
(** Writing that goes on after errors. *)
Lemma unheeded_each ls : forall t w, (forall u, gaps u (together ls) -> P (t ++ u)) -> during base P p w0 t w ->
  match writes_each (fun s => unheeded (write fault flushed (length (handles w0)) s)) ls w with
  | (r, w') => exists u, gaps u (together ls) /\ during base P p w0 (t ++ u) w' /\ (r = Ok tt -> quiet fault -> u = together ls)
  end.
Proof.
  induction ls as [|l ls IH]; intros t w Pt D; cbn [writes_each together] in *.
  - exists []. rewrite app_nil_r. split; [constructor|split; [exact D|reflexivity]].
  - destruct l as [s|e].
    + cbn. unfold seq_ at 1, given, ret. unfold seq_, unheeded.
      assert (Ps : P (t ++ s)) by (apply HP with (together ls); rewrite <- app_assoc; apply Pt, gaps_refl).
      pose proof (write_spec t s w Ps D) as H. destruct (write _ _ _ _ w) as [[[]|e] w1].
      * destruct H as (H & _). specialize (IH (t ++ s) w1).
        destruct (writes_each _ ls w1) as [r w'].
        destruct IH as (u & G & D' & Q); [|exact H|].
        { intros u G. rewrite <- app_assoc. apply Pt, gaps_app; [apply gaps_refl|exact G]. }
        exists (s ++ u). rewrite app_assoc. split; [apply gaps_app; [apply gaps_refl|exact G]|split; [exact D'|]].
        intros Er Hq. now rewrite (Q Er Hq).
      * destruct H as ((k & H) & F). specialize (IH (t ++ firstn k s) w1).
        destruct (writes_each _ ls w1) as [r w'].
        destruct IH as (u & G & D' & Q); [|exact H|].
        { intros u G. rewrite <- app_assoc. apply Pt, gaps_app; [apply gaps_firstn|exact G]. }
        exists (firstn k s ++ u). rewrite app_assoc. split; [apply gaps_app; [apply gaps_firstn|exact G]|split; [exact D'|]].
        intros _ Hq. now rewrite Hq in F.
    + cbn. exists []. rewrite app_nil_r. split; [constructor|split; [exact D|discriminate]].
Qed.
End Inv.

Lemma before_start (base : option (list A) -> Prop) P p (w : world) : base (disk w p) -> before base P p w w.
Proof. intros H. repeat split; auto using only_refl. exists []. split; [reflexivity|constructor]. Qed.
Lemma begins_closed (t : list A) : closed_under (fun s => beginning s t).
Proof. intros s r (q & ->). exists (r ++ q). now rewrite app_assoc. Qed.

(** What is known in the end about a call on a path. *)
Definition result (base : option (list A) -> Prop) P p (w0 : world) (T : list A) (need : Prop) (x : outcome unit * world) : Prop :=
  (before base P p w0 (snd x) /\ fst x <> Ok tt) \/
  (exists u, P u /\ after base P p w0 u (snd x) /\ (fst x = Ok tt -> need -> disk (snd x) p = Some T)).
Lemma result_ext base P p w0 T need x : result base P p w0 T need x ->
  (exists recent, past (snd x) = recent ++ past w0 /\ Forall (point base P p (disk w0)) recent) /\
  (closed_under P -> point base P p (disk w0) (disk (snd x))) /\ streams (snd x) = streams w0 /\ nothing_open w0 (snd x) /\
  (fst x = Ok tt -> need -> disk (snd x) p = Some T).
Proof.
  intros [[B N]|(u & Pu & (c & Eh & Ec & Hc & Ho & Es & Hr) & Q)].
  - pose proof (before_point _ _ _ _ _ B) as Hp. destruct B as (Eh & Ho & Hb & Es & Hr).
    split; [exact Hr|]. split; [auto|]. split; [exact Es|]. split; [|intros E; contradiction].
    exists []. rewrite app_nil_r. split; [exact Eh|constructor].
  - split; [exact Hr|]. split; [|split; [exact Es|split; [|exact Q]]].
    + intros HP. split; [exact Ho|right]. exists c. split; [exact Ec|]. destruct Hc as (r & ->). eapply HP; eauto.
    + eexists. split; [exact Eh|]. constructor; [now split|constructor].
Qed.

Definition old p (w : world) (c : option (list A)) : Prop := c = disk w p.
Definition old_or_none p (w : world) (c : option (list A)) : Prop := c = disk w p \/ c = None.

Lemma text_result p (w : world) (text : outcome (list A)) i w1 :
  i = length (handles w) -> during (old p w) (fun s => beginning s (together [text])) p w [] w1 ->
  result (old p w) (fun s => beginning s (together [text])) p w (together [text]) True
    (try_finally (seq_ (given text) (write fault flushed i)) (close fault flushed i) w1).
Proof.
  intros -> D. set (T := together [text]) in *.
  pose proof (finally_spec (old p w) (fun s => beginning s T) p w (begins_closed T) [] T
    (seq_ (given text) (write fault flushed (length (handles w)))) w1) as F.
  destruct (try_finally _ _ w1) as [[[]|e] w2]; right.
  - exists T. destruct F as (F1 & F2).
    + apply works_given; [apply beginning_nil|]. intros b E. subst T text. cbn. rewrite app_nil_r in *.
      apply (works_write _ _ _ _ (begins_closed _)). apply beginning_refl.
    + apply beginning_refl.
    + exact D.
    + split; [apply beginning_refl|]. split; [exact F1|auto].
  - destruct F as (u & Pu & F).
    + apply works_given; [apply beginning_nil|]. intros b E. subst T text. cbn. rewrite app_nil_r in *.
      apply (works_write _ _ _ _ (begins_closed _)). apply beginning_refl.
    + apply beginning_refl.
    + exact D.
    + exists u. repeat split; auto. discriminate.
Qed.

Lemma geojson_result p (w : world) text :
  result (old p w) (fun s => beginning s (together [text])) p w (together [text]) True (to_geojson fault flushed (Path p) text w).
Proof.
  unfold to_geojson. pose proof (open_spec (old p w) (fun s => beginning s (together [text])) p w w (before_start _ _ _ _ eq_refl)) as H.
  destruct (open_w fault p w) as [[i|e] w1].
  - destruct H as (E & D). now apply text_result.
  - left. cbn. split; [tauto|discriminate].
Qed.
Lemma gpx_result p (w : world) text :
  result (old p w) (fun s => beginning s (together [text])) p w (together [text]) True (writefile fault flushed p text w).
Proof.
  unfold writefile, seq_ at 1. pose proof (open_spec (old p w) (fun s => beginning s (together [text])) p w w (before_start _ _ _ _ eq_refl)) as H.
  destruct (open_w fault p w) as [[i|e] w1].
  - destruct H as (E & D). now apply text_result.
  - left. cbn. split; [tauto|discriminate].
Qed.
Lemma unchanged_result (base : option (list A) -> Prop) P p (w : world) T need e : base (disk w p) -> result base P p w T need (Raise e, w).
Proof. intros H. left. cbn. split; [apply before_start, H|discriminate]. Qed.
Lemma aai_result p (w : world) render lines filled :
  let T := text_of (EAai render (Path p) lines filled) in
  result (old p w) (fun s => beginning s T) p w T True (to_aai fault flushed render (Path p) lines filled w).
Proof.
  intros T. unfold to_aai. destruct lines as [ls|e]; [|apply unchanged_result; reflexivity]. cbn in T.
  unfold seq_ at 1. pose proof (open_spec (old p w) (fun s => beginning s T) p w w (before_start _ _ _ _ eq_refl)) as H.
  destruct (open_w fault p w) as [[i|e] w1].
  2:{ left. cbn. split; [tauto|discriminate]. }
  destruct H as (-> & D).
  assert (W : works (old p w) (fun s => beginning s T) p w [] T
    (seq_ (given filled) (fun _ => writes (write fault flushed (length (handles w))) (map render ls)))).
  { apply works_given; [apply beginning_nil|]. intros b _.
    exact (works_writes _ _ _ _ (begins_closed T) (map render ls) [] (beginning_refl T)). }
  pose proof (finally_spec _ _ _ _ (begins_closed T) [] T _ w1 W (beginning_refl T) D) as F.
  destruct (try_finally _ _ w1) as [[[]|e] w2]; right.
  - exists T. split; [apply beginning_refl|]. split; [tauto|]. intros _ _. tauto.
  - destruct F as (u & Pu & F). exists u. repeat split; auto. discriminate.
Qed.
Lemma geotiff_result p (w : world) type system bands :
  result (old p w) (fun s => beginning s (together bands)) p w (together bands) (quiet fault) (to_geotiff fault flushed p type system bands w).
Proof.
  unfold to_geotiff. unfold seq_ at 1, given, ret, raise. destruct type as [u|e]; [|apply unchanged_result; reflexivity].
  unfold seq_ at 1. set (T := together bands).
  pose proof (open_spec (old p w) (fun s => beginning s T) p w w (before_start _ _ _ _ eq_refl)) as H.
  destruct (open_w fault p w) as [[i|e] w1].
  2:{ left. cbn. split; [tauto|discriminate]. }
  destruct H as (-> & D).
  assert (W : works (old p w) (fun s => beginning s T) p w [] T
    (seq_ (given system) (fun _ => writes_each (write fault flushed (length (handles w))) bands))).
  { apply works_given; [apply beginning_nil|]. intros b _.
    exact (works_each _ _ _ _ (begins_closed T) bands [] (beginning_refl T)). }
  pose proof (dropping_spec _ _ _ _ (begins_closed T) [] T _ w1 W (beginning_refl T) D) as F.
  destruct (dropping _ _ _ _ w1) as [[[]|e] w2]; right.
  - exists T. split; [apply beginning_refl|]. split; [tauto|]. intros _. tauto.
  - destruct F as (u' & Pu & F). exists u'. repeat split; auto. discriminate.
Qed.
Lemma gaps_closed (t : list A) : closed_under (fun s => gaps s t).
Proof. intros s r. apply gaps_app_l. Qed.
Lemma shapefile_result m p (w : world) interfaces setup :
  let e := EShapefile m p interfaces setup in
  let q := if m then shp_path p else p in
  result (old_or_none q w) (fun s => gaps s (text_of e)) q w (text_of e) (quiet fault) (to_shapefile fault flushed m p interfaces setup w).
Proof.
  intros e q. unfold to_shapefile. unfold seq_ at 1, given, ret, raise.
  destruct interfaces as [fs|er]; [|apply unchanged_result; now left]. cbn in e. subst e. cbn [text_of].
  set (T := together fs). fold q. unfold ogr_write. unfold seq_ at 1.
  set (base := old_or_none q w).
  assert (H0 : exists w1, (match disk w q with Some _ => unheeded (delete fault q) w | None => (Ok tt, w) end) = (Ok tt, w1)
    /\ before base (fun s => gaps s T) q w w1).
  { destruct (disk w q) as [c|] eqn:E.
    - unfold unheeded, delete. destruct (fault (clock w)).
      + eexists; split; [reflexivity|]. split; [reflexivity|]. split; [apply only_refl|]. split; [now left|]. split; [reflexivity|].
        exists [disk w]. split; [reflexivity|]. constructor; [|constructor]. split; [apply only_refl|left; now left].
      + eexists; split; [reflexivity|]. split; [reflexivity|]. cbn. split; [apply put_only|]. split; [right; apply put_same|]. split; [reflexivity|].
        exists [disk w]. split; [reflexivity|]. constructor; [|constructor]. split; [apply only_refl|left; now left].
    - exists w. split; [reflexivity|]. apply before_start. now left. }
  destruct H0 as (w1 & -> & B). unfold seq_ at 1.
  set (st := match fs with [] => _ | _ => setup end). destruct st as [u|er]; cbn [given].
  2:{ left. cbn. split; [exact B|discriminate]. }
  cbn [ret]. pose proof (open_spec base (fun s => gaps s T) q w w1 B) as H.
  unfold ret. destruct (open_w fault q w1) as [[i|er] w2].
  2:{ left. cbn. split; [tauto|discriminate]. }
  destruct H as (-> & D). unfold dropping.
  pose proof (unheeded_each base (fun s => gaps s T) q w (gaps_closed T) fs [] w2 (fun u G => G) D) as F.
  destruct (writes_each _ fs w2) as [r w3]. destruct F as (x & G & D3 & Q).
  pose proof (close_spec base (fun s => gaps s T) q w (gaps_closed T) x w3 G D3) as C.
  destruct (close _ _ _ w3) as [[[]|er] w4]; right; exists x; cbn [fst snd].
  - split; [exact G|]. split; [tauto|]. intros Er Hq. specialize (Q Er Hq). cbn in Q. subst x. tauto.
  - split; [exact G|]. split; [tauto|]. intros Er Hq. destruct C as (_ & C). now rewrite Hq in C.
Qed.

(** All kinds of exports. *)
Lemma call_result e p (w : world) : path_of e = Some p ->
  result (if match e with EShapefile _ _ _ _ => true | _ => false end then old_or_none p w else old p w)
    (fun s => if match e with EShapefile _ _ _ _ => true | _ => false end then gaps s (text_of e) else beginning s (text_of e))
    p w (text_of e) (by_library e -> quiet fault) (call fault flushed e w).
Proof.
  assert (weak : forall b P T (n n' : Prop) x, (n' -> n) -> result b P p w T n x -> result b P p w T n' x).
  { intros b P T n n' x Hn [H|(u & H1 & H2 & H3)]; [now left|right]. exists u. repeat split; auto. }
  destruct e as [f text|q text|render f lines filled|m q fs setup|q ty sys bands]; cbn [path_of call].
  - destruct f as [q|o]; intros [= ->]. cbn. eapply weak; [|apply geojson_result]. auto.
  - intros [= ->]. eapply weak; [|apply gpx_result]. auto.
  - destruct f as [q|o]; intros [= ->]. eapply weak; [|apply aai_result]. auto.
  - intros E. eapply weak; [|]. 2:{ pose proof (shapefile_result m q w fs setup) as H. cbn in H.
      replace p with (if m then shp_path q else q) by (destruct m; now injection E). exact H. }
    cbn. auto.
  - intros [= ->]. eapply weak; [|apply geotiff_result]. cbn. auto.
Qed.
Lemma point_may_be e p w d : point
   (if match e with EShapefile _ _ _ _ => true | _ => false end then old_or_none p w else old p w)
   (fun s => if match e with EShapefile _ _ _ _ => true | _ => false end then gaps s (text_of e) else beginning s (text_of e)) p (disk w) d ->
  may_be e p (disk w) d.
Proof.
  intros (Ho & H). split; [exact Ho|]. destruct e; cbn [by_ogr]; try (destruct H as [H|H]; [left; exact H|right; left; exact H]).
  destruct H as [[H|H]|H]; [left; exact H|right; right; auto|right; right; auto].
Qed.
Lemma closed_kinds (e : export A) : closed_under (fun s => if match e with EShapefile _ _ _ _ => true | _ => false end then gaps s (text_of e) else beginning s (text_of e)).
Proof. destruct e; try apply begins_closed; apply gaps_closed. Qed.

Theorem path_export e p (w w' : world) r : path_of e = Some p -> call fault flushed e w = (r, w') ->
  (forall d, moment w w' d -> may_be e p (disk w) d) /\
  (r = Ok tt -> (by_library e -> quiet fault) -> disk w' p = Some (text_of e)) /\
  streams w' = streams w /\ nothing_open w w'.
Proof.
  intros Ep E. pose proof (call_result e p w Ep) as H. rewrite E in H. apply result_ext in H. cbn [fst snd] in H.
  destruct H as ((recent & Er & Hr) & Hp & Es & Hn & Hd). split; [|auto].
  intros d Hm. apply point_may_be. destruct Hm as [->|(recent' & Er' & Hin)].
  - apply Hp, closed_kinds.
  - rewrite Er in Er'. apply app_inv_tail in Er'. subst recent'. rewrite Forall_forall in Hr. auto.
Qed.

(** Objects of the caller. *)
Lemma object_export e (w w' : world) r : path_of e = None -> call fault flushed e w = (r, w') ->
  disk w' = disk w /\ handles w' = handles w /\ (exists n, past w' = repeat (disk w) n ++ past w).
Proof.
  assert (SW : forall o s (v v' : world) r, stream_write fault flushed o s v = (r, v') ->
    disk v' = disk v /\ handles v' = handles v /\ exists n, past v' = repeat (disk v) n ++ past v).
  { intros o s v v' r0. unfold stream_write. cbn [tick streams clock].
    destruct (closed (streams v o)); [intros [= <- <-]; cbn; repeat split; now exists 1|].
    destruct (fault (clock v)); intros [= <- <-]; cbn; repeat split; now exists 1. }
  assert (SC : forall o (v v' : world) r, stream_close fault o v = (r, v') ->
    disk v' = disk v /\ handles v' = handles v /\ exists n, past v' = repeat (disk v) n ++ past v).
  { intros o v v' r0. unfold stream_close. cbn [tick streams clock].
    destruct (fault (clock v)); intros [= <- <-]; cbn; repeat split; now exists 1. }
  assert (TR : forall a b c : world, (disk b = disk a /\ handles b = handles a /\ exists n, past b = repeat (disk a) n ++ past a) ->
    (disk c = disk b /\ handles c = handles b /\ exists n, past c = repeat (disk b) n ++ past b) ->
    disk c = disk a /\ handles c = handles a /\ exists n, past c = repeat (disk a) n ++ past a).
  { intros a b c (D1 & H1 & n1 & P1) (D2 & H2 & n2 & P2). split; [congruence|]. split; [congruence|].
    exists (n2 + n1). rewrite P2, P1, D1, repeat_app, app_assoc. reflexivity. }
  assert (RF : forall v : world, disk v = disk v /\ handles v = handles v /\ exists n, past v = repeat (disk v) n ++ past v).
  { intros v. repeat split. now exists 0. }
  assert (WS : forall o ls (v v' : world) r, writes (stream_write fault flushed o) ls v = (r, v') ->
    disk v' = disk v /\ handles v' = handles v /\ exists n, past v' = repeat (disk v) n ++ past v).
  { intros o ls. induction ls as [|l ls IH]; intros v v' r0; cbn [writes].
    - intros [= <- <-]. apply RF.
    - unfold seq_. destruct (stream_write fault flushed o l v) as [[[]|e0] v1] eqn:E1; intros E.
      + eapply TR; [eapply SW; eauto|eapply IH; eauto].
      + injection E as <- <-. eapply SW; eauto. }
  destruct e as [f text|q text|render f lines filled|m q fs setup|q ty sys bands]; cbn [path_of call].
  - destruct f as [q|o]; [discriminate|]. intros _. unfold to_geojson. destruct (has_write (streams w o)).
    + unfold seq_, given, ret, raise. destruct text; intros E; [eapply SW; eauto|]. injection E as <- <-. apply RF.
    + intros [= <- <-]. apply RF.
  - discriminate.
  - destruct f as [q|o]; [discriminate|]. intros _. unfold to_aai. destruct lines as [ls|]; [|intros [= <- <-]; apply RF].
    destruct (has_read (streams w o)); [|intros [= <- <-]; apply RF].
    unfold try_finally. destruct (seq_ _ _ w) as [r1 w1] eqn:E1. destruct (stream_close fault o w1) as [r2 w2] eqn:E2. intros E.
    assert (w' = w2) by (destruct r2; now injection E). subst w2. eapply TR; [|eapply SC; eauto].
    unfold seq_, given, ret, raise in E1. destruct filled; [eapply WS; eauto|]. injection E1 as <- <-. apply RF.
  - destruct m; discriminate.
  - discriminate.
Qed.

Lemma stream_wrote o s (w w' : world) : stream_write fault flushed o s w = (Ok tt, w') ->
  closed (streams w o) = false /\ has_write (streams w' o) = has_write (streams w o) /\
  received (streams w' o) = received (streams w o) ++ s /\ closed (streams w' o) = false /\
  forall q, q <> o -> streams w' q = streams w q.
Proof.
  unfold stream_write. cbn [tick streams clock]. destruct (closed (streams w o)); [discriminate|].
  destruct (fault (clock w)); [discriminate|]. intros [= <-]. cbn. rewrite Nat.eqb_refl. cbn. repeat split.
  intros q Hq. destruct (Nat.eqb_spec q o); congruence.
Qed.
Theorem geojson_object o text (w w' : world) : to_geojson fault flushed (Object o) text w = (Ok tt, w') ->
  exists t, text = Ok t /\ received (streams w' o) = received (streams w o) ++ t /\ closed (streams w' o) = false /\
  forall q, q <> o -> streams w' q = streams w q.
Proof.
  unfold to_geojson. destruct (has_write (streams w o)); [|discriminate]. unfold seq_, given, ret, raise.
  destruct text as [t|]; [|discriminate]. intros E. apply stream_wrote in E. exists t. tauto.
Qed.
Lemma streams_wrote o ls : forall (w w' : world), writes (stream_write fault flushed o) ls w = (Ok tt, w') ->
  received (streams w' o) = received (streams w o) ++ concat ls /\ forall q, q <> o -> streams w' q = streams w q.
Proof.
  induction ls as [|l ls IH]; intros w w'; cbn [writes concat].
  - intros [= <-]. now rewrite app_nil_r.
  - unfold seq_. destruct (stream_write fault flushed o l w) as [[[]|e0] w1] eqn:E1; [|discriminate]. intros E.
    apply stream_wrote in E1. apply IH in E. destruct E1 as (_ & _ & R1 & _ & Q1). destruct E as (R2 & Q2).
    rewrite R2, R1, app_assoc. split; [reflexivity|]. intros q Hq. rewrite Q2, Q1; auto.
Qed.
Theorem aai_object render o ls filled (w w' : world) : to_aai fault flushed render (Object o) (Aai_Model.Ok ls) filled w = (Ok tt, w') ->
  received (streams w' o) = received (streams w o) ++ concat (map render ls) /\ closed (streams w' o) = true /\
  forall q, q <> o -> streams w' q = streams w q.
Proof.
  unfold to_aai. destruct (has_read (streams w o)); [|discriminate]. unfold try_finally.
  destruct (seq_ _ _ w) as [r1 w1] eqn:E1. unfold stream_close. cbn [tick streams clock].
  destruct (fault (clock w1)); [discriminate|]. intros [= -> <-].
  unfold seq_, given, ret, raise in E1. destruct filled; [|discriminate]. apply streams_wrote in E1. cbn. rewrite Nat.eqb_refl. cbn.
  destruct E1 as (R & Q). repeat split; [exact R|]. intros q Hq. destruct (Nat.eqb_spec q o); [congruence|]. now apply Q.
Qed.

(** Nothing fails: the call returns. *)
Section Quiet.
Hypothesis Q : quiet fault.
Lemma quiet_writes base P p w0 (HP : closed_under P) ls : forall t w, P (t ++ concat ls) -> during base P p w0 t w ->
  exists w', writes (write fault flushed (length (handles w0))) ls w = (Ok tt, w') /\ during base P p w0 (t ++ concat ls) w'.
Proof.
  induction ls as [|l ls IH]; intros t w Pt D; cbn [writes concat] in *.
  - exists w. rewrite app_nil_r. split; [reflexivity|exact D].
  - rewrite app_assoc in *. pose proof (write_spec base P p w0 HP t l w (HP _ _ Pt) D) as H. unfold seq_.
    destruct (write _ _ _ l w) as [[[]|e] w1]; [|destruct H as (_ & H); now rewrite Q in H].
    destruct H as (H & _). destruct (IH (t ++ l) w1 Pt H) as (w' & E & D'). exists w'. split; assumption.
Qed.
Lemma quiet_each base P p w0 (HP : closed_under P) ls : forall t w, Forall (fun l => exists s, l = Ok s) ls -> P (t ++ together ls) -> during base P p w0 t w ->
  exists w', writes_each (write fault flushed (length (handles w0))) ls w = (Ok tt, w') /\ during base P p w0 (t ++ together ls) w'.
Proof.
  induction ls as [|l ls IH]; intros t w Hl Pt D; cbn [writes_each together] in *.
  - exists w. rewrite app_nil_r. split; [reflexivity|exact D].
  - inversion Hl as [|? ? (s & ->) Hl']; subst. rewrite app_assoc in *. unfold seq_ at 1, given, ret. unfold seq_ at 1.
    pose proof (write_spec base P p w0 HP t s w (HP _ _ Pt) D) as H.
    destruct (write _ _ _ s w) as [[[]|e] w1]; [|destruct H as (_ & H); now rewrite Q in H].
    destruct H as (H & _). destruct (IH (t ++ s) w1 Hl' Pt H) as (w' & E & D'). exists w'. split; assumption.
Qed.
Lemma quiet_close base P p w0 (HP : closed_under P) t w : P t -> during base P p w0 t w ->
  exists w', close fault flushed (length (handles w0)) w = (Ok tt, w').
Proof.
  intros Pt D. pose proof (close_spec base P p w0 HP t w Pt D) as H. destruct (close _ _ _ w) as [[[]|e] w'].
  - eauto.
  - destruct H as (_ & H). now rewrite Q in H.
Qed.
Lemma quiet_open (base : option (list A) -> Prop) P p w0 w : before base P p w0 w ->
  exists w', open_w fault p w = (Ok (length (handles w0)), w') /\ during base P p w0 [] w'.
Proof.
  intros B. pose proof (open_spec base P p w0 w B) as H. destruct (open_w fault p w) as [[i|e] w'].
  - destruct H as (-> & D). eauto.
  - destruct H as (_ & H). now rewrite Q in H.
Qed.
End Quiet.
End Proofs.
