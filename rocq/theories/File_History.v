(** Proofs about the files written by exports: calls that return, and histories of calls. *)
From Coq Require Import String.
From Coq Require Import List Arith Bool Lia.
From Verif Require Aai_Model.
From Verif Require Import File_Model File_Spec File_Proofs.
Import ListNotations.

Section Returns.
Context {A : Type}.
Variable fault : nat -> option error.
Variable flushed : nat -> nat.
Notation world := (world A).
Hypothesis Q : quiet fault.

Lemma quiet_unheeded base P p w0 (HP : closed_under P) ls : forall t (w : world),
  Forall (fun l => exists s, l = Ok s) ls -> P (t ++ together ls) -> during base P p w0 t w ->
  fst (writes_each (fun s => unheeded (write fault flushed (length (handles w0)) s)) ls w) = Ok tt.
Proof.
  induction ls as [|l ls IH]; intros t w Hl Pt D; cbn [writes_each together] in *; [reflexivity|].
  inversion Hl as [|? ? (s & ->) Hl']; subst. rewrite app_assoc in *. unfold seq_ at 1, given, ret. unfold seq_ at 1, unheeded at 1.
  pose proof (write_spec fault flushed base P p w0 HP t s w (HP _ _ Pt) D) as H.
  destruct (write _ _ _ s w) as [[[]|e] w1]; [|destruct H as (_ & H); now rewrite Q in H].
  destruct H as (H & _). apply (IH (t ++ s) w1 Hl' Pt H).
Qed.

Lemma text_returns p (w : world) t w1 :
  during (old p w) (fun s => beginning s t) p w [] w1 ->
  exists w', try_finally (seq_ (given (Ok t)) (write fault flushed (length (handles w)))) (close fault flushed (length (handles w))) w1 = (Ok tt, w').
Proof.
  intros D. unfold try_finally, seq_, given, ret.
  pose proof (write_spec fault flushed _ _ _ _ (begins_closed t) [] t w1 (beginning_refl t) D) as H.
  destruct (write _ _ _ t w1) as [[[]|e] w2]; [|destruct H as (_ & H); now rewrite Q in H]. destruct H as (H & _).
  destruct (quiet_close fault flushed Q _ _ _ _ (begins_closed t) t w2 (beginning_refl t) H) as (w' & ->). eauto.
Qed.

Theorem returns e p (w : world) : possible e -> path_of e = Some p -> exists w', call fault flushed e w = (Ok tt, w').
Proof.
  destruct e as [f text|q text|render f lines filled|m q fs setup|q ty sys bands]; cbn [possible path_of call].
  - destruct f as [q|o]; [|discriminate]. intros (t & ->) [= ->]. unfold to_geojson.
    destruct (quiet_open fault Q (old p w) (fun s => beginning s t) p w w (before_start _ _ _ _ eq_refl)) as (w1 & -> & D).
    exact (text_returns p w t w1 D).
  - intros (t & ->) [= ->]. unfold writefile, seq_ at 1.
    destruct (quiet_open fault Q (old p w) (fun s => beginning s t) p w w (before_start _ _ _ _ eq_refl)) as (w1 & -> & D).
    exact (text_returns p w t w1 D).
  - destruct f as [q|o]; [|discriminate]. intros ((ls & ->) & ->) [= ->]. unfold to_aai, seq_ at 1.
    set (T := concat (map render ls)).
    destruct (quiet_open fault Q (old p w) (fun s => beginning s T) p w w (before_start _ _ _ _ eq_refl)) as (w1 & -> & D).
    unfold try_finally, seq_, given, ret.
    destruct (quiet_writes fault flushed Q _ _ _ _ (begins_closed T) (map render ls) [] w1 (beginning_refl T) D) as (w2 & -> & D2).
    destruct (quiet_close fault flushed Q _ _ _ _ (begins_closed T) T w2 (beginning_refl T) D2) as (w' & ->). eauto.
  - intros (l & -> & Hn & Hl & ->) E. unfold to_shapefile, seq_ at 1, given, ret.
    replace (if m then shp_path q else q) with p by (destruct m; now injection E).
    set (T := together l). unfold ogr_write, seq_ at 1.
    assert (H0 : exists w1, (match disk w p with Some _ => unheeded (delete fault p) w | None => (Ok tt, w) end) = (Ok tt, w1)
      /\ before (fun c => c = disk w p \/ c = None) (fun s => beginning s T) p w w1).
    { destruct (disk w p) as [c|] eqn:Ed.
      - unfold unheeded, delete. rewrite Q. eexists; split; [reflexivity|]. split; [reflexivity|]. cbn.
        split; [apply put_only|]. split; [right; apply put_same|]. split; [reflexivity|].
        exists [disk w]. split; [reflexivity|]. constructor; [|constructor]. split; [apply only_refl|left; now left].
      - exists w. split; [reflexivity|]. apply before_start. now left. }
    destruct H0 as (w1 & -> & B). unfold seq_ at 1.
    replace (match l with [] => Raise "IndexError"%string | _ :: _ => Ok tt end) with (@Ok unit tt) by (destruct l; congruence).
    cbn [given]. unfold ret.
    destruct (quiet_open fault Q _ _ p w w1 B) as (w2 & -> & D). unfold dropping.
    pose proof (quiet_unheeded _ _ _ _ (begins_closed T) l [] w2 Hl (beginning_refl T) D) as R.
    destruct (writes_each _ l w2) as [r w3]. cbn in R. subst r. destruct (close _ _ _ w3) as [r' w4]. eauto.
  - intros (-> & -> & Hl) [= ->]. unfold to_geotiff, seq_ at 1, given at 1, ret at 1. unfold seq_ at 1. set (T := together bands).
    destruct (quiet_open fault Q (old p w) (fun s => beginning s T) p w w (before_start _ _ _ _ eq_refl)) as (w1 & -> & D).
    unfold dropping, seq_, given, ret.
    destruct (quiet_each fault flushed Q _ _ _ _ (begins_closed T) bands [] w1 Hl (beginning_refl T) D) as (w2 & -> & D2).
    destruct (close _ _ _ w2) as [r' w3]. eauto.
Qed.
End Returns.

Section History.
Context {A : Type}.
Variable fault : nat -> option error.
Variable flushed : nat -> nat.
Notation world := (world A).

Lemma call_elsewhere e p (w w' : world) r : path_of e <> Some p -> call fault flushed e w = (r, w') -> disk w' p = disk w p.
Proof.
  intros Hp E. destruct (path_of e) as [q|] eqn:Eq.
  - destruct (path_export fault flushed e q w w' r Eq E) as (H & _). destruct (H (disk w') (or_introl eq_refl)) as (Ho & _).
    apply Ho. congruence.
  - destruct (object_export fault flushed e w w' r Eq E) as (-> & _). reflexivity.
Qed.
Lemma call_open e (w w' : world) r : call fault flushed e w = (r, w') -> nothing_open w w'.
Proof.
  intros E. destruct (path_of e) as [q|] eqn:Eq.
  - apply (path_export fault flushed e q w w' r Eq E).
  - destruct (object_export fault flushed e w w' r Eq E) as (_ & H & _). exists []. rewrite app_nil_r. split; [exact H|constructor].
Qed.
Theorem history es : forall (w w' : world) rs, calls fault flushed es w = (rs, w') ->
  length rs = length es /\ nothing_open w w' /\
  forall p,
  match last_to p es rs with
  | None => disk w' p = disk w p
  | Some (e, r) => path_of e = Some p /\ In e es /\ (r = Ok tt -> (by_library e -> quiet fault) -> disk w' p = Some (text_of e))
  end /\
  (disk w' p = disk w p \/
   exists e, In e es /\ path_of e = Some p /\
     ((exists s, disk w' p = Some s /\ beginning s (text_of e)) \/
      (by_ogr e /\ (disk w' p = None \/ exists s, disk w' p = Some s /\ gaps s (text_of e))))).
Proof.
  induction es as [|e es IH]; intros w w' rs; cbn [calls].
  - intros [= <- <-]. split; [reflexivity|]. split; [exists []; rewrite app_nil_r; split; [reflexivity|constructor]|].
    intros p. cbn. auto.
  - destruct (call fault flushed e w) as [r w1] eqn:E1. destruct (calls fault flushed es w1) as [rs' w2] eqn:E2.
    intros [= <- <-]. destruct (IH _ _ _ E2) as (El & Ho & H). split; [cbn; congruence|]. split.
    + destruct (call_open _ _ _ _ E1) as (h1 & Eh1 & F1). destruct Ho as (h2 & Eh2 & F2). exists (h1 ++ h2).
      rewrite Eh2, Eh1, app_assoc. split; [reflexivity|]. apply Forall_app. auto.
    + intros p. destruct (H p) as (HL & HS). cbn [last_to]. split.
      * destruct (last_to p es rs') as [[e' r']|].
        -- destruct HL as (H1 & H2 & H3). split; [exact H1|]. split; [now right|exact H3].
        -- destruct (path_of e) as [q|] eqn:Eq.
           ++ destruct (String.eqb_spec q p) as [->|Hn].
              ** split; [exact Eq|]. split; [now left|]. intros Hr Hq.
                 destruct (path_export fault flushed e p w w1 r Eq E1) as (_ & H2 & _). rewrite HL. now apply H2.
              ** rewrite HL. apply (call_elsewhere e p w w1 r); [congruence|exact E1].
           ++ rewrite HL. apply (call_elsewhere e p w w1 r); [congruence|exact E1].
      * destruct HS as [HS|(e' & Hin & Hp & HS)].
        -- assert (D : path_of e = Some p \/ path_of e <> Some p).
           { destruct (path_of e) as [q|]; [|right; discriminate]. destruct (string_dec q p) as [->|]; [now left|right; congruence]. }
           destruct D as [Eq|Hn].
           ++ destruct (path_export fault flushed e p w w1 r Eq E1) as (H1 & _).
              destruct (H1 (disk w1) (or_introl eq_refl)) as (_ & [M|M]); [left; congruence|right].
              exists e. split; [now left|]. split; [exact Eq|]. rewrite HS. exact M.
           ++ left. rewrite HS. apply (call_elsewhere e p w w1 r Hn E1).
        -- right. exists e'. split; [now right|]. split; [exact Hp|exact HS].
Qed.
End History.

Section Failures.
Context {A : Type}.
Variable fault : nat -> option error.
Variable flushed : nat -> nat.
Notation world := (world A).
Lemma nil_closed : closed_under (fun s : list A => s = []).
Proof. intros s r H. now apply app_eq_nil in H. Qed.
Hypothesis Q : quiet fault.

Lemma open_close p (w : world) : exists w1 w2,
  open_w fault p w = (Ok (length (handles w)), w1) /\ close fault flushed (length (handles w)) w1 = (Ok tt, w2) /\ disk w2 p = Some [].
Proof.
  destruct (quiet_open fault Q (old p w) (fun s => s = []) p w w (before_start _ _ _ _ eq_refl)) as (w1 & E1 & D).
  pose proof (close_spec fault flushed (old p w) (fun s => s = []) p w nil_closed [] w1 eq_refl D) as C.
  destruct (close fault flushed (length (handles w)) w1) as [[[]|e] w2] eqn:E2.
  - exists w1, w2. tauto.
  - destruct C as (_ & C). now rewrite Q in C.
Qed.
Theorem geojson_fails p er (w : world) :
  exists w', to_geojson fault flushed (Path p) (Raise er) w = (Raise er, w') /\ disk w' p = Some [].
Proof.
  destruct (open_close p w) as (w1 & w2 & E1 & E2 & H). unfold to_geojson. rewrite E1.
  unfold try_finally, seq_, given, raise. rewrite E2. eauto.
Qed.
Theorem gpx_fails p er (w : world) :
  exists w', writefile fault flushed p (Raise er) w = (Raise er, w') /\ disk w' p = Some [].
Proof.
  destruct (open_close p w) as (w1 & w2 & E1 & E2 & H). unfold writefile, seq_ at 1. rewrite E1.
  unfold try_finally, seq_, given, raise. rewrite E2. eauto.
Qed.
Theorem aai_fails render p ls er (w : world) :
  exists w', to_aai fault flushed render (Path p) (Aai_Model.Ok ls) (Raise er) w = (Raise er, w') /\ disk w' p = Some [].
Proof.
  destruct (open_close p w) as (w1 & w2 & E1 & E2 & H). unfold to_aai, seq_ at 1. rewrite E1.
  unfold try_finally, seq_, given, raise. rewrite E2. eauto.
Qed.
Theorem geotiff_fails p er bands (w : world) :
  exists w', to_geotiff fault flushed p (Ok tt) (Raise er) bands w = (Raise er, w') /\ disk w' p = Some [].
Proof.
  destruct (open_close p w) as (w1 & w2 & E1 & E2 & H). unfold to_geotiff, seq_ at 1, given at 1, ret at 1. unfold seq_ at 1. rewrite E1.
  unfold dropping, seq_, given, raise. rewrite E2. eauto.
Qed.
Theorem shapefile_fails p fs er c (w : world) : fs <> [] -> disk w p = Some c ->
  exists w', to_shapefile fault flushed false p (Ok fs) (Raise er) w = (Raise er, w') /\ disk w' p = None.
Proof.
  intros Hf Hd. unfold to_shapefile, seq_ at 1, given at 1, ret at 1. unfold ogr_write, seq_ at 1. rewrite Hd.
  unfold unheeded, delete. rewrite Q. destruct fs; [congruence|]. unfold seq_, given, raise. eexists; split; [reflexivity|]. cbn. apply put_same.
Qed.
Theorem shapefile_empty setup p c (w : world) : disk w p = Some c ->
  exists w', to_shapefile fault flushed false p (Ok []) setup w = (Raise "IndexError"%string, w') /\ disk w' p = None.
Proof.
  intros Hd. unfold to_shapefile, seq_ at 1, given at 1, ret at 1. unfold ogr_write, seq_ at 1. rewrite Hd.
  unfold unheeded, delete. rewrite Q. unfold seq_, given, raise. eexists; split; [reflexivity|]. cbn. apply put_same.
Qed.
Theorem aai_closes render o ls (w : world) : has_read (streams w o) = true -> closed (streams w o) = false ->
  exists w', to_aai fault flushed render (Object o) (Aai_Model.Ok ls) (Ok tt) w = (Ok tt, w') /\ closed (streams w' o) = true.
Proof.
  intros Hr Hc.
  assert (W : forall ls (v : world), closed (streams v o) = false -> exists v', writes (stream_write fault flushed o) ls v = (Ok tt, v')).
  { induction ls0 as [|l ls0 IH]; intros v Hv; cbn [writes]; [unfold ret; eauto|]. unfold seq_.
    destruct (stream_write fault flushed o l v) as [r v1] eqn:E.
    assert (r = Ok tt). { unfold stream_write in E. cbn [tick streams clock] in E. rewrite Hv, Q in E. now injection E. }
    subst r. apply stream_wrote in E. apply IH. tauto. }
  destruct (W (map render ls) w Hc) as (w1 & E1).
  destruct (to_aai fault flushed render (Object o) (Aai_Model.Ok ls) (Ok tt) w) as [r w'] eqn:E.
  assert (r = Ok tt).
  { unfold to_aai in E. rewrite Hr in E. unfold try_finally, seq_, given, ret in E. rewrite E1 in E.
    unfold stream_close in E. cbn [tick streams clock] in E. rewrite Q in E. now injection E. }
  subst r. exists w'. split; [reflexivity|]. apply aai_object in E. tauto.
Qed.
End Failures.
Lemma unbound {A} (flushed : nat -> nat) p text (w : world A) (fault : nat -> option error) er : fault (clock w) = Some er ->
  exists w', to_geojson fault flushed (Path p) text w = (Raise "UnboundLocalError"%string, w') /\ disk w' = disk w.
Proof. intros F. unfold to_geojson, open_w. cbn [tick clock pred]. rewrite F. eexists; split; reflexivity. Qed.
