(** Proofs about the values of tables. *)
From Coq Require Import String.
From Coq Require Import List ZArith QArith Bool Arith Lia.
From Verif Require Import Table_Model Table_Spec Table_Proofs Tval_Model Tval_Spec.
Import ListNotations.
Local Open Scope list_scope.
Local Notation length := List.length.

(** Induction over values with the items of their lists. *)
Fixpoint pval_rect' (Pr : pval -> Prop)
  (Hn : Pr PNone) (Hb : forall b, Pr (PBool b)) (Hi : forall z, Pr (PInt z)) (Hf : forall q, Pr (PFloat q)) (Hs : forall s, Pr (PStr s))
  (Ht : forall l, Forall Pr l -> Pr (PTuple l)) (Hl : forall l, Forall Pr l -> Pr (PList l)) (Hc : forall c, Pr (PClass c))
  (Hni : forall z, Pr (PNpInt z)) (Hnf : forall q, Pr (PNpFloat q)) (Hnc : Pr PNpComplex) (Hno : Pr PNpOther)
  (Ha : forall l, Forall Pr l -> Pr (PArray l)) (v : pval) {struct v} : Pr v.
Proof.
  pose (rec := pval_rect' Pr Hn Hb Hi Hf Hs Ht Hl Hc Hni Hnf Hnc Hno Ha).
  assert (F : forall l, (fix all (l : list pval) := match l with [] => True | w :: l' => Pr w /\ all l' end) l -> Forall Pr l).
  { induction l as [|w l IH]; intros X; [constructor|]. destruct X as (A & B). constructor; [exact A|apply IH; exact B]. }
  destruct v as [|b|z|q|s|l|l|c|z|q| | |l].
  - exact Hn.
  - exact (Hb b).
  - exact (Hi z).
  - exact (Hf q).
  - exact (Hs s).
  - apply Ht. apply F. clear F. revert l. fix G 1. intros [|w l]; [exact I|]. split; [exact (rec w)|exact (G l)].
  - apply Hl. apply F. clear F. revert l. fix G 1. intros [|w l]; [exact I|]. split; [exact (rec w)|exact (G l)].
  - exact (Hc c).
  - exact (Hni z).
  - exact (Hnf q).
  - exact Hnc.
  - exact Hno.
  - apply Ha. apply F. clear F. revert l. fix G 1. intros [|w l]; [exact I|]. split; [exact (rec w)|exact (G l)].
Qed.

(** JSON. *)
Lemma encode_go : forall l, (fix go (l : list pval) : res (list json) :=
  match l with [] => Ok [] | w :: l' => bind (encode w) (fun j => bind (go l') (fun js => Ok (j :: js))) end) l = mapM encode l.
Proof. induction l as [|w l IH]; [reflexivity|]. cbn [mapM]. rewrite IH. reflexivity. Qed.
Lemma encode_seq : forall l, (encode (PTuple l) = bind (mapM encode l) (fun js => Ok (JArr js))) /\ (encode (PList l) = bind (mapM encode l) (fun js => Ok (JArr js))).
Proof. intros l. split; cbn [encode]; rewrite encode_go; reflexivity. Qed.
Lemma mapM_iff : forall A B (f : A -> res B) (R : A -> B -> Prop) l, Forall (fun a => forall b, f a = Ok b <-> R a b) l ->
  forall bs, mapM f l = Ok bs <-> Forall2 R l bs.
Proof.
  intros A B f R l F. induction F as [|a l H F IH]; intros bs; cbn [mapM].
  - split; [intros E; injection E as <-; constructor|intros X; inversion X; reflexivity].
  - split.
    + intros E. destruct (f a) as [b|e] eqn:Ea; [|discriminate]. cbn [bind] in E. destruct (mapM f l) as [cs|e] eqn:El; [|discriminate].
      cbn [bind] in E. injection E as <-. constructor; [apply H; reflexivity|apply IH; reflexivity].
    + intros X. inversion X as [|? b ? cs Hb Hc]; subst. apply H in Hb. apply IH in Hc. rewrite Hb. cbn [bind]. rewrite Hc. reflexivity.
Qed.
Theorem encode_written : forall v j, encode v = Ok j <-> written v j.
Proof.
  induction v as [|b|z|q|s|l IH|l IH|c|z|q| | |l IH] using pval_rect'; intros j;
    try (cbn [encode]; split; [intros E; injection E as <-; constructor|intros W; inversion W; reflexivity]);
    try (cbn [encode]; split; [discriminate|intros W; inversion W]).
  - rewrite (proj1 (encode_seq l)). split.
    + intros E. destruct (mapM encode l) as [js|e] eqn:M; [|discriminate]. cbn [bind] in E. injection E as <-. constructor. apply (mapM_iff _ _ _ _ _ IH). exact M.
    + intros W. inversion W as [| | | | |? js F| | | | |]; subst. apply (mapM_iff _ _ _ _ _ IH) in F. rewrite F. reflexivity.
  - rewrite (proj2 (encode_seq l)). split.
    + intros E. destruct (mapM encode l) as [js|e] eqn:M; [|discriminate]. cbn [bind] in E. injection E as <-. constructor. apply (mapM_iff _ _ _ _ _ IH). exact M.
    + intros W. inversion W as [| | | | | |? js F| | | |]; subst. apply (mapM_iff _ _ _ _ _ IH) in F. rewrite F. reflexivity.
  - clear IH. destruct l as [|v [|w l]]; cbn [encode].
    + split; [discriminate|intros W; inversion W].
    + destruct v; (split; [intros E; first [discriminate | injection E as <-; constructor]|intros W; inversion W; reflexivity]).
    + destruct v; (split; [discriminate|intros W; inversion W]).
Qed.
Theorem encode_error : forall v e, encode v = Err e -> e = TypeError.
Proof.
  induction v as [|b|z|q|s|l IH|l IH|c|z|q| | |l IH] using pval_rect'; intros e E; try (cbn [encode] in E; congruence).
  - rewrite (proj1 (encode_seq l)) in E. induction IH as [|w l H F G]; [discriminate|]. cbn [mapM] in E.
    destruct (encode w) as [j|e'] eqn:Ew; cbn [bind] in E; [|injection E as <-; apply H; reflexivity].
    apply G. destruct (mapM encode l) as [js|e'']; cbn [bind] in *; [discriminate|exact E].
  - rewrite (proj2 (encode_seq l)) in E. induction IH as [|w l H F G]; [discriminate|]. cbn [mapM] in E.
    destruct (encode w) as [j|e'] eqn:Ew; cbn [bind] in E; [|injection E as <-; apply H; reflexivity].
    apply G. destruct (mapM encode l) as [js|e'']; cbn [bind] in *; [discriminate|exact E].
  - cbn [encode] in E. destruct l as [|[] [|w l]]; congruence.
Qed.
Lemma mapM_error : forall A B (f : A -> res B) (P : exn -> Prop) l e, (forall a e, In a l -> f a = Err e -> P e) -> mapM f l = Err e -> P e.
Proof.
  intros A B f P l. induction l as [|a l IH]; intros e H E; [discriminate|]. cbn [mapM] in E.
  destruct (f a) as [b|e'] eqn:Ea; cbn [bind] in E; [|injection E as <-; apply (H a); [left; reflexivity|exact Ea]].
  destruct (mapM f l) as [bs|e'']; cbn [bind] in E; [discriminate|]. apply IH; [|congruence]. intros a' e1 I. apply H. right. exact I.
Qed.
Lemma mapM_ok : forall A B (f : A -> res B) l, (forall a, In a l -> exists b, f a = Ok b) -> exists bs, mapM f l = Ok bs.
Proof.
  intros A B f l. induction l as [|a l IH]; intros H; [eexists; reflexivity|]. destruct (H a) as (b & Eb); [left; reflexivity|].
  destruct IH as (bs & Es); [intros; apply H; right; assumption|]. exists (b :: bs). cbn [mapM]. rewrite Eb. cbn [bind]. rewrite Es. reflexivity.
Qed.
Lemma mapM_in : forall A B (f : A -> res B) l bs a, mapM f l = Ok bs -> In a l -> exists b, f a = Ok b /\ In b bs.
Proof.
  intros A B f l. induction l as [|x l IH]; intros bs a E I; [contradiction|]. cbn [mapM] in E.
  destruct (f x) as [b|] eqn:Ex; [|discriminate]. cbn [bind] in E. destruct (mapM f l) as [cs|] eqn:El; [|discriminate]. cbn [bind] in E. injection E as <-.
  destruct I as [<-|I]; [exists b; split; [exact Ex|left; reflexivity]|]. destruct (IH cs a eq_refl I) as (c & Ec & Ic). exists c. split; [exact Ec|right; exact Ic].
Qed.
Lemma mapM_fst : forall A B (f : string * A -> res (string * B)) l bs, (forall a b, f a = Ok b -> fst b = fst a) -> mapM f l = Ok bs -> map fst bs = map fst l.
Proof.
  intros A B f l bs H. revert bs. induction l as [|x l IH]; intros bs E; cbn [mapM] in E; [injection E as <-; reflexivity|].
  destruct (f x) as [b|] eqn:Ex; [|discriminate]. cbn [bind] in E. destruct (mapM f l) as [cs|] eqn:El; [|discriminate]. cbn [bind] in E. injection E as <-.
  cbn [map]. rewrite (H _ _ Ex), (IH cs eq_refl). reflexivity.
Qed.
Lemma dict_get_unique : forall A (d : list (string * A)) k v, NoDup (map fst d) -> In (k, v) d -> dict_get d k = Some v.
Proof.
  intros A d k v. induction d as [|[k' w] d IH]; intros N I; [contradiction|]. inversion N as [|? ? X N']; subst. cbn [dict_get].
  destruct I as [E|I].
  - injection E as -> ->. destruct (dict_get d k) as [u|] eqn:G; [|rewrite String.eqb_refl; reflexivity].
    exfalso. apply X. clear - G. cbn [fst]. induction d as [|[a b] d IH]; [discriminate|]. cbn [dict_get] in G. cbn [map fst].
    destruct (dict_get d k); [right; apply IH; exact G|]. destruct (String.eqb_spec k a) as [->|]; [left; reflexivity|discriminate].
  - rewrite (IH N' I). reflexivity.
Qed.

Theorem asjson_ok : forall ord (t : table pval), rectangular t -> set_order ord (fields t) ->
  (forall r v, In r (rows t) -> In v r -> exists j, written v j) ->
  exists d, asjson ord t = Ok d /\ map fst d = ord /\
    forall f, In f (fields t) -> exists col js, getfield t f = Ok col /\ Forall2 written col js /\ dict_get d f = Some (JArr [JArr js]).
Proof.
  intros ord t R (ND & S) W. unfold asjson.
  assert (GF : forall f, In f ord -> exists col, getfield t f = Ok col /\ forall v, In v col -> exists j, encode v = Ok j).
  { intros f I. apply S in I. destruct (index_of_In f (fields t) I) as (i & Ei).
    destruct (index_of_Some _ _ _ Ei) as (Li & _). unfold getfield. rewrite Ei.
    assert (forall r, In r (rows t) -> exists v, row_get i r = Ok v /\ In v r) as RG.
    { intros r Ir. unfold rectangular in R. rewrite Forall_forall in R. specialize (R r Ir). unfold row_get. destruct (nth_error r i) as [v|] eqn:E.
      - exists v. split; [reflexivity|]. eapply nth_error_In. exact E.
      - exfalso. apply nth_error_None in E. apply nth_error_Some in Li || idtac. rewrite R in E.
        assert (i < length (fields t))%nat by (apply nth_error_Some; congruence). lia. }
    destruct (mapM_ok _ _ (row_get i) (rows t)) as (col & Ec); [intros r Ir; destruct (RG r Ir) as (v & E & _); eauto|].
    exists col. split; [exact Ec|]. intros v Iv.
    assert (exists r, In r (rows t) /\ row_get i r = Ok v) as (r & Ir & Er).
    { clear - Ec Iv. revert col Ec Iv. induction (rows t) as [|r rs IH]; intros col Ec Iv; cbn [mapM] in Ec; [injection Ec as <-; contradiction|].
      destruct (row_get i r) as [w|] eqn:Er; [|discriminate]. cbn [bind] in Ec. destruct (mapM (row_get i) rs) as [ws|] eqn:Es; [|discriminate]. cbn [bind] in Ec.
      injection Ec as <-. destruct Iv as [<-|Iv]; [exists r; split; [left; reflexivity|exact Er]|]. destruct (IH ws eq_refl Iv) as (r' & I' & E').
      exists r'. split; [right; exact I'|exact E']. }
    destruct (RG r Ir) as (w & Ew & Iw). rewrite Er in Ew. injection Ew as <-. destruct (W r v Ir Iw) as (j & Wj). exists j. apply encode_written. exact Wj. }
  destruct (mapM_ok _ _ (fun f => bind (getfield t f) (fun col => Ok (f, col))) ord) as (d1 & E1).
  { intros f I. destruct (GF f I) as (col & E & _). rewrite E. eexists. reflexivity. }
  rewrite E1. cbn [bind].
  assert (F1 : map fst d1 = ord).
  { clear - E1. revert d1 E1. induction ord as [|f ord IH]; intros d1 E1; cbn [mapM] in E1; [injection E1 as <-; reflexivity|].
    destruct (getfield t f) as [col|]; cbn [bind] in E1; [|discriminate].
    destruct (mapM _ ord) as [d2|] eqn:E2; [|discriminate]. cbn [bind] in E1. injection E1 as <-. cbn [map fst]. f_equal. apply IH. reflexivity. }
  assert (I1 : forall f col, In (f, col) d1 -> In f ord /\ getfield t f = Ok col).
  { clear - E1. revert d1 E1. induction ord as [|f ord IH]; intros d1 E1 g c I; cbn [mapM] in E1; [injection E1 as <-; contradiction|].
    destruct (getfield t f) as [col|] eqn:Eg; cbn [bind] in E1; [|discriminate].
    destruct (mapM _ ord) as [d2|] eqn:E2; [|discriminate]. cbn [bind] in E1. injection E1 as <-.
    destruct I as [E|I]; [injection E as <- <-; split; [left; reflexivity|exact Eg]|]. destruct (IH d2 eq_refl g c I) as (A & B). split; [right; exact A|exact B]. }
  destruct (mapM_ok _ _ (fun fc : string * list pval => bind (mapM encode (snd fc)) (fun js => Ok (fst fc, JArr [JArr js]))) d1) as (d & E2).
  { intros (f, col) I. destruct (I1 f col I) as (Io & Eg). destruct (GF f Io) as (col' & Eg' & En). rewrite Eg in Eg'. injection Eg' as <-.
    destruct (mapM_ok _ _ encode col) as (js & Ej); [exact En|]. cbn [fst snd]. rewrite Ej. eexists. reflexivity. }
  exists d. split; [exact E2|].
  assert (F2 : map fst d = ord).
  { rewrite <- F1. eapply mapM_fst; [|exact E2]. intros (f, col) b Eb. cbn [fst snd] in Eb. destruct (mapM encode col); [|discriminate]. cbn [bind] in Eb. injection Eb as <-. reflexivity. }
  split; [exact F2|]. intros f I. apply S in I. destruct (GF f I) as (col & Eg & En).
  assert (In (f, col) d1) as Id.
  { destruct (mapM_in _ _ _ _ _ f E1 I) as ((g, c) & Eb & Ib). rewrite Eg in Eb. cbn [bind] in Eb. injection Eb as <- <-. exact Ib. }
  destruct (mapM_in _ _ _ _ _ _ E2 Id) as (b & Eb & Ib). cbn [fst snd] in Eb. destruct (mapM encode col) as [js|] eqn:Ej; [|discriminate]. cbn [bind] in Eb. injection Eb as <-.
  exists col, js. split; [exact Eg|]. split.
  - apply (mapM_iff _ _ encode written); [|exact Ej]. apply Forall_forall. intros v _ j. apply encode_written.
  - apply dict_get_unique; [rewrite F2; exact ND|exact Ib].
Qed.
Theorem asjson_nested : forall ord (t : table pval) d f j, asjson ord t = Ok d -> dict_get d f = Some j -> exists col, j = JArr [JArr col].
Proof.
  intros ord t d f j E G. unfold asjson in E. destruct (mapM _ ord) as [d1|]; [|discriminate]. cbn [bind] in E.
  revert d E G. induction d1 as [|(g, c) d1 IH]; intros d E G; cbn [mapM] in E; [injection E as <-; discriminate|].
  cbn [fst snd] in E. destruct (mapM encode c) as [js|]; [|discriminate]. cbn [bind] in E.
  destruct (mapM _ d1) as [d2|]; [|discriminate]. cbn [bind] in E. injection E as <-. cbn [dict_get] in G.
  destruct (dict_get d2 f) as [k|] eqn:Gk; [injection G as <-; apply (IH d2 eq_refl Gk)|]. destruct (String.eqb f g); [|discriminate]. injection G as <-. eauto.
Qed.
Theorem asjson_error : forall ord (t : table pval) e, rectangular t -> set_order ord (fields t) -> asjson ord t = Err e -> e = TypeError.
Proof.
  intros ord t e R (ND & S) E. unfold asjson in E. destruct (mapM _ ord) as [d1|e1] eqn:E1; cbn [bind] in E.
  - eapply (mapM_error _ _ _ (fun e => e = TypeError)); [|exact E]. intros (f, col) e2 _ E2. cbn [fst snd] in E2.
    destruct (mapM encode col) as [js|e3] eqn:E3; cbn [bind] in E2; [discriminate|]. injection E2 as <-.
    eapply (mapM_error _ _ _ (fun e => e = TypeError)); [|exact E3]. intros v e4 _. apply encode_error.
  - exfalso. destruct (mapM_ok _ _ (fun f => bind (getfield t f) (fun col => Ok (f, col))) ord) as (d & Ed); [|congruence].
    intros f I. destruct (getfield_In PNone t f R) as (vs & Ev & _); [apply S; exact I|]. rewrite Ev. eexists. reflexivity.
Qed.

(** The check of types. *)
Lemma class_any : forall t l, class_isinstance t (PTuple l) =
  (fix any (l : list pval) : res bool := match l with [] => Ok false | w :: l' => match class_isinstance t w with Ok true => Ok true | Ok false => any l' | Err e => Err e end end) l.
Proof. reflexivity. Qed.
Lemma class_error : forall t v e, class_isinstance t v = Err e -> e = TypeError.
Proof.
  intros t. induction v as [|b|z|q|s|l IH|l IH|c|z|q| | |l IH] using pval_rect'; intros e E; try (cbn [class_isinstance] in E; congruence).
  - rewrite class_any in E. induction IH as [|w l H F G]; [discriminate|].
    destruct (class_isinstance t w) as [[]|e'] eqn:Ew; [discriminate|apply G; exact E|injection E as <-; apply H; reflexivity].
  - cbn [class_isinstance] in E. destruct c; discriminate.
Qed.
Lemma ordinary_error : forall t v, ordinary v -> class_isinstance t v = Err TypeError.
Proof. intros t v O. destruct v; try contradiction; reflexivity. Qed.
Lemma all_instances_cases : forall t i rs, (forall r, In r rs -> (i < length r)%nat) ->
  all_instances t i rs = Ok true \/ all_instances t i rs = Ok false \/ all_instances t i rs = Err TypeError.
Proof.
  intros t i rs. induction rs as [|r rs IH]; intros L; [left; reflexivity|]. cbn [all_instances]. unfold row_get.
  destruct (nth_error r i) as [v|] eqn:E; [|exfalso; apply nth_error_None in E; specialize (L r (or_introl eq_refl)); lia]. cbn [bind].
  destruct (class_isinstance t v) as [[]|e] eqn:C; [apply IH; intros; apply L; right; assumption|right; left; reflexivity|].
  right. right. f_equal. eapply class_error. exact C.
Qed.
Lemma all_instances_ordinary : forall t i rs r v, (forall r, In r rs -> (i < length r)%nat) -> In r rs -> nth_error r i = Some v -> ordinary v ->
  all_instances t i rs = Ok false \/ all_instances t i rs = Err TypeError.
Proof.
  intros t i rs. induction rs as [|r' rs IH]; intros r v L I E O; [contradiction|]. cbn [all_instances]. unfold row_get.
  destruct (nth_error r' i) as [w|] eqn:E'; [|exfalso; apply nth_error_None in E'; specialize (L r' (or_introl eq_refl)); lia]. cbn [bind].
  destruct I as [->|I].
  - rewrite E in E'. injection E' as <-. rewrite (ordinary_error t v O). right. reflexivity.
  - destruct (class_isinstance t w) as [[]|e] eqn:C; [eapply IH; [intros; apply L; right; assumption|exact I|exact E|exact O]|left; reflexivity|].
    right. f_equal. eapply class_error. exact C.
Qed.
Lemma validate_ordinary : forall rs ts i0, (forall r, In r rs -> length r = (i0 + length ts)%nat) ->
  (exists r i v, In r rs /\ (i0 <= i)%nat /\ nth_error r i = Some v /\ ordinary v) -> validate_loop i0 ts rs = Err TypeError.
Proof.
  intros rs ts. induction ts as [|t ts IH]; intros i0 L (r & i & v & I & G & E & O); cbn [length] in L.
  - exfalso. assert (i < length r)%nat by (apply nth_error_Some; congruence). specialize (L r I). lia.
  - cbn [validate_loop]. assert (Li : forall r, In r rs -> (i0 < length r)%nat) by (intros r' I'; specialize (L r' I'); lia).
    destruct (Nat.eq_dec i i0) as [->|N].
    + destruct (all_instances_ordinary t i0 rs r v Li I E O) as [-> | ->]; reflexivity.
    + destruct (all_instances_cases t i0 rs Li) as [-> |[-> | ->]]; cbn [bind]; try reflexivity.
      apply IH; [intros r' I'; specialize (L r' I'); lia|]. exists r, i, v. repeat split; try assumption. lia.
Qed.
Theorem checked_ordinary : forall t r v, rectangular t -> In r (rows t) -> In v r -> ordinary v -> checked t = Err TypeError.
Proof.
  intros t r v R I Iv O. unfold checked, validatetypes. unfold rectangular in R. rewrite Forall_forall in R.
  destruct (rows t) as [|r0 rs] eqn:E; [contradiction|]. rewrite validate_ordinary; [reflexivity| |].
  - intros r' I'. rewrite map_length. rewrite (R r' I'), (R r0 (or_introl eq_refl)). reflexivity.
  - destruct (In_nth_error _ _ Iv) as (i & Ei). exists r, i, v. repeat split; try assumption. lia.
Qed.
Theorem checked_empty : forall t, rows t = [] -> checked t = Err IndexError.
Proof. intros t E. unfold checked, validatetypes. rewrite E. reflexivity. Qed.
Theorem checked_same : forall t u, checked t = Ok u -> u = t.
Proof. intros t u E. unfold checked in E. destruct (validatetypes t); cbn [bind] in E; congruence. Qed.

(** The indexer. *)
Lemma position_item : forall A (l : list A) z v, item l z v <-> exists i, position (length l) z = Some i /\ nth_error l i = Some v.
Proof.
  intros A l z v. unfold item, position. split.
  - intros (i & E & Z). assert (i < length l)%nat as L by (apply nth_error_Some; congruence). destruct Z as [-> | ->].
    + exists i. replace ((0 <=? Z.of_nat i) && (Z.of_nat i <? Z.of_nat (length l)))%Z with true by (symmetry; apply andb_true_intro; split; [apply Z.leb_le|apply Z.ltb_lt]; lia).
      rewrite Nat2Z.id. split; [reflexivity|exact E].
    + exists i. replace ((0 <=? Z.of_nat i - Z.of_nat (length l)) && (Z.of_nat i - Z.of_nat (length l) <? Z.of_nat (length l)))%Z with false by (symmetry; apply andb_false_intro1; apply Z.leb_gt; lia).
      replace ((- Z.of_nat (length l) <=? Z.of_nat i - Z.of_nat (length l)) && (Z.of_nat i - Z.of_nat (length l) <? 0))%Z with true by (symmetry; apply andb_true_intro; split; [apply Z.leb_le|apply Z.ltb_lt]; lia).
      split; [f_equal; lia|exact E].
  - intros (i & P & E). exists i. split; [exact E|].
    destruct ((0 <=? z) && (z <? Z.of_nat (length l)))%Z eqn:A1; [left; injection P as <-; apply andb_prop in A1; destruct A1 as (A1 & _); apply Z.leb_le in A1; lia|].
    destruct ((- Z.of_nat (length l) <=? z) && (z <? 0))%Z eqn:A2; [|discriminate]. apply andb_prop in A2. destruct A2 as (A2 & A3). apply Z.leb_le in A2. apply Z.ltb_lt in A3.
    right. injection P as <-. lia.
Qed.
Lemma position_range : forall n z, (exists i, position n z = Some i /\ (i < n)%nat) <-> (- Z.of_nat n <= z < Z.of_nat n)%Z.
Proof.
  intros n z. unfold position. destruct ((0 <=? z) && (z <? Z.of_nat n))%Z eqn:A1.
  - apply andb_prop in A1. destruct A1 as (A1 & A2). apply Z.leb_le in A1. apply Z.ltb_lt in A2. split; [lia|]. intros _. eexists. split; [reflexivity|lia].
  - destruct ((- Z.of_nat n <=? z) && (z <? 0))%Z eqn:A2.
    + apply andb_prop in A2. destruct A2 as (A2 & A3). apply Z.leb_le in A2. apply Z.ltb_lt in A3. split; [lia|]. intros _. eexists. split; [reflexivity|lia].
    + split; [intros (i & X & _); discriminate|]. intros H. exfalso.
      apply andb_false_iff in A1. apply andb_false_iff in A2. destruct A1 as [A1|A1], A2 as [A2|A2];
        try apply Z.leb_gt in A1; try apply Z.ltb_ge in A1; try apply Z.leb_gt in A2; try apply Z.ltb_ge in A2; lia.
Qed.
Lemma position_none : forall n z, position n z = None <-> ~ (- Z.of_nat n <= z < Z.of_nat n)%Z.
Proof.
  intros n z. rewrite <- position_range. split.
  - intros E (i & X & _). congruence.
  - intros N. destruct (position n z) as [i|] eqn:E; [|reflexivity]. exfalso. apply N. exists i. split; [reflexivity|].
    unfold position in E. destruct ((0 <=? z) && (z <? Z.of_nat n))%Z eqn:A1.
    + apply andb_prop in A1. destruct A1 as (A1 & A2). apply Z.leb_le in A1. apply Z.ltb_lt in A2. injection E as <-. lia.
    + destruct ((- Z.of_nat n <=? z) && (z <? 0))%Z eqn:A2; [|discriminate]. apply andb_prop in A2. destruct A2 as (A2 & A3). apply Z.leb_le in A2. apply Z.ltb_lt in A3. injection E as <-. lia.
Qed.
Theorem indexer_agrees : forall val (vnone : val) (t : table val) z d f col, rectangular t -> NoDup (fields t) ->
  indexer (Some t) (KInt z) = Ok (Entry d) -> indexer (Some t) (KStr f) = Ok (Column col) ->
  forall v, dict_get d f = Some v <-> item col z v.
Proof.
  intros val vnone t z d f col R N E1 E2 v. cbn [indexer] in *. unfold get_at in E1.
  destruct (getfield t f) as [c|] eqn:G; [|discriminate]. cbn [bind] in E2. injection E2 as <-.
  destruct (position (tlen t) z) as [i|] eqn:P; [|discriminate]. destruct (get t i) as [row|] eqn:Eg; [|discriminate]. cbn [bind] in E1. injection E1 as <-.
  rewrite (get_agrees vnone t i row f c R N Eg G). rewrite position_item. rewrite (getfield_Ok_length t f c G).
  split; [intros X; exists i; split; [exact P|exact X]|]. intros (j & Pj & X). congruence.
Qed.
Theorem indexer_int : forall val (vnone : val) (t : table val) z, rectangular t ->
  ((- Z.of_nat (tlen t) <= z < Z.of_nat (tlen t))%Z -> exists d, indexer (Some t) (KInt z) = Ok (Entry d)) /\
  (~ (- Z.of_nat (tlen t) <= z < Z.of_nat (tlen t))%Z -> indexer (Some t) (KInt z) = Err IndexError).
Proof.
  intros val vnone t z R. cbn [indexer]. unfold get_at. split.
  - intros H. apply position_range in H. destruct H as (i & -> & L). destruct (proj2 (proj1 (get_range vnone t i R)) L) as (row & ->). eexists. reflexivity.
  - intros H. apply position_none in H. rewrite H. reflexivity.
Qed.
Theorem indexer_str : forall val (vnone : val) (t : table val) f, rectangular t ->
  (In f (fields t) -> exists col, indexer (Some t) (KStr f) = Ok (Column col) /\ length col = tlen t) /\
  (~ In f (fields t) -> indexer (Some t) (KStr f) = Err KeyError).
Proof.
  intros val vnone t f R. cbn [indexer]. split; intros H.
  - destruct (getfield_In vnone t f R H) as (col & E & _). exists col. rewrite E. split; [reflexivity|]. apply (getfield_Ok_length t f col E).
  - rewrite (getfield_missing t f H). reflexivity.
Qed.
Theorem contains_fields : forall t s, contains t (PStr s) = true <-> In s (fields t).
Proof.
  intros t s. cbn [contains]. rewrite existsb_exists. split; [intros (x & I & E); apply String.eqb_eq in E; subst; exact I|].
  intros I. exists s. split; [exact I|apply String.eqb_refl].
Qed.
