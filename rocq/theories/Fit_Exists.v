(** There is always a best affine map: orthogonal projection by induction on the basis. *)
From Coq Require Import List QArith Bool Lqa Lia Psatz.
From Verif Require Geom_Model.
From Verif Require Import Geom_Spec Fit_Model Fit_Spec Fit_Proofs.
Import ListNotations.
Local Open Scope Q_scope.

Section Inner.
Context {T : Type} (l : list T).
Fixpoint inner_on (k : list T) (f g : T -> Q) : Q := match k with [] => 0 | t :: k' => f t * g t + inner_on k' f g end.
Definition inner := inner_on l.
Lemma inner_on_ext : forall k f g f' g', (forall t, f t == f' t) -> (forall t, g t == g' t) -> inner_on k f g == inner_on k f' g'.
Proof. intros k f g f' g' F G. induction k as [|t k IH]; cbn [inner_on]; [reflexivity|]. rewrite IH, F, G. reflexivity. Qed.
Lemma inner_on_lin : forall k f g h c, inner_on k (fun t => f t + c * g t) h == inner_on k f h + c * inner_on k g h.
Proof. intros k f g h c. induction k as [|t k IH]; cbn [inner_on]; [ring|]. rewrite IH. ring. Qed.
Lemma inner_on_sym : forall k f g, inner_on k f g == inner_on k g f.
Proof. intros k f g. induction k as [|t k IH]; cbn [inner_on]; [ring|]. rewrite IH. ring. Qed.
Lemma inner_on_sq : forall k f, 0 <= inner_on k f f.
Proof. intros k f. induction k as [|t k IH]; cbn [inner_on]; [lra|]. nra. Qed.
Lemma inner_on_null : forall k f g, inner_on k f f == 0 -> inner_on k g f == 0.
Proof.
  intros k f g. induction k as [|t k IH]; cbn [inner_on]; intros H; [reflexivity|]. pose proof (inner_on_sq k f).
  assert (Z : f t * f t == 0) by nra. rewrite IH by nra. assert (E : f t == 0) by (destruct (Qmult_integral _ _ Z); assumption). rewrite E. ring.
Qed.
Fixpoint comb (cs : list Q) (fs : list (T -> Q)) (t : T) : Q :=
  match cs, fs with c :: cs', f :: fs' => c * f t + comb cs' fs' t | _, _ => 0 end.
Definition minus (f g : T -> Q) : T -> Q := fun t => f t + (-1) * g t.
Lemma inner_comb : forall fs cs r, (forall f, In f fs -> inner r f == 0) -> inner r (comb cs fs) == 0.
Proof.
  induction fs as [|f fs IH]; intros cs r H.
  - unfold inner. rewrite inner_on_sym. transitivity (inner_on l (fun t => 0) r).
    + apply inner_on_ext; [intros t; destruct cs; reflexivity | reflexivity].
    + clear. induction l as [|t k IH]; cbn [inner_on]; [reflexivity|]. rewrite IH. ring.
  - destruct cs as [|c cs].
    + unfold inner. rewrite inner_on_sym. clear. induction l as [|t k IH]; cbn [inner_on]; [reflexivity|]. rewrite IH. cbn [comb]. ring.
    + unfold inner. rewrite inner_on_sym. transitivity (inner_on l (fun t => comb cs fs t + c * f t) r).
      * apply inner_on_ext; [intros t; cbn [comb]; ring | reflexivity].
      * rewrite inner_on_lin. rewrite !(inner_on_sym l _ r). fold (inner r (comb cs fs)). fold (inner r f).
        rewrite (IH cs r) by (intros g G; apply H; right; exact G). rewrite (H f (or_introl eq_refl)). ring.
Qed.
Fixpoint less (cs ds : list Q) (t : Q) : list Q :=
  match cs, ds with c :: cs', d :: ds' => (c - t * d) :: less cs' ds' t | _, _ => [] end.
Lemma less_length : forall cs ds t, length cs = length ds -> length (less cs ds t) = length cs.
Proof. induction cs as [|c cs IH]; intros [|d ds] t L; cbn [length less] in *; try discriminate; [reflexivity|]. rewrite IH; [reflexivity | lia]. Qed.
Lemma less_comb : forall fs cs ds k t, length cs = length fs -> length ds = length fs ->
  comb (less cs ds k) fs t == comb cs fs t - k * comb ds fs t.
Proof.
  induction fs as [|f fs IH]; intros [|c cs] [|d ds] k t L M; cbn [length comb less] in *; try discriminate; [ring|].
  rewrite IH by lia. ring.
Qed.
Lemma project : forall fs y, exists cs, length cs = length fs /\ forall f, In f fs -> inner (minus y (comb cs fs)) f == 0.
Proof.
  induction fs as [|f fs IH]; intros y.
  - exists []. split; [reflexivity|]. intros f [].
  - destruct (IH y) as [cs [Lc Hc]]. destruct (IH f) as [ds [Ld Hd]].
    set (r := minus y (comb cs fs)) in *. set (w := minus f (comb ds fs)) in *.
    assert (F : forall u, (forall g, In g fs -> inner u g == 0) -> inner u f == inner u w).
    { intros u U. pose proof (inner_comb fs ds u U) as Z. unfold inner in *. rewrite (inner_on_sym l u f), (inner_on_sym l u w).
      unfold w, minus. rewrite inner_on_lin. rewrite (inner_on_sym l (comb ds fs) u). rewrite Z. ring. }
    destruct (Qeq_dec (inner w w) 0) as [Z|Z].
    + exists (0 :: cs). split; [cbn [length]; lia|].
      assert (E : forall g, inner (minus y (comb (0 :: cs) (f :: fs))) g == inner r g).
      { intros g. apply inner_on_ext; [intros t; unfold r, minus; cbn [comb]; ring | reflexivity]. }
      intros g [<-|G]; rewrite E; [|apply Hc; exact G]. rewrite F by exact Hc. apply inner_on_null. exact Z.
    + set (k := inner r w / inner w w). exists (k :: less cs ds k).
      split; [cbn [length]; rewrite less_length by lia; lia|].
      assert (E : forall g, inner (minus y (comb (k :: less cs ds k) (f :: fs))) g == inner (fun t => r t + (- k) * w t) g).
      { intros g. apply inner_on_ext; [|reflexivity]. intros t. unfold r, w, minus. cbn [comb]. rewrite less_comb by assumption. ring. }
      assert (O : forall g, In g fs -> inner (fun t => r t + (- k) * w t) g == 0).
      { intros g G. unfold inner. rewrite inner_on_lin. fold (inner r g) (inner w g). rewrite (Hc g G), (Hd g G). ring. }
      intros g [<-|G]; rewrite E; [|apply O; exact G]. rewrite F by exact O. unfold inner. rewrite inner_on_lin.
      fold (inner r w) (inner w w). unfold k. field. exact Z.
Qed.
End Inner.

Definition pairs := list ((Q * Q) * (Q * Q)).
Definition bx (t : (Q * Q) * (Q * Q)) : Q := fst (fst t).
Definition by_ (t : (Q * Q) * (Q * Q)) : Q := snd (fst t).
Definition b1 (t : (Q * Q) * (Q * Q)) : Q := 1.
Definition tx (t : (Q * Q) * (Q * Q)) : Q := fst (snd t).
Definition ty (t : (Q * Q) * (Q * Q)) : Q := snd (snd t).
Lemma slope_inner : forall la lb a b c d e f a' b' c' d' e' f', length la = length lb ->
  let l := combine la lb in
  slope (a, b, c, d, e, f) (a', b', c', d', e', f') la lb ==
  - (inner l (minus tx (comb [a; b; c] [bx; by_; b1])) (comb [a' - a; b' - b; c' - c] [bx; by_; b1]) +
     inner l (minus ty (comb [d; e; f] [bx; by_; b1])) (comb [d' - d; e' - e; f' - f] [bx; by_; b1])).
Proof.
  intros la. induction la as [|[x y] la IH]; intros [|[u v] lb] a b c d e f a' b' c' d' e' f' L; cbn [length] in L; try discriminate; [reflexivity|].
  injection L as L. cbn zeta. unfold inner. cbn [slope combine inner_on]. rewrite (IH lb a b c d e f a' b' c' d' e' f' L). cbn zeta. unfold inner.
  set (A := inner_on (combine la lb) _ _). set (B := inner_on (combine la lb) _ _).
  cbn [image]. unfold affine, minus, tx, ty, bx, by_, b1. cbn [comb fst snd]. ring.
Qed.
Lemma best_exists : forall la lb, length la = length lb -> exists m, best m la lb.
Proof.
  intros la lb L.
  destruct (project (combine la lb) [bx; by_; b1] tx) as [cs [Lc Hc]]. destruct (project (combine la lb) [bx; by_; b1] ty) as [ds [Ld Hd]].
  destruct cs as [|a [|b [|c [|? ?]]]]; try discriminate. destruct ds as [|d [|e [|f [|? ?]]]]; try discriminate.
  exists (a, b, c, d, e, f). apply slope_best; [exact L|]. intros [[[[[a' b'] c'] d'] e'] f'].
  rewrite slope_inner by exact L. cbn zeta.
  rewrite (inner_comb (combine la lb) [bx; by_; b1] _ _ Hc), (inner_comb (combine la lb) [bx; by_; b1] _ _ Hd). ring.
Qed.
Lemma answered : forall la lb, length la = length lb -> exists lstsq, answers lstsq (design la) (ravel (Geom_Model.V2 lb)).
Proof.
  intros la lb L. destruct (best_exists la lb L) as [[[[[[a b] c] d] e] f] B]. exists (fun _ _ => Some [a; b; c; d; e; f]).
  exists [a; b; c; d; e; f]. split; [reflexivity|]. apply solves_best; assumption.
Qed.
