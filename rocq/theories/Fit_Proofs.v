(** Proofs about the affine map between control points. *)
From Coq Require Import List QArith Bool Lqa Lia Psatz.
From Verif Require Geom_Model.
From Verif Require Import Geom_Spec Proj_Model Proj_Spec Proj_Proofs Fit_Model Fit_Spec.
Import ListNotations.
Local Open Scope Q_scope.

Lemma design_residual : forall la lb a b c d e f, length la = length lb ->
  residual (design la) (ravel (Geom_Model.V2 lb)) [a; b; c; d; e; f] == misfit (a, b, c, d, e, f) la lb.
Proof.
  intros la. induction la as [|[x y] la IH]; intros [|[u v] lb] a b c d e f L; cbn [length] in L; try discriminate.
  - reflexivity.
  - injection L as L. specialize (IH lb a b c d e f L). cbn [ravel] in *.
    unfold design in *. cbn [flat_map kron_rows app residual dotp fst snd misfit image affine] in *. rewrite IH.
    change (fst (affine a b c d e f (x, y))) with (a * x + b * y + c).
    change (snd (affine a b c d e f (x, y))) with (d * x + e * y + f). ring.
Qed.
Lemma list6 : forall m : list Q, length m = 6%nat -> exists a b c d e f, m = [a; b; c; d; e; f].
Proof. intros [|a [|b [|c [|d [|e [|f [|g m]]]]]]] L; try discriminate. repeat eexists. Qed.

Lemma misfit_nonneg : forall m la lb, 0 <= misfit m la lb.
Proof.
  intros m la. induction la as [|p la IH]; intros [|q lb]; cbn [misfit]; try apply Qle_refl. specialize (IH lb).
  set (s := fst (image m p) - fst q). set (t := snd (image m p) - snd q). nra.
Qed.
Lemma misfit_zero : forall m la lb, length la = length lb -> misfit m la lb == 0 -> Forall2 (fun p q => same (image m p) q) la lb.
Proof.
  intros m la. induction la as [|p la IH]; intros [|q lb] L Z; cbn [length] in L; try discriminate; constructor.
  - cbn [misfit] in Z. pose proof (misfit_nonneg m la lb). set (s := fst (image m p) - fst q) in *. set (t := snd (image m p) - snd q) in *.
    assert (s * s == 0) by nra. assert (t * t == 0) by nra.
    assert (s == 0) by (destruct (Qmult_integral _ _ H0); assumption). assert (t == 0) by (destruct (Qmult_integral _ _ H1); assumption).
    unfold same. unfold s, t in *. split; lra.
  - injection L as L. apply IH; [exact L|]. cbn [misfit] in Z. pose proof (misfit_nonneg m la lb).
    set (s := fst (image m p) - fst q) in *. set (t := snd (image m p) - snd q) in *. nra.
Qed.
Lemma misfit_exact : forall m la lb, Forall2 (fun p q => same (image m p) q) la lb -> misfit m la lb == 0.
Proof.
  induction 1 as [|p q la lb [E1 E2] _ IH]; [reflexivity|]. cbn [misfit]. rewrite IH, E1, E2. ring.
Qed.

(* the difference of two maps on a point; half way between two maps the misfit is smaller *)
Definition mid (m n : six) : six :=
  let '(a, b, c, d, e, f) := m in let '(a', b', c', d', e', f') := n in
  ((a + a') / 2, (b + b') / 2, (c + c') / 2, (d + d') / 2, (e + e') / 2, (f + f') / 2).
Fixpoint apart (m n : six) (l : list (Q * Q)) : Q :=
  match l with
  | [] => 0
  | p :: l' => (fst (image m p) - fst (image n p)) * (fst (image m p) - fst (image n p)) +
               (snd (image m p) - snd (image n p)) * (snd (image m p) - snd (image n p)) + apart m n l'
  end.
Lemma apart_nonneg : forall m n l, 0 <= apart m n l.
Proof.
  intros m n l. induction l as [|p l IH]; cbn [apart]; [apply Qle_refl|].
  set (s := fst (image m p) - fst (image n p)). set (t := snd (image m p) - snd (image n p)). nra.
Qed.
Lemma mid_image : forall m n p, fst (image (mid m n) p) == (fst (image m p) + fst (image n p)) / 2 /\
  snd (image (mid m n) p) == (snd (image m p) + snd (image n p)) / 2.
Proof.
  intros [[[[[a b] c] d] e] f] [[[[[a' b'] c'] d'] e'] f'] [x y]. cbn [image mid]. unfold affine. cbn [fst snd]. split; field.
Qed.
Lemma misfit_mid : forall m n la lb, length la = length lb ->
  4 * misfit (mid m n) la lb == 2 * misfit m la lb + 2 * misfit n la lb - apart m n la.
Proof.
  intros m n la. induction la as [|p la IH]; intros [|q lb] L; cbn [length] in L; try discriminate.
  - reflexivity.
  - injection L as L. specialize (IH lb L). cbn [misfit apart]. destruct (mid_image m n p) as [E1 E2]. rewrite E1, E2.
    set (u := fst (image m p)) in *. set (v := snd (image m p)) in *. set (u' := fst (image n p)) in *. set (v' := snd (image n p)) in *.
    set (A := misfit (mid m n) la lb) in *. set (B := misfit m la lb) in *. set (D := misfit n la lb) in *. set (E := apart m n la) in *.
    assert (K : 4 * A == 2 * B + 2 * D - E) by exact IH.
    transitivity (4 * A + (u + u' - 2 * fst q) * (u + u' - 2 * fst q) + (v + v' - 2 * snd q) * (v + v' - 2 * snd q)); [field|].
    rewrite K. ring.
Qed.
Lemma apart_zero : forall m n l, apart m n l == 0 -> forall p, In p l -> same (image m p) (image n p).
Proof.
  intros m n l. induction l as [|q l IH]; intros Z p I; [destruct I|]. cbn [apart] in Z. pose proof (apart_nonneg m n l).
  set (s := fst (image m q) - fst (image n q)) in *. set (t := snd (image m q) - snd (image n q)) in *.
  destruct I as [<-|I].
  - assert (s * s == 0) by nra. assert (t * t == 0) by nra.
    assert (s == 0) by (destruct (Qmult_integral _ _ H0); assumption). assert (t == 0) by (destruct (Qmult_integral _ _ H1); assumption).
    unfold same. unfold s, t in *. split; lra.
  - apply IH; [nra | exact I].
Qed.
Lemma best_apart : forall m n la lb, length la = length lb -> best m la lb -> best n la lb -> apart m n la == 0.
Proof.
  intros m n la lb L M N. pose proof (misfit_mid m n la lb L). pose proof (M (mid m n)). pose proof (N (mid m n)).
  pose proof (apart_nonneg m n la). lra.
Qed.
Lemma determined : forall a b c a' b' c' x0 y0 x1 y1 x2 y2 : Q,
  a * x0 + b * y0 + c == a' * x0 + b' * y0 + c' -> a * x1 + b * y1 + c == a' * x1 + b' * y1 + c' ->
  a * x2 + b * y2 + c == a' * x2 + b' * y2 + c' ->
  ~ (x1 - x0) * (y2 - y0) - (x2 - x0) * (y1 - y0) == 0 -> a == a' /\ b == b' /\ c == c'.
Proof.
  intros a b c a' b' c' x0 y0 x1 y1 x2 y2 H0 H1 H2 D.
  set (k := (x1 - x0) * (y2 - y0) - (x2 - x0) * (y1 - y0)) in *.
  assert (E1 : (a - a') * (x1 - x0) + (b - b') * (y1 - y0) == 0) by nra.
  assert (E2 : (a - a') * (x2 - x0) + (b - b') * (y2 - y0) == 0) by nra.
  assert (A : (a - a') * k == 0).
  { transitivity (((a - a') * (x1 - x0) + (b - b') * (y1 - y0)) * (y2 - y0) - ((a - a') * (x2 - x0) + (b - b') * (y2 - y0)) * (y1 - y0)); [unfold k; ring|].
    rewrite E1, E2. ring. }
  assert (B : (b - b') * k == 0).
  { transitivity (((a - a') * (x2 - x0) + (b - b') * (y2 - y0)) * (x1 - x0) - ((a - a') * (x1 - x0) + (b - b') * (y1 - y0)) * (x2 - x0)); [unfold k; ring|].
    rewrite E1, E2. ring. }
  assert (A' : a == a') by (destruct (Qmult_integral _ _ A); [lra | contradiction]).
  assert (B' : b == b') by (destruct (Qmult_integral _ _ B); [lra | contradiction]).
  split; [exact A'|]. split; [exact B'|]. rewrite A', B' in H0. lra.
Qed.
Lemma spread_same : forall m n l, spread l -> (forall p, In p l -> same (image m p) (image n p)) -> same6 m n.
Proof.
  intros [[[[[a b] c] d] e] f] [[[[[a' b'] c'] d'] e'] f'] l [[x0 y0] [[x1 y1] [[x2 y2] [I0 [I1 [I2 D]]]]]] H.
  unfold tri in D. cbn [fst snd] in D.
  assert (D' : ~ (x1 - x0) * (y2 - y0) - (x2 - x0) * (y1 - y0) == 0) by (intros Z; apply D; rewrite Z; ring).
  destruct (H _ I0) as [P0 Q0], (H _ I1) as [P1 Q1], (H _ I2) as [P2 Q2].
  cbn [image] in *. unfold affine in *. cbn [fst snd] in *.
  destruct (determined _ _ _ _ _ _ _ _ _ _ _ _ P0 P1 P2 D') as [? [? ?]].
  destruct (determined _ _ _ _ _ _ _ _ _ _ _ _ Q0 Q1 Q2 D') as [? [? ?]].
  cbn [same6]. repeat split; assumption.
Qed.

(* the normal equations suffice for the best map *)
Fixpoint slope (m n : six) (la lb : list (Q * Q)) : Q :=
  match la, lb with
  | p :: ps, q :: qs => (fst (image m p) - fst q) * (fst (image n p) - fst (image m p)) +
                        (snd (image m p) - snd q) * (snd (image n p) - snd (image m p)) + slope m n ps qs
  | _, _ => 0
  end.
Lemma misfit_slope : forall m n la lb, length la = length lb ->
  misfit n la lb == misfit m la lb + 2 * slope m n la lb + apart m n la.
Proof.
  intros m n la. induction la as [|p la IH]; intros [|q lb] L; cbn [length] in L; try discriminate; [reflexivity|].
  injection L as L. cbn [misfit slope apart]. rewrite (IH lb L). ring.
Qed.
Lemma slope_best : forall m la lb, length la = length lb -> (forall n, slope m n la lb == 0) -> best m la lb.
Proof.
  intros m la lb L H n. rewrite (misfit_slope m n la lb L). pose proof (apart_nonneg m n la). pose proof (H n). lra.
Qed.
Lemma solves_best : forall la lb a b c d e f, length la = length lb ->
  (least_squares 6 (design la) (ravel (Geom_Model.V2 lb)) [a; b; c; d; e; f] <-> best (a, b, c, d, e, f) la lb).
Proof.
  intros la lb a b c d e f L. split.
  - intros [_ H] [[[[[a' b'] c'] d'] e'] f']. specialize (H [a'; b'; c'; d'; e'; f'] eq_refl).
    rewrite !design_residual in H by exact L. exact H.
  - intros H. split; [reflexivity|]. intros m' L'. destruct (list6 m' L') as [a' [b' [c' [d' [e' [f' ->]]]]]].
    rewrite !design_residual by exact L. apply H.
Qed.

Section Fit.
Context {C W : Type} (is_same : C -> C -> bool) (transform : C -> C -> outcome (Q * Q -> Q * Q))
  (lstsq : list (list Q) -> list Q -> option (list Q)).

Lemma fit_ok : forall la ca b lb m,
  vertices C is_same transform (fst b) (snd b) (Some ca) false = Ok (Geom_Model.V2 lb) ->
  length la = Geom_Model.nverts (fst b) ->
  lstsq (design la) (ravel (Geom_Model.V2 lb)) = Some m -> least_squares 6 (design la) (ravel (Geom_Model.V2 lb)) m ->
  exists a0 a1 a2 a3 a4 a5, affine_matrix C is_same transform lstsq (Geom_Model.V2 la, ca) b = Ok (Geom_Model.M23 a0 a1 a2 a3 a4 a5) /\
    length la = length lb /\ best (a0, a1, a2, a3, a4, a5) la lb.
Proof.
  intros la ca b lb m E L S H.
  assert (Lb : length la = length lb).
  { rewrite L. unfold vertices in E. cbn [fst snd] in E. destruct (is_same ca (snd b)).
    - injection E as E. rewrite E. reflexivity.
    - destruct (transform (snd b) ca) as [f|]; [|discriminate]. cbn [andthen] in E. destruct (fst b) as [l|l]; [|discriminate].
      injection E as <-. unfold Geom_Model.nverts. cbn [Geom_Model.xys]. rewrite map_length. reflexivity. }
  destruct (list6 m (proj1 H)) as [a0 [a1 [a2 [a3 [a4 [a5 ->]]]]]]. exists a0, a1, a2, a3, a4, a5. split.
  - unfold affine_matrix. cbn [fst snd]. rewrite <- L. change (Geom_Model.nverts (Geom_Model.V2 la)) with (length la). rewrite Nat.eqb_refl. cbn [negb].
    rewrite E. cbn [andthen]. rewrite S. reflexivity.
  - split; [exact Lb|]. apply solves_best; assumption.
Qed.
End Fit.
