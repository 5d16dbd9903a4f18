From Coq Require Import List ZArith QArith Bool Lia.
From Verif Require Import Band_Model Band_IndexModel Grid_Model Grid_Spec GridSample_Model GridSample_Spec Stat_Model Stat_Spec Stat_Proofs.
From Verif Require Import Ssys_Model Ssys_Spec.
Import ListNotations.
Local Open Scope Z_scope.

Section P.
Variables (C : Type) (eqb : C -> C -> bool) (tr : C -> C -> Q * Q -> Q * Q) (junk : Z -> Z -> fl).
Hypothesis SY : systems eqb tr.

Lemma coords_in_is c s p : coords_in C eqb tr c s p = tr c s p.
Proof.
  unfold coords_in. destruct (eqb s c) eqn:E; [| reflexivity]. apply (proj1 SY) in E. subst. symmetry. apply (proj2 SY).
Qed.
Lemma pairs_back (l : list (Q * Q)) : combine (map fst l) (map snd l) = l.
Proof. induction l as [| [a b] l IH]; [reflexivity |]. cbn. rewrite IH. reflexivity. Qed.
Lemma as_transformed s g dt m kw c l :
  sample_in C eqb tr junk s g dt m kw (InMultipoint c l) = sample junk g dt m (AMultipoint (map (tr c s) l)).
Proof. cbn [sample_in]. rewrite (map_ext _ _ (coords_in_is c s)). reflexivity. Qed.
Lemma arrays_as s g dt m c l :
  sample_in C eqb tr junk s g dt m (Some c) (InArrays (map fst l) (map snd l)) = sample junk g dt m (AMultipoint (map (tr c s) l)).
Proof.
  cbn [sample_in]. rewrite !map_length, Nat.eqb_refl. cbn [negb]. rewrite pairs_back. cbn zeta.
  cbn [sample]. rewrite !map_length, Nat.eqb_refl. cbn [negb]. rewrite pairs_back. reflexivity.
Qed.
Lemma arrays_none s g dt m l :
  sample_in C eqb tr junk s g dt m None (InArrays (map fst l) (map snd l)) = sample junk g dt m (AMultipoint l).
Proof. cbn [sample_in sample]. rewrite !map_length, Nat.eqb_refl. cbn [negb]. rewrite pairs_back. reflexivity. Qed.

Lemma same_samples s g dt m kw c l :
  sample_in C eqb tr junk s g dt m kw (InMultipoint c l) =
  sample_in C eqb tr junk s g dt m (Some c) (InArrays (map fst l) (map snd l)) /\
  sample_in C eqb tr junk s g dt m None (InArrays (map fst l) (map snd l)) =
  sample_in C eqb tr junk s g dt m kw (InMultipoint s l).
Proof.
  rewrite !as_transformed, arrays_as, arrays_none. split; [reflexivity |].
  rewrite (map_ext (tr s s) (fun p => p) (proj2 SY s)), map_id. reflexivity.
Qed.

Lemma nearest_in s (g : grid fl) dt kw c T H W nb F nodata pts :
  grid_is g T H W nb F nodata -> invertible T -> ~ (dy T == 0)%Q -> nb = 1 \/ length pts = 1%nat ->
  exists cs, Forall2 (fun p => in_cell T (tr c s p)) pts cs /\
    ((exists x, In x cs /\ in_grid H W x) ->
     exists z, sample_in C eqb tr junk s g dt Nearest kw (InMultipoint c pts) = Ok (Table z) /\ Z.of_nat (length z) = nb /\
       forall k row, nth_error z k = Some row ->
         Forall2 (fun x v => (in_grid H W x -> v = F (Z.of_nat k) (fst x) (snd x)) /\ (~ in_grid H W x -> v = nodata)) cs row).
Proof.
  intros G I D N. destruct (many_nearest junk g dt T H W nb F nodata (map (tr c s) pts) G I D) as (cs & F2 & K).
  { rewrite map_length. exact N. }
  exists cs. split.
  - clear -F2. revert cs F2. induction pts as [| p pts IH]; intros cs F2; inversion F2; subst; constructor; auto.
  - intros X. rewrite as_transformed. exact (K X).
Qed.
Lemma bilinear_in s (g : grid fl) kw c T H W nb F nodata p :
  grid_is g T H W nb F nodata -> invertible T -> ~ (dy T == 0)%Q -> 2 <= H -> 2 <= W ->
  exists l, sample_in C eqb tr junk s g DFloat Bilinear kw (InPoint c p) = Ok (Vector l) /\ Z.of_nat (length l) = nb /\
    forall k v, nth_error l k = Some v -> sampled T (F (Z.of_nat k)) H W nodata (tr c s p) v.
Proof.
  intros G I D H2 W2. cbn [sample_in]. rewrite coords_in_is. exact (point_bilinear junk g T H W nb F nodata (tr c s p) G I D H2 W2).
Qed.
Lemma profile_as s g dt m c pts :
  profile_in C eqb tr junk s g dt m None c pts =
  bind (profile junk g dt m (map (tr c s) pts)) (fun tz => Ok (pts, fst tz, snd tz)).
Proof.
  unfold profile_in, profile. cbn zeta. rewrite arrays_none. rewrite (map_ext _ _ (coords_in_is c s)).
  replace (sample junk g dt m (AArrays (map fst (map (tr c s) pts)) (map snd (map (tr c s) pts)))) with
    (sample junk g dt m (AMultipoint (map (tr c s) pts))).
  2: { cbn [sample]. rewrite !map_length, Nat.eqb_refl. cbn [negb]. rewrite pairs_back. reflexivity. }
  destruct (sample junk g dt m (AMultipoint (map (tr c s) pts))) as [r | e]; [| reflexivity]. cbn [bind].
  destruct r; try reflexivity. rewrite map_map. destruct (set_bands _ 0 l _) as [t | e]; reflexivity.
Qed.
Lemma profile_twice s g dt m c k pts :
  profile_in C eqb tr junk s g dt m (Some k) c pts =
  bind (profile junk g dt m (map (fun p => tr k s (tr c s p)) pts)) (fun tz => Ok (pts, fst tz, snd tz)).
Proof.
  unfold profile_in, profile. cbn zeta. rewrite arrays_as. rewrite (map_ext _ _ (coords_in_is c s)). rewrite map_map.
  set (l := map (fun x => tr k s (tr c s x)) pts).
  replace (sample junk g dt m (AArrays (map fst l) (map snd l))) with (sample junk g dt m (AMultipoint l)).
  2: { cbn [sample]. rewrite !map_length, Nat.eqb_refl. cbn [negb]. rewrite pairs_back. reflexivity. }
  destruct (sample junk g dt m (AMultipoint l)) as [r | e]; [| reflexivity]. cbn [bind].
  destruct r; try reflexivity. unfold l. rewrite map_map. destruct (set_bands _ 0 l0 _) as [t | e]; reflexivity.
Qed.
End P.
