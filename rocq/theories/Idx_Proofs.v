From Coq Require Import List ZArith QArith Qround Bool Lia Lqa ZifyBool.
From Verif Require Import Band_Model Band_Spec Band_IndexModel Band_IndexSpec Band_Proofs
  Band_IndexProofs Band_MaskProofs Grid_Model Grid_Spec Grid_Proofs Grid_OpsProofs Grid_ResizeProofs
  Grid_MoreProofs GridSample_Model GridSample_Spec GridSample_Proofs Idx_Model.
Import ListNotations.
Open Scope Z_scope.

Lemma indices1_cases : forall T H W x y i j, indices_ T x y = Some (i, j) ->
  (in_grid H W (i, j) /\ indices1 T H W x y = Ok (i, j)) \/ (~ in_grid H W (i, j) /\ indices1 T H W x y = Err IndexError).
Proof.
  intros T H W x y i j E. unfold indices1. rewrite E. unfold in_grid. cbn [fst snd].
  destruct ((i <? 0) || (H - 1 <? i) || (j <? 0) || (W - 1 <? j)) eqn:B; [right | left]; (split; [lia | reflexivity]).
Qed.
Lemma indices1_spec : forall T H W x y, invertible T -> ~ (dy T == 0)%Q -> exists c, indices_ T x y = Some c /\ in_cell T (x, y) c /\
  ((in_grid H W c /\ indices1 T H W x y = Ok c) \/ (~ in_grid H W c /\ indices1 T H W x y = Err IndexError)).
Proof.
  intros T H W x y I D. destruct (indices_contain T x y I D) as (i & j & u & v & E & P & Hu & Hv).
  exists (i, j). split; [exact E |]. split; [exists u, v; auto |]. apply indices1_cases. exact E.
Qed.
Theorem point : forall T H W x y c, invertible T -> ~ (dy T == 0)%Q -> indices1 T H W x y = Ok c -> in_cell T (x, y) c /\ in_grid H W c.
Proof.
  intros T H W x y c I D E. destruct (indices1_spec T H W x y I D) as (c' & _ & A & [[B F] | [B F]]); rewrite E in F; [| discriminate].
  injection F as ->. auto.
Qed.
Theorem inside : forall T H W x y c, invertible T -> ~ (dy T == 0)%Q -> inside_cell T (x, y) c -> in_grid H W c -> indices1 T H W x y = Ok c.
Proof.
  intros T H W x y c I D E G. destruct (indices1_spec T H W x y I D) as (c' & _ & A & B).
  assert (c = c') as <- by (eapply in_cell_unique; eauto). destruct B as [[_ B] | [B _]]; [exact B | contradiction].
Qed.
Theorem outside : forall T H W x y, invertible T -> ~ (dy T == 0)%Q -> (forall c, in_grid H W c -> ~ in_cell T (x, y) c) -> indices1 T H W x y = Err IndexError.
Proof.
  intros T H W x y I D E. destruct (indices1_spec T H W x y I D) as (c' & _ & A & [[B _] | [_ B]]); [destruct (E _ B A) | exact B].
Qed.

(* ---- borders *)
Lemma rint_half : forall q k, (q == inject_Z k - (1 # 2))%Q -> rint q = (if Z.even k then k else k - 1).
Proof.
  intros q k E. assert (F : Qfloor q = k - 1).
  { apply Qfloor_unique; replace (k - 1 + 1) with k by lia; rewrite ?inj_sub, ?inj_1; lra. }
  unfold rint. rewrite F. assert (X : (q - inject_Z (k - 1) == half)%Q) by (rewrite inj_sub, inj_1; unfold half; lra).
  assert (A : Qle_bool half (q - inject_Z (k - 1)) = true) by (apply Qle_bool_iff; rewrite X; apply Qle_refl).
  assert (B : Qle_bool (q - inject_Z (k - 1)) half = true) by (apply Qle_bool_iff; rewrite X; apply Qle_refl).
  rewrite A, B. replace (k - 1) with (Z.pred k) by lia. rewrite Z.even_pred, <- Z.negb_even. destruct (Z.even k); cbn [negb]; lia.
Qed.
Lemma indices_world : forall T u v, invertible T -> ~ (dy T == 0)%Q -> exists i j, (i == u - (1 # 2))%Q /\ (j == v - (1 # 2))%Q /\
  indices_ T (fst (world T u v)) (snd (world T u v)) = Some (rint i, rint j).
Proof.
  intros T u v I D.
  destruct (positions_world T (u - (1 # 2)) (v - (1 # 2)) I D) as (i & j & E & Ei & Ej).
  assert (P : peq (world T u v) (world T (u - (1 # 2) + (1 # 2)) (v - (1 # 2) + (1 # 2)))).
  { unfold peq, world. cbn [fst snd]. split; ring. }
  destruct P as [P1 P2]. pose proof (positions_eq T _ _ _ _ P1 P2) as P. rewrite E in P. unfold indices_.
  destruct (positions T (fst (world T u v)) (snd (world T u v))) as [[a b] |]; [| contradiction].
  destruct P as [Q1 Q2]. cbn [fst snd] in Q1, Q2. exists a, b. split; [rewrite Q1, Ei; reflexivity |]. split; [rewrite Q2, Ej; reflexivity | reflexivity].
Qed.
Theorem border_rows : forall T H W (k j : Z) v, invertible T -> ~ (dy T == 0)%Q -> (inject_Z j < v < inject_Z j + 1)%Q ->
  0 <= k <= H -> 0 <= j < W ->
  indices1 T H W (fst (world T (inject_Z k) v)) (snd (world T (inject_Z k) v)) =
  let row := if Z.even k then k else k - 1 in if row =? H then Err IndexError else Ok (row, j).
Proof.
  intros T H W k j v I D V K J. destruct (indices_world T (inject_Z k) v I D) as (a & b & Ea & Eb & E).
  rewrite (rint_half a k Ea), (rint_unique b j) in E by (destruct V; lra). unfold indices1. rewrite E.
  cbv zeta. assert (0 <= (if Z.even k then k else k - 1)). { destruct (Z.even k) eqn:Z; [lia |]. assert (k <> 0) by (intros ->; discriminate). lia. }
  assert ((if Z.even k then k else k - 1) <= k) by (destruct (Z.even k); lia).
  destruct ((if Z.even k then k else k - 1) =? H) eqn:Q.
  - replace (_ || _ || _ || _) with true by lia. reflexivity.
  - replace (_ || _ || _ || _) with false by lia. reflexivity.
Qed.
Theorem border_columns : forall T H W (i k : Z) u, invertible T -> ~ (dy T == 0)%Q -> (inject_Z i < u < inject_Z i + 1)%Q ->
  0 <= i < H -> 0 <= k <= W ->
  indices1 T H W (fst (world T u (inject_Z k))) (snd (world T u (inject_Z k))) =
  let column := if Z.even k then k else k - 1 in if column =? W then Err IndexError else Ok (i, column).
Proof.
  intros T H W i k u I D U J K. destruct (indices_world T u (inject_Z k) I D) as (a & b & Ea & Eb & E).
  rewrite (rint_half b k Eb), (rint_unique a i) in E by (destruct U; lra). unfold indices1. rewrite E.
  cbv zeta. assert (0 <= (if Z.even k then k else k - 1)). { destruct (Z.even k) eqn:Z; [lia |]. assert (k <> 0) by (intros ->; discriminate). lia. }
  assert ((if Z.even k then k else k - 1) <= k) by (destruct (Z.even k); lia).
  destruct ((if Z.even k then k else k - 1) =? W) eqn:Q.
  - replace (_ || _ || _ || _) with true by lia. reflexivity.
  - replace (_ || _ || _ || _) with false by lia. reflexivity.
Qed.
Theorem edge : forall T H W (j : Z) v, invertible T -> ~ (dy T == 0)%Q -> (inject_Z j < v < inject_Z j + 1)%Q -> 0 < H -> 0 <= j < W -> Z.even H = true ->
  let p := world T (inject_Z H) v in
  in_cell T (fst p, snd p) (H - 1, j) /\ in_grid H W (H - 1, j) /\ indices1 T H W (fst p) (snd p) = Err IndexError.
Proof.
  intros T H W j v I D V HH J Ev. cbv zeta. split; [| split].
  - exists (inject_Z H), v. split; [split; reflexivity |]. cbn [fst snd]. rewrite inj_sub, inj_1. destruct V. split; split; lra.
  - split; cbn [fst snd]; lia.
  - rewrite (border_rows T H W H j v I D V) by lia. cbv zeta. rewrite Ev, Z.eqb_refl. reflexivity.
Qed.

(* ---- sampling *)
Theorem sample : forall (V : Type) (junk : Z -> Z -> V) (g : grid V) T H W nb F nodata x y,
  grid_is g T H W nb F nodata -> invertible T -> ~ (dy T == 0)%Q ->
  (forall c, indices1 T H W x y = Ok c -> sample_nearest1 junk g x y = Ok (inr (map (fun k => F k (fst c) (snd c)) (zrange 0 nb)))) /\
  (indices1 T H W x y = Err IndexError -> sample_nearest1 junk g x y = Ok (inl nodata)).
Proof.
  intros V junk g T H W nb F nodata x y G I D.
  destruct (indices_contain T x y I D) as (i & j & u & v & E & P & Hu & Hv).
  destruct (grid_size _ _ _ _ _ _ _ _ G) as (Sz & HH & HW & Hnb). destruct G as (ET & SH & EN & Ed).
  assert (X : sample_nearest1 junk g x y = if inb H W (i, j) then bind (getitem junk (gbands g) (KeyTuple [KInt i; KInt j])) (fun v =>
           Ok (inr (map (fun k => elt v [k]) (zrange 0 (Z.of_nat (length (gbands g))))))) else Ok (inl nodata)).
  { unfold sample_nearest1. rewrite Sz, ET, E, Ed. reflexivity. }
  destruct (indices1_cases T H W x y i j E) as [[B C] | [B C]]; rewrite C, X; split; try discriminate.
  - intros c [= <-]. rewrite (proj2 (inb_spec V junk H W (i, j)) B). destruct B as [B1 B2]. cbn [fst snd] in *.
    destruct (pixel_read V junk _ _ _ _ i j SH B1 B2) as (r & Er & _ & Pr). rewrite Er. cbn [bind].
    rewrite EN in *. f_equal. f_equal. apply map_ext_in. intros k Hk. apply in_zrange in Hk. apply Pr. lia.
  - intros _. destruct (inb H W (i, j)) eqn:Eb; [apply (inb_spec V junk) in Eb; contradiction | reflexivity].
Qed.

(* ---- vectors *)
Lemma option_all_map : forall A B (f : A -> option B) (g : A -> B) l, (forall a, In a l -> f a = Some (g a)) -> option_all (map f l) = Some (map g l).
Proof.
  induction l as [| a l IH]; intros H; cbn [map option_all]; [reflexivity |]. rewrite (H a) by (left; reflexivity).
  rewrite IH by (intros b I; apply H; right; exact I). reflexivity.
Qed.
Lemma extremes : forall l d n, (zmin l d <? 0) || (n - 1 <? zmax l d) = false <-> forall x, In x (d :: l) -> 0 <= x < n.
Proof.
  intros l d n. destruct (zmin_le l d) as (A & B & C). destruct (zmax_ge l d) as (A' & B' & C'). split.
  - intros E x [<- | I]; [lia |]. specialize (B x I). specialize (B' x I). lia.
  - intros H. pose proof (H _ C). pose proof (H _ C'). lia.
Qed.
Definition cell (T : transform) (p : Q * Q) : Z * Z := match indices_ T (fst p) (snd p) with Some c => c | None => (0, 0) end.
Lemma indices_cell : forall T p, invertible T -> ~ (dy T == 0)%Q -> indices_ T (fst p) (snd p) = Some (cell T p).
Proof. intros T [x y] I D. destruct (indices_contain T x y I D) as (i & j & u & v & E & _). unfold cell. cbn [fst snd]. rewrite E. reflexivity. Qed.
Lemma vec_cases : forall T H W xs ys, invertible T -> ~ (dy T == 0)%Q -> length xs = length ys -> xs <> [] ->
  let cs := map (cell T) (combine xs ys) in
  ((forall c, In c cs -> in_grid H W c) /\ indices_vec T H W xs ys = Ok (map fst cs, map snd cs)) \/
  (~ (forall c, In c cs -> in_grid H W c) /\ indices_vec T H W xs ys = Err IndexError).
Proof.
  intros T H W xs ys I D L N cs. unfold indices_vec. rewrite L, Nat.eqb_refl. cbn [negb].
  rewrite (option_all_map _ _ _ (cell T)) by (intros p _; apply indices_cell; assumption). fold cs.
  destruct cs as [| [i0 j0] r] eqn:E.
  { exfalso. destruct xs as [| x xs]; [congruence |]. destruct ys as [| y ys]; [discriminate |]. discriminate E. }
  cbv zeta. pose proof (extremes (map fst r) i0 H) as X. pose proof (extremes (map snd r) j0 W) as Y.
  rewrite <- orb_assoc. destruct ((zmin (map fst r) i0 <? 0) || (H - 1 <? zmax (map fst r) i0)) eqn:Ei.
  - right. split; [| reflexivity]. intros A. apply diff_true_false. apply X. intros x Ix. change (In x (map fst ((i0, j0) :: r))) in Ix.
    apply in_map_iff in Ix. destruct Ix as (c & <- & Ic). exact (proj1 (A c Ic)).
  - destruct ((zmin (map snd r) j0 <? 0) || (W - 1 <? zmax (map snd r) j0)) eqn:Ej; cbn [orb].
    + right. split; [| reflexivity]. intros A. apply diff_true_false. apply Y. intros x Ix. change (In x (map snd ((i0, j0) :: r))) in Ix.
      apply in_map_iff in Ix. destruct Ix as (c & <- & Ic). exact (proj2 (A c Ic)).
    + left. split; [| reflexivity]. intros c Ic. split.
      * apply (proj1 X eq_refl). change (In (fst c) (map fst ((i0, j0) :: r))). apply in_map. exact Ic.
      * apply (proj1 Y eq_refl). change (In (snd c) (map snd ((i0, j0) :: r))). apply in_map. exact Ic.
Qed.
Lemma one_cases : forall T H W p, invertible T -> ~ (dy T == 0)%Q -> in_grid H W (cell T p) <-> indices1 T H W (fst p) (snd p) = Ok (cell T p).
Proof.
  intros T H W p I D. pose proof (indices_cell T p I D) as E. destruct (cell T p) as [i j].
  destruct (indices1_cases T H W _ _ i j E) as [[A B] | [A B]]; rewrite B; split; intros; try reflexivity; try assumption; try contradiction; discriminate.
Qed.
Lemma nth_error_ext : forall A (l l' : list A), (forall n, nth_error l n = nth_error l' n) -> l = l'.
Proof.
  induction l as [| a l IH]; intros [| b l'] H; [reflexivity | specialize (H 0%nat); discriminate | specialize (H 0%nat); discriminate |].
  pose proof (H 0%nat) as H0. injection H0 as ->. f_equal. apply IH. intros n. apply (H (S n)).
Qed.
Theorem vector : forall T H W xs ys is js, invertible T -> ~ (dy T == 0)%Q ->
  indices_vec T H W xs ys = Ok (is, js) <->
  xs <> [] /\ length ys = length xs /\ length is = length xs /\ length js = length xs /\
  forall n x y i j, nth_error xs n = Some x -> nth_error ys n = Some y -> nth_error is n = Some i -> nth_error js n = Some j ->
    indices1 T H W x y = Ok (i, j).
Proof.
  intros T H W xs ys is js I D. split.
  - intros E. destruct (Nat.eqb (length xs) (length ys)) eqn:L; [| unfold indices_vec in E; rewrite L in E; discriminate].
    apply Nat.eqb_eq in L. destruct xs as [| x0 xs0] eqn:N; [destruct ys; discriminate |].
    destruct (vec_cases T H W (x0 :: xs0) ys I D L ltac:(discriminate)) as [[A B] | [_ B]]; rewrite E in B; [| discriminate].
    rewrite <- N in *. injection B as -> ->. split; [congruence |]. split; [congruence |]. rewrite !map_length, combine_length, <- L, Nat.min_id.
    split; [reflexivity |]. split; [reflexivity |]. intros n x y i j X Y Hi Hj.
    rewrite !map_map in Hi, Hj. assert (C : nth_error (combine xs ys) n = Some (x, y)).
    { clear - X Y. revert ys n X Y. induction xs as [| a xs IH]; intros [| b ys] [| n] X Y; try discriminate; cbn in *; [congruence | auto]. }
    rewrite nth_error_map, C in Hi. rewrite nth_error_map, C in Hj. cbn in Hi, Hj. injection Hi as <-. injection Hj as <-.
    rewrite <- surjective_pairing. apply (one_cases T H W (x, y) I D). apply A. apply in_map. eapply nth_error_In. exact C.
  - intros (N & L & Li & Lj & A). symmetry in L.
    destruct (vec_cases T H W xs ys I D L N) as [[G B] | [G B]]; rewrite B.
    + f_equal. f_equal; apply nth_error_ext; intros n.
      * rewrite map_map, nth_error_map. destruct (nth_error xs n) as [x |] eqn:X.
        -- destruct (nth_error ys n) as [y |] eqn:Y; [| apply nth_error_None in Y; assert (nth_error xs n <> None) as Q by congruence; apply nth_error_Some in Q; lia].
           destruct (nth_error is n) as [i |] eqn:Hi; [| apply nth_error_None in Hi; assert (nth_error xs n <> None) as Q by congruence; apply nth_error_Some in Q; lia].
           destruct (nth_error js n) as [j |] eqn:Hj; [| apply nth_error_None in Hj; assert (nth_error xs n <> None) as Q by congruence; apply nth_error_Some in Q; lia].
           specialize (A n x y i j X Y Hi Hj). assert (C : nth_error (combine xs ys) n = Some (x, y)).
           { clear - X Y. revert ys n X Y. induction xs as [| a xs IH]; intros [| b ys] [| n] X Y; try discriminate; cbn in *; [congruence | auto]. }
           rewrite C. cbn. pose proof (proj1 (one_cases T H W (x, y) I D)) as O. cbn [fst snd] in O.
           rewrite O in A by (apply G; apply in_map; eapply nth_error_In; exact C). injection A as ->. reflexivity.
        -- apply nth_error_None in X. rewrite (proj2 (nth_error_None is n)) by lia.
           rewrite (proj2 (nth_error_None (combine xs ys) n)) by (rewrite combine_length; lia). reflexivity.
      * rewrite map_map, nth_error_map. destruct (nth_error xs n) as [x |] eqn:X.
        -- destruct (nth_error ys n) as [y |] eqn:Y; [| apply nth_error_None in Y; assert (nth_error xs n <> None) as Q by congruence; apply nth_error_Some in Q; lia].
           destruct (nth_error is n) as [i |] eqn:Hi; [| apply nth_error_None in Hi; assert (nth_error xs n <> None) as Q by congruence; apply nth_error_Some in Q; lia].
           destruct (nth_error js n) as [j |] eqn:Hj; [| apply nth_error_None in Hj; assert (nth_error xs n <> None) as Q by congruence; apply nth_error_Some in Q; lia].
           specialize (A n x y i j X Y Hi Hj). assert (C : nth_error (combine xs ys) n = Some (x, y)).
           { clear - X Y. revert ys n X Y. induction xs as [| a xs IH]; intros [| b ys] [| n] X Y; try discriminate; cbn in *; [congruence | auto]. }
           rewrite C. cbn. pose proof (proj1 (one_cases T H W (x, y) I D)) as O. cbn [fst snd] in O.
           rewrite O in A by (apply G; apply in_map; eapply nth_error_In; exact C). injection A as ->. reflexivity.
        -- apply nth_error_None in X. rewrite (proj2 (nth_error_None js n)) by lia.
           rewrite (proj2 (nth_error_None (combine xs ys) n)) by (rewrite combine_length; lia). reflexivity.
    + exfalso. apply G. intros c Ic. apply in_map_iff in Ic. destruct Ic as ([x y] & <- & Ip). apply In_nth_error in Ip. destruct Ip as (n & C).
      assert (nth_error xs n = Some x /\ nth_error ys n = Some y) as [X Y].
      { clear - C. revert ys n C. induction xs as [| a xs IH]; intros [| b ys] [| n] C; try discriminate; cbn in *; [injection C as -> ->; auto | auto]. }
      assert (Q : (n < length xs)%nat) by (apply nth_error_Some; congruence).
      destruct (nth_error is n) as [i |] eqn:Hi; [| apply nth_error_None in Hi; lia].
      destruct (nth_error js n) as [j |] eqn:Hj; [| apply nth_error_None in Hj; lia].
      specialize (A n x y i j X Y Hi Hj). unfold indices1 in A. pose proof (indices_cell T (x, y) I D) as E. cbn [fst snd] in E. rewrite E in A.
      destruct (cell T (x, y)) as [a b]. destruct ((a <? 0) || (H - 1 <? a) || (b <? 0) || (W - 1 <? b)) eqn:Z; [discriminate |]. split; cbn [fst snd]; lia.
Qed.
Theorem vector_error : forall T H W xs ys, invertible T -> ~ (dy T == 0)%Q ->
  (length xs = length ys -> xs <> [] -> (exists n x y, nth_error xs n = Some x /\ nth_error ys n = Some y /\ indices1 T H W x y = Err IndexError) ->
   indices_vec T H W xs ys = Err IndexError) /\
  (length xs <> length ys \/ xs = [] -> indices_vec T H W xs ys = Err ValueError).
Proof.
  intros T H W xs ys I D. split.
  - intros L N (n & x & y & X & Y & E). destruct (vec_cases T H W xs ys I D L N) as [[G B] | [G B]]; [| exact B]. exfalso.
    assert (C : nth_error (combine xs ys) n = Some (x, y)).
    { clear - X Y. revert ys n X Y. induction xs as [| a xs IH]; intros [| b ys] [| n] X Y; try discriminate; cbn in *; [congruence | auto]. }
    pose proof (proj1 (one_cases T H W (x, y) I D)) as O. cbn [fst snd] in O.
    rewrite O in E by (apply G; apply in_map; eapply nth_error_In; exact C). discriminate.
  - unfold indices_vec. intros [N | ->].
    + apply Nat.eqb_neq in N. rewrite N. reflexivity.
    + destruct ys; reflexivity.
Qed.
