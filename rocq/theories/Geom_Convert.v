(** Proofs about [to_line] and [to_polygon]. *)
From Coq Require Import List ZArith QArith Bool Arith Lia.
From Verif Require Import Geom_Model Geom_Spec.
Import ListNotations.

Lemma closed_edges : forall A (l : list A) v, hd_error l = Some v -> forall i a b, path_edge (l ++ [v]) i a b <-> ring_edge l i a b.
Proof.
  intros A l v H i a b. unfold path_edge, ring_edge. destruct (Nat.eqb_spec (S i) (length l)) as [E|E].
  - rewrite nth_error_app1 by lia. rewrite nth_error_app2 by lia. replace (S i - length l)%nat with 0%nat by lia. cbn [nth_error].
    destruct l as [|w l]; [discriminate|]. cbn [hd_error] in H. injection H as ->. cbn [nth_error]. reflexivity.
  - destruct (lt_dec (S i) (length l)) as [L|L].
    + rewrite !nth_error_app1 by lia. reflexivity.
    + rewrite (proj2 (nth_error_None (l ++ [v]) (S i))) by (rewrite app_length; cbn [length]; lia).
      rewrite (proj2 (nth_error_None l (S i))) by lia. split; intros (_ & X); discriminate.
Qed.

Section Convert.
Variables P D C : Type.
Theorem to_line_ok : forall g : geom P D C, (0 < nverts (gverts _ _ _ g))%nat -> exists h, to_line P D C g = Ok h /\
  gkind _ _ _ h = KLine /\ gsubs _ _ _ h = [] /\ gprops _ _ _ h = gprops _ _ _ g /\ gcrs _ _ _ h = gcrs _ _ _ g /\ gdata _ _ _ h = None /\
  nverts (gverts _ _ _ h) = S (nverts (gverts _ _ _ g)) /\
  (forall i, nth_v (gverts _ _ _ h) i = if Nat.eqb i (nverts (gverts _ _ _ g)) then nth_v (gverts _ _ _ g) 0 else nth_v (gverts _ _ _ g) i) /\
  (forall i a b, path_edge (xys (gverts _ _ _ h)) i a b <-> ring_edge (xys (gverts _ _ _ g)) i a b).
Proof.
  intros g N. unfold to_line. destruct (gverts P D C g) as [[|v l]|[|v l]] eqn:E; unfold nverts in N; cbn in N; try lia;
    (eexists; split; [reflexivity|]); cbn [make_line gkind gsubs gprops gcrs gdata gverts];
    (do 5 (split; [reflexivity|])); unfold nverts; (split; [cbn [xys]; rewrite ?map_length, app_length, ?map_length; cbn [length]; lia|]);
    (split; [intros i; unfold nth_v; cbn [xys]; rewrite ?map_length | intros i a b; cbn [xys]; rewrite ?map_app; apply closed_edges; reflexivity]).
  - destruct (Nat.eqb_spec i (length (v :: l))) as [X|X].
    + subst i. rewrite nth_error_app2 by lia. rewrite Nat.sub_diag. reflexivity.
    + destruct (lt_dec i (length (v :: l))) as [L|L]; [rewrite nth_error_app1 by exact L; reflexivity|].
      rewrite !(proj2 (nth_error_None _ i)); [reflexivity|lia|rewrite app_length; cbn [length] in *; lia].
  - destruct (Nat.eqb_spec i (length (v :: l))) as [X|X].
    + subst i. rewrite nth_error_app2 by lia. rewrite Nat.sub_diag. reflexivity.
    + destruct (lt_dec i (length (v :: l))) as [L|L]; [rewrite nth_error_app1 by exact L; reflexivity|].
      rewrite !(proj2 (nth_error_None _ i)); [reflexivity|lia|rewrite app_length; cbn [length] in *; lia].
Qed.
Theorem to_line_empty : forall g : geom P D C, nverts (gverts _ _ _ g) = 0%nat -> to_line P D C g = Err IndexError.
Proof. intros g N. unfold to_line. destruct (gverts P D C g) as [[|v l]|[|v l]]; unfold nverts in N; cbn in N; try lia; reflexivity. Qed.
Theorem to_polygon_ok : forall g : geom P D C, let h := to_polygon P D C g in
  gkind _ _ _ h = KPolygon /\ gverts _ _ _ h = gverts _ _ _ g /\ gsubs _ _ _ h = [] /\ gprops _ _ _ h = gprops _ _ _ g /\
  gcrs _ _ _ h = gcrs _ _ _ g /\ gdata _ _ _ h = None.
Proof. intros g h. unfold h, to_polygon. cbn. repeat split. Qed.
(** Through a line and back: the first vertex is there twice. *)
Theorem to_line_polygon : forall g h : geom P D C, to_line P D C g = Ok h ->
  nverts (gverts _ _ _ (to_polygon P D C h)) = S (nverts (gverts _ _ _ g)).
Proof.
  intros g h E. destruct (le_lt_dec (nverts (gverts _ _ _ g)) 0) as [L|L].
  - rewrite to_line_empty in E by lia. discriminate.
  - destruct (to_line_ok g L) as (h' & E' & _ & _ & _ & _ & _ & N & _). rewrite E in E'. injection E' as <-.
    unfold to_polygon. cbn [gverts]. exact N.
Qed.
End Convert.
