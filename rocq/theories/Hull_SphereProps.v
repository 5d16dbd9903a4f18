(** Theorems on convex hulls on the sphere (C36). *)
From Coq Require Import List Reals Lra.
From Verif Require Import Sphere_Spec Hull_Model Hull_SphereSpec Hull_SphereMain Hull_SphereRefute.
Import ListNotations.
Open Scope R_scope.

(** C36 for geographical coordinates, the part that holds of all different vertices between
    the poles, within less than 180 degrees of longitude, that are not on one great circle:
    there is a hull, it starts at the westernmost vertex, it is convex and encloses all the
    vertices but some that are on the continuation of its first edge. *)
Theorem C36_sphere_partial : forall vs, within_half vs -> not_one_circle vs -> exists p s r, sphere_hull vs = Ok (p :: s :: r) /\
  incl (p :: s :: r) vs /\ westmost_of vs p /\ convex_on_sphere (p :: s :: r) /\
  (forall v, In v vs -> enclosed_on_sphere (p :: s :: r) v \/ beyond_on_sphere p s v) /\
  ((forall a b, ~ two_on_first_arc vs p a b) -> forall v, In v vs -> enclosed_on_sphere (p :: s :: r) v).
Proof. exact sphere_main. Qed.
Print Assumptions C36_sphere_partial.
Example C36_sphere_partial_ex : within_half [rep_b; rep_d; rep_l; rep_a] /\ not_one_circle [rep_b; rep_d; rep_l; rep_a].
Proof.
  split; [split; [| split] |].
  - unfold rep_a, rep_b, rep_d, rep_l. repeat constructor; cbn [In]; intros X; repeat destruct X as [X | X]; try contradiction; injection X; intros; lra.
  - unfold rep_a, rep_b, rep_d, rep_l. cbn [In]. intros v I. repeat destruct I as [<- | I]; try contradiction; cbn [fst snd]; lra.
  - unfold rep_a, rep_b, rep_d, rep_l. cbn [In]. intros v w I J. repeat destruct I as [<- | I]; try contradiction; repeat destruct J as [<- | J]; try contradiction; cbn [fst snd]; lra.
  - exists rep_l, rep_a, rep_b. cbn [In]. repeat split; auto. pose proof t_lab. lra.
Qed.

(** C36 in full, if no two others are on the edge that leaves the westernmost vertex. *)
Theorem C36_sphere_clear_partial : forall vs, within_half vs -> not_one_circle vs -> (forall p a b, westmost_of vs p -> ~ two_on_first_arc vs p a b) ->
  exists hs, sphere_hull vs = Ok hs /\ incl hs vs /\ convex_on_sphere hs /\ forall v, In v vs -> enclosed_on_sphere hs v.
Proof. exact sphere_clear. Qed.
Print Assumptions C36_sphere_clear_partial.

(** C36 refuted for a vertex that is given twice: the hull is not convex. *)
Theorem C36_repeated_refuted : exists vs hs, (forall v, In v vs -> -90 < snd v < 90) /\ (forall v w, In v vs -> In w vs -> fst w - fst v < 180) /\
  not_one_circle vs /\ sphere_hull vs = Ok hs /\ ~ convex_on_sphere hs.
Proof.
  exists repeated, [rep_l; rep_a; rep_b; rep_b; rep_d]. split; [| split; [| split; [| split]]].
  - unfold repeated, rep_a, rep_b, rep_d, rep_l. cbn [In]. intros v I. repeat destruct I as [<- | I]; try contradiction; cbn [fst snd]; lra.
  - unfold repeated, rep_a, rep_b, rep_d, rep_l. cbn [In]. intros v w I J. repeat destruct I as [<- | I]; try contradiction; repeat destruct J as [<- | J]; try contradiction; cbn [fst snd]; lra.
  - exists rep_l, rep_a, rep_b. unfold repeated. cbn [In]. repeat split; auto. pose proof t_lab. lra.
  - exact repeated_hull.
  - intros C. pose proof (C 1%nat 2%nat 4%nat rep_a rep_b rep_d (le_n _) (le_S _ _ (le_n _)) eq_refl eq_refl eq_refl) as X. pose proof t_abd. lra.
Qed.
Print Assumptions C36_repeated_refuted.

(** C36 refuted across the date line: four corners of a region 60 degrees wide; the hull
    turns right at one vertex and left at the next. *)
Theorem C36_dateline_refuted : exists l s b c, sphere_hull [l; s; b; c] = Ok [l; s; b; c] /\ NoDup [l; s; b; c] /\
  (forall v, In v [l; s; b; c] -> -90 < snd v < 90 /\ (150 <= fst v <= 180 \/ -180 <= fst v <= -150)) /\ turn l s b < 0 /\ 0 < turn s b c.
Proof.
  exists dl_l, dl_s, dl_b, dl_c. split; [exact dateline_hull |]. split; [| split; [| split; [exact td_lsb | exact td_sbc]]].
  - unfold dl_l, dl_s, dl_b, dl_c. repeat constructor; cbn [In]; intros X; repeat destruct X as [X | X]; try contradiction; injection X; intros; lra.
  - unfold dl_l, dl_s, dl_b, dl_c. cbn [In]. intros v I. repeat destruct I as [<- | I]; try contradiction; cbn [fst snd]; (split; [lra |]); [right | right | left | left]; lra.
Qed.
Print Assumptions C36_dateline_refuted.
