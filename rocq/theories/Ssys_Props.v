(** Property C118: samples at positions in other coordinate systems. *)
From Coq Require Import String List ZArith QArith Bool Lia.
From Verif Require Table_Model.
From Verif Require Import Band_Model Band_IndexModel Grid_Model Grid_Spec GridSample_Model GridSample_Spec GridSample_Props.
From Verif Require Import Stat_Model Stat_Spec Ssys_Model Ssys_Spec Ssys_Proofs.
Import ListNotations.
Local Open Scope Z_scope.

(** Two systems: x in the second is one more than in the first. *)
Definition shifted (a b : bool) (p : Q * Q) : Q * Q :=
  match a, b with
  | true, false => (fst p - 1, snd p)%Q
  | false, true => (fst p + 1, snd p)%Q
  | _, _ => p
  end.
Example C118_nonvacuous : systems Bool.eqb shifted.
Proof. split; [apply Bool.eqb_true_iff | intros [|] p; reflexivity]. Qed.

(** C118.  The samples of a grid at the points of a Multipoint in any system, by the method
    'nearest': of every band, the value of the cell that has the transformed point, or nodata for
    points outside of the grid (with one band or one point; see C93 for what is missing). *)
Theorem C118_nearest_partial : forall (C : Type) eqb tr junk, @systems C eqb tr ->
  forall s (g : grid fl) dt kw c T H W nb F nodata pts,
  grid_is g T H W nb F nodata -> invertible T -> ~ (dy T == 0)%Q -> nb = 1 \/ length pts = 1%nat ->
  exists cs, Forall2 (fun p => in_cell T (tr c s p)) pts cs /\
    ((exists x, In x cs /\ in_grid H W x) ->
     exists z, sample_in C eqb tr junk s g dt Nearest kw (InMultipoint c pts) = Ok (Table z) /\ Z.of_nat (length z) = nb /\
       forall k row, nth_error z k = Some row ->
         Forall2 (fun x v => (in_grid H W x -> v = F (Z.of_nat k) (fst x) (snd x)) /\ (~ in_grid H W x -> v = nodata)) cs row).
Proof. exact nearest_in. Qed.
Print Assumptions C118_nearest_partial.
Example C118_nearest_ex :
  sample_in bool Bool.eqb shifted fj false bg DFloat Nearest None (InMultipoint true [(5 # 2, 1 # 2); (3 # 2, 5 # 2); (9, 9)]%Q) =
  Ok (Table [[num 1; num 20; num (-1)]]).
Proof. vm_compute. reflexivity. Qed.

(** C118.  At a Point in any system, interpolated: the value at the transformed point, of every band. *)
Theorem C118_bilinear : forall (C : Type) eqb tr junk, @systems C eqb tr ->
  forall s (g : grid fl) kw c T H W nb F nodata p,
  grid_is g T H W nb F nodata -> invertible T -> ~ (dy T == 0)%Q -> 2 <= H -> 2 <= W ->
  exists l, sample_in C eqb tr junk s g DFloat Bilinear kw (InPoint c p) = Ok (Vector l) /\ Z.of_nat (length l) = nb /\
    forall k v, nth_error l k = Some v -> sampled T (F (Z.of_nat k)) H W nodata (tr c s p) v.
Proof. exact bilinear_in. Qed.
Print Assumptions C118_bilinear.
Example C118_bilinear_ex :
  match sample_in bool Bool.eqb shifted fj false bg DFloat Bilinear None (InPoint true (3, 3 # 2)%Q) with
  | Ok (Vector l) => map fred l = [Some (23 # 2)]%Q
  | _ => False
  end.
Proof. vm_compute. reflexivity. Qed.

(** C118.  It does not matter how the positions are given: a Multipoint in the system c, or its
    coordinates with crs=c; and coordinates without a system are in that of the grid. *)
Theorem C118_forms : forall (C : Type) eqb tr junk, @systems C eqb tr ->
  forall s (g : grid fl) dt m kw c l,
  sample_in C eqb tr junk s g dt m kw (InMultipoint c l) =
  sample_in C eqb tr junk s g dt m (Some c) (InArrays (map fst l) (map snd l)) /\
  sample_in C eqb tr junk s g dt m None (InArrays (map fst l) (map snd l)) =
  sample_in C eqb tr junk s g dt m kw (InMultipoint s l).
Proof. exact same_samples. Qed.
Print Assumptions C118_forms.
Example C118_forms_ex :
  sample_in bool Bool.eqb shifted fj false bg DFloat Nearest (Some true) (InArrays [5 # 2; 3 # 2] [1 # 2; 5 # 2])%Q = Ok (Table [[num 1; num 20]]) /\
  sample_in bool Bool.eqb shifted fj false bg DFloat Nearest None (InArrays [5 # 2; 3 # 2] [1 # 2; 5 # 2])%Q = Ok (Table [[num 2; num 21]]).
Proof. split; vm_compute; reflexivity. Qed.

(** C118.  A profile along a line in another system has the samples at the transformed points,
    beside the points themselves in the system of the line. *)
Theorem C118_profile : forall (C : Type) eqb tr junk, @systems C eqb tr ->
  forall s (g : grid fl) dt m c pts,
  profile_in C eqb tr junk s g dt m None c pts =
  bind (profile junk g dt m (map (tr c s) pts)) (fun tz => Ok (pts, fst tz, snd tz)).
Proof. exact profile_as. Qed.
Print Assumptions C118_profile.

(** Finding: profile passes its keyword arguments on to sample.  With crs, the coordinates, which are
    in the grid's system already, are transformed to it once more: naming the system of the line
    moves the samples. *)
Theorem C118_profile_refuted : exists pts : list (Q * Q), exists t t',
  profile_in bool Bool.eqb shifted fj false bg DFloat Nearest None true pts = Ok (pts, t, [[num 1; num 12]]) /\
  profile_in bool Bool.eqb shifted fj false bg DFloat Nearest (Some true) true pts = Ok (pts, t', [[num 0; num 11]]).
Proof.
  exists [(5 # 2, 1 # 2); (7 # 2, 3 # 2)]%Q.
  eexists. eexists. split; vm_compute; reflexivity.
Qed.
Print Assumptions C118_profile_refuted.

(** Finding: for all systems and lines, such a profile is that of the points transformed twice. *)
Theorem C118_twice_refuted : forall (C : Type) eqb tr junk, @systems C eqb tr ->
  forall s (g : grid fl) dt m c k pts,
  profile_in C eqb tr junk s g dt m (Some k) c pts =
  bind (profile junk g dt m (map (fun p => tr k s (tr c s p)) pts)) (fun tz => Ok (pts, fst tz, snd tz)).
Proof. exact profile_twice. Qed.
Print Assumptions C118_twice_refuted.
