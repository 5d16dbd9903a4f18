(** Sampling grids of integers, and grids that cannot be merged (C19, C22). *)
From Coq Require Import List ZArith QArith Bool Lia.
From Verif Require Import Band_Model Grid_Model Grid_Spec Grid_Props GridSample_Model GridSample_Spec GridSample_Props
  GridInt_Spec GridInt_Proofs.
Import ListNotations.
Open Scope Z_scope.

(** Grids of unsigned integers: the interpolated number without its fraction, and
    the nodata value outside of the centres. *)
Theorem C22_unsigned_partial :
  forall junk (g : grid fl) T H W nb F nodata pts,
  grid_is g T H W nb F nodata -> invertible T -> ~ (dy T == 0)%Q ->
  2 <= H -> 2 <= W -> pts <> [] ->
  (length pts = 1%nat \/
   (exists p u v, In p pts /\ at_position T p u v /\ (0 < u)%Q) /\
   (exists p u v, In p pts /\ at_position T p u v /\ (u < inject_Z H)%Q) /\
   (exists p u v, In p pts /\ at_position T p u v /\ (0 < v)%Q) /\
   (exists p u v, In p pts /\ at_position T p u v /\ (v < inject_Z W)%Q)) ->
  (exists n, nodata = Some (inject_Z n)) ->
  exists rows, sample_bilinear junk g DUint pts = Ok rows /\ Z.of_nat (length rows) = nb /\
    forall k row, nth_error rows k = Some row ->
      Forall2 (sampled_int T (F (Z.of_nat k)) H W nodata) pts row.
Proof. exact uint_spec. Qed.
Print Assumptions C22_unsigned_partial.
(** Grids of signed integers: the same, if no point is outside of the centres. *)
Theorem C22_signed_partial :
  forall junk (g : grid fl) T H W nb F nodata pts,
  grid_is g T H W nb F nodata -> invertible T -> ~ (dy T == 0)%Q ->
  2 <= H -> 2 <= W -> pts <> [] ->
  (length pts = 1%nat \/
   (exists p u v, In p pts /\ at_position T p u v /\ (0 < u)%Q) /\
   (exists p u v, In p pts /\ at_position T p u v /\ (u < inject_Z H)%Q) /\
   (exists p u v, In p pts /\ at_position T p u v /\ (0 < v)%Q) /\
   (exists p u v, In p pts /\ at_position T p u v /\ (v < inject_Z W)%Q)) ->
  (forall k a b, 0 <= k < nb -> 0 <= a < H -> 0 <= b < W -> F k a b <> None) ->
  (forall p, In p pts -> between_centres T H W p) ->
  exists rows, sample_bilinear junk g DInt pts = Ok rows /\ Z.of_nat (length rows) = nb /\
    forall k row, nth_error rows k = Some row ->
      Forall2 (fun p z => exists z0, sampled T (F (Z.of_nat k)) H W nodata p z0 /\ truncated z0 z) pts row.
Proof. exact int_spec. Qed.
Print Assumptions C22_signed_partial.
Example C22_integers_example : grid_is bg unitT 3 3 1 (fun _ i j => nth (Z.to_nat (i * 3 + j)) (map num [0; 1; 2; 10; 11; 12; 20; 21; 22]) None) (num (-1)) /\
  between_centres unitT 3 3 (2, 3 # 2)%Q /\
  bi DInt bg [(2, 3 # 2); (1, 1); (5 # 2, 5 # 2)]%Q = Some [[num 11; num 5; num 22]] /\
  bi DUint bg [(2, 3 # 2); (1, 1); (5 # 2, 5 # 2); (3, 1)]%Q = Some [[num 11; num 5; num 22; num (-1)]].
Proof.
  split; [apply (fget_is unitT 3 3); lia|]. split; [|vm_compute; split; reflexivity].
  exists 1%Q, (3 # 2)%Q. vm_compute. repeat split; try reflexivity; discriminate.
Qed.

(** Grids with another resolution or rotation than the first are refused (with
    GridError, which the model writes TypeError), *)
Theorem C19_refuses_resolution : forall junk g0 rest g ws, In g rest -> ~ like (gT g) (gT g0) ->
  merge junk (g0 :: rest) ws = Err TypeError.
Proof. exact merge_stretch. Qed.
Print Assumptions C19_refuses_resolution.
(** and those that lie between the cells of the first, or have another number of
    bands (with ValueError). *)
Theorem C19_refuses_offset : forall junk g0 rest g ws, (forall h, In h rest -> like (gT h) (gT g0)) ->
  ~ (dx (gT g0) == 0)%Q -> ~ (dy (gT g0) == 0)%Q -> In g rest ->
  ~ (hardly_above ((x0 (gT g) - x0 (gT g0)) / dx (gT g0))%Q /\ hardly_above ((y0 (gT g) - y0 (gT g0)) / dy (gT g0))%Q) \/
  length (gbands g) <> length (gbands g0) ->
  merge junk (g0 :: rest) ws = Err ValueError.
Proof. exact merge_offset. Qed.
Print Assumptions C19_refuses_offset.
Definition m3 : grid fl := fget (mkT 1 0 1 1 (1 # 2) 0) (fnd 2 2 [num 1; num 2; num 3; num 4]) None.
Definition m4 : grid fl := fget (mkT (1 # 2) 0 1 1 0 0) (fnd 2 2 [num 1; num 2; num 3; num 4]) None.
Example C19_refuses_example : ~ like (gT m3) (gT m1) /\ err (merge fj [m1; m3] [1; 1]%Q) = Some TypeError /\
  like (gT m4) (gT m1) /\ ~ hardly_above ((x0 (gT m4) - x0 (gT m1)) / dx (gT m1))%Q /\
  err (merge fj [m1; m4] [1; 1]%Q) = Some ValueError.
Proof.
  split; [intros (_ & _ & X & _); discriminate X|]. split; [vm_compute; reflexivity|].
  split; [vm_compute; repeat split; reflexivity|]. split; [|vm_compute; reflexivity].
  intro X. apply (frac_above fj) in X. vm_compute in X. discriminate X.
Qed.
(** Finding: a grid whose offset falls short of a whole number of cells is refused,
    however little it falls short; one that exceeds it as little is merged. *)
Theorem C19_hardly_below_refuted : let tiny := (1 # 1000000000000000)%Q in
  err (merge fj [m1; fget (mkT (1 - tiny) 0 1 1 0 0) (fnd 2 2 [num 1; num 2; num 3; num 4]) None] [1; 1]%Q) = Some ValueError /\
  err (merge fj [m1; fget (mkT (1 + tiny) 0 1 1 0 0) (fnd 2 2 [num 1; num 2; num 3; num 4]) None] [1; 1]%Q) = None.
Proof. vm_compute. split; reflexivity. Qed.
Print Assumptions C19_hardly_below_refuted.
