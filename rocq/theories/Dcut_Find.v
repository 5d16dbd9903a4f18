(** Examples and findings about pieces of grids in doubles. *)
From Coq Require Import List ZArith QArith Qabs Qpower Lia Bool.
From Flocq Require Import Core IEEE754.BinarySingleNaN.
From Verif Require Import Dbl_Model Dbl_Spec Dbl_Proofs Dcut_Model Dcut_Spec Dcut_Proofs Dcut_Clip Dcut_Fit.
Import ListNotations.
Open Scope Q_scope.

Definition utm : transform := mkT (D 500000 0) (D 4650000 0) (D 30 0) (D (-30) 0) zero zero.
Definition tenth : transform := mkT (D 500000 0) (D 500000 0) (D 3602879701896397 (-55)) (D 3602879701896397 (-55)) zero zero.
Definition ten : transform := mkT (D 10 0) (D 10 0) (D 3602879701896397 (-55)) (D 3602879701896397 (-55)) zero zero.
Ltac plain_check := unfold plain; cbn [x0 y0 dx dy sx sy]; repeat (apply conj); try (apply upto_check; vm_compute; reflexivity); try (apply sized_check; vm_compute; reflexivity); vm_compute; reflexivity.
Lemma utm_example : metric (-2) utm /\ raster 26 (-2) (D 500021 0) /\
  clip_window utm (D 500015 0) (D 500045 0) (D 4649922 0) (D 4649985 0) = Some (0, 3, 0, 2)%Z /\
  misplaced (piece utm 1 2) (piece utm 7 5) = false.
Proof.
  split; [| split; [| split; vm_compute; reflexivity]].
  - unfold metric, utm; cbn [x0 y0 dx dy sx sy]. split; [lia |]. split; [apply raster_check with (n := 2000000%Z) (f := (-2)%Z); vm_compute; reflexivity |].
    split; [apply raster_check with (n := 18600000%Z) (f := (-2)%Z); vm_compute; reflexivity |].
    split; [apply raster_check with (n := 120%Z) (f := (-2)%Z); vm_compute; reflexivity |].
    split; [apply raster_check with (n := (-120)%Z) (f := (-2)%Z); vm_compute; reflexivity |].
    split; [vm_compute; discriminate |]. split; [vm_compute; discriminate |]. split; split; vm_compute; reflexivity.
  - apply raster_check with (n := 2000084%Z) (f := (-2)%Z); vm_compute; reflexivity.
Qed.
Lemma up_example : let T := mkT (D 500000 0) (D 4650000 0) (D 30 0) (D 30 0) zero zero in
  metric (-2) T /\ raster 25 (-1) (dx T) /\ raster 25 (-1) (dy T) /\
  (value (x0 T) + inject_Z 6000 * value (dx T) <= Qpower 2 24)%Q /\ (value (y0 T) + inject_Z 7000 * value (dy T) <= Qpower 2 24)%Q.
Proof.
  unfold metric; cbn [x0 y0 dx dy sx sy]. split.
  - split; [lia |]. split; [apply raster_check with (n := 2000000%Z) (f := (-2)%Z); vm_compute; reflexivity |].
    split; [apply raster_check with (n := 18600000%Z) (f := (-2)%Z); vm_compute; reflexivity |].
    split; [apply raster_check with (n := 120%Z) (f := (-2)%Z); vm_compute; reflexivity |].
    split; [apply raster_check with (n := 120%Z) (f := (-2)%Z); vm_compute; reflexivity |].
    split; [vm_compute; discriminate |]. split; [vm_compute; discriminate |]. split; split; vm_compute; reflexivity.
  - split; [apply raster_check with (n := 60%Z) (f := (-1)%Z); vm_compute; reflexivity |].
    split; [apply raster_check with (n := 60%Z) (f := (-1)%Z); vm_compute; reflexivity |]. split; vm_compute; discriminate.
Qed.
Lemma plain_tenth : plain tenth.
Proof. unfold tenth. plain_check. Qed.
Lemma tenth_example : plain tenth /\ upto 300 (x0 (piece tenth 3 5)) /\ misplaced tenth (piece tenth 5 5) = false /\
  clip_window tenth (D 500000 0) (D 500001 0) (D 500000 0) (D 500001 0) = Some (0, 10, 0, 10)%Z.
Proof.
  split; [exact plain_tenth |]. split; [apply upto_check; vm_compute; reflexivity |]. split; vm_compute; reflexivity.
Qed.
Lemma own_extent : exists T, plain T /\
  (let '(a, b, c, d) := centre_extent T 2 2 in clip_window T a b c d) = Some (0, 1, 1, 1)%Z.
Proof. exists tenth. split; [exact plain_tenth |]. vm_compute. reflexivity. Qed.
Lemma pieces_refused : exists T, plain T /\ misplaced (piece T 0 0) (piece T 0 1) = true.
Proof. exists ten. split; [unfold ten; plain_check |]. vm_compute. reflexivity. Qed.
Lemma half_cell : exists T S n, plain T /\ plain S /\ misplaced T S = false /\
  value (x0 S) - value (x0 T) == (inject_Z n + (1 # 2)) * value (dx T).
Proof.
  exists (mkT half zero (D 1 0) (D 1 0) zero zero), (mkT (D 1 53) zero (D 1 0) (D 1 0) zero zero), 9007199254740991%Z.
  split; [plain_check |]. split; [plain_check |]. split; vm_compute; reflexivity.
Qed.
